(** Proofs about whole histories of chainstate calls. *)
From Verif Require Import Base BaseProofs StatusModel StatusSpec BlockTreeModel BlockTreeSpec BlockTreeProofs BlockTreeMoreProofs BranchProofs
  ChainstateModel ChainstateSpec ChainstateProofs ChainstateApiProofs ChainstateRunProofs ChainstateCallProofs.
Local Open Scope N_scope.

Section ChainstateReach.
  Context {L : Type} (cf : chain_cfg L) (l0 : L).
  Notation tc := (cc_tree cf).
  Notation best s := (t_best (d_tree s)).
  Notation main s := (t_main (d_tree s)).
  Notation core := (core cf l0).
  Notation inv := (inv cf l0).

  Lemma window_unchecked s c s' : window cf l0 s c s' -> ~ index_checks cf s'.
  Proof.
    intros (blk & b & -> & C & _ & _ & Hn & Ei & P & O) K. assert (Hb : idx s' !! nb_id blk = Some b) by (rewrite Ei; apply lookup_insert).
    destruct (d_blocks s' !! nb_id blk) as [y|] eqn:D.
    - destruct (ck_data _ _ K _ _ _ Hb D) as [X _]. congruence.
    - destruct (ck_no_data _ _ K _ _ Hb D) as [_ X]. congruence.
  Qed.
  Lemma survived_inv s : survived cf any_call l0 s -> inv s.
  Proof.
    induction 1 as [|s c S IH P A N|s c s' S IH P A Hin K].
    - apply initial_inv.
    - destruct (call_spec cf l0 s c IH P A) as (_ & X & _). by apply X.
    - destruct (call_spec cf l0 s c IH P A) as (Fa & _ & _). rewrite Forall_forall in Fa. destruct (Fa _ Hin) as [G|W]; [apply G|]. destruct (window_unchecked _ _ _ W K).
  Qed.
  Lemma reached_survived (allowed : db L -> api -> Prop) s0 s : (forall s c, allowed s c -> any_call s c) -> reached_from cf allowed s0 s -> survived_from cf any_call s0 s.
  Proof. intros Al. induction 1; [constructor|]. apply survived_call; auto. Qed.
  Lemma only_blocks_any s c : only_blocks (L := L) s c -> any_call s c.
  Proof. by destruct c. Qed.
  Lemma reached_inv s : reached cf any_call l0 s -> inv s.
  Proof. intro R. apply survived_inv. eapply reached_survived; [|exact R]. done. Qed.

  Lemma commit_core s c s' : inv s -> proper cf c -> any_call s c -> s' ∈ commits cf c s -> core s' /\ final_kept s s'.
  Proof.
    intros I P A Hin. destruct (call_spec cf l0 s c I P A) as (Fa & _ & _). rewrite Forall_forall in Fa. destruct (Fa _ Hin) as [[G F]|W].
    - split; [apply G|done].
    - destruct W as (blk & b & _ & C & _ & F & _). done.
  Qed.
  Lemma commit_inv s c s' : inv s -> proper cf c -> any_call s c -> s' ∈ commits cf c s -> (forall blk, c <> ProcessBlock blk) -> inv s'.
  Proof.
    intros I P A Hin Nc. destruct (call_spec cf l0 s c I P A) as (Fa & _ & _). rewrite Forall_forall in Fa. destruct (Fa _ Hin) as [[G F]|W]; [done|].
    destruct W as (blk & b & -> & _). by destruct (Nc blk).
  Qed.
  Lemma window_at_most s blk s' : inv s -> nb_id blk <> genesis_id tc -> s' ∈ commits cf (ProcessBlock blk) s -> ~ inv s' ->
    exists b, idx s' !! nb_id blk = Some b /\ bi_persisted b = false /\ v_ok (bi_status b) = true.
  Proof.
    intros I P Hin N. assert (A : any_call s (ProcessBlock blk)) by done. destruct (call_spec cf l0 s (ProcessBlock blk) I P A) as (Fa & _ & _).
    rewrite Forall_forall in Fa. destruct (Fa _ Hin) as [[G F]|W]; [done|].
    destruct W as (blk' & b & E & _ & _ & _ & _ & Ei & Pb & O). injection E as <-. exists b. rewrite Ei. split; [apply lookup_insert|done].
  Qed.
  Lemma survived_final s0 s : survived cf any_call l0 s0 -> survived_from cf any_call s0 s -> final_kept s0 s.
  Proof.
    intros S0 S. assert (S' : forall x, survived_from cf any_call s0 x -> survived cf any_call l0 x).
    { induction 1 as [|x c Sx IH P A N|x c x' Sx IH P A Hin K]; [done|by apply survived_call|by eapply survived_crash]. }
    induction S as [|x c Sx IH P A N|x c x' Sx IH P A Hin K].
    - apply final_refl.
    - eapply final_trans; [exact IH|]. destruct (call_spec cf l0 x c (survived_inv _ (S' _ Sx)) P A) as (_ & X & _). apply X. done.
    - eapply final_trans; [exact IH|]. eapply commit_core; [|done..]. by apply survived_inv, S'.
  Qed.
  Lemma reached_best s : only_bad cf -> disconnect_undoes cf -> reached cf any_call l0 s -> tip_is_best cf s.
  Proof.
    intros Ob Du R. induction R as [|s c R IH P A N]; [by apply initial_best|].
    destruct (call_spec cf l0 s c (reached_inv _ R) P A) as (_ & X & _). apply X; done.
  Qed.
  Lemma blocks_any s0 s : reached_from cf only_blocks s0 s -> reached_from cf any_call s0 s.
  Proof. induction 1; [constructor|]. apply reached_call; try done. by apply only_blocks_any. Qed.
  Lemma blocks_best s : reached cf only_blocks l0 s -> tip_is_best cf s /\ limit_check cf s.
  Proof.
    intro R. induction R as [|s c R [IH1 IH2] P A N]; [split; [apply initial_best|apply initial_limit]|].
    destruct c as [blk| |]; [|done..]. destruct (process_spec cf l0 s blk (reached_inv _ (blocks_any _ _ R)) P) as (_ & X & _). destruct (X N) as (X1 & X2 & _). auto.
  Qed.

  (** *** The ledger depends on the tip alone *)
  Definition tip_id (g : N) (l : list new_block) : N := match last l with Some x => nb_id x | None => g end.
  Definition linked (g : N) (l : list new_block) : Prop := forall l1 x l2, l = l1 ++ x :: l2 -> nb_prev x = tip_id g l1 /\ nb_id x <> g.
  Lemma linked_prefix g l1 l2 : linked g (l1 ++ l2) -> linked g l1.
  Proof. intros H a x b ->. apply (H a x (b ++ l2)). by rewrite <- app_assoc. Qed.
  Lemma linked_unique g l1 : forall l2, linked g l1 -> linked g l2 -> tip_id g l1 = tip_id g l2 ->
    (forall x y, x ∈ l1 -> y ∈ l2 -> nb_id x = nb_id y -> x = y) -> l1 = l2.
  Proof.
    induction l1 as [|x l1 IH] using rev_ind; intros l2 L1 L2 T Inj.
    - destruct l2 as [|y l2 _] using rev_ind; [done|]. unfold tip_id in T. rewrite last_snoc in T. cbn in T. destruct (L2 l2 y [] eq_refl) as [_ N]. congruence.
    - destruct l2 as [|y l2 _] using rev_ind.
      + unfold tip_id in T. rewrite last_snoc in T. cbn in T. destruct (L1 l1 x [] eq_refl) as [_ N]. congruence.
      + assert (x = y) as <-. { apply Inj; [set_solver|set_solver|]. unfold tip_id in T. by rewrite !last_snoc in T. }
        f_equal. apply IH; [by eapply linked_prefix|by eapply linked_prefix| |].
        * destruct (L1 l1 x [] eq_refl) as [<- _]. destruct (L2 l2 x [] eq_refl) as [<- _]. done.
        * intros a b Ha Hb. apply Inj; set_solver.
  Qed.
  Lemma main_linked s blks : core s -> main_blocks cf s blks -> linked (genesis_id tc) blks /\ tip_id (genesis_id tc) blks = best s.
  Proof.
    intros C [(g & G & Hg) Mb]. pose proof (core_height_checks cf l0 s C) as K. pose proof (core_wf _ _ _ C) as W.
    assert (At : forall l1 x l2, blks = l1 ++ x :: l2 -> main s !! (N.of_nat (length l1) + 1) = Some (nb_id x) /\ d_blocks s !! nb_id x = Some x).
    { intros l1 x l2 ->. destruct (Mb (length l1) x) as (id & Hm & Hd); [apply list_lookup_middle; done|]. destruct (co_index _ _ _ C _ _ Hd) as (b & _ & _ & <- & _). done. }
    assert (Tip : forall l1, (exists l2, blks = l1 ++ l2) -> main s !! N.of_nat (length l1) = Some (tip_id (genesis_id tc) l1)).
    { intros l1 [l2 E]. unfold tip_id. destruct l1 as [|x l1 _] using rev_ind; [apply K|]. rewrite last_snoc, app_length. cbn [length].
      destruct (At l1 x l2) as [X _]; [by rewrite <- app_assoc in E|]. replace (N.of_nat (length l1 + 1)) with (N.of_nat (length l1) + 1) by lia. done. }
    split.
    - intros l1 x l2 E. destruct (At _ _ _ E) as [Hm Hd]. destruct (ck_linked _ _ K _ _ Hm) as (b & Ng & Hb & Hp & _); [lia|]. split; [|done].
      destruct (co_index _ _ _ C _ _ Hd) as (b' & Hb' & _ & _ & -> & _). rewrite Hb in Hb'. injection Hb' as <-.
      replace (N.of_nat (length l1) + 1 - 1) with (N.of_nat (length l1)) in Hp by lia. rewrite (Tip l1) in Hp by (by eexists). by injection Hp.
    - specialize (Tip blks (ex_intro _ [] (eq_sym (app_nil_r _)))). rewrite <- Hg in Tip. destruct (co_main _ _ _ C) as [_ M].
      assert (Hb : main s !! gen_height g = Some (best s)). { apply M. exists g. split_and!; [done|done|apply ancestor_refl]. }
      rewrite Hb in Tip. by injection Tip.
  Qed.
  Lemma same_tip_ledger s1 s2 : disconnect_undoes cf -> core s1 -> core s2 -> best s1 = best s2 ->
    (forall id b1 b2, d_blocks s1 !! id = Some b1 -> d_blocks s2 !! id = Some b2 -> b1 = b2) -> d_ledger s1 = d_ledger s2.
  Proof.
    intros Du C1 C2 E Ag. destruct (co_replay _ _ _ C1 Du) as (blks1 & M1 & R1). destruct (co_replay _ _ _ C2 Du) as (blks2 & M2 & R2).
    destruct (main_linked _ _ C1 M1) as [L1 T1]. destruct (main_linked _ _ C2 M2) as [L2 T2].
    assert (blks1 = blks2) as ->.
    { eapply linked_unique; [done|done|congruence|]. intros x y Hx Hy Exy. apply elem_of_list_lookup in Hx. destruct Hx as [i Hi]. apply elem_of_list_lookup in Hy. destruct Hy as [j Hj].
      destruct (proj2 M1 _ _ Hi) as (ix & _ & Dx). destruct (proj2 M2 _ _ Hj) as (iy & _ & Dy).
      destruct (co_index _ _ _ C1 _ _ Dx) as (_ & _ & _ & Ix & _). destruct (co_index _ _ _ C2 _ _ Dy) as (_ & _ & _ & Iy & _). subst ix iy. rewrite <- Exy in Dy. by eapply Ag. }
    rewrite R1 in R2. by injection R2.
  Qed.
End ChainstateReach.
