(** Proofs about processing blocks, invalidation and reset of failure flags. *)
From Verif Require Import Base BaseProofs StatusModel StatusSpec BlockTreeModel BlockTreeSpec BlockTreeProofs BlockTreeMoreProofs BranchProofs
  ChainstateModel ChainstateSpec ChainstateProofs.
From Coq Require Import Sorted.
Local Open Scope N_scope.

Section ChainstateApi.
  Context {L : Type} (cf : chain_cfg L) (l0 : L).
  Notation tc := (cc_tree cf).
  Notation best s := (t_best (d_tree s)).
  Notation main s := (t_main (d_tree s)).
  Notation anc s := (ancestor tc (idx s)).
  Notation gen s := (get_gen tc (idx s)).
  Notation minh s := (t_min (d_tree s)).
  Notation core := (core cf l0).

  Definition min_ok (s : db L) : Prop := exists g, gen s (best s) = Some g /\ minh s <= gen_height g.
  Record inv (s : db L) : Prop := { inv_core : core s; inv_marked : marked s; inv_min : min_ok s }.
  Definition fits (s : db L) : Prop := forall id b, idx s !! id = Some b -> bi_height b < U64_MAX /\ bi_trust b < U256_MAX.

  Lemma main_at s h : inv s -> h <= minh s -> exists f g, main s !! h = Some f /\ gen s f = Some g /\ gen_height g = h /\ anc s f (best s).
  Proof.
    intros [H _ (g & G & Le)] Lh. pose proof (core_wf _ _ _ H) as W. destruct (up_ex _ _ (N.to_nat (gen_height g - h)) _ _ W G ltac:(lia)) as (f & U).
    destruct (up_height _ _ _ _ _ _ W G U) as (gf & Gf & Hf). exists f, gf. assert (A : anc s f (best s)) by by eexists.
    split_and!; [|done|lia|done]. apply (proj2 (co_main _ _ _ H)). exists gf. split_and!; [done|lia|done].
  Qed.
  Lemma final_refl (s : db L) : final_kept s s.
  Proof. split; [lia|done]. Qed.
  Lemma final_trans (s1 s2 s3 : db L) : final_kept s1 s2 -> final_kept s2 s3 -> final_kept s1 s3.
  Proof. intros [A1 A2] [B1 B2]. split; [lia|]. intros h Hh. rewrite B2 by lia. by apply A2. Qed.
  Lemma final_with_tree (s : db L) t : final_kept s (with_tree s t).
  Proof. split; [done|done]. Qed.
  (** A fork no lower than the limit is the same as containing the last final block *)
  Lemma fork_final s b : inv s -> idx s !! bi_id b = Some b -> fork_height_ge tc (d_tree s) b (minh s) <-> extends_final cf s (bi_id b).
  Proof.
    intros I Hb. pose proof (core_wf _ _ _ (inv_core _ I)) as W. destruct (wf_block _ _ _ _ W Hb) as (Gb & _ & _). split.
    - intros (f & g & Gf & Hg & A1 & A2). destruct (main_at _ (minh s) I ltac:(lia)) as (x & gx & Mx & Gx & Hx & Ax). exists x. split; [done|].
      destruct (co_main _ _ _ (inv_core _ I)) as [[gb Gbst] _]. eapply ancestor_trans; [|exact A1].
      eapply (ancestor_linear tc (idx s) x f (best s)); [done|exact Gbst|done|done|done|done|lia].
    - intros (f & Mf & A). apply (proj2 (co_main _ _ _ (inv_core _ I))) in Mf. destruct Mf as (g & Gf & Hg & A2).
      exists f, g. split_and!; [done|lia|done|done].
  Qed.
  Lemma final_back s s' id : inv s -> inv s' -> ext (idx s) (idx s') -> final_kept s s' -> hard cf (idx s) id -> is_Some (gen s' id) ->
    extends_final cf s' id -> extends_final cf s id.
  Proof.
    intros I I' E [F1 F2] Hd [gi Gi] (f' & Mf' & A'). destruct (main_at _ (minh s) I ltac:(lia)) as (x & gx & Mx & Gx & Hx & Ax).
    exists x. split; [done|]. rewrite <- (F2 (minh s)) in Mx by lia. pose proof (core_wf _ _ _ (inv_core _ I')) as W'.
    apply (proj2 (co_main _ _ _ (inv_core _ I'))) in Mx, Mf'. destruct Mx as (gx' & Gx' & Hx' & Ax'), Mf' as (gf' & Gf' & Hf' & Af').
    destruct (co_main _ _ _ (inv_core _ I')) as [[gb Gb] _].
    assert (A : anc s' x id). { eapply ancestor_trans; [|exact A']. eapply (ancestor_linear tc (idx s') x f' (best s')); [done|exact Gb|done|done|done|done|lia]. }
    apply (ext_ancestor _ _ _ _ _ E) in A; [done|by apply (core_wf _ _ _ (inv_core _ I))|exact (co_per _ _ _ (inv_core _ I))|done].
  Qed.
  Lemma ok_hard (s : db L) id b : marked s -> idx s !! id = Some b -> v_ok (bi_status b) = true -> hard cf (idx s) id.
  Proof. intros Mk Hb O. right. exists b. split; [done|]. destruct (bi_persisted b) eqn:P; [done|]. rewrite (Mk _ _ Hb P) in O. done. Qed.

  (** *** Changing statuses of a branch *)
  Lemma set_all_spec l : forall s : db L, NoDup (bi_id <$> l) -> exists t', foldl set_index s l = with_tree s t' /\
    (forall b, b ∈ l -> t' !! bi_id b = Some b) /\ (forall id, id ∉ bi_id <$> l -> t' !! id = idx s !! id) /\
    (built tc (idx s) -> (forall b, b ∈ l -> exists b0, idx s !! bi_id b = Some b0 /\ same_block b0 b) -> built tc t').
  Proof.
    induction l as [|b l IH]; intros s Nd.
    - exists (idx s). cbn. rewrite with_tree_id. split_and!; try done. intros b Hb. by apply elem_of_nil in Hb.
    - cbn in Nd. apply NoDup_cons in Nd. destruct Nd as [Nb Nd]. destruct (IH (set_index s b) Nd) as (t' & E & T1 & T2 & T3). exists t'.
      split_and!.
      + cbn. rewrite E. done.
      + intros x Hx. apply elem_of_cons in Hx. destruct Hx as [->|Hx]; [|by apply T1]. rewrite T2 by done. cbn. apply lookup_insert.
      + intros id Hid. rewrite fmap_cons in Hid. apply not_elem_of_cons in Hid. destruct Hid as [N1 N2]. rewrite T2 by done. cbn. by rewrite lookup_insert_ne.
      + intros B Al. apply T3.
        * destruct (Al b ltac:(left)) as (b0 & H0 & S0). eapply built_mark; done.
        * intros x Hx. destruct (Al x ltac:(by right)) as (x0 & H0 & S0). exists x0. split; [|done]. cbn. rewrite lookup_insert_ne; [done|].
          intro X. apply Nb. rewrite X. by apply elem_of_list_fmap_1.
  Qed.
  Definition is_branch (s : db L) (root : N) (l : list bindex) : Prop :=
    NoDup (bi_id <$> l) /\ (forall b, b ∈ l <-> idx s !! bi_id b = Some b /\ anc s root (bi_id b)).
  Lemma collect_branch_cases s root : core s ->
    (exists rb l, idx s !! root = Some rb /\ collect_branch tc (idx s) root = Ok (rb :: l) /\ is_branch s root (rb :: l)) \/
    (idx s !! root = None /\ collect_branch tc (idx s) root = Err BlockIndexNotFound) \/
    (is_Some (idx s !! root) /\ ~ fits s /\ collect_branch tc (idx s) root = Panic).
  Proof.
    intro H. destruct (idx s !! root) as [rb|] eqn:Hr.
    - destruct (N.lt_ge_cases (bi_height rb) U64_MAX) as [Lt|Ge].
      + left. destruct (collect_branch_spec _ _ _ _ (core_wf _ _ _ H) Hr Lt) as (l & E & Nd & Sp). exists rb, l. done.
      + right; right. split_and!; [by eexists| |].
        * intro F. destruct (F _ _ Hr). lia.
        * unfold collect_branch, get_existing. change (t_idx (d_tree s)) with (idx s) in *. rewrite Hr. cbn. unfold next_height, checked_add.
          destruct (N.leb_spec (bi_height rb + 1) U64_MAX); [lia|done].
    - right; left. split; [done|]. unfold collect_branch, get_existing. by rewrite Hr.
  Qed.
  Lemma branch_in s root rb l id b : core s -> idx s !! root = Some rb -> is_branch s root l -> idx s !! id = Some b ->
    anc s root id -> exists x, x ∈ l /\ bi_id x = id /\ x = b.
  Proof. intros H Hr [_ Sp] Hb A. destruct (wf_block _ _ _ _ (core_wf _ _ _ H) Hb) as (_ & Ib & _). exists b. split_and!; try done. apply Sp. by rewrite Ib. Qed.
  Lemma branch_ids s root rb l id : core s -> idx s !! root = Some rb -> is_branch s root l ->
    id ∈ bi_id <$> l <-> is_Some (idx s !! id) /\ anc s root id.
  Proof.
    intros H Hr B. split.
    - intro I. apply elem_of_list_fmap in I. destruct I as (x & -> & Hx). apply (proj2 B) in Hx. destruct Hx. split; [by eexists|done].
    - intros [[b Hb] A]. destruct (branch_in _ _ _ _ _ _ H Hr B Hb A) as (x & Hx & <- & _). by apply elem_of_list_fmap_1.
  Qed.

  (** What marking a branch does *)
  Definition marks (s : db L) (root : N) (t' : index_map) : Prop :=
    built tc t' /\ forall id, match idx s !! id, t' !! id with
      | Some b, Some b' => same_block b b' /\ bi_persisted b' = bi_persisted b /\ v_stage (bi_status b') = v_stage (bi_status b) /\
                           (anc s root id -> v_ok (bi_status b') = false) /\ (~ anc s root id -> b' = b)
      | None, None => True
      | _, _ => False
      end.
  Lemma foldl_fmap {A B C} (f : A -> B -> A) (g : C -> B) l : forall a, foldl f a (g <$> l) = foldl (fun a c => f a (g c)) a l.
  Proof. induction l as [|c l IH]; intro a; [done|]. cbn. apply IH. Qed.
  Lemma mark_all_spec s root rb l explicit : core s -> idx s !! root = Some rb -> is_branch s root (rb :: l) ->
    exists t', mark_all explicit (rb :: l) s = with_tree s t' /\ marks s root t'.
  Proof.
    intros H Hr B. set (f := fun b => with_status b (v_set_invalid_parent (bi_status b))).
    set (r' := with_status rb (if explicit then v_set_explicit (bi_status rb) else v_set_failed (bi_status rb))).
    assert (E : mark_all explicit (rb :: l) s = foldl set_index s (r' :: (f <$> l))) by (cbn; by rewrite foldl_fmap).
    assert (Ids : bi_id <$> r' :: (f <$> l) = bi_id <$> rb :: l). { cbn. f_equal. rewrite <- list_fmap_compose. by apply list_fmap_ext. }
    destruct (set_all_spec (r' :: (f <$> l)) s) as (t' & E' & T1 & T2 & T3); [rewrite Ids; apply B|].
    exists t'. split; [congruence|].
    assert (New : forall x, x ∈ rb :: l -> exists x', t' !! bi_id x = Some x' /\ same_block x x' /\ bi_persisted x' = bi_persisted x /\
      v_stage (bi_status x') = v_stage (bi_status x) /\ v_ok (bi_status x') = false).
    { intros x Hx. apply elem_of_cons in Hx. destruct Hx as [->|Hx].
      - exists r'. split_and!; try done; [apply (T1 r'); left|destruct explicit; done|]. unfold r', v_ok. destruct explicit; cbn; [by rewrite !andb_false_r|done].
      - exists (f x). split_and!; try done; [apply (T1 (f x)); right; by apply elem_of_list_fmap_1|]. unfold f, v_ok. cbn. by rewrite andb_false_r. }
    split.
    - apply T3; [apply H|]. intros b Hb. apply elem_of_cons in Hb. destruct Hb as [->|Hb].
      + exists rb. split; [|done]. exact (proj1 (proj1 (proj2 B rb) ltac:(left))).
      + apply elem_of_list_fmap in Hb. destruct Hb as (x & -> & Hx). exists x. split; [|done]. exact (proj1 (proj1 (proj2 B x) ltac:(by right))).
    - intro id. destruct (decide (id ∈ bi_id <$> rb :: l)) as [I|I].
      + apply elem_of_list_fmap in I. destruct I as (x & -> & Hx). destruct (New x Hx) as (x' & X1 & X2 & X3 & X4 & X5).
        apply (proj2 B) in Hx. destruct Hx as [Ix Ax]. rewrite Ix, X1. split_and!; try done.
      + rewrite T2 by (by rewrite Ids). rewrite (branch_ids _ _ _ _ _ H Hr B) in I. destruct (idx s !! id) as [b|] eqn:Hb; [|done].
        split_and!; try done. intro A. destruct I. split; [by eexists|done].
  Qed.
  Lemma marks_same s root t' : marks s root t' -> same_tree (idx s) t'.
  Proof. intros [_ M] id. specialize (M id). destruct (idx s !! id), (t' !! id); try done. apply M. Qed.
  Lemma marks_bwd s root t' id b' : marks s root t' -> t' !! id = Some b' -> exists b, idx s !! id = Some b /\ same_block b b' /\ bi_persisted b' = bi_persisted b /\
    v_stage (bi_status b') = v_stage (bi_status b) /\ (anc s root id -> v_ok (bi_status b') = false) /\ (~ anc s root id -> b' = b).
  Proof. intros [_ M] Hb. specialize (M id). rewrite Hb in M. destruct (idx s !! id) as [b|]; [|done]. exists b. done. Qed.
  Lemma anc_dec s a id : core s -> is_Some (gen s id) -> anc s a id \/ ~ anc s a id.
  Proof.
    intros H [g G]. pose proof (core_wf _ _ _ H) as W. destruct (gen s a) as [ga|] eqn:Ga.
    - destruct (N.le_gt_cases (gen_height ga) (gen_height g)) as [Le|Gt].
      + destruct (up_ex _ _ (N.to_nat (gen_height g - gen_height ga)) _ _ W G ltac:(lia)) as (x & U). destruct (decide (x = a)) as [->|N]; [left; by eexists|].
        right. intros [n U']. destruct (up_height _ _ _ _ _ _ W G U') as (ga' & Ga' & Hn). rewrite Ga in Ga'. injection Ga' as <-.
        assert (n = N.to_nat (gen_height g - gen_height ga)) as -> by lia. congruence.
      + right. intro A. destruct (ancestor_known _ _ _ _ _ W G A) as (ga' & Ga' & Hn). rewrite Ga in Ga'. injection Ga' as <-. lia.
    - right. intro A. destruct (ancestor_known _ _ _ _ _ W G A) as (ga' & Ga' & Hn). congruence.
  Qed.
  Lemma core_marks s root t' : core s -> ~ anc s root (best s) -> marks s root t' -> core (with_tree s t').
  Proof.
    intros H Nr M. pose proof (core_wf _ _ _ H) as W. apply core_with_tree; [done|apply M|..].
    - intros id b Hb P. pose proof (proj2 M id) as X. rewrite Hb in X. destruct (t' !! id) as [b'|]; [|done]. exists b'. destruct X as (X1 & X2 & _). split_and!; congruence.
    - intros id b' Hb P. destruct (marks_bwd _ _ _ _ _ M Hb) as (b & B1 & B2 & B3 & B4 & _). exists b. rewrite B4. split_and!; [done..|congruence|lia].
    - intros id b' p' Hb O Hp. destruct (marks_bwd _ _ _ _ _ M Hb) as (b & B1 & B2 & B3 & B4 & B5 & B6).
      destruct (marks_bwd _ _ _ _ _ M Hp) as (p & P1 & P2 & P3 & P4 & P5 & P6). destruct (wf_block _ _ _ _ W B1) as (Gb & _ & Nb).
      assert (Na : ~ anc s root id) by (intro A; rewrite (B5 A) in O; done). specialize (B6 Na). subst b'.
      assert (Np : ~ anc s root (bi_prev b)). { intro A. apply Na. apply (ancestor_cases _ _ _ _ _ B1 Nb). by right. }
      specialize (P6 Np). subst p'. exact (co_okp _ _ _ H _ _ _ B1 O P1).
    - intros id b' p' Hb Hp. destruct (marks_bwd _ _ _ _ _ M Hb) as (b & B1 & B2 & B3 & B4 & B5 & B6).
      destruct (marks_bwd _ _ _ _ _ M Hp) as (p & P1 & P2 & P3 & P4 & P5 & P6). rewrite B4, P4. eapply (co_stage _ _ _ H); [exact B1|].
      destruct B2 as (_ & B2 & _). congruence.
    - intros id b' Hb A. destruct (marks_bwd _ _ _ _ _ M Hb) as (b & B1 & B2 & B3 & B4 & B5 & B6).
      assert (Na : ~ anc s root id) by (intro X; apply Nr; eapply ancestor_trans; done). specialize (B6 Na). subst b'.
      destruct (co_mainok _ _ _ H _ _ B1 A) as (_ & ? & ?). done.
  Qed.
  Lemma min_ok_tree s t' : core s -> wf tc t' -> ext (idx s) t' -> min_ok s -> min_ok (with_tree s t').
  Proof.
    intros H W' E (g & G & Le). destruct (ext_gen _ _ _ _ _ E (core_wf _ _ _ H) (best_hard _ _ _ H) G) as (g' & G' & Hg & _).
    exists g'. split; [done|]. cbn. lia.
  Qed.
  Lemma marks_ext s root t' : marks s root t' -> ext (idx s) t'.
  Proof.
    intros M id b Hb P. pose proof (proj2 M id) as X. rewrite Hb in X. destruct (t' !! id) as [b'|]; [|done]. exists b'. destruct X as (X1 & X2 & _). split_and!; congruence.
  Qed.
  Lemma marked_marks s root t' : marked s -> core s -> marks s root t' -> marked (with_tree s t').
  Proof.
    intros Mk H M id b' Hb P. cbn in Hb. destruct (marks_bwd _ _ _ _ _ M Hb) as (b & B1 & B2 & B3 & B4 & B5 & B6).
    destruct (wf_block _ _ _ _ (core_wf _ _ _ H) B1) as (Gb & _ & _).
    destruct (anc_dec _ root id H) as [A|A]; [by eexists|auto|]. rewrite (B6 A). apply (Mk _ _ B1). congruence.
  Qed.

  (** What clearing the failure marks of a branch does *)
  Definition clears (s : db L) (root : N) (t' : index_map) : Prop :=
    built tc t' /\ forall id, match idx s !! id with
      | Some b => (anc s root id -> t' !! id = if bi_persisted b then Some (with_status b (v_clear (bi_status b))) else None) /\
                  (~ anc s root id -> t' !! id = Some b)
      | None => t' !! id = None
      end.
  Lemma clear_lookup l : forall s : db L, NoDup (bi_id <$> l) -> exists t', foldl clear_one s l = with_tree s t' /\
    (forall b, b ∈ l -> t' !! bi_id b = if bi_persisted b then Some (with_status b (v_clear (bi_status b))) else None) /\
    (forall id, id ∉ bi_id <$> l -> t' !! id = idx s !! id).
  Proof.
    induction l as [|b l IH]; intros s Nd.
    - exists (idx s). cbn. rewrite with_tree_id. split_and!; try done. intros b Hb. by apply elem_of_nil in Hb.
    - cbn in Nd. apply NoDup_cons in Nd. destruct Nd as [Nb Nd]. destruct (IH (clear_one s b) Nd) as (t' & E & T1 & T2). exists t'.
      split_and!.
      + cbn. rewrite E. unfold clear_one. destruct (bi_persisted b); done.
      + intros x Hx. apply elem_of_cons in Hx. destruct Hx as [->|Hx]; [|by apply T1]. rewrite T2 by done. unfold clear_one.
        destruct (bi_persisted b); cbn; [apply lookup_insert|apply lookup_delete].
      + intros id Hid. rewrite fmap_cons in Hid. apply not_elem_of_cons in Hid. destruct Hid as [N1 N2]. rewrite T2 by done. unfold clear_one.
        destruct (bi_persisted b); cbn; [by rewrite lookup_insert_ne|by rewrite lookup_delete_ne].
  Qed.
  Lemma clear_all_spec s root rb l : core s -> idx s !! root = Some rb -> is_branch s root (rb :: l) ->
    exists t', foldl clear_one s (rb :: l) = with_tree s t' /\ clears s root t'.
  Proof.
    intros H Hr B. destruct (clear_lookup (rb :: l) s (proj1 B)) as (t' & E & T1 & T2). exists t'. split; [done|].
    assert (Lk : forall id, match idx s !! id with
      | Some b => (anc s root id -> t' !! id = if bi_persisted b then Some (with_status b (v_clear (bi_status b))) else None) /\ (~ anc s root id -> t' !! id = Some b)
      | None => t' !! id = None end).
    { intro id. destruct (decide (id ∈ bi_id <$> rb :: l)) as [I|I].
      - apply elem_of_list_fmap in I. destruct I as (x & -> & Hx). pose proof (T1 _ Hx) as T. apply (proj2 B) in Hx. destruct Hx as [Ix Ax]. rewrite Ix. done.
      - rewrite T2 by done. rewrite (branch_ids _ _ _ _ _ H Hr B) in I. destruct (idx s !! id) as [b|] eqn:Hb; [|done]. split; [|done].
        intro A. destruct I. split; [by eexists|done]. }
    split; [|exact Lk].
    (* first clear all marks, then drop the blocks without data *)
    set (f := fun b => with_status b (v_clear (bi_status b))).
    destruct (set_all_spec (f <$> rb :: l) s) as (t1 & E1 & U1 & U2 & U3); [rewrite <- list_fmap_compose; apply B|].
    assert (B1 : built tc t1).
    { apply U3; [apply H|]. intros b Hb. apply elem_of_list_fmap in Hb. destruct Hb as (x & -> & Hx). exists x. split; [|done]. apply (proj2 B) in Hx. apply Hx. }
    set (S := list_to_set (bi_id <$> filter (fun b => bi_persisted b = false) (rb :: l)) : gset N).
    assert (HS : forall id, id ∈ S <-> exists b, idx s !! id = Some b /\ anc s root id /\ bi_persisted b = false).
    { intro id. unfold S. rewrite elem_of_list_to_set. split.
      - intro I. apply elem_of_list_fmap in I. destruct I as (x & -> & Hx). apply elem_of_list_filter in Hx. destruct Hx as [Px Hx].
        apply (proj2 B) in Hx. exists x. tauto.
      - intros (b & Hb & A & P). destruct (branch_in _ _ _ _ _ _ H Hr B Hb A) as (x & Hx & <- & ->). apply elem_of_list_fmap_1. by apply elem_of_list_filter. }
    assert (L1 : forall id, t1 !! id = match idx s !! id with Some b => if decide (id ∈ bi_id <$> rb :: l) then Some (f b) else Some b | None => None end).
    { intro id. destruct (decide (id ∈ bi_id <$> rb :: l)) as [I|I].
      - apply elem_of_list_fmap in I. destruct I as (x & -> & Hx). pose proof (U1 (f x) ltac:(by apply elem_of_list_fmap_1)) as T. cbn in T. rewrite T.
        apply (proj2 B) in Hx. destruct Hx as [Ix _]. by rewrite Ix.
      - rewrite U2 by (by rewrite <- list_fmap_compose). by destruct (idx s !! id). }
    assert (Et : t' = filter (fun p : N * bindex => fst p ∉ S) t1).
    { apply map_eq. intro id. rewrite lookup_drop. specialize (Lk id). rewrite L1. destruct (decide (id ∈ S)) as [I|I].
      - apply HS in I. destruct I as (b & Hb & A & P). rewrite Hb in Lk. destruct Lk as [Lk _]. rewrite (Lk A), P. done.
      - destruct (idx s !! id) as [b|] eqn:Hb; [|done]. destruct (wf_block _ _ _ _ (core_wf _ _ _ H) Hb) as (Gb & _ & _).
        destruct (decide (id ∈ bi_id <$> rb :: l)) as [J|J].
        + apply (branch_ids _ _ _ _ _ H Hr B) in J. destruct J as [_ A]. rewrite (proj1 Lk A). destruct (bi_persisted b) eqn:P; [done|]. destruct I. apply HS. eauto.
        + apply Lk. intro A. apply J. apply (branch_ids _ _ _ _ _ H Hr B). split; [by eexists|done]. }
    rewrite Et. apply built_drop; [done|]. intros id b Hb I. apply HS in I. destruct I as (p & Hp & A & P).
    rewrite L1 in Hb. destruct (idx s !! id) as [b0|] eqn:H0; [|done]. destruct (wf_block _ _ _ _ (core_wf _ _ _ H) H0) as (G0 & _ & N0).
    assert (Eb : bi_prev b = bi_prev b0). { destruct (decide _) in Hb; injection Hb as <-; done. }
    rewrite Eb in *. apply HS. exists b0. split_and!; [done| |].
    - apply (ancestor_cases _ _ _ _ _ H0 N0). by right.
    - destruct (bi_persisted b0) eqn:P0; [|done]. rewrite (co_per _ _ _ H _ _ _ H0 P0 Hp) in P. done.
  Qed.
  Lemma clears_bwd s root t' id b' : core s -> clears s root t' -> t' !! id = Some b' -> exists b, idx s !! id = Some b /\ same_block b b' /\ bi_persisted b' = bi_persisted b /\
    v_stage (bi_status b') = v_stage (bi_status b) /\ ((anc s root id /\ bi_persisted b = true /\ v_ok (bi_status b') = true) \/ (~ anc s root id /\ b' = b)).
  Proof.
    intros H [_ C] Hb. specialize (C id). destruct (idx s !! id) as [b|] eqn:H0; [|congruence]. exists b. destruct (wf_block _ _ _ _ (core_wf _ _ _ H) H0) as (G0 & _ & _).
    destruct (anc_dec _ root id H) as [A|A]; [by eexists| |].
    - rewrite (proj1 C A) in Hb. destruct (bi_persisted b) eqn:P; [|done]. injection Hb as <-. split_and!; try done. left. done.
    - rewrite (proj2 C A) in Hb. injection Hb as <-. split_and!; try done. by right.
  Qed.
  Lemma clears_ext s root t' : core s -> clears s root t' -> ext (idx s) t'.
  Proof.
    intros H [_ C] id b Hb P. specialize (C id). rewrite Hb in C. destruct (wf_block _ _ _ _ (core_wf _ _ _ H) Hb) as (G0 & _ & _).
    destruct (anc_dec _ root id H) as [A|A]; [by eexists| |].
    - rewrite (proj1 C A), P. eexists. split_and!; done.
    - rewrite (proj2 C A). eexists. split_and!; done.
  Qed.
  Lemma core_clears s root rb t' : core s -> idx s !! root = Some rb -> (forall p, idx s !! bi_prev rb = Some p -> v_ok (bi_status p) = true) ->
    clears s root t' -> core (with_tree s t').
  Proof.
    intros H Hr Pr M. pose proof (core_wf _ _ _ H) as W. apply core_with_tree; [done|apply M|..].
    - by eapply clears_ext.
    - intros id b' Hb P. destruct (clears_bwd _ _ _ _ _ H M Hb) as (b & B1 & B2 & B3 & B4 & _). exists b. rewrite B4. split_and!; [done..|congruence|lia].
    - intros id b' p' Hb O Hp. destruct (clears_bwd _ _ _ _ _ H M Hb) as (b & B1 & B2 & B3 & B4 & B5).
      assert (E : bi_prev b' = bi_prev b) by apply B2. rewrite E in Hp.
      destruct (clears_bwd _ _ _ _ _ H M Hp) as (p & P1 & P2 & P3 & P4 & P5). destruct (wf_block _ _ _ _ W B1) as (Gb & _ & Nb).
      destruct P5 as [(_ & _ & ->)|(Na & ->)]; [done|]. destruct B5 as [(A & P & _)|(A & ->)].
      + apply (ancestor_cases _ _ _ _ _ B1 Nb) in A. destruct A as [<-|A]; [|done]. rewrite Hr in B1. injection B1 as <-. by apply Pr.
      + exact (co_okp _ _ _ H _ _ _ B1 O P1).
    - intros id b' p' Hb Hp. destruct (clears_bwd _ _ _ _ _ H M Hb) as (b & B1 & B2 & B3 & B4 & _).
      destruct (clears_bwd _ _ _ _ _ H M Hp) as (p & P1 & P2 & P3 & P4 & _). rewrite B4, P4. eapply (co_stage _ _ _ H); [exact B1|].
      destruct B2 as (_ & B2 & _). congruence.
    - intros id b' Hb A. destruct (clears_bwd _ _ _ _ _ H M Hb) as (b & B1 & B2 & B3 & B4 & B5).
      destruct (co_mainok _ _ _ H _ _ B1 A) as (_ & F & O). rewrite B4. split; [done|]. destruct B5 as [(_ & _ & ->)|(_ & ->)]; done.
  Qed.
  Lemma marked_clears s root t' : core s -> marked s -> clears s root t' -> marked (with_tree s t').
  Proof.
    intros H Mk M id b' Hb P. cbn in Hb. destruct (clears_bwd _ _ _ _ _ H M Hb) as (b & B1 & B2 & B3 & B4 & B5).
    destruct B5 as [(_ & Pb & _)|(_ & ->)]; [congruence|]. exact (Mk _ _ B1 P).
  Qed.
End ChainstateApi.
