(** Proofs about connecting, disconnecting and reorganising. *)
From Verif Require Import Base BaseProofs StatusModel StatusSpec BlockTreeModel BlockTreeSpec BlockTreeProofs BlockTreeMoreProofs BranchProofs
  ChainstateModel ChainstateSpec.
Local Open Scope N_scope.

Section ChainstateProofs.
  Context {L : Type} (cf : chain_cfg L) (l0 : L).
  Notation tc := (cc_tree cf).
  Notation best s := (t_best (d_tree s)).
  Notation main s := (t_main (d_tree s)).
  Notation anc s := (ancestor tc (idx s)).
  Notation gen s := (get_gen tc (idx s)).

  (** Blocks whose data is stored, and genesis *)
  Definition hard (t : index_map) (id : N) : Prop := id = genesis_id tc \/ exists b, t !! id = Some b /\ bi_persisted b = true.
  (** Stored blocks stay as they are, up to their status *)
  Definition ext (t t' : index_map) : Prop :=
    forall id b, t !! id = Some b -> bi_persisted b = true -> exists b', t' !! id = Some b' /\ same_block b b' /\ bi_persisted b' = true.

  Record core (s : db L) : Prop := {
    co_built : built tc (idx s);
    co_main : main_chain_listed tc (d_tree s);
    co_data : forall id b, idx s !! id = Some b -> bi_persisted b = true -> exists blk, d_blocks s !! id = Some blk;
    co_index : forall id blk, d_blocks s !! id = Some blk ->
      exists b, idx s !! id = Some b /\ bi_persisted b = true /\ nb_id blk = id /\ nb_prev blk = bi_prev b /\ nb_time blk = bi_time b;
    co_per : forall id b p, idx s !! id = Some b -> bi_persisted b = true -> idx s !! bi_prev b = Some p -> bi_persisted p = true;
    co_checked : forall id b, idx s !! id = Some b -> bi_persisted b = true -> v_stage (bi_status b) <> Unchecked;
    co_okp : forall id b p, idx s !! id = Some b -> v_ok (bi_status b) = true -> idx s !! bi_prev b = Some p -> v_ok (bi_status p) = true;
    co_stage : forall id b p, idx s !! id = Some b -> idx s !! bi_prev b = Some p -> stage_code (v_stage (bi_status b)) <= stage_code (v_stage (bi_status p));
    co_mainok : forall id b, idx s !! id = Some b -> anc s id (best s) ->
      bi_persisted b = true /\ v_stage (bi_status b) = FullyChecked /\ v_ok (bi_status b) = true;
    co_cp : cc_mismatch_allowed cf = false -> cc_checkpoints cf !! 0 = Some (genesis_id tc) ->
      forall id b, idx s !! id = Some b -> bi_persisted b = true -> checkpoints_met cf (idx s) b;
    co_time : forall id b, idx s !! id = Some b -> bi_persisted b = true -> exists m, median_time_past tc (idx s) (bi_prev b) = Ok m /\ m <= bi_time b;
    co_replay : disconnect_undoes cf -> replayed cf l0 s }.

  Lemma core_wf s : core s -> wf tc (idx s).
  Proof. intro H. exact (built_wf _ _ (co_built _ H)). Qed.
  Lemma wf_block t id b : wf tc t -> t !! id = Some b -> get_gen tc t id = Some (Block b) /\ bi_id b = id /\ id <> genesis_id tc.
  Proof. intros W H. destruct (W _ _ H) as (I & G & _). split_and!; [apply get_gen_block; done | done | done]. Qed.
  Lemma wf_prev t id b : wf tc t -> t !! id = Some b -> exists p, get_gen tc t (bi_prev b) = Some p /\ bi_height b = gen_height p + 1 /\ gen_trust p <= bi_trust b.
  Proof. intros W H. destruct (W _ _ H) as (_ & _ & _ & (p & P1 & P2 & P3 & _) & _). eauto. Qed.
  Lemma ancestor_trust t a id ga g : wf tc t -> get_gen tc t id = Some g -> get_gen tc t a = Some ga -> ancestor tc t a id -> gen_trust ga <= gen_trust g.
  Proof.
    intros W G Ga [n U]. revert id g G U. induction n as [|n IH]; intros id g G U.
    - injection U as <-. rewrite Ga in G. injection G as ->. lia.
    - cbn in U. destruct (parent tc t id) as [p|] eqn:P; [|done]. apply parent_some in P. destruct P as (b & B & <-).
      rewrite G in B. injection B as ->. apply get_gen_block in G. destruct G as [_ G].
      destruct (wf_prev _ _ _ W G) as (p & Gp & _ & T). cbn. specialize (IH _ _ Gp U). lia.
  Qed.
  Lemma ancestor_cases t a id b : t !! id = Some b -> id <> genesis_id tc -> ancestor tc t a id <-> a = id \/ ancestor tc t a (bi_prev b).
  Proof.
    intros H G. split.
    - intros [[|n] U]; [left; injection U; done|right]. cbn in U. unfold parent in U. rewrite (proj2 (N.eqb_neq _ _) G), H in U. cbn in U. by exists n.
    - intros [->|A]; [apply ancestor_refl|]. eapply ancestor_parent; [apply get_gen_block; done|done|done].
  Qed.
  Lemma ancestor_genesis_only t a : ancestor tc t a (genesis_id tc) -> a = genesis_id tc.
  Proof. intros [[|n] U]; [injection U; done|]. cbn in U. unfold parent in U. rewrite N.eqb_refl in U. done. Qed.
  Lemma genesis_ancestor t id g : wf tc t -> get_gen tc t id = Some g -> ancestor tc t (genesis_id tc) id.
  Proof. intros W G. eexists. eapply up_genesis; done. Qed.

  (** *** Transfer of facts about stored blocks *)
  Lemma hard_gen t id : wf tc t -> hard t id -> exists g, get_gen tc t id = Some g.
  Proof. intros W [->|(b & B & _)]; [eexists; apply get_gen_genesis|eexists; apply (wf_block _ _ _ W B)]. Qed.
  Lemma ext_gen t t' id g : ext t t' -> wf tc t -> hard t id -> get_gen tc t id = Some g -> exists g', get_gen tc t' id = Some g' /\ gen_height g' = gen_height g /\
    gen_trust g' = gen_trust g /\ gen_time tc g' = gen_time tc g /\ gen_id tc g' = gen_id tc g /\ parent tc t' id = parent tc t id.
  Proof.
    intros E W H G. destruct H as [->|(b & B & P)].
    - rewrite get_gen_genesis in G. injection G as <-. exists Genesis. rewrite get_gen_genesis. unfold parent. rewrite N.eqb_refl. done.
    - destruct (wf_block _ _ _ W B) as (Gb & I & N). rewrite Gb in G. injection G as <-. destruct (E _ _ B P) as (b' & B' & Sb & P').
      exists (Block b'). destruct Sb as (S1 & S2 & S3 & S4 & S5 & S6 & S7 & S8). split_and!; [apply get_gen_block; done|cbn; done..|].
      unfold parent. rewrite (proj2 (N.eqb_neq _ _) N), B, B'. cbn. by f_equal.
  Qed.
  Definition per_closed (t : index_map) : Prop :=
    forall id b p, t !! id = Some b -> bi_persisted b = true -> t !! bi_prev b = Some p -> bi_persisted p = true.
  Lemma hard_parent t id p : wf tc t -> per_closed t -> hard t id -> parent tc t id = Some p -> hard t p.
  Proof.
    intros W C H P. apply parent_some in P. destruct P as (b & B & <-). apply get_gen_block in B. destruct B as [N B].
    destruct H as [->|(b' & B' & P)]; [done|]. rewrite B in B'. injection B' as <-. destruct (wf_prev _ _ _ W B) as (p & G & _).
    destruct p as [|p]; [apply get_gen_gen in G; by left|]. apply get_gen_block in G. destruct G as [_ G]. right. exists p. split; [done|]. exact (C _ _ _ B P G).
  Qed.
  Lemma hard_up t n id p : wf tc t -> per_closed t -> hard t id -> up tc t n id = Some p -> hard t p.
  Proof.
    intros W C. revert id. induction n as [|n IH]; intros id H U; [injection U as <-; done|]. cbn in U.
    destruct (parent tc t id) as [q|] eqn:P; [|done]. exact (IH _ (hard_parent _ _ _ W C H P) U).
  Qed.
  Lemma ext_up t t' n id : ext t t' -> wf tc t -> per_closed t -> hard t id -> up tc t' n id = up tc t n id.
  Proof.
    intros E W C. revert id. induction n as [|n IH]; intros id H; [done|]. cbn. destruct (hard_gen _ _ W H) as (g & G).
    destruct (ext_gen _ _ _ _ E W H G) as (_ & _ & _ & _ & _ & _ & ->). destruct (parent tc t id) as [p|] eqn:P; [|done]. apply IH. eapply hard_parent; done.
  Qed.
  Lemma ext_ancestor t t' a id : ext t t' -> wf tc t -> per_closed t -> hard t id -> ancestor tc t' a id <-> ancestor tc t a id.
  Proof. intros E W C H. split; intros [n U]; exists n; [rewrite <- (ext_up t t')|rewrite (ext_up t t')]; done. Qed.
  Lemma ext_history t t' n id : ext t t' -> wf tc t -> per_closed t -> hard t id ->
    gen_time tc <$> history tc t' n id = gen_time tc <$> history tc t n id.
  Proof.
    intros E W C. revert id. induction n as [|n IH]; intros id H; [done|]. cbn. destruct (hard_gen _ _ W H) as (g & G).
    destruct (ext_gen _ _ _ _ E W H G) as (g' & G' & _ & _ & T & _ & P). rewrite G, G'.
    destruct g as [|b]; destruct g' as [|b']; cbn in *.
    - done.
    - apply get_gen_gen in G. subst. rewrite get_gen_genesis in G'. done.
    - apply get_gen_gen in G'. subst. rewrite get_gen_genesis in G. done.
    - apply get_gen_block in G. destruct G as [N G]. apply get_gen_block in G'. destruct G' as [_ G']. unfold parent in P.
      rewrite (proj2 (N.eqb_neq _ _) N), G, G' in P. cbn in P. injection P as P. rewrite T, P. f_equal. apply IH.
      eapply hard_parent; [done..|]. unfold parent. rewrite (proj2 (N.eqb_neq _ _) N), G. done.
  Qed.
  Lemma ext_median t t' id : ext t t' -> wf tc t -> per_closed t -> hard t id -> median_time_past tc t' id = median_time_past tc t id.
  Proof. intros. unfold median_time_past. erewrite ext_history; done. Qed.

  Lemma main_hard s id : core s -> anc s id (best s) -> hard (idx s) id.
  Proof.
    intros H A. destruct (co_main _ H) as [[g G] _]. destruct (ancestor_known _ _ _ _ _ (core_wf _ H) G A) as (ga & Ga & _).
    destruct ga as [|b]; [apply get_gen_gen in Ga; by left|]. apply get_gen_block in Ga. destruct Ga as [_ Ga]. right. exists b.
    split; [done|]. exact (proj1 (co_mainok _ H _ _ Ga A)).
  Qed.
  Lemma best_hard s : core s -> hard (idx s) (best s).
  Proof. intro H. apply (main_hard _ _ H), ancestor_refl. Qed.

  (** A new tree in which the stored blocks stay, with the same main chain *)
  Definition with_tree (s : db L) (t : index_map) : db L := Db (Tree t (main s) (best s) (t_min (d_tree s))) (d_blocks s) (d_ledger s).
  Lemma ext_listed s t' : core s -> wf tc t' -> ext (idx s) t' -> main_chain_listed tc (d_tree (with_tree s t')).
  Proof.
    intros H W' E. pose proof (core_wf _ H) as W. pose proof (co_per _ H) as C. pose proof (best_hard _ H) as BH.
    destruct (co_main _ H) as [[g G] M]. split; cbn.
    - destruct (ext_gen _ _ _ _ E W BH G) as (g' & G' & _). by exists g'.
    - intros h id. rewrite (M h id). split.
      + intros (x & X & Hh & A). pose proof (main_hard _ _ H A) as HX. destruct (ext_gen _ _ _ _ E W HX X) as (x' & X' & Hx & _).
        exists x'. split_and!; [done|lia|]. by apply (ext_ancestor _ _ _ _ E W C BH).
      + intros (x' & X' & Hh & A). apply (ext_ancestor _ _ _ _ E W C BH) in A. pose proof (main_hard _ _ H A) as HX.
        destruct (hard_gen _ _ W HX) as (x & X). destruct (ext_gen _ _ _ _ E W HX X) as (x'' & X'' & Hx & _).
        rewrite X' in X''. injection X'' as <-. exists x. split_and!; [done|lia|done].
  Qed.
  (** What has to be shown for a change of the tree alone *)
  Lemma core_with_tree s t' : core s -> built tc t' -> ext (idx s) t' ->
    (forall id b', t' !! id = Some b' -> bi_persisted b' = true -> exists b, idx s !! id = Some b /\ same_block b b' /\ bi_persisted b = true /\
       stage_code (v_stage (bi_status b)) <= stage_code (v_stage (bi_status b'))) ->
    (forall id b p, t' !! id = Some b -> v_ok (bi_status b) = true -> t' !! bi_prev b = Some p -> v_ok (bi_status p) = true) ->
    (forall id b p, t' !! id = Some b -> t' !! bi_prev b = Some p -> stage_code (v_stage (bi_status b)) <= stage_code (v_stage (bi_status p))) ->
    (forall id b', t' !! id = Some b' -> anc s id (best s) -> v_stage (bi_status b') = FullyChecked /\ v_ok (bi_status b') = true) ->
    core (with_tree s t').
  Proof.
    intros H B' E Per Okp Stg Mok. pose proof (core_wf _ H) as W. pose proof (co_per _ H) as C. pose proof (best_hard _ H) as BH.
    pose proof (built_wf _ _ B') as W'. constructor; cbn.
    - done.
    - by apply ext_listed.
    - intros id b Hb P. destruct (Per _ _ Hb P) as (b0 & H0 & _ & P0 & _). exact (co_data _ H _ _ H0 P0).
    - intros id blk D. destruct (co_index _ H _ _ D) as (b & Hb & P & I1 & I2 & I3). destruct (E _ _ Hb P) as (b' & Hb' & Sb & P').
      destruct Sb as (S1 & S2 & S3 & S4 & S5 & S6). exists b'. split_and!; [done..| |]; congruence.
    - intros id b p Hb P Hp. destruct (Per _ _ Hb P) as (b0 & H0 & Sb & P0 & _). destruct (wf_prev _ _ _ W H0) as (g & G & _).
      destruct Sb as (S1 & S2 & _). rewrite S2 in Hp. destruct g as [|gb].
      + apply get_gen_gen in G. rewrite G in Hp. destruct (W' _ _ Hp) as (_ & X & _). done.
      + apply get_gen_block in G. destruct G as [_ G]. pose proof (C _ _ _ H0 P0 G) as Pg. destruct (E _ _ G Pg) as (p' & Hp' & _ & Pp').
        cbn in Hp. rewrite Hp in Hp'. injection Hp' as <-. done.
    - intros id b Hb P. destruct (Per _ _ Hb P) as (b0 & H0 & _ & P0 & Le). pose proof (co_checked _ H _ _ H0 P0) as X.
      intro U. rewrite U in Le. destruct (v_stage (bi_status b0)); cbn in Le; [done|lia..].
    - exact Okp.
    - exact Stg.
    - intros id b Hb A. apply (ext_ancestor _ _ _ _ E W C BH) in A. destruct (Mok _ _ Hb A) as [M1 M2]. split_and!; [|done..].
      destruct (main_hard _ _ H A) as [->|(b0 & H0 & P0)]; [destruct (W' _ _ Hb) as (_ & X & _); done|].
      destruct (E _ _ H0 P0) as (b1 & H1 & _ & P1). cbn in Hb. rewrite Hb in H1. injection H1 as <-. done.
    - intros Ma G0 id b Hb P h cid Hc Hh. destruct (Per _ _ Hb P) as (b0 & H0 & Sb & P0 & _). destruct Sb as (S1 & _ & _ & S4 & _).
      rewrite S1, S4. rewrite (ext_up _ _ _ _ E W C).
      + apply (co_cp _ H Ma G0 _ _ H0 P0 h cid Hc). lia.
      + destruct (wf_block _ _ _ W H0) as (_ & -> & _). right. eauto.
    - intros id b Hb P. destruct (Per _ _ Hb P) as (b0 & H0 & Sb & P0 & _). destruct Sb as (_ & S2 & _ & _ & S5 & _). rewrite S2, S5.
      destruct (co_time _ H _ _ H0 P0) as (m & M & Le). exists m. split; [|done]. unfold idx. cbn. rewrite (ext_median _ _ _ E W C); [done|].
      eapply hard_parent; [done..| |].
      + right. eauto.
      + apply parent_some. exists b0. split; [|done]. apply (wf_block _ _ _ W H0).
    - intro Du. destruct (co_replay _ H Du) as (blks & [(g & G & Hg) Mb] & R). exists blks. split; [|done]. split; [|done].
      destruct (ext_gen _ _ _ _ E W BH G) as (g' & G' & Hh & _). exists g'. split; [done|]. lia.
  Qed.

  (** *** Moving the tip by one block *)
  Lemma rfold_app {A E S} (f : S -> A -> res E S) l1 l2 s : rfold f (l1 ++ l2) s = let? s' := rfold f l1 s in rfold f l2 s'.
  Proof. revert s. induction l1 as [|a l1 IH]; intro s; [done|]. cbn. destruct (f s a); cbn; auto. Qed.
  Lemma tree_eta s : Tree (idx s) (main s) (best s) (t_min (d_tree s)) = d_tree (L := L) s.
  Proof. destruct s as [[] ? ?]. done. Qed.
  Definition pushed (s : db L) (b : bindex) (l : L) : db L :=
    Db (Tree (idx s) (<[bi_height b := bi_id b]> (main s)) (bi_id b) (t_min (d_tree s))) (d_blocks s) l.
  Lemma listed_push t m bst mn b : wf tc t -> main_chain_listed tc (Tree t m bst mn) -> t !! bi_id b = Some b -> bi_prev b = bst ->
    main_chain_listed tc (Tree t (<[bi_height b := bi_id b]> m) (bi_id b) mn).
  Proof.
    intros W [[g G] M] Hb Pb. cbn in *. destruct (wf_block _ _ _ W Hb) as (Gb & _ & Nb). split; cbn; [by eexists|].
    destruct (wf_prev _ _ _ W Hb) as (p & Gp & Hp & _). rewrite Pb, G in Gp. injection Gp as <-.
    intros h id. destruct (decide (h = bi_height b)) as [->|Nh].
    - rewrite lookup_insert. split.
      + intros [= <-]. exists (Block b). split_and!; [done|done|apply ancestor_refl].
      + intros (x & X & Hx & A). f_equal. symmetry. eapply (ancestor_same_height tc t id (bi_id b) (bi_id b)); [done|done|done|apply ancestor_refl|done|done|done].
    - rewrite lookup_insert_ne by done. rewrite (M h id). split.
      + intros (x & X & Hx & A). exists x. split_and!; [done..|]. eapply ancestor_parent; done.
      + intros (x & X & Hx & A). apply (ancestor_cases _ _ _ _ Hb Nb) in A. destruct A as [->|A].
        * rewrite Gb in X. injection X as <-. cbn in Hx. lia.
        * rewrite Pb in A. eauto.
  Qed.
  Lemma listed_pop t m bst mn b : wf tc t -> main_chain_listed tc (Tree t m bst mn) -> t !! bst = Some b ->
    main_chain_listed tc (Tree t (delete (bi_height b) m) (bi_prev b) mn).
  Proof.
    intros W [[g G] M] Hb. cbn in *. destruct (wf_block _ _ _ W Hb) as (Gb & _ & Nb).
    destruct (wf_prev _ _ _ W Hb) as (p & Gp & Hp & _). split; cbn; [by eexists|]. intros h id. destruct (decide (h = bi_height b)) as [->|Nh].
    - rewrite lookup_delete. split; [done|]. intros (x & X & Hx & A). destruct (ancestor_known _ _ _ _ _ W Gp A) as (x' & X' & Hx').
      rewrite X in X'. injection X' as <-. lia.
    - rewrite lookup_delete_ne by done. rewrite (M h id). split.
      + intros (x & X & Hx & A). exists x. split_and!; [done..|]. apply (ancestor_cases _ _ _ _ Hb Nb) in A. destruct A as [->|A]; [|done].
        rewrite Gb in X. injection X as <-. cbn in Hx. lia.
      + intros (x & X & Hx & A). exists x. split_and!; [done..|]. eapply ancestor_parent; done.
  Qed.
  Lemma core_push s b blk l : core s -> idx s !! bi_id b = Some b -> bi_prev b = best s -> bi_persisted b = true -> v_stage (bi_status b) = FullyChecked ->
    v_ok (bi_status b) = true -> d_blocks s !! bi_id b = Some blk -> cc_connect cf (d_ledger s) blk = Ok l -> core (pushed s b l).
  Proof.
    intros H Hb Pb P F O D Cn. pose proof (core_wf _ H) as W. destruct (wf_block _ _ _ W Hb) as (Gb & _ & Nb).
    destruct H as [H1 H2 H3 H4 H5 H6 H7 H8 H9 H10 H11 H12]. constructor; cbn; try done.
    - apply listed_push with (bst := best s); [done|by rewrite tree_eta|done..].
    - intros id b' Hb' A. apply (ancestor_cases _ _ _ _ Hb Nb) in A. destruct A as [->|A].
      + assert (b' = b) as -> by (cbn in Hb'; congruence). done.
      + rewrite Pb in A. exact (H9 _ _ Hb' A).
    - intro Du. destruct (H12 Du) as (blks & [(g & G & Hg) Mb] & R). exists (blks ++ [blk]).
      destruct (wf_prev _ _ _ W Hb) as (p & Gp & Hp & _). rewrite Pb, G in Gp. injection Gp as <-.
      split; [split|].
      + exists (Block b). split; [done|]. rewrite app_length. cbn. lia.
      + cbn. intros i x Hx. apply lookup_app_Some in Hx. destruct Hx as [Hx|[Hi Hx]].
        * destruct (Mb _ _ Hx) as (id & I1 & I2). exists id. split; [|done]. rewrite lookup_insert_ne; [done|].
          apply lookup_lt_Some in Hx. lia.
        * destruct (i - length blks)%nat as [|k] eqn:Ei; [|destruct k; done]. injection Hx as <-. exists (bi_id b). split; [|done].
          assert (N.of_nat i + 1 = bi_height b) as -> by lia. apply lookup_insert.
      + rewrite rfold_app, R. cbn. by rewrite Cn.
  Qed.
  Definition popped (s : db L) (b : bindex) (l : L) : db L :=
    Db (Tree (idx s) (delete (bi_height b) (main s)) (bi_prev b) (t_min (d_tree s))) (d_blocks s) l.
  (** The last block of the replay is the tip's *)
  Lemma replay_last s b blk blks : core s -> idx s !! best s = Some b -> d_blocks s !! best s = Some blk -> main_blocks cf s blks ->
    exists blks', blks = blks' ++ [blk] /\ gen_height (Block b) = N.of_nat (length blks') + 1.
  Proof.
    intros H Hb D [(g & G & Hg) Mb]. pose proof (core_wf _ H) as W. destruct (wf_block _ _ _ W Hb) as (Gb & Ib & Nb).
    rewrite Gb in G. injection G as <-. cbn in Hg. pose proof (wf_height_pos _ _ _ _ W Hb) as Hp.
    destruct (list_eq_nil_dec blks) as [->|Ne]; [cbn in Hg; lia|]. destruct (exists_last Ne) as (blks' & x & ->). exists blks'.
    rewrite app_length in Hg. cbn in Hg. split; [|cbn; lia]. f_equal. f_equal.
    destruct (Mb (length blks') x) as (id & I1 & I2); [by rewrite lookup_app_r, Nat.sub_diag by lia|].
    apply (proj2 (co_main _ H)) in I1. destruct I1 as (y & Y & Hy & A).
    assert (id = best s) as ->; [|congruence].
    eapply (ancestor_same_height tc (idx s) id (best s) (best s)); [done|exact Gb|done|apply ancestor_refl|done|exact Gb|]. cbn. lia.
  Qed.
  Lemma core_pop s b blk l : core s -> idx s !! best s = Some b -> d_blocks s !! best s = Some blk -> cc_disconnect cf (d_ledger s) blk = Ok l -> core (popped s b l).
  Proof.
    intros H Hb D Cn. pose proof (core_wf _ H) as W. destruct (wf_block _ _ _ W Hb) as (Gb & _ & Nb).
    pose proof (replay_last s b blk) as RL. specialize (fun l => RL l H Hb D).
    pose proof (wf_prev _ _ _ W Hb) as (p & Gp & Hp & _).
    destruct H as [H1 H2 H3 H4 H5 H6 H7 H8 H9 H10 H11 H12]. constructor; cbn; try done.
    - apply listed_pop with (bst := best s); [done|by rewrite tree_eta|done].
    - intros id b' Hb' A. apply (H9 _ _ Hb'). apply (ancestor_cases _ _ _ _ Hb Nb). by right.
    - intro Du. destruct (H12 Du) as (blks & Mb & R). destruct (RL _ Mb) as (blks' & -> & Hl). destruct Mb as [_ Mb].
      rewrite rfold_app in R. destruct (rfold (cc_connect cf) blks' l0) as [x| |] eqn:Rx; cbn in R; try done.
      destruct (cc_connect cf x blk) as [y| |] eqn:Cy; cbn in R; try done. injection R as ->. apply Du in Cy.
      exists blks'. split; [split|].
      + exists p. split; [done|]. cbn in Hl. lia.
      + intros i z Hz. destruct (Mb i z) as (id & I1 & I2); [by rewrite lookup_app_l by (eapply lookup_lt_Some; done)|].
        exists id. split; [|done]. cbn. rewrite lookup_delete_ne; [done|]. apply lookup_lt_Some in Hz. cbn in Hl. lia.
      + rewrite Rx. cbn. congruence.
  Qed.

  Definition kept (t t' : index_map) : Prop := forall id, match t !! id, t' !! id with
    | Some b, Some b' => same_block b b' /\ bi_persisted b' = bi_persisted b /\ v_ok (bi_status b') = v_ok (bi_status b)
    | None, None => True
    | _, _ => False
    end.
  Lemma same_block_refl b : same_block b b.
  Proof. done. Qed.
  Lemma kept_refl t : kept t t.
  Proof. intro id. destruct (t !! id); done. Qed.
  Lemma kept_trans t1 t2 t3 : kept t1 t2 -> kept t2 t3 -> kept t1 t3.
  Proof.
    intros A B id. specialize (A id). specialize (B id). destruct (t1 !! id), (t2 !! id), (t3 !! id); try done.
    destruct A as (A1 & A2 & A3), B as (B1 & B2 & B3). split_and!; [eapply same_block_trans; done|congruence..].
  Qed.
  Lemma kept_same t t' : kept t t' -> same_tree t t'.
  Proof. intros A id. specialize (A id). destruct (t !! id), (t' !! id); try done. apply A. Qed.
  Lemma kept_fwd t t' id b : kept t t' -> t !! id = Some b -> exists b', t' !! id = Some b' /\ same_block b b' /\ bi_persisted b' = bi_persisted b /\ v_ok (bi_status b') = v_ok (bi_status b).
  Proof. intros A H. specialize (A id). rewrite H in A. destruct (t' !! id); [eauto|done]. Qed.
  Lemma kept_bwd t t' id b' : kept t t' -> t' !! id = Some b' -> exists b, t !! id = Some b /\ same_block b b' /\ bi_persisted b' = bi_persisted b /\ v_ok (bi_status b') = v_ok (bi_status b).
  Proof. intros A H. specialize (A id). rewrite H in A. destruct (t !! id); [eauto|done]. Qed.
  Lemma kept_ext t t' : kept t t' -> ext t t'.
  Proof. intros A id b H P. destruct (kept_fwd _ _ _ _ A H) as (b' & H' & Sb & P' & _). exists b'. split_and!; congruence. Qed.
  Lemma kept_insert t id b b' : t !! id = Some b -> same_block b b' -> bi_persisted b' = bi_persisted b -> v_ok (bi_status b') = v_ok (bi_status b) -> kept t (<[id := b']> t).
  Proof.
    intros H S P O x. destruct (decide (x = id)) as [->|N].
    - rewrite H, lookup_insert. done.
    - rewrite lookup_insert_ne by done. destruct (t !! x); done.
  Qed.

  Lemma with_tree_id s : with_tree s (idx s) = s.
  Proof. destruct s as [[] ? ?]. done. Qed.
  (** A persisted valid block on top of the tip becomes fully checked *)
  Lemma core_advance s b v : core s -> idx s !! bi_id b = Some b -> bi_prev b = best s -> bi_persisted b = true -> v_stage v = FullyChecked ->
    v_ok (bi_status b) = true -> v_ok v = true ->
    core (with_tree s (<[bi_id b := with_status b v]> (idx s))) /\ kept (idx s) (<[bi_id b := with_status b v]> (idx s)).
  Proof.
    intros H Hb Pb P F O O'. pose proof (core_wf _ H) as W. destruct (wf_block _ _ _ W Hb) as (Gb & _ & Nb).
    set (t' := <[bi_id b := with_status b v]> (idx s)). assert (K : kept (idx s) t') by (eapply kept_insert; [done|done|done|cbn; congruence]).
    split; [|done]. assert (Lk : forall id x, t' !! id = Some x -> (id = bi_id b /\ x = with_status b v) \/ (id <> bi_id b /\ idx s !! id = Some x)).
    { intros id x Hx. unfold t' in Hx. destruct (decide (id = bi_id b)) as [->|Nx]; [rewrite lookup_insert in Hx; injection Hx as <-; by left|].
      rewrite lookup_insert_ne in Hx by done. by right. }
    apply core_with_tree; [done| |by apply kept_ext|..].
    - eapply built_mark; [apply H|done|done].
    - intros id x Hx Px. destruct (Lk _ _ Hx) as [[-> ->]|[Nx Ix]].
      + exists b. split_and!; try done. cbn. rewrite F. destruct (v_stage (bi_status b)); cbn; lia.
      + exists x. split_and!; done.
    - intros id x p Hx Ox Hp. destruct (Lk _ _ Hp) as [[E ->]|[Nx Ip]]; [done|].
      destruct (Lk _ _ Hx) as [[-> ->]|[Nx' Ix]]; [exact (co_okp _ H _ _ _ Hb O Ip)|exact (co_okp _ H _ _ _ Ix Ox Ip)].
    - intros id x p Hx Hp. destruct (Lk _ _ Hp) as [[E ->]|[Nx Ip]].
      + cbn. rewrite F. destruct (v_stage (bi_status x)); cbn; lia.
      + destruct (Lk _ _ Hx) as [[-> ->]|[Nx' Ix]]; [|exact (co_stage _ H _ _ _ Ix Ip)]. cbn in Ip. rewrite Pb in Ip.
        destruct (co_mainok _ H _ _ Ip (ancestor_refl _ _ _)) as (_ & -> & _). destruct (v_stage (bi_status (with_status b v))); cbn; lia.
    - intros id x Hx A. destruct (Lk _ _ Hx) as [[-> ->]|[Nx Ix]]; [done|]. destruct (co_mainok _ H _ _ Ix A) as (_ & ? & ?). done.
  Qed.

  Notation no_panics := (no_panics cf).
  (** A failure of connecting a block's transactions *)
  Definition connect_fault (e : block_err) : Prop := exists l blk c, cc_connect cf l blk = Err c /\ e = ConnectFailed c.
  (** Blocks without data are marked invalid *)
  Definition marked (s : db L) : Prop := forall id b, idx s !! id = Some b -> bi_persisted b = false -> v_ok (bi_status b) = false.
  Lemma stored_persisted s id b blk : core s -> idx s !! id = Some b -> d_blocks s !! id = Some blk -> bi_persisted b = true.
  Proof. intros H Hb D. destruct (co_index _ H _ _ D) as (b' & B' & P & _). congruence. Qed.
  Lemma connect_tip_spec s b : core s -> idx s !! bi_id b = Some b ->
    match connect_tip cf s b with
    | Ok s' => core s' /\ kept (idx s) (idx s') /\ best s' = bi_id b /\ bi_prev b = best s /\ main s' = <[bi_height b := bi_id b]> (main s) /\
               t_min (d_tree s') = t_min (d_tree s) /\ d_blocks s' = d_blocks s /\ forall id, id <> bi_id b -> idx s' !! id = idx s !! id
    | Err e => v_ok (bi_status b) = true -> bi_persisted b = true -> bi_prev b = best s -> connect_fault e
    | Panic => ~ no_panics
    end.
  Proof.
    intros H Hb. unfold connect_tip, ensure. destruct (v_ok (bi_status b)) eqn:O; cbn; [|done].
    destruct (d_blocks s !! bi_id b) as [blk|] eqn:D; cbn; [|intros _ P; destruct (co_data _ H _ _ Hb P); congruence]. pose proof (stored_persisted _ _ _ _ H Hb D) as P.
    pose proof (co_checked _ H _ _ Hb P) as Ck. rewrite decide_False by done. cbn.
    destruct (N.eqb_spec (best s) (bi_prev b)) as [E|]; cbn; [|congruence].
    destruct (cc_connect cf (d_ledger s) blk) as [l|e|] eqn:Cn; cbn; [|by do 3 eexists|intros [X _]; exact (X _ _ Cn)].
    destruct (decide (v_stage (bi_status b) = FullyChecked)) as [F|F]; cbn.
    - split_and!; try done; [|apply kept_refl]. eapply (core_push s b blk l); done.
    - unfold v_advance. destruct (v_stage (bi_status b)) eqn:St; try done. cbn.
      set (v := View FullyChecked _ _ _). destruct (core_advance s b v) as [H1 K]; try done.
      split_and!; try done; [refine (core_push (with_tree s (<[bi_id b := with_status b v]> (idx s))) (with_status b v) blk l _ _ _ _ _ _ _ _); try done; apply lookup_insert|].
      intros id Ni. cbn. by rewrite lookup_insert_ne.
  Qed.
  Lemma disconnect_tip_spec s : core s -> best s <> genesis_id tc ->
    match disconnect_tip cf s (best s) with
    | Ok (p, s') => core s' /\ idx s' = idx s /\ gen_id tc p = best s' /\ (exists b, idx s !! best s = Some b /\ best s' = bi_prev b /\ main s' = delete (bi_height b) (main s)) /\
               t_min (d_tree s') = t_min (d_tree s) /\ d_blocks s' = d_blocks s
    | Err _ => ~ disconnect_undoes cf
    | Panic => ~ no_panics
    end.
  Proof.
    intros H Nb. unfold disconnect_tip. rewrite (proj2 (N.eqb_neq _ _) Nb), N.eqb_refl. cbn.
    destruct (co_main _ H) as [[g G] M]. destruct g as [|b]; [apply get_gen_gen in G; done|]. apply get_gen_block in G. destruct G as [_ Hb].
    change (t_idx (d_tree s)) with (idx s) in *. rewrite Hb. cbn. pose proof (core_wf _ H) as W.
    pose proof (proj1 (co_mainok _ H _ _ Hb (ancestor_refl _ _ _))) as P. destruct (co_data _ H _ _ Hb P) as (blk & D). rewrite D. cbn.
    destruct (cc_disconnect cf (d_ledger s) blk) as [l|e|] eqn:Cn; cbn.
    - destruct (wf_prev _ _ _ W Hb) as (p & Gp & _). rewrite Gp. cbn. split_and!; try done.
      + eapply (core_pop s b blk l); done.
      + eapply wf_gen_id; done.
      + eauto.
    - intro Du. destruct (co_replay _ H Du) as (blks & Mb & R). destruct (replay_last _ _ _ _ H Hb D Mb) as (blks' & -> & _).
      rewrite rfold_app in R. destruct (rfold (cc_connect cf) blks' l0) as [x| |] eqn:Rx; cbn in R; try done.
      destruct (cc_connect cf x blk) as [y| |] eqn:Cy; cbn in R; try done. injection R as ->. apply Du in Cy. congruence.
    - intros [_ X]. exact (X _ _ Cn).
  Qed.
  (** Below the new tip the height map is unchanged *)
  Lemma disconnect_until_spec fuel s last : core s -> anc s last (best s) -> (forall g, gen s (best s) = Some g -> N.to_nat (gen_height g) <= fuel)%nat ->
    match disconnect_until cf fuel s (best s) last with
    | Ok s' => core s' /\ idx s' = idx s /\ best s' = last /\ t_min (d_tree s') = t_min (d_tree s) /\ d_blocks s' = d_blocks s
    | Err _ => ~ disconnect_undoes cf
    | Panic => ~ no_panics
    end.
  Proof.
    revert s. induction fuel as [|fuel IH]; intros s H A Fu.
    - cbn. destruct (N.eqb_spec (best s) last) as [E|E]; [done|]. exfalso. destruct (co_main _ H) as [[g G] _]. pose proof (core_wf _ H) as W.
      specialize (Fu _ G). assert (gen_height g = 0) as Z by lia. apply (wf_height_0 _ _ _ _ W G) in Z. subst. apply get_gen_gen in G.
      rewrite G in A. apply ancestor_genesis_only in A. congruence.
    - cbn. destruct (N.eqb_spec (best s) last) as [E|E]; [done|]. pose proof (core_wf _ H) as W.
      assert (Nb : best s <> genesis_id tc) by (intro X; rewrite X in A; apply ancestor_genesis_only in A; congruence).
      pose proof (disconnect_tip_spec _ H Nb) as D. destruct (disconnect_tip cf s (best s)) as [[p s']|e|]; cbn; [|done..].
      destruct D as (H' & I' & Gp & (b & Hb & B' & M') & Mn & Db). rewrite Gp. specialize (IH s' H').
      destruct (wf_prev _ _ _ W Hb) as (q & Gq & Hq & _). destruct (wf_block _ _ _ W Hb) as (Gb & _ & _).
      assert (A' : anc s' last (best s')).
      { rewrite I', B'. apply (ancestor_cases _ _ _ _ Hb Nb) in A. destruct A as [->|A]; done. }
      specialize (IH A'). lapply IH.
      + intro X. destruct (disconnect_until cf fuel s' (best s') last); [|done..]. destruct X as (X1 & X2 & X3 & X4 & X5). split_and!; congruence.
      + intros g G. rewrite I', B' in G. rewrite Gq in G. injection G as <-. specialize (Fu _ Gb). cbn in Fu. lia.
  Qed.
  (** Connecting a run of blocks *)
  Lemma connect_all_spec l : forall s z, core s -> path (best s) l z -> (forall b, b ∈ l -> idx s !! bi_id b = Some b) -> NoDup (bi_id <$> l) ->
    match connect_all cf s l with
    | Ok s' => core s' /\ kept (idx s) (idx s') /\ best s' = z /\ t_min (d_tree s') = t_min (d_tree s) /\ d_blocks s' = d_blocks s
    | Err (ConnectTipFailed bad e) => bad ∈ bi_id <$> l /\ ((forall b, b ∈ l -> v_ok (bi_status b) = true /\ bi_persisted b = true) -> connect_fault e)
    | Err (OtherReorg _) => False
    | Panic => ~ no_panics
    end.
  Proof.
    induction l as [|b l IH]; intros s z H Pa Al Nd; cbn.
    - split_and!; [done|apply kept_refl|done..].
    - cbn in Pa. destruct Pa as [Pb Pa]. pose proof (Al b ltac:(left)) as Hb. pose proof (connect_tip_spec s b H Hb) as C.
      destruct (connect_tip cf s b) as [s'|e|]; cbn; [|split; [left|]|done].
      2:{ intro F. destruct (F b ltac:(left)) as [F1 F2]. exact (C F1 F2 Pb). }
      destruct C as (H' & K & B' & _ & M' & Mn & Db & Lk). apply NoDup_cons in Nd. destruct Nd as [Nb Nd].
      specialize (IH s' z H'). rewrite B' in IH. specialize (IH Pa). lapply IH; clear IH; [intro IH; specialize (IH Nd)|].
      + destruct (connect_all cf s' l) as [s''|[bad e|e]|]; [|destruct IH as [I1 I2]; split; [by right|intro F; apply I2; intros; apply F; by right]|done..]. destruct IH as (I1 & I2 & I3 & I4 & I5).
        split_and!; [done|eapply kept_trans; done|done|congruence|congruence].
      + intros x Hx. rewrite Lk; [apply Al; by right|]. intro E. apply Nb. rewrite <- E. by apply elem_of_list_fmap_1.
  Qed.

  (** *** Reorganisation *)
  Lemma path_heights t l : forall a ga z, wf tc t -> get_gen tc t a = Some ga -> path a l z -> (forall x, x ∈ l -> t !! bi_id x = Some x) ->
    forall x, x ∈ l -> gen_height ga < bi_height x.
  Proof.
    induction l as [|b l IH]; intros a ga z W G P Al x Hx; [by apply elem_of_nil in Hx|]. cbn in P. destruct P as [Pb P].
    pose proof (Al b ltac:(left)) as Hb. destruct (wf_prev _ _ _ W Hb) as (p & Gp & Hp & _). rewrite Pb, G in Gp. injection Gp as <-.
    apply elem_of_cons in Hx. destruct Hx as [->|Hx]; [lia|]. destruct (wf_block _ _ _ W Hb) as (Gb & _ & _).
    specialize (IH _ _ _ W Gb P ltac:(intros; apply Al; by right) _ Hx). cbn in IH. lia.
  Qed.
  Lemma path_nodup t l : forall a ga z, wf tc t -> get_gen tc t a = Some ga -> path a l z -> (forall x, x ∈ l -> t !! bi_id x = Some x) -> NoDup (bi_id <$> l).
  Proof.
    induction l as [|b l IH]; intros a ga z W G P Al; [constructor|]. cbn in P. destruct P as [Pb P]. cbn. pose proof (Al b ltac:(left)) as Hb.
    destruct (wf_block _ _ _ W Hb) as (Gb & _ & _). assert (Al' : forall x, x ∈ l -> t !! bi_id x = Some x) by (intros; apply Al; by right).
    apply NoDup_cons. split; [|eapply IH; done]. intro I. apply elem_of_list_fmap in I. destruct I as (x & E & Hx).
    pose proof (path_heights _ _ _ _ _ W Gb P Al' _ Hx) as Lt. pose proof (Al' _ Hx) as X. rewrite <- E, Hb in X. injection X as <-. cbn in Lt. lia.
  Qed.
  Lemma path_ancestor t l : forall a z, wf tc t -> path a l z -> (forall x, x ∈ l -> t !! bi_id x = Some x) ->
    ancestor tc t a z /\ forall x, x ∈ l -> ancestor tc t (bi_id x) z.
  Proof.
    induction l as [|b l IH]; intros a z W P Al; cbn in P.
    - subst. split; [apply ancestor_refl|]. intros x Hx. by apply elem_of_nil in Hx.
    - destruct P as [Pb P]. pose proof (Al b ltac:(left)) as Hb. destruct (wf_block _ _ _ W Hb) as (Gb & _ & _).
      destruct (IH _ _ W P ltac:(intros; apply Al; by right)) as [A1 A2]. split.
      + eapply ancestor_trans; [|exact A1]. eapply ancestor_parent; [done|done|apply ancestor_refl].
      + intros x Hx. apply elem_of_cons in Hx. destruct Hx as [->|Hx]; auto.
  Qed.
  Lemma in_main_iff s id : core s -> is_Some (gen s id) -> in_main_chain tc (d_tree s) id = true <-> anc s id (best s).
  Proof. intros H G. apply in_main_chain_spec; [by apply core_wf|apply H|done]. Qed.
  Lemma ok_ancestor s id b x bx : core s -> idx s !! id = Some b -> v_ok (bi_status b) = true -> idx s !! x = Some bx -> anc s x id -> v_ok (bi_status bx) = true.
  Proof.
    intros H Hb O Hx [n U]. revert id b Hb O U. induction n as [|n IH]; intros id b Hb O U; [injection U as <-; congruence|]. cbn in U.
    destruct (parent tc (idx s) id) as [p|] eqn:P; [|done]. apply parent_some in P. destruct P as (b' & B' & <-). apply get_gen_block in B'.
    destruct B' as [_ B']. rewrite Hb in B'. injection B' as <-. pose proof (core_wf _ H) as W. destruct (wf_prev _ _ _ W Hb) as (p & Gp & _).
    destruct p as [|p]; [|apply get_gen_block in Gp; destruct Gp as [_ Gp]; exact (IH _ _ Gp (co_okp _ H _ _ _ Hb O Gp) U)].
    apply get_gen_gen in Gp. rewrite Gp in U. assert (x = genesis_id tc) as -> by (apply (ancestor_genesis_only (idx s)); by exists n).
    destruct (W _ _ Hx) as (_ & X & _). done.
  Qed.
  Lemma reorganize_spec s b : core s -> idx s !! bi_id b = Some b -> ~ anc s (bi_id b) (best s) ->
    match reorganize cf s b with
    | Ok s' => core s' /\ kept (idx s) (idx s') /\ best s' = bi_id b /\ t_min (d_tree s') = t_min (d_tree s) /\ d_blocks s' = d_blocks s
    | Err (ConnectTipFailed bad e) => exists bb, idx s !! bad = Some bb /\ anc s bad (bi_id b) /\ ~ anc s bad (best s) /\ (v_ok (bi_status b) = true -> marked s -> connect_fault e)
    | Err (OtherReorg _) => ~ disconnect_undoes cf
    | Panic => ~ no_panics
    end.
  Proof.
    intros H Hb Nm. pose proof (core_wf _ H) as W. destruct (wf_block _ _ _ W Hb) as (Gb & _ & _).
    assert (Im : in_main_chain tc (d_tree s) (bi_id b) = false).
    { apply not_true_is_false. rewrite in_main_iff by (done || by eexists). done. }
    destruct (new_chain_spec _ _ _ W (co_main _ H) Hb Im) as (f & fg & l & E & Ne & Pa & Al & Gf & _ & A1 & A2).
    unfold reorganize. rewrite E. cbn. destruct l as [|first l]; [done|]. cbn [head expect rbind].
    assert (Hal : forall x, x ∈ first :: l -> idx s !! bi_id x = Some x) by (intros x Hx; apply Al; done).
    pose proof Pa as [Pf _]. rewrite Pf.
    assert (Bad : forall bad, bad ∈ bi_id <$> first :: l -> exists bb, idx s !! bad = Some bb /\ anc s bad (bi_id b) /\ ~ anc s bad (best s)).
    { intros bad Hbad. apply elem_of_list_fmap in Hbad. destruct Hbad as (x & -> & Hx). exists x. split_and!.
      - by apply Hal.
      - by apply (path_ancestor _ _ _ _ W Pa Hal).
      - destruct (Al _ Hx) as [Ix Mx]. destruct (wf_block _ _ _ W Ix) as (Gx & _ & _). rewrite <- in_main_iff by (done || by eexists). by rewrite Mx. }
    assert (Fin : forall s', core s' -> idx s' = idx s -> best s' = f -> t_min (d_tree s') = t_min (d_tree s) -> d_blocks s' = d_blocks s ->
      match connect_all cf s' (first :: l) with
      | Ok s' => core s' /\ kept (idx s) (idx s') /\ best s' = bi_id b /\ t_min (d_tree s') = t_min (d_tree s) /\ d_blocks s' = d_blocks s
      | Err (ConnectTipFailed bad e) => exists bb, idx s !! bad = Some bb /\ anc s bad (bi_id b) /\ ~ anc s bad (best s) /\ (v_ok (bi_status b) = true -> marked s -> connect_fault e)
      | Err (OtherReorg _) => ~ disconnect_undoes cf
      | Panic => ~ no_panics
      end).
    { intros s' H' I' B' Mn Db. pose proof (connect_all_spec (first :: l) s' (bi_id b) H') as C. rewrite B' in C. specialize (C Pa).
      rewrite I' in C. specialize (C Hal (path_nodup _ _ _ _ _ W Gf Pa Hal)).
      destruct (connect_all cf s' (first :: l)) as [s''|[bad e|e]|]; [| |done..].
      2:{ destruct C as [C1 C2]. destruct (Bad _ C1) as (bb & B1 & B2 & B3). exists bb. split_and!; try done. intros O Mk. apply C2. intros x Hx.
          pose proof (Hal _ Hx) as Ix. assert (Ox : v_ok (bi_status x) = true).
          { eapply ok_ancestor; [exact H|exact Hb|done|exact Ix|]. by apply (path_ancestor _ _ _ _ W Pa Hal). }
          split; [done|]. destruct (bi_persisted x) eqn:Px; [done|]. rewrite (Mk _ _ Ix Px) in Ox. done. }
      destruct C as (C1 & C2 & C3 & C4 & C5). split_and!; [done|done|congruence..]. }
    destruct (N.eqb_spec (best s) (genesis_id tc)) as [Eg|Ng].
    - cbn [rbind]. apply Fin; try done. rewrite Eg in A2. apply ancestor_genesis_only in A2. congruence.
    - pose proof (disconnect_until_spec (tip_fuel cf s) s f H A2) as D. lapply D; clear D.
      + intro D. destruct (disconnect_until cf (tip_fuel cf s) s (best s) f) as [s'|e|]; cbn [rmap_err rbind]; [|done..].
        destruct D as (D1 & D2 & D3 & D4 & D5). by apply Fin.
      + intros g G. unfold tip_fuel. rewrite G. lia.
  Qed.
  (** Two databases whose tips share a block agree on the main chain up to it *)
  Lemma main_agree s s' f g : core s -> core s' -> ext (idx s) (idx s') -> gen s f = Some g -> anc s f (best s) -> anc s' f (best s') ->
    forall h, h <= gen_height g -> main s' !! h = main s !! h.
  Proof.
    intros H H' E Gf A A' h Hh. pose proof (core_wf _ H) as W. pose proof (core_wf _ H') as W'. pose proof (co_per _ H) as C.
    pose proof (main_hard _ _ H A) as Hf. destruct (ext_gen _ _ _ _ E W Hf Gf) as (g' & Gf' & Hg' & _).
    destruct (up_ex _ _ (N.to_nat (gen_height g - h)) _ _ W Gf ltac:(lia)) as (x & U). pose proof (hard_up _ _ _ _ W C Hf U) as Hx.
    destruct (up_height _ _ _ _ _ _ W Gf U) as (gx & Gx & Hgx). destruct (ext_gen _ _ _ _ E W Hx Gx) as (gx' & Gx' & Hgx' & _).
    assert (M1 : main s !! h = Some x).
    { apply (proj2 (co_main _ H)). exists gx. split_and!; [done|lia|]. eapply ancestor_trans; [|exact A]. by eexists. }
    rewrite M1. apply (proj2 (co_main _ H')). exists gx'. split_and!; [done|lia|]. eapply ancestor_trans; [|exact A'].
    eexists. change (t_idx (d_tree s')) with (idx s'). rewrite (ext_up _ _ _ _ E W C Hf). exact U.
  Qed.
  Lemma best_gen s : core s -> exists g, gen s (best s) = Some g /\ best_index tc (d_tree s) = Ok g.
  Proof. intro H. destruct (co_main _ H) as [[g G] _]. exists g. split; [done|]. unfold best_index. by rewrite G. Qed.
  Lemma activate_spec s b : core s -> idx s !! bi_id b = Some b ->
    exists g, gen s (best s) = Some g /\
    match activate_best_chain cf s b with
    | Ok (true, s') => gen_trust g < bi_trust b /\ core s' /\ kept (idx s) (idx s') /\ best s' = bi_id b /\ t_min (d_tree s') = t_min (d_tree s) /\ d_blocks s' = d_blocks s
    | Ok (false, s') => bi_trust b <= gen_trust g /\ s' = s
    | Err (ConnectTipFailed bad e) => exists bb, idx s !! bad = Some bb /\ anc s bad (bi_id b) /\ ~ anc s bad (best s) /\ (v_ok (bi_status b) = true -> marked s -> connect_fault e)
    | Err (OtherReorg _) => ~ disconnect_undoes cf
    | Panic => ~ no_panics
    end.
  Proof.
    intros H Hb. destruct (best_gen _ H) as (g & G & E). exists g. split; [done|]. unfold activate_best_chain. rewrite E. cbn [rmap_err rbind].
    destruct (N.ltb_spec (gen_trust g) (bi_trust b)) as [Lt|Ge]; [|done]. pose proof (reorganize_spec s b H Hb) as R.
    pose proof (core_wf _ H) as W. destruct (wf_block _ _ _ W Hb) as (Gb & _ & _). lapply R; clear R.
    - intro R. destruct (reorganize cf s b) as [s'|[bad e|e]|]; cbn; done.
    - intro A. pose proof (ancestor_trust _ _ _ _ _ W G Gb A) as T. cbn in T. lia.
  Qed.
End ChainstateProofs.
