(** Proofs about the loop that looks for the best chain and about whole API calls. *)
From Coq Require Import Sorted.
From Verif Require Import Base BaseProofs StatusModel StatusSpec BlockTreeModel BlockTreeSpec BlockTreeProofs BlockTreeMoreProofs BranchProofs
  ChainstateModel ChainstateSpec ChainstateProofs ChainstateApiProofs.
Local Open Scope N_scope.

Section ChainstateRun.
  Context {L : Type} (cf : chain_cfg L) (l0 : L).
  Notation tc := (cc_tree cf).
  Notation best s := (t_best (d_tree s)).
  Notation main s := (t_main (d_tree s)).
  Notation anc s := (ancestor tc (idx s)).
  Notation gen s := (get_gen tc (idx s)).
  Notation minh s := (t_min (d_tree s)).
  Notation core := (core cf l0).
  Notation inv := (inv cf l0).

  Lemma activated s b s' : inv s -> idx s !! bi_id b = Some b -> extends_final cf s (bi_id b) ->
    core s' -> kept (idx s) (idx s') -> best s' = bi_id b -> minh s' = minh s -> inv s' /\ final_kept s s'.
  Proof.
    intros I Hb (f & Mf & A) H' K B' Mn. pose proof (inv_core _ _ _ I) as H. pose proof (core_wf _ _ _ H) as W. pose proof (core_wf _ _ _ H') as W'.
    apply (proj2 (co_main _ _ _ H)) in Mf. destruct Mf as (g & Gf & Hg & Af). pose proof (kept_same _ _ K) as ST.
    assert (A' : anc s' f (best s')) by (rewrite B'; by apply (same_tree_ancestor _ _ _ _ _ ST)).
    split; [split|split].
    - done.
    - intros id x Hx Px. destruct (kept_bwd _ _ _ _ K Hx) as (x0 & X0 & _ & X1 & X2). rewrite X2. apply (inv_marked _ _ _ I _ _ X0). congruence.
    - destruct (co_main _ _ _ H') as [[g' G'] _]. exists g'. split; [done|]. destruct (same_tree_gen _ _ _ _ _ ST Gf) as (gf' & Gf' & Hf' & _).
      destruct (ancestor_known _ _ _ _ _ W' G' A') as (gf & Gf2 & Le). unfold idx in *. rewrite Gf' in Gf2. injection Gf2 as <-. lia.
    - lia.
    - intros h Hh. eapply (main_agree cf l0 s s' f g); try done; [by apply kept_ext|lia].
  Qed.

  (** *** Invariant of the loop: [D] holds the blocks given up so far *)
  Record loop_inv (s : db L) (mt : N) (cands : list (N * N)) (D : gset N) : Prop := {
    li_sorted : StronglySorted cand_ord cands;
    li_tip : forall g, gen s (best s) = Some g -> gen_trust g < mt;
    li_tip' : forall g, gen s (best s) = Some g -> mt <= gen_trust g + 1;
    li_cand : forall p, p ∈ cands -> exists b, idx s !! snd p = Some b /\ p = cand_of b /\ v_ok (bi_status b) = true /\ mt <= bi_trust b /\
      extends_final cf s (snd p) /\ snd p ∉ D;
    li_closed : forall id b, idx s !! id = Some b -> bi_prev b ∈ D -> id ∈ D;
    li_dom : forall id, id ∈ D -> is_Some (idx s !! id);
    li_cover : forall id b, idx s !! id = Some b -> v_ok (bi_status b) = true -> mt <= bi_trust b -> extends_final cf s id ->
      id ∈ D \/ exists p, p ∈ cands /\ anc s id (snd p);
    li_dead : only_bad cf -> forall id b, id ∈ D -> idx s !! id = Some b -> v_ok (bi_status b) = false }.

  Lemma dead_descendant s mt cands D id x : inv s -> loop_inv s mt cands D -> is_Some (idx s !! id) -> x ∈ D -> anc s x id -> id ∈ D.
  Proof.
    intros I LI Kn Hx [n U]. revert id Kn U. induction n as [|n IH]; intros id Kn U; [injection U as <-; done|]. cbn in U.
    destruct (parent tc (idx s) id) as [p|] eqn:P; [|done]. apply parent_some in P. destruct P as (b & B & <-). apply get_gen_block in B.
    destruct B as [_ B]. eapply (li_closed _ _ _ _ LI); [exact B|]. apply IH; [|done].
    destruct (wf_prev _ _ _ _ (core_wf _ _ _ (inv_core _ _ _ I)) B) as (p & Gp & _). destruct p as [|p]; [|apply get_gen_block in Gp; destruct Gp; by eexists].
    apply get_gen_gen in Gp. rewrite Gp in U. assert (x = genesis_id tc) as -> by (apply (ancestor_genesis_only cf (idx s)); by exists n).
    destruct (li_dom _ _ _ _ LI _ Hx) as [y Hy]. destruct (wf_block _ _ _ _ (core_wf _ _ _ (inv_core _ _ _ I)) Hy) as (_ & _ & X). done.
  Qed.

  (** One round: the branch of [bad] is given up (and perhaps marked) *)
  Record weakened (s : db L) (bad : N) (s1 : db L) : Prop := {
    wk_inv : inv s1;
    wk_same : same_tree (idx s) (idx s1);
    wk_main : main s1 = main s; wk_best : best s1 = best s; wk_min : minh s1 = minh s;
    wk_out : forall id, is_Some (idx s !! id) -> ~ anc s bad id -> idx s1 !! id = idx s !! id;
    wk_ok : forall id b1, idx s1 !! id = Some b1 -> v_ok (bi_status b1) = true -> exists b, idx s !! id = Some b /\ v_ok (bi_status b) = true /\ same_block b b1 }.
  Lemma weakened_final s bad s1 id : weakened s bad s1 -> extends_final cf s1 id <-> extends_final cf s id.
  Proof.
    intro K. unfold extends_final. rewrite (wk_main _ _ _ K), (wk_min _ _ _ K). split; intros (f & M & A); exists f; (split; [done|]);
      by apply (same_tree_ancestor _ _ _ _ _ (wk_same _ _ _ K)).
  Qed.
  Lemma weakened_refl s bad : inv s -> weakened s bad s.
  Proof. intro I. constructor; try done; [apply same_tree_refl|]. intros id b Hb O. exists b. done. Qed.
  Lemma weakened_marks s bad t' : inv s -> ~ anc s bad (best s) -> marks cf s bad t' -> weakened s bad (with_tree s t').
  Proof.
    intros [H Mk Mn] Na M. pose proof (core_marks _ _ _ _ _ H Na M) as H'. constructor; try done.
    - constructor; [done| |].
      + by eapply marked_marks.
      + apply (min_ok_tree cf l0); [done|by apply (core_wf _ _ _ H')|by eapply marks_ext|done].
    - by eapply marks_same.
    - intros id [b Hb] A. pose proof (proj2 M id) as X. cbn. rewrite Hb in *. destruct (t' !! id) as [b'|]; [|done]. destruct X as (_ & _ & _ & _ & X).
      by rewrite (X A).
    - intros id b1 Hb O. destruct (marks_bwd _ _ _ _ _ _ M Hb) as (b & B1 & B2 & B3 & B4 & B5 & B6).
      destruct (anc_dec _ _ _ bad id H) as [A|A]; [destruct (wf_block _ _ _ _ (core_wf _ _ _ H) B1) as (Gb & _ & _); by eexists| |].
      + rewrite (B5 A) in O. done.
      + rewrite (B6 A) in *. exists b. done.
  Qed.

  Lemma loop_inv_step s s1 mt cands D bad bb l cands' c cb :
    inv s -> loop_inv s mt cands D -> (c, cb) ∈ cands -> idx s !! bad = Some bb -> anc s bad cb -> ~ anc s bad (best s) ->
    weakened s bad s1 -> (only_bad cf -> forall id b, anc s bad id -> idx s1 !! id = Some b -> v_ok (bi_status b) = false) ->
    is_branch cf s bad (bb :: l) -> remove_tree_add_parent tc (idx s1) cands bb l mt = Ok cands' ->
    loop_inv s1 mt cands' (D ∪ list_to_set (bi_id <$> bb :: l)) /\ bad ∉ D.
  Proof.
    intros I LI Hc Hbad Ab Nb K Dead Br Rm. pose proof (core_wf _ _ _ (inv_core _ _ _ I)) as W. pose proof (wk_same _ _ _ K) as ST.
    pose proof (core_wf _ _ _ (inv_core _ _ _ (wk_inv _ _ _ K))) as W1. destruct (wf_block _ _ _ _ W Hbad) as (Gbad & Ibad & Nbad).
    destruct (li_cand _ _ _ _ LI _ Hc) as (b & Hb & Eb & Ob & Tb & Fb & Db). cbn in *.
    assert (Nd : bad ∉ D). { intro X. apply Db. eapply dead_descendant; [done|done|by eexists|exact X|done]. }
    split; [|done].
    destruct (wf_prev _ _ _ _ W Hbad) as (p & Gp & Hp & Tp).
    assert (Gp1 : is_Some (get_gen tc (idx s1) (bi_prev bb))) by (destruct (same_tree_gen _ _ _ _ _ ST Gp) as (p1 & P1 & _); by eexists).
    destruct (remove_tree_spec tc (idx s1) cands bb l mt W1 Gp1 (li_sorted _ _ _ _ LI)) as (l' & El & Sl & Il). rewrite Rm in El. injection El as <-.
    pose proof (fun id => branch_ids cf l0 s bad bb (bb :: l) id (inv_core _ _ _ I) Hbad Br) as BI.
    assert (HD : forall id, id ∈ D ∪ list_to_set (bi_id <$> bb :: l) <-> id ∈ D \/ (is_Some (idx s !! id) /\ anc s bad id)).
    { intro id. rewrite elem_of_union, elem_of_list_to_set, BI. done. }
    (* a candidate that stays is outside the branch, and so is the parent *)
    assert (Out : forall q, q ∈ cands -> (forall b0, b0 ∈ bb :: l -> q <> cand_of b0) -> ~ anc s bad (snd q)).
    { intros q Hq Nq A. destruct (li_cand _ _ _ _ LI _ Hq) as (bq & Hbq & Eq & _). apply (Nq bq); [|done]. apply (proj2 Br).
      destruct (wf_block _ _ _ _ W Hbq) as (_ & -> & _). done. }
    assert (NAp : ~ anc s bad (bi_prev bb)).
    { intro A. destruct (ancestor_known _ _ _ _ _ W Gp A) as (gb & Gb' & Le). unfold idx in *. rewrite Gbad in Gb'. injection Gb' as <-. cbn in Le. lia. }
    constructor.
    - done.
    - intros g G. rewrite (wk_best _ _ _ K) in G. destruct (same_tree_gen _ _ _ _ _ (same_tree_sym _ _ ST) G) as (g0 & G0 & _ & T0 & _).
      pose proof (li_tip _ _ _ _ LI _ G0). lia.
    - intros g G. rewrite (wk_best _ _ _ K) in G. destruct (same_tree_gen _ _ _ _ _ (same_tree_sym _ _ ST) G) as (g0 & G0 & _ & T0 & _).
      pose proof (li_tip' _ _ _ _ LI _ G0). lia.
    - intros q Hq. apply Il in Hq. destruct Hq as [[Hq Nq]|(pb & Hpb & Tpb & ->)].
      + destruct (li_cand _ _ _ _ LI _ Hq) as (bq & Hbq & Eq & Oq & Tq & Fq & Dq). pose proof (Out _ Hq Nq) as NA. exists bq.
        rewrite (wk_out _ _ _ K) by (done || by eexists). split_and!; try done; [by apply (weakened_final _ _ _ _ K)|].
        rewrite HD. intros [X|[_ X]]; done.
      + cbn. destruct (wf_block _ _ _ _ W1 Hpb) as (_ & Ip & Np).
        assert (Hpb0 : idx s !! bi_prev bb = Some pb).
        { pose proof (ST (bi_prev bb)) as X. rewrite Hpb in X. destruct (idx s !! bi_prev bb) as [pb0|] eqn:E0; [|done].
          rewrite (wk_out _ _ _ K) in Hpb by (done || by eexists). congruence. }
        assert (Aq : anc s (bi_prev bb) cb). { eapply ancestor_trans; [|exact Ab]. exact (ancestor_parent tc (idx s) (bi_prev bb) (bi_prev bb) bad bb Gbad eq_refl (ancestor_refl _ _ _)). }
        exists pb. rewrite Ip. split_and!; try done.
        * eapply (ok_ancestor cf l0 s cb b (bi_prev bb)); try done. apply I.
        * apply (weakened_final _ _ _ _ K). destruct Fb as (f & Mf & Af). exists f. split; [done|].
          (* the last final block is below the parent: the parent has more trust than the tip *)
          pose proof Mf as Mf'. apply (proj2 (co_main _ _ _ (inv_core _ _ _ I))) in Mf'. destruct Mf' as (gf & Gf & Hgf & Aft).
          destruct (wf_block _ _ _ _ W Hb) as (Gcb & _ & _). destruct (wf_block _ _ _ _ W Hpb0) as (Gpb0 & _ & _).
          destruct (N.le_gt_cases (gen_height gf) (bi_height pb)) as [Le|Gt].
          -- eapply (ancestor_linear tc (idx s) f (bi_prev bb) cb); try done.
          -- exfalso. assert (X : anc s (bi_prev bb) f).
             { eapply (ancestor_linear tc (idx s) (bi_prev bb) f cb); try done. cbn. lia. }
             destruct (co_main _ _ _ (inv_core _ _ _ I)) as [[gt Gt'] _]. pose proof (ancestor_trust cf _ _ _ _ _ W Gt' Gpb0 (ancestor_trans _ _ _ _ _ X Aft)) as Y.
             cbn in Y. pose proof (li_tip _ _ _ _ LI _ Gt'). lia.
        * rewrite HD. intros [X|[_ X]]; [|done]. apply Db. eapply dead_descendant; [done|done|by eexists|exact X|done].
    - intros id x Hx P. pose proof (ST id) as X. rewrite Hx in X. destruct (idx s !! id) as [x0|] eqn:H0; [|done].
      destruct X as (_ & X2 & _). rewrite X2 in P. rewrite HD in *. destruct (wf_block _ _ _ _ W H0) as (_ & _ & N0). destruct P as [P|[P1 P2]].
      + left. by apply (li_closed _ _ _ _ LI _ _ H0).
      + right. split; [by rewrite H0; eexists|]. apply (ancestor_cases _ _ _ _ _ H0 N0). by right.
    - intros id Hid. apply HD in Hid. assert (Kn : is_Some (idx s !! id)) by (destruct Hid as [X|[X _]]; [by apply (li_dom _ _ _ _ LI)|done]).
      destruct Kn as [y Hy]. pose proof (ST id) as X. rewrite Hy in X. destruct (idx s1 !! id); [by eexists|done].
    - intros id x1 Hx Ox Tx Fx. destruct (wk_ok _ _ _ K _ _ Hx Ox) as (x & Hx0 & Ox0 & Sx). destruct Sx as (_ & _ & _ & _ & _ & _ & Sx & _).
      rewrite Sx in Tx. apply (weakened_final _ _ _ _ K) in Fx. destruct (wf_block _ _ _ _ W Hx0) as (Gx & _ & Nx).
      destruct (anc_dec _ _ _ bad id (inv_core _ _ _ I)) as [A|A]; [by eexists|left; apply HD; right; split; [by eexists|done]|].
      destruct (li_cover _ _ _ _ LI _ _ Hx0 Ox0 Tx Fx) as [X|(q & Hq & Aq)]; [left; apply HD; by left|]. right.
      destruct (li_cand _ _ _ _ LI _ Hq) as (bq & Hbq & Eq & _). destruct (wf_block _ _ _ _ W Hbq) as (Gq & Iq & _).
      destruct (anc_dec _ _ _ bad (snd q) (inv_core _ _ _ I)) as [B|B]; [by eexists| |].
      + (* the candidate is given up: then [id] is below the parent of [bad] *)
        assert (Y : anc s id (bi_prev bb)).
        { destruct (N.le_gt_cases (bi_height bb) (bi_height x)) as [Le|Gt].
          - destruct A. eapply (ancestor_linear tc (idx s) bad id (snd q)); try done.
          - assert (Z : anc s id bad) by (eapply (ancestor_linear tc (idx s) id bad (snd q)); try done; cbn; lia).
            apply (ancestor_cases _ _ _ _ _ Hbad Nbad) in Z. destruct Z as [->|Z]; [|done]. rewrite Hx0 in Hbad. injection Hbad as <-. lia. }
        destruct p as [|pb]; [apply get_gen_gen in Gp; rewrite Gp in Y; apply ancestor_genesis_only in Y; done|].
        pose proof (ancestor_trust cf _ _ _ _ _ W Gp Gx Y) as Tr. cbn in Tr. apply get_gen_block in Gp. destruct Gp as [_ Gp].
        destruct (wf_block _ _ _ _ W Gp) as (_ & Ip & _).
        exists (cand_of pb). split; [|cbn; rewrite Ip; by apply (same_tree_ancestor _ _ _ _ _ ST)]. apply Il. right. exists pb.
        rewrite (wk_out _ _ _ K) by (done || by eexists). split_and!; [done|lia|done].
      + exists q. split; [|by apply (same_tree_ancestor _ _ _ _ _ ST)]. apply Il. left. split; [done|]. intros b0 Hb0 E. apply B. apply (proj2 Br) in Hb0. rewrite E. cbn. apply Hb0.
    - intros OB id x Hid Hx. apply HD in Hid. destruct Hid as [X|[_ X]]; [|exact (Dead OB _ _ X Hx)].
      destruct (v_ok (bi_status x)) eqn:Ox; [|done]. destruct (wk_ok _ _ _ K _ _ Hx Ox) as (x0 & H0 & O0 & _). rewrite (li_dead _ _ _ _ LI OB _ _ X H0) in O0. done.
  Qed.

  Notation no_panics := (no_panics cf).
  Lemma last_db_app (s : db L) l1 l2 : last_db s (l1 ++ l2) = last_db (last_db s l1) l2.
  Proof.
    unfold last_db. destruct (list_eq_nil_dec l2) as [->|N]; [by rewrite app_nil_r|]. destruct (exists_last N) as (l & x & ->).
    rewrite app_assoc, !last_snoc. done.
  Qed.
  (** The commits and the result of the loop *)
  Definition good_commit (s s' : db L) : Prop := inv s' /\ final_kept s s'.
  Definition loop_post (s : db L) (out : list (db L) * res block_err bool) : Prop :=
    Forall (good_commit s) (fst out) /\
    match snd out with
    | Ok _ => (only_bad cf -> tip_is_best cf (last_db s (fst out)))
    | Err _ => ~ disconnect_undoes cf
    | Panic => ~ (no_panics /\ fits s)
    end.
  Lemma good_commit_trans s s1 s2 : good_commit s s1 -> good_commit s1 s2 -> good_commit s s2.
  Proof. intros [_ F1] [I F2]. split; [done|]. eapply final_trans; done. Qed.
  Lemma fits_same (s s1 : db L) : same_tree (idx s) (idx s1) -> fits s -> fits s1.
  Proof.
    intros ST F id b Hb. pose proof (ST id) as X. rewrite Hb in X. destruct (idx s !! id) as [b0|] eqn:H0; [|done]. destruct (F _ _ H0) as [F1 F2].
    destruct X as (_ & _ & _ & X4 & _ & _ & X7 & _). lia.
  Qed.
  (** When the best candidate has become the tip *)
  Lemma activated_best s mt cands D b s' : inv s -> loop_inv s mt cands D -> best_item cands = Some (cand_of b) -> idx s !! bi_id b = Some b ->
    inv s' -> kept (idx s) (idx s') -> final_kept s s' -> best s' = bi_id b -> only_bad cf -> tip_is_best cf s'.
  Proof.
    intros I LI Bi Hb I' K F B' OB id x' Hx Ox Fx. destruct (kept_bwd _ _ _ _ K Hx) as (x & X0 & Sx & X1 & X2). rewrite X2 in Ox.
    pose proof (core_wf _ _ _ (inv_core _ _ _ I)) as W. pose proof (core_wf _ _ _ (inv_core _ _ _ I')) as W'.
    destruct (kept_fwd _ _ _ _ K Hb) as (b' & Hb' & Sb & _). destruct (wf_block _ _ _ _ W' Hb') as (Gb' & _ & _).
    exists (Block b'). rewrite B'. split; [done|]. cbn.
    destruct Sb as (_ & _ & _ & _ & _ & _ & Sb & _), Sx as (_ & _ & _ & _ & _ & _ & Sx & _). rewrite Sb, Sx.
    destruct (best_item_greatest _ _ (li_sorted _ _ _ _ LI) Bi) as [Hin Gr].
    destruct (N.lt_ge_cases (bi_trust x) mt) as [Lt|Ge].
    - destruct (li_cand _ _ _ _ LI _ Hin) as (b0 & H0 & E0 & _ & T0 & _). unfold cand_of in E0. injection E0 as E1 E2. lia.
    - assert (Fx0 : extends_final cf s id).
      { eapply final_back; [done|exact I'|by apply kept_ext|done|eapply ok_hard; [apply I|done|done]| |done].
        destruct (wf_block _ _ _ _ W' Hx) as (Gx & _ & _). by eexists. }
      destruct (li_cover _ _ _ _ LI _ _ X0 Ox Ge Fx0) as [X|(q & Hq & Aq)].
      + rewrite (li_dead _ _ _ _ LI OB _ _ X X0) in Ox. done.
      + destruct (li_cand _ _ _ _ LI _ Hq) as (bq & Hbq & Eq & _). destruct (wf_block _ _ _ _ W Hbq) as (Gq & _ & _). destruct (wf_block _ _ _ _ W X0) as (Gx & _ & _).
        pose proof (ancestor_trust cf _ _ _ _ _ W Gq Gx Aq) as T. cbn in T. destruct (Gr _ Hq) as [E|E].
        * rewrite Eq in E. unfold cand_of in E. injection E as E1 E2. lia.
        * rewrite Eq in E. unfold cand_lt, cand_of in E. cbn in E. lia.
  Qed.
  Lemma no_candidates_best s mt D : inv s -> loop_inv s mt [] D -> only_bad cf -> tip_is_best cf s.
  Proof.
    intros I LI OB id x Hx Ox Fx. destruct (co_main _ _ _ (inv_core _ _ _ I)) as [[g G] _]. exists g. split; [done|].
    destruct (N.lt_ge_cases (bi_trust x) mt) as [Lt|Ge]; [pose proof (li_tip' _ _ _ _ LI _ G); lia|].
    destruct (li_cover _ _ _ _ LI _ _ Hx Ox Ge Fx) as [X|(q & Hq & _)]; [|by apply elem_of_nil in Hq].
    rewrite (li_dead _ _ _ _ LI OB _ _ X Hx) in Ox. done.
  Qed.
  Lemma should_invalidate_fault e : only_bad cf -> connect_fault cf e -> should_invalidate e = true.
  Proof. intros OB (l & blk & c & Cn & ->). apply OB in Cn. subst. done. Qed.
  Lemma same_tree_dom (t t' : index_map) : same_tree t t' -> dom t' = dom t.
  Proof.
    intro ST. apply set_eq. intro id. rewrite !elem_of_dom. pose proof (ST id) as X. destruct (t !! id), (t' !! id); try done.
    all: split; intros [y Hy]; done.
  Qed.

  (** The two ways of getting the branch to give up *)
  Lemma stale_spec s bad explicit bb : core s -> idx s !! bad = Some bb -> ~ anc s bad (best s) ->
    (exists l t', invalidate_stale_block cf bad explicit s = ([with_tree s t'], Ok (bb :: l)) /\ collect_stale cf bad s = ([], Ok (bb :: l)) /\
       is_branch cf s bad (bb :: l) /\ marks cf s bad t') \/
    (~ fits s /\ invalidate_stale_block cf bad explicit s = ([], Panic) /\ collect_stale cf bad s = ([], Panic)).
  Proof.
    intros I Hb Na. destruct (wf_block _ _ _ _ (core_wf _ _ _ I) Hb) as (Gb & _ & _).
    assert (Im : in_main_chain tc (d_tree s) bad = false).
    { apply not_true_is_false. rewrite (in_main_iff cf l0) by (done || by eexists). done. }
    destruct (collect_branch_cases cf l0 s bad I) as [(rb & l & Hr & E & Br)|[[X _]|(_ & Nf & E)]]; [|congruence|].
    - left. unfold idx in *. rewrite Hb in Hr. injection Hr as <-. destruct (mark_all_spec cf l0 s bad bb l explicit I Hb Br) as (t' & Em & M).
      exists l, t'. unfold invalidate_stale_block, collect_stale, cbind, tx, cret. unfold idx. rewrite Im, E. cbn [q rmap_err last_db last default app].
      unfold last_db. cbn [last default]. change (default s None) with s. rewrite Em. done.
    - right. unfold invalidate_stale_block, collect_stale, cbind, tx, cret. unfold idx in *. rewrite Im, E. done.
  Qed.

  Lemma loop_spec fuel : forall s mt cands D, inv s -> loop_inv s mt cands D -> (size (dom (idx s) ∖ D) < fuel)%nat ->
    loop_post s (activate_loop cf fuel mt cands s).
  Proof.
    induction fuel as [|fuel IH]; intros s mt cands D I LI Fu; [lia|]. cbn [activate_loop].
    destruct (best_item cands) as [[c id]|] eqn:Bi.
    2:{ apply best_item_none in Bi. subst. split; [constructor|]. cbn. by apply (no_candidates_best s mt D). }
    destruct (best_item_greatest _ _ (li_sorted _ _ _ _ LI) Bi) as [Hin Gr].
    destruct (li_cand _ _ _ _ LI _ Hin) as (b & Hb & Eb & Ob & Tb & Fb & Db). cbn [snd] in *.
    pose proof (core_wf _ _ _ (inv_core _ _ _ I)) as W. destruct (wf_block _ _ _ _ W Hb) as (Gb & Ib & Nb).
    unfold cand_of in Eb. injection Eb as -> E2. destruct (N.ltb_spec (bi_trust b) mt) as [X|_]; [lia|].
    unfold get_existing. rewrite Hb. cbn [ok_or rmap_err rbind]. rewrite <- Ib in Hb.
    destruct (activate_spec cf l0 s b (inv_core _ _ _ I) Hb) as (g & G & A).
    destruct (activate_best_chain cf s b) as [[[|] s']|[bad e|e]|]; cbn [rbind].
    - destruct A as (_ & H' & K & B' & Mn & _). destruct (activated s b s' I Hb) as [I' F']; [by rewrite Ib|done..|]. split; [by constructor|].
      cbn. intro OB. change (last_db s [s']) with s'. eapply (activated_best s mt cands D b s'); try done. rewrite Bi. unfold cand_of. by rewrite Ib.
    - destruct A as (X & _). pose proof (li_tip _ _ _ _ LI _ G). lia.
    - destruct A as (bb & Hbad & Abad & Nbad & Flt). specialize (Flt Ob (inv_marked _ _ _ I)). rewrite Ib in Abad.
      destruct (stale_spec s bad false bb (inv_core _ _ _ I) Hbad Nbad) as [(l & t' & Ei & Ec & Br & M)|(Nf & Ei & Ec)].
      2:{ assert (P : ((if should_invalidate e then invalidate_stale_block cf bad false else collect_stale cf bad) s) = ([], Panic)) by (by destruct (should_invalidate e)).
          unfold cbind at 1. rewrite P. split; [constructor|]. cbn. tauto. }
      set (s1 := if should_invalidate e then with_tree s t' else s).
      assert (E1 : ((if should_invalidate e then invalidate_stale_block cf bad false else collect_stale cf bad) s) =
                   ((if should_invalidate e then [s1] else []), Ok (bb :: l))) by (unfold s1; by destruct (should_invalidate e)).
      assert (Es1 : last_db s (if should_invalidate e then [s1] else []) = s1) by (unfold s1; by destruct (should_invalidate e)).
      assert (K : weakened s bad s1) by (unfold s1; destruct (should_invalidate e); [by apply weakened_marks|by apply weakened_refl]).
      assert (Dead : only_bad cf -> forall x y, anc s bad x -> idx s1 !! x = Some y -> v_ok (bi_status y) = false).
      { intros OB x y Ax Hy. unfold s1 in Hy. rewrite (should_invalidate_fault _ OB Flt) in Hy. cbn in Hy.
        destruct (marks_bwd _ _ _ _ _ _ M Hy) as (y0 & _ & _ & _ & _ & Y & _). auto. }
      pose proof (core_wf _ _ _ (inv_core _ _ _ (wk_inv _ _ _ K))) as W1.
      destruct (wf_prev _ _ _ _ W Hbad) as (p & Gp & _). destruct (same_tree_gen _ _ _ _ _ (wk_same _ _ _ K) Gp) as (p1 & Gp1 & _).
      destruct (remove_tree_spec tc (idx s1) cands bb l mt W1 ltac:(by eexists) (li_sorted _ _ _ _ LI)) as (cands' & Rm & _).
      destruct (loop_inv_step s s1 mt cands D bad bb l cands' (bi_trust b) id I LI Hin Hbad Abad Nbad K Dead Br Rm) as [LI' Nd].
      specialize (IH s1 mt cands' _ (wk_inv _ _ _ K) LI').
      assert (Sz : (size (dom (idx s1) ∖ (D ∪ list_to_set (bi_id <$> bb :: l))) < fuel)%nat).
      { rewrite (same_tree_dom _ _ (wk_same _ _ _ K)). eapply Nat.lt_le_trans; [|apply Nat.lt_succ_r; exact Fu]. apply subset_size. split.
        - intros x Hx. apply elem_of_difference in Hx. destruct Hx as [X1 X2]. apply elem_of_difference. split; [done|]. intro X. apply X2. apply elem_of_union. by left.
        - intro X. specialize (X bad). assert (Y : bad ∈ dom (idx s) ∖ D) by (apply elem_of_difference; split; [apply elem_of_dom; by eexists|done]).
          specialize (X Y). apply elem_of_difference in X. destruct X as [_ X]. apply X. apply elem_of_union. right. apply elem_of_list_to_set.
          apply (branch_ids cf l0 s bad bb _ _ (inv_core _ _ _ I) Hbad Br). split; [by eexists|apply ancestor_refl]. }
      specialize (IH Sz).
      assert (Out : cbind (if should_invalidate e then invalidate_stale_block cf bad false else collect_stale cf bad) (fun l =>
                  cbind cget (fun s =>
                  match l with
                  | [] => cret Panic
                  | root :: rest =>
                      cbind (cret (q (remove_tree_add_parent tc (idx s) cands root rest mt))) (fun cands' =>
                      activate_loop cf fuel mt cands')
                  end)) s = ((if should_invalidate e then [s1] else []) ++ fst (activate_loop cf fuel mt cands' s1), snd (activate_loop cf fuel mt cands' s1))).
      { unfold cbind at 1. rewrite E1, Es1. unfold cbind, cget, cret. unfold last_db. cbn [last default]. change (default s1 None) with s1.
        rewrite Rm. cbn [q rmap_err]. change (default s1 None) with s1. destruct (activate_loop cf fuel mt cands' s1) as [l1 r1]. done. }
      rewrite Out. clear Out E1. destruct (activate_loop cf fuel mt cands' s1) as [l1 r1]. destruct IH as [IH1 IH2]. cbn [fst snd] in *.
      assert (F1 : final_kept s s1) by (unfold s1; destruct (should_invalidate e); [apply final_with_tree|apply final_refl]).
      split; cbn [fst snd].
      + apply Forall_app. split.
        * destruct (should_invalidate e); [|done]. constructor; [|done]. split; [apply K|done].
        * eapply Forall_impl; [exact IH1|]. intros x Hx. eapply good_commit_trans; [|exact Hx]. split; [apply K|done].
      + rewrite last_db_app, Es1. destruct r1; [done|done|]. intros [N1 N2]. apply IH2. split; [done|]. by apply (fits_same s s1 (wk_same _ _ _ K)).
    - split; [constructor|]. done.
    - split; [constructor|]. cbn. tauto.
  Qed.
  Lemma climb s mt : inv s -> forall id b, idx s !! id = Some b -> v_ok (bi_status b) = true -> mt <= bi_trust b -> extends_final cf s id ->
    exists c, candidate_tip tc (d_tree s) mt c /\ anc s id (bi_id c).
  Proof.
    intro I. pose proof (core_wf _ _ _ (inv_core _ _ _ I)) as W. intros id b. remember (U64_MAX - bi_height b) as n eqn:En. revert id b En.
    induction n as [n IH] using (well_founded_induction N.lt_wf_0). intros id b En Hb Ob Tb Fb. destruct (wf_block _ _ _ _ W Hb) as (Gb & Ib & Nb).
    destruct (decide (Exists (fun p : N * bindex => v_ok (bi_status (snd p)) = true /\ mt <= bi_trust (snd p) /\ bi_prev (snd p) = id) (map_to_list (idx s)))) as [X|X].
    - apply Exists_exists in X. destruct X as ((cid & c) & Hc & Oc & Tc & Pc). cbn [snd] in Oc, Tc, Pc. apply elem_of_map_to_list in Hc.
      destruct (wf_prev _ _ _ _ W Hc) as (p & Gp & Hp & _). rewrite Pc in Gp. unfold idx in *. rewrite Gb in Gp. injection Gp as <-. cbn in Hp.
      destruct (W _ _ Hc) as (_ & _ & Hm & _). destruct (wf_block _ _ _ _ W Hc) as (Gc & _ & _).
      assert (Hlt : U64_MAX - bi_height c < n) by lia. destruct (IH _ Hlt cid c eq_refl Hc Oc Tc) as (z & Z1 & Z2).
      + destruct Fb as (f & F1 & F2). exists f. split; [done|]. eapply ancestor_parent; [exact Gc|done|done].
      + exists z. split; [done|]. eapply ancestor_trans; [|exact Z2]. eapply ancestor_parent; [exact Gc|done|apply ancestor_refl].
    - exists b. rewrite Ib. split; [|apply ancestor_refl]. split_and!.
      + split_and!; [by rewrite Ib|done|done].
      + apply (fork_final cf l0 s b I); rewrite Ib; done.
      + intros c (C1 & C2 & C3) Pc. apply X. apply Exists_exists. exists (bi_id c, c). split; [by apply elem_of_map_to_list|]. cbn. split_and!; [done|done|congruence].
  Qed.
  Lemma find_spec s : inv s -> loop_post s (find_and_activate_best_chain cf s).
  Proof.
    intro I. pose proof (inv_core _ _ _ I) as H. destruct (best_gen _ _ _ H) as (g & G & E). pose proof (core_wf _ _ _ H) as W.
    unfold find_and_activate_best_chain. unfold cbind at 1. unfold cget at 1. unfold last_db at 1. cbn [last default]. change (default s None) with s.
    unfold cbind at 1. rewrite E. unfold cret at 1. cbn [q rmap_err]. unfold last_db at 1. cbn [last default]. change (default s None) with s.
    unfold cbind at 1. unfold cret at 1. unfold checked_add. destruct (N.leb_spec (gen_trust g + 1) U256_MAX) as [Le|Gt]; cbn [expect].
    2:{ split; [constructor|]. cbn. intros [_ F]. destruct g as [|b]; [exfalso; revert Gt; cbn [gen_trust]; vm_compute; done|]. apply get_gen_block in G. destruct G as [_ G].
        destruct (F _ _ G). cbn [gen_trust] in Gt. lia. }
    unfold last_db at 1. cbn [last default]. change (default s None) with s.
    destruct (candidates_spec tc (d_tree s) (gen_trust g + 1) W) as (cands & Ec & Sc & Ic); [by eexists|].
    unfold cbind at 1. rewrite Ec. unfold cret at 1. cbn [q rmap_err]. unfold last_db at 1. cbn [last default]. change (default s None) with s.
    assert (P : loop_post s (activate_loop cf (S (size (idx s))) (gen_trust g + 1) cands s)).
    { apply (loop_spec _ s _ cands ∅ I).
      - constructor.
        + done.
        + intros g' G'. rewrite G in G'. injection G' as <-. lia.
        + intros g' G'. rewrite G in G'. injection G' as <-. lia.
        + intros p Hp. apply Ic in Hp. destruct Hp as (b & ((B1 & B2 & B3) & B4 & _) & ->). exists b. cbn. split_and!; try done.
          by apply (fork_final cf l0 s b I).
        + intros id b _ X. by apply not_elem_of_empty in X.
        + intros id X. by apply not_elem_of_empty in X.
        + (* every good block is below a candidate: climb while there is a better child *)
          intros id b Hb Ob Tb Fb. right. destruct (climb s (gen_trust g + 1) I id b Hb Ob Tb Fb) as (c & Cc & Ac). exists (cand_of c).
          split; [apply Ic; by exists c|done].
        + intros _ id b X. by apply not_elem_of_empty in X.
      - rewrite difference_empty_L, size_dom. lia. }
    destruct (activate_loop cf (S (size (idx s))) (gen_trust g + 1) cands s) as [l1 r1]. done.
  Qed.
End ChainstateRun.
