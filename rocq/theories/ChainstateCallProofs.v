(** Proofs about whole API calls. *)
From Coq Require Import Sorted.
From Verif Require Import Base BaseProofs StatusModel StatusSpec BlockTreeModel BlockTreeSpec BlockTreeProofs BlockTreeMoreProofs BranchProofs
  ChainstateModel ChainstateSpec ChainstateProofs ChainstateApiProofs ChainstateRunProofs.
Local Open Scope N_scope.

Section ChainstateCall.
  Context {L : Type} (cf : chain_cfg L) (l0 : L).
  Notation tc := (cc_tree cf).
  Notation best s := (t_best (d_tree s)).
  Notation main s := (t_main (d_tree s)).
  Notation anc s := (ancestor tc (idx s)).
  Notation gen s := (get_gen tc (idx s)).
  Notation minh s := (t_min (d_tree s)).
  Notation core := (core cf l0).
  Notation inv := (inv cf l0).
  Notation no_panics := (no_panics cf).

  (** *** Checks of a new block *)
  Lemma parent_checkpoint_some h id : cc_checkpoints cf !! 0 = Some id -> is_Some (parent_checkpoint cf h).
  Proof.
    unfold parent_checkpoint. apply (map_fold_ind (fun (r : option (N * N)) (m : gmap N N) => m !! 0 = Some id -> is_Some r)).
    - intro X. by rewrite lookup_empty in X.
    - intros k x m r Hk IH X. destruct (N.leb_spec k h) as [Le|Gt].
      + destruct r as [[k' x']|]; [destruct (k' <? k)|]; by eexists.
      + apply IH. rewrite lookup_insert_ne in X by lia. done.
  Qed.
  Definition passed (s : db L) (blk : new_block) : Prop :=
    exists p, gen s (nb_prev blk) = Some p /\ gen_ok p = true /\
        (cc_mismatch_allowed cf = false -> forall cid, cc_checkpoints cf !! (gen_height p + 1) = Some cid -> nb_id blk = cid) /\
        extends_final cf s (nb_prev blk) /\ exists m, median_time_past tc (idx s) (nb_prev blk) = Ok m /\ m <= nb_time blk.
  Lemma check_block_spec s blk b : inv s -> idx s !! nb_id blk = None -> create_block_index tc (idx s) blk v_new = Ok b ->
    match check_block cf s blk with
    | Ok _ => passed s blk
    | Err _ => True
    | Panic => cc_checkpoints cf !! 0 = None
    end.
  Proof.
    intros I Hn Cr. pose proof (inv_core _ _ _ I) as H. pose proof (core_wf _ _ _ H) as W.
    destruct (create_index_spec _ _ _ _ _ W Cr) as (p & Gp & _ & _ & _ & Hh & Hm & _).
    unfold check_block, skip_check. rewrite Hn. cbn [rbind]. unfold check_header, check_block_parent. rewrite Gp. cbn [ok_or rbind].
    unfold ensure at 1. destruct (gen_ok p) eqn:Op; cbn [rbind]; [|done].
    unfold enforce_checkpoints. rewrite Gp. cbn [ok_or q rmap_err rbind]. unfold next_height, checked_add.
    destruct (N.leb_spec (gen_height p + 1) U64_MAX); [|lia]. cbn [expect rmap_err rbind].
    (* what remains after the checkpoints *)
    assert (Rest : (cc_mismatch_allowed cf = false -> forall cid, cc_checkpoints cf !! (gen_height p + 1) = Some cid -> nb_id blk = cid) ->
      match (let? _ := check_reorg_depth cf s blk in let? _ := other_check (cc_check_header cf s blk) in
             let? median := q (median_time_past tc (idx s) (nb_prev blk)) in
             ensure (median <=? nb_time blk) BlockTimeOrderInvalid) with
      | Ok _ => passed s blk
      | Err _ => True
      | Panic => False
      end).
    { intro Cp. unfold check_reorg_depth. rewrite Gp. cbn [ok_or q rmap_err rbind]. destruct (best_gen _ _ _ H) as (g & G & E).
      unfold lca_in_main_chain. rewrite E. cbn [rbind]. destruct (lca_spec _ _ _ _ _ _ W Gp G) as (lg & El & Gl & A1 & A2 & _).
      unfold idx in El. rewrite El. cbn [q rmap_err rbind]. unfold ensure at 1. destruct (N.leb_spec (minh s) (gen_height lg)) as [Le|Gt]; cbn [rbind]; [|done].
      destruct (cc_check_header cf s blk); cbn [other_check rbind]; [done|].
      destruct (median_time_past_spec tc (idx s) (nb_prev blk)) as (m & Em & _); [by eexists|]. rewrite Em. cbn [q rmap_err rbind]. unfold ensure.
      destruct (N.leb_spec m (nb_time blk)) as [Lm|Lm]; [|done]. exists p. split_and!; try done; [|by exists m].
      destruct (main_at _ _ _ (minh s) I ltac:(lia)) as (x & gx & Mx & Gx & Hx & Ax). exists x. split; [done|].
      eapply ancestor_trans; [|exact A1]. eapply (ancestor_linear tc (idx s) x (gen_id tc lg) (best s)); [done|exact G|done|done|done|done|lia]. }
    assert (Body : forall r : res block_err unit, (r = Ok tt -> (cc_mismatch_allowed cf = false -> forall cid, cc_checkpoints cf !! (gen_height p + 1) = Some cid -> nb_id blk = cid)) ->
      (r = Panic -> cc_checkpoints cf !! 0 = None) ->
      match (let? _ := (let? _ := r in let? _ := check_reorg_depth cf s blk in let? _ := other_check (cc_check_header cf s blk) in
             let? median := q (median_time_past tc (idx s) (nb_prev blk)) in
             ensure (median <=? nb_time blk) BlockTimeOrderInvalid) in other_check (cc_check_body cf s blk)) with
      | Ok _ => passed s blk
      | Err _ => True
      | Panic => cc_checkpoints cf !! 0 = None
      end).
    { intros r R1 R2. destruct r as [[]|e|]; cbn [rbind]; [|done|by apply R2]. specialize (Rest (R1 eq_refl)).
      destruct (let? _ := check_reorg_depth cf s blk in _) as [u|e|]; cbn [rbind]; [|done|done]. destruct (cc_check_body cf s blk); cbn; done. }
    apply Body.
    - intros R Ma cid Hc. cbn [q rmap_err rbind] in R. rewrite Hc in R. unfold enforce_checkpoint_impl in R. destruct (N.eqb_spec (nb_id blk) cid); [done|]. rewrite Ma in R. done.
    - intro R. cbn [q rmap_err rbind] in R. destruct (cc_checkpoints cf !! 0) as [g0|] eqn:E0; [|done]. exfalso. destruct (cc_checkpoints cf !! (gen_height p + 1)) as [ex|] eqn:Ec.
      + unfold enforce_checkpoint_impl in R. destruct (nb_id blk =? ex); [done|]. destruct (cc_mismatch_allowed cf); done.
      + destruct (parent_checkpoint_some (gen_height p + 1) _ E0) as [[k ex] Ek]. rewrite Ek in R. cbn [expect rbind] in R.
        destruct (N.le_gt_cases k (gen_height p)) as [Le|Gt].
        * destruct (get_ancestor_spec _ _ _ _ _ W Gp Le) as (ga & Ea & _). rewrite Ea in R. cbn [q rmap_err rbind] in R.
          unfold enforce_checkpoint_impl in R. destruct (_ =? ex); [done|]. destruct (cc_mismatch_allowed cf); done.
        * unfold get_ancestor in R. destruct (N.ltb_spec (gen_height p) k); [|lia]. done.
  Qed.

  (** *** A new index *)
  Lemma unknown_gen t id g : t !! id = None -> id <> genesis_id tc -> get_gen tc t id = Some g -> False.
  Proof. intros Hn Ng G. unfold get_gen in G. rewrite (proj2 (N.eqb_neq _ _) Ng), Hn in G. done. Qed.
  Lemma no_child t id b x : wf tc t -> t !! id = None -> id <> genesis_id tc -> t !! x = Some b -> bi_prev b <> id.
  Proof.
    intros W Hn Ng Hb E. destruct (wf_prev _ _ _ _ W Hb) as (p & Gp & _). rewrite E in Gp. destruct (unknown_gen _ _ _ Hn Ng Gp).
  Qed.
  Lemma add_lookup (t : index_map) id b x y : <[id := b]> t !! x = Some y -> (x = id /\ y = b) \/ (x <> id /\ t !! x = Some y).
  Proof. intro H. destruct (decide (x = id)) as [->|N]; [rewrite lookup_insert in H; injection H as <-; by left|rewrite lookup_insert_ne in H by done; by right]. Qed.
  Lemma add_ext (t : index_map) id b : t !! id = None -> ext t (<[id := b]> t).
  Proof. intros Hn x y Hy P. exists y. rewrite lookup_insert_ne by congruence. done. Qed.
  Lemma add_built s blk b b' st : core s -> nb_id blk <> genesis_id tc -> idx s !! nb_id blk = None -> create_block_index tc (idx s) blk st = Ok b -> same_block b b' ->
    built tc (<[nb_id blk := b']> (idx s)).
  Proof.
    intros H Ng Hn Cr Sb. destruct (create_index_spec _ _ _ _ _ (core_wf _ _ _ H) Cr) as (p & _ & I & _). rewrite <- I.
    exact (built_add _ _ _ _ _ _ (co_built _ _ _ H) Ng Hn Cr Sb).
  Qed.
  Definition below_parent (s : db L) (blk : new_block) (v : view) : Prop :=
    forall p, idx s !! nb_prev blk = Some p -> (v_ok v = true -> v_ok (bi_status p) = true) /\ stage_code (v_stage v) <= stage_code (v_stage (bi_status p)).
  Lemma core_add_index s blk b v : core s -> nb_id blk <> genesis_id tc -> idx s !! nb_id blk = None -> create_block_index tc (idx s) blk v_new = Ok b ->
    below_parent s blk v -> core (with_tree s (<[nb_id blk := with_status b v]> (idx s))).
  Proof.
    intros H Ng Hn Cr Bp. pose proof (core_wf _ _ _ H) as W. destruct (create_index_spec _ _ _ _ _ W Cr) as (p & Gp & Ib & Pb & Tb & Hh & _ & _ & _ & _ & _ & Per & _).
    apply core_with_tree; [done|by eapply (add_built s blk b (with_status b v))|by apply add_ext|..].
    - intros id x Hx Px. apply add_lookup in Hx. destruct Hx as [[-> ->]|[_ Hx]]; [cbn in Px; congruence|]. exists x. split_and!; done || lia.
    - intros id x y Hx Ox Hy. apply add_lookup in Hx. destruct Hx as [[-> ->]|[Nx Hx]].
      + cbn in Hy, Ox. rewrite Pb in Hy. apply add_lookup in Hy. destruct Hy as [[E _]|[_ Hy]].
        * rewrite E in Gp. destruct (unknown_gen _ _ _ Hn Ng Gp).
        * by apply (Bp _ Hy).
      + rewrite lookup_insert_ne in Hy by (intro Z; exact (no_child _ _ _ _ W Hn Ng Hx (eq_sym Z))). exact (co_okp _ _ _ H _ _ _ Hx Ox Hy).
    - intros id x y Hx Hy. apply add_lookup in Hx. destruct Hx as [[-> ->]|[Nx Hx]].
      + cbn in Hy. rewrite Pb in Hy. apply add_lookup in Hy. destruct Hy as [[E _]|[_ Hy]].
        * rewrite E in Gp. destruct (unknown_gen _ _ _ Hn Ng Gp).
        * by apply (Bp _ Hy).
      + rewrite lookup_insert_ne in Hy by (intro Z; exact (no_child _ _ _ _ W Hn Ng Hx (eq_sym Z))). exact (co_stage _ _ _ H _ _ _ Hx Hy).
    - intros id x Hx A. apply add_lookup in Hx. destruct Hx as [[-> ->]|[Nx Hx]].
      + destruct (co_main _ _ _ H) as [[g G] _]. destruct (ancestor_known _ _ _ _ _ W G A) as (ga & Ga & _). destruct (unknown_gen _ _ _ Hn Ng Ga).
      + destruct (co_mainok _ _ _ H _ _ Hx A) as (_ & ? & ?). done.
  Qed.
  (** Blocks without data below a valid block have data themselves *)
  Lemma ok_parent s blk p : inv s -> gen s (nb_prev blk) = Some p -> gen_ok p = true ->
    hard cf (idx s) (nb_prev blk) /\ forall pb, idx s !! nb_prev blk = Some pb -> v_ok (bi_status pb) = true /\ bi_persisted pb = true /\ 1 <= stage_code (v_stage (bi_status pb)).
  Proof.
    intros I Gp Op. pose proof (inv_core _ _ _ I) as H. pose proof (core_wf _ _ _ H) as W. destruct p as [|b].
    - apply get_gen_gen in Gp. split; [by left|]. intros pb Hb. rewrite Gp in Hb. destruct (wf_block _ _ _ _ W Hb) as (_ & _ & X). done.
    - apply get_gen_block in Gp. destruct Gp as [_ Gp]. cbn in Op. destruct (ok_hard cf _ _ _ (inv_marked _ _ _ I) Gp Op) as [E|(b' & B' & P)].
      + rewrite E in Gp. destruct (wf_block _ _ _ _ W Gp) as (_ & _ & X). done.
      + split; [right; by exists b'|]. intros pb Hb. assert (pb = b) as -> by congruence. assert (b' = b) as -> by congruence. split_and!; try done.
        pose proof (co_checked _ _ _ H _ _ Gp P) as X. destruct (v_stage (bi_status b)); cbn; [done|lia..].
  Qed.
  Definition v_checked : view := View CheckBlockOk false false false.
  Definition added (s : db L) (blk : new_block) (b : bindex) : db L :=
    Db (Tree (<[nb_id blk := make_persisted (with_status b v_checked)]> (idx s)) (main s) (best s) (minh s)) (<[nb_id blk := blk]> (d_blocks s)) (d_ledger s).
  Lemma core_add s blk b : inv s -> nb_id blk <> genesis_id tc -> idx s !! nb_id blk = None -> create_block_index tc (idx s) blk v_new = Ok b ->
    passed s blk -> inv (added s blk b) /\ extends_final cf (added s blk b) (nb_id blk) /\ d_blocks s !! nb_id blk = None.
  Proof.
    intros I Ng Hn Cr (p & Gp & Op & Cp & Fin & m & Em & Lm). pose proof (inv_core _ _ _ I) as H. pose proof (core_wf _ _ _ H) as W.
    destruct (create_index_spec _ _ _ _ _ W Cr) as (p' & Gp' & Ib & Pb & Tb & Hh & _ & _ & _ & _ & _ & Per & _). rewrite Gp in Gp'. injection Gp' as <-.
    destruct (ok_parent s blk p I Gp Op) as [Hp Pok]. set (b' := make_persisted (with_status b v_checked)).
    assert (Bt : built tc (<[nb_id blk := b']> (idx s))) by by eapply (add_built s blk b b').
    pose proof (built_wf _ _ Bt) as W'. assert (E : ext (idx s) (<[nb_id blk := b']> (idx s))) by by apply add_ext.
    pose proof (co_per _ _ _ H) as C. pose proof (best_hard _ _ _ H) as BH.
    assert (Hb' : <[nb_id blk := b']> (idx s) !! nb_id blk = Some b') by apply lookup_insert.
    assert (Np : nb_prev blk <> nb_id blk).
    { intro X. rewrite X in Gp. destruct (unknown_gen _ _ _ Hn Ng Gp). }
    assert (Nbest : forall x, ancestor tc (<[nb_id blk := b']> (idx s)) x (best s) -> x <> nb_id blk).
    { intros x A ->. apply (ext_ancestor _ _ _ _ _ E W C BH) in A. destruct (co_main _ _ _ H) as [[g G] _]. destruct (ancestor_known _ _ _ _ _ W G A) as (ga & Ga & _). destruct (unknown_gen _ _ _ Hn Ng Ga). }
    assert (Dn : d_blocks s !! nb_id blk = None).
    { destruct (d_blocks s !! nb_id blk) as [y|] eqn:Ey; [|done]. destruct (co_index _ _ _ H _ _ Ey) as (z & Hz & _). congruence. }
    assert (Co : core (added s blk b)).
    { constructor; cbn [d_tree d_blocks d_ledger added t_main t_best t_min t_idx]; fold b'; change (idx (added s blk b)) with (<[nb_id blk := b']> (idx s)).
      - done.
      - exact (ext_listed cf l0 s _ H W' E).
      - intros id x Hx P. apply add_lookup in Hx. destruct Hx as [[-> ->]|[Nx Hx]]; [rewrite lookup_insert; by eexists|]. rewrite lookup_insert_ne by done. exact (co_data _ _ _ H _ _ Hx P).
      - intros id x Hx. destruct (decide (id = nb_id blk)) as [->|Nx].
        + rewrite lookup_insert in Hx. injection Hx as <-. exists b'. cbn. unfold idx. cbn. rewrite lookup_insert. split_and!; done.
        + rewrite lookup_insert_ne in Hx by done. destruct (co_index _ _ _ H _ _ Hx) as (y & Hy & Q). exists y. unfold idx. cbn. rewrite lookup_insert_ne by done. done.
      - intros id x y Hx P Hy. apply add_lookup in Hx. destruct Hx as [[-> ->]|[Nx Hx]].
        + cbn in Hy. rewrite Pb, lookup_insert_ne in Hy by done. by apply Pok.
        + rewrite lookup_insert_ne in Hy by (intro Z; exact (no_child _ _ _ _ W Hn Ng Hx (eq_sym Z))). exact (co_per _ _ _ H _ _ _ Hx P Hy).
      - intros id x Hx P. apply add_lookup in Hx. destruct Hx as [[-> ->]|[Nx Hx]]; [done|]. exact (co_checked _ _ _ H _ _ Hx P).
      - intros id x y Hx P Hy. apply add_lookup in Hx. destruct Hx as [[-> ->]|[Nx Hx]].
        + cbn in Hy. rewrite Pb, lookup_insert_ne in Hy by done. by apply Pok.
        + rewrite lookup_insert_ne in Hy by (intro Z; exact (no_child _ _ _ _ W Hn Ng Hx (eq_sym Z))). exact (co_okp _ _ _ H _ _ _ Hx P Hy).
      - intros id x y Hx Hy. apply add_lookup in Hx. destruct Hx as [[-> ->]|[Nx Hx]].
        + cbn in Hy. rewrite Pb, lookup_insert_ne in Hy by done. cbn. by apply Pok.
        + rewrite lookup_insert_ne in Hy by (intro Z; exact (no_child _ _ _ _ W Hn Ng Hx (eq_sym Z))). exact (co_stage _ _ _ H _ _ _ Hx Hy).
      - intros id x Hx A. pose proof (Nbest _ A) as Nx. apply add_lookup in Hx. destruct Hx as [[-> _]|[_ Hx]]; [done|].
        apply (ext_ancestor _ _ _ _ _ E W C BH) in A. exact (co_mainok _ _ _ H _ _ Hx A).
      - intros Ma G0 id x Hx P h cid Hc Hle. apply add_lookup in Hx. destruct Hx as [[-> ->]|[Nx Hx]].
        + cbn in Hle. cbn [bi_id b' make_persisted with_status bi_height]. rewrite Ib. destruct (N.eq_dec h (bi_height b)) as [->|Nh].
          * rewrite N.sub_diag. cbn. f_equal. apply (Cp Ma). by rewrite <- Hh.
          * replace (N.to_nat (bi_height b - h)) with (S (N.to_nat (gen_height p - h))) by lia. cbn. unfold parent. rewrite (proj2 (N.eqb_neq _ _) Ng), Hb'. cbn. rewrite Pb.
            rewrite (ext_up _ _ _ _ _ E W C Hp). destruct p as [|pb].
            -- apply get_gen_gen in Gp. rewrite Gp. cbn in *. assert (h = 0) as -> by lia. cbn. congruence.
            -- apply get_gen_block in Gp. destruct Gp as [_ Gp]. destruct (Pok _ Gp) as (_ & Pp & _). destruct (wf_block _ _ _ _ W Gp) as (_ & <- & _).
               cbn in *. apply (co_cp _ _ _ H Ma G0 _ _ Gp Pp h cid Hc). lia.
        + destruct (wf_block _ _ _ _ W Hx) as (_ & Ix & _). rewrite Ix. rewrite (ext_up _ _ _ _ _ E W C) by (right; by exists x).
          rewrite <- Ix. exact (co_cp _ _ _ H Ma G0 _ _ Hx P h cid Hc Hle).
      - change (idx (added s blk b)) with (<[nb_id blk := b']> (idx s)). intros id x Hx P. apply add_lookup in Hx. destruct Hx as [[-> ->]|[Nx Hx]].
        + exists m. cbn [bi_prev bi_time b' make_persisted with_status]. rewrite Pb, Tb. rewrite (ext_median _ _ _ _ E W C Hp). done.
        + destruct (co_time _ _ _ H _ _ Hx P) as (m' & M & Le). exists m'. split; [|done]. rewrite (ext_median _ _ _ _ E W C); [done|].
          eapply (hard_parent cf (idx s) id); [done|done|right; by exists x|]. apply parent_some. exists x. split; [|done]. apply (wf_block _ _ _ _ W Hx).
      - intro Du. destruct (co_replay _ _ _ H Du) as (blks & [(g & G & Hg) Mb] & R). exists blks. split; [|done]. split.
        + destruct (ext_gen _ _ _ _ _ E W BH G) as (g' & G' & Hh' & _). exists g'. split; [done|]. lia.
        + cbn. intros i x Hx. destruct (Mb _ _ Hx) as (id & I1 & I2). exists id. split; [done|]. rewrite lookup_insert_ne; [done|]. congruence. }
    split_and!; [split|..]; try done.
    - intros id x Hx Px. cbn in Hx. apply add_lookup in Hx. destruct Hx as [[-> ->]|[Nx Hx]]; [done|]. exact (inv_marked _ _ _ I _ _ Hx Px).
    - destruct (inv_min _ _ _ I) as (g & G & Le). destruct (ext_gen _ _ _ _ _ E W BH G) as (g' & G' & Hh' & _). exists g'. split; [done|]. cbn. lia.
    - destruct Fin as (f & Mf & Af). exists f. split; [done|]. cbn. fold b'. apply (ancestor_cases _ _ _ _ _ Hb' Ng). right. cbn. rewrite Pb.
      by apply (ext_ancestor _ _ _ _ _ E W C Hp).
  Qed.

  (** *** Integrating a block *)
  Lemma update_min_spec s : inv s -> exists g s', gen s (best s) = Some g /\ update_min_height cf s = Ok s' /\ inv s' /\ final_kept s s' /\ idx s' = idx s /\
    best s' = best s /\ main s' = main s /\ minh s' = N.max (minh s) (gen_height g - cc_depth cf).
  Proof.
    intros [H Mk (g & G & Le)]. unfold update_min_height. destruct (best_gen _ _ _ H) as (g' & G' & E). rewrite E. rewrite G in G'. injection G' as <-.
    exists g. eexists. cbn [q rmap_err rbind]. split; [done|]. split; [done|]. split_and!; try done.
    - split; [|done|].
      + destruct H. constructor; try done.
      + exists g. split; [done|]. cbn. lia.
    - split; [cbn; lia|done].
  Qed.
  Record integrated (s : db L) (blk : new_block) (b : bindex) (r : bool) (s' : db L) : Prop := {
    ig_inv : inv s';
    ig_final : final_kept s s';
    ig_ext : ext (idx s) (idx s');
    ig_new : exists b', idx s' !! nb_id blk = Some b' /\ v_ok (bi_status b') = true /\ bi_trust b' = bi_trust b;
    ig_old : forall id x', id <> nb_id blk -> idx s' !! id = Some x' -> exists x, idx s !! id = Some x /\ same_block x x' /\ v_ok (bi_status x') = v_ok (bi_status x);
    ig_tip : exists g, gen s (best s) = Some g /\
      ((r = true /\ best s' = nb_id blk /\ gen_trust g < bi_trust b) \/ (r = false /\ best s' = best s /\ bi_trust b <= gen_trust g));
    ig_limit : forall n, tip_height cf s' n -> n - cc_depth cf <= minh s' }.
  Lemma integrate_spec s blk b : inv s -> nb_id blk <> genesis_id tc -> idx s !! nb_id blk = None -> create_block_index tc (idx s) blk v_new = Ok b ->
    match integrate_block cf s blk b with
    | Ok (r, s') => integrated s blk b r s'
    | Err (BlockCheckError e v) => v = v_new
    | Err (ConnectBlockErrorDuringReorg e v bad) => v = v_checked /\ below_parent s blk v_checked /\
        (exists bb, idx (added s blk b) !! bad = Some bb) /\ anc (added s blk b) bad (nb_id blk) /\ ~ anc (added s blk b) bad (best s)
    | Err (OtherReorgError _ _) => ~ disconnect_undoes cf
    | Err (OtherNonValidationError _) => False
    | Panic => ~ (no_panics /\ is_Some (cc_checkpoints cf !! 0))
    end.
  Proof.
    intros I Ng Hn Cr. pose proof (check_block_spec s blk b I Hn Cr) as Ck. unfold integrate_block.
    destruct (check_block cf s blk) as [u|e|]; cbn [rmap_err rbind]; [|done|intros [_ [y Y]]; congruence].
    unfold v_advance at 1. cbn [v_stage v_new stage_next]. rewrite decide_True by done. cbn [rbind v_failed v_invalid_parent v_explicit]. fold v_checked.
    pose proof (core_wf _ _ _ (inv_core _ _ _ I)) as W. destruct (create_index_spec _ _ _ _ _ W Cr) as (p' & Gp' & Ib & Pb & Tb & Hh & _).
    destruct (core_add s blk b I Ng Hn Cr Ck) as (I1 & Fin & Dn). set (b' := make_persisted (with_status b v_checked)) in *.
    assert (Ib' : bi_id b' = nb_id blk) by done.
    repeat match goal with |- context [make_persisted (with_status b ?v)] => change (make_persisted (with_status b v)) with b' end.
    unfold set_new_block_index, set_index, persist_block. rewrite Ib', Hn. cbn [rbind d_blocks d_tree d_ledger]. rewrite Dn. cbn [rmap_err rbind].
    change (Db _ _ _) with (added s blk b). assert (Hb' : idx (added s blk b) !! bi_id b' = Some b') by (rewrite Ib'; apply lookup_insert).
    destruct (activate_spec cf l0 _ b' (inv_core _ _ _ I1) Hb') as (g & G & A).
    assert (E1 : ext (idx s) (idx (added s blk b))) by by apply add_ext.
    assert (Bst : best (added s blk b) = best s) by done.
    destruct (co_main _ _ _ (inv_core _ _ _ I)) as [[g0 G0] _]. pose proof (best_hard _ _ _ (inv_core _ _ _ I)) as BH.
    assert (Tg : gen_trust g = gen_trust g0). { destruct (ext_gen _ _ _ _ _ E1 W BH G0) as (g1 & G1 & _ & T1 & _). rewrite Bst in G. unfold idx in *. rewrite G in G1. injection G1 as <-. done. }
    assert (F1 : final_kept s (added s blk b)) by (split; done).
    assert (Wrap : forall r s2, inv s2 -> kept (idx (added s blk b)) (idx s2) -> final_kept s s2 ->
      ((r = true /\ best s2 = nb_id blk /\ gen_trust g0 < bi_trust b) \/ (r = false /\ best s2 = best s /\ bi_trust b <= gen_trust g0)) ->
      match (let? s3 := rmap_err OtherNonValidationError (update_min_height cf s2) in Ok (r, s3)) with
      | Ok (r, s') => integrated s blk b r s' | Err _ => False | Panic => False end).
    { intros r s2 I2 K F2 Tip. destruct (update_min_spec s2 I2) as (g2 & s3 & G2 & E3 & I3 & F3 & Ix3 & B3 & M3 & Mn3). rewrite E3. cbn [rmap_err rbind].
      constructor.
      - done.
      - eapply final_trans; done.
      - rewrite Ix3. intros id x Hx Px. destruct (E1 _ _ Hx Px) as (x1 & X1 & S1 & P1). destruct (kept_ext _ _ K _ _ X1 P1) as (x2 & X2 & S2 & P2).
        exists x2. split_and!; [done|eapply same_block_trans; done|done].
      - rewrite Ix3. destruct (kept_fwd _ _ _ _ K Hb') as (b2 & B2 & S2 & P2 & O2). exists b2. rewrite Ib' in B2. split_and!; [done|by rewrite O2|].
        destruct S2 as (_ & _ & _ & _ & _ & _ & S2 & _). by rewrite S2.
      - rewrite Ix3. intros id x' Nx Hx. destruct (kept_bwd _ _ _ _ K Hx) as (x & X0 & Sx & _ & Ox). cbn in X0. rewrite lookup_insert_ne in X0 by done. eauto.
      - exists g0. split; [done|]. by rewrite B3.
      - intros n (gn & Gn & <-). rewrite B3, Ix3, G2 in Gn. injection Gn as <-. lia. }
    destruct (activate_best_chain cf (added s blk b) b') as [[[|] s2]|[bad e|e]|]; cbn [rmap_err rbind].
    - destruct A as (Lt & H2 & K & B2 & Mn & _). destruct (activated cf l0 _ b' s2 I1 Hb') as [I2 F2]; [by rewrite Ib'|done..|].
      pose proof (Wrap true s2 I2 K (final_trans _ _ _ F1 F2)) as X. lapply X; clear X; [intro X|left; cbn in Lt; split_and!; [done|congruence|lia]].
      destruct (let? s3 := _ in _) as [[r s3]|y|]; done.
    - destruct A as (Lt & ->). pose proof (Wrap false _ I1 (kept_refl _) F1) as X. lapply X; clear X; [intro X|right; cbn in Lt; split_and!; [done|done|lia]].
      destruct (let? s3 := _ in _) as [[r s3]|y|]; done.
    - destruct A as (bb & Hbad & Abad & Nbad & _). destruct Ck as (p & Gp & Op & _). destruct (ok_parent s blk p I Gp Op) as [_ Pok].
      split_and!; [done| |by exists bb|by rewrite <- Ib'|done]. intros pb Hpb. destruct (Pok _ Hpb) as (? & _ & ?). done.
    - done.
    - intros [X _]. done.
  Qed.

  (** *** Whole calls *)
  Lemma cbind_cget {E B} (k : db L -> com E B) s : cbind cget k s = k s s.
  Proof. unfold cbind, cget. change (last_db s []) with s. by destruct (k s s). Qed.
  Lemma cbind_cret {E A B} (a : A) (k : A -> com E B) (s : db L) : cbind (cret (Ok a)) k s = k a s.
  Proof. unfold cbind, cret. change (last_db s []) with s. by destruct (k a s). Qed.
  Lemma cbind_err {E A B} (e : E) (k : A -> com E B) (s : db L) : cbind (cret (Err e)) k s = ([], Err e).
  Proof. done. Qed.
  Lemma cbind_panic {E A B} (k : A -> com E B) (s : db L) : cbind (cret (E := E) Panic) k s = ([], Panic).
  Proof. done. Qed.
  Definition window (s : db L) (c : api) (s' : db L) : Prop :=
    exists blk b, c = ProcessBlock blk /\ core s' /\ min_ok cf s' /\ final_kept s s' /\ idx s !! nb_id blk = None /\ idx s' = <[nb_id blk := b]> (idx s) /\
      bi_persisted b = false /\ v_ok (bi_status b) = true.
  Notation good_commit := (good_commit cf l0).
  Definition call_post (s : db L) (c : api) (out : list (db L) * res block_err unit) : Prop :=
    Forall (fun s' => good_commit s s' \/ window s c s') (fst out) /\
    (snd out <> Panic -> inv (last_db s (fst out)) /\ final_kept s (last_db s (fst out)) /\
                         (only_bad cf -> disconnect_undoes cf -> tip_is_best cf s -> tip_is_best cf (last_db s (fst out)))) /\
    (snd out = Panic -> ~ (no_panics /\ in_range cf s c /\ is_Some (cc_checkpoints cf !! 0))).
  Lemma best_tree s t' : inv s -> inv (with_tree s t') -> ext (idx s) t' -> tip_is_best cf s ->
    (forall id x', t' !! id = Some x' -> v_ok (bi_status x') = true -> exists x, idx s !! id = Some x /\ v_ok (bi_status x) = true /\ bi_trust x' = bi_trust x) ->
    tip_is_best cf (with_tree s t').
  Proof.
    intros I I' E B Old id x' Hx Ox Fx. cbn in Hx. destruct (Old _ _ Hx Ox) as (x & X1 & X2 & X3).
    pose proof (core_wf _ _ _ (inv_core _ _ _ I)) as W. pose proof (core_wf _ _ _ (inv_core _ _ _ I')) as W'. destruct (wf_block _ _ _ _ W' Hx) as (Gx & _ & _).
    assert (Fx0 : extends_final cf s id).
    { eapply final_back; [done|exact I'|done|apply final_with_tree|eapply ok_hard; [apply I|done|done]|by eexists|done]. }
    destruct (B _ _ X1 X2 Fx0) as (g & G & T). destruct (ext_gen _ _ _ _ _ E W (best_hard _ _ _ (inv_core _ _ _ I)) G) as (g' & G' & _ & T' & _).
    exists g'. split; [done|]. lia.
  Qed.
  Lemma integrated_best s blk b r s' : inv s -> integrated s blk b r s' -> tip_is_best cf s -> tip_is_best cf s'.
  Proof.
    intros I G B id x' Hx Ox Fx. destruct (ig_tip _ _ _ _ _ G) as (g & Gg & Tip). destruct (ig_new _ _ _ _ _ G) as (b' & Hb' & _ & Tb').
    pose proof (core_wf _ _ _ (inv_core _ _ _ I)) as W. pose proof (core_wf _ _ _ (inv_core _ _ _ (ig_inv _ _ _ _ _ G))) as W'.
    destruct (wf_block _ _ _ _ W' Hx) as (Gx & _ & _). destruct (wf_block _ _ _ _ W' Hb') as (Gb' & _ & _).
    destruct (ext_gen _ _ _ _ _ (ig_ext _ _ _ _ _ G) W (best_hard _ _ _ (inv_core _ _ _ I)) Gg) as (g' & G' & _ & T' & _).
    destruct (decide (id = nb_id blk)) as [->|Nx].
    - rewrite Hb' in Hx. injection Hx as <-. destruct Tip as [(_ & -> & Lt)|(_ & -> & Le)].
      + exists (Block b'). split; [done|]. cbn. lia.
      + exists g'. split; [done|]. lia.
    - destruct (ig_old _ _ _ _ _ G _ _ Nx Hx) as (x & X1 & Sx & X2). rewrite X2 in Ox. destruct Sx as (_ & _ & _ & _ & _ & _ & Sx & _). rewrite Sx.
      assert (Fx0 : extends_final cf s id).
      { eapply final_back; [done|apply G|apply G|apply G|eapply ok_hard; [apply I|done|done]|by eexists|done]. }
      destruct (B _ _ X1 Ox Fx0) as (g1 & G1 & T1). rewrite Gg in G1. injection G1 as <-. destruct Tip as [(_ & -> & Lt)|(_ & -> & Le)].
      + exists (Block b'). split; [done|]. cbn. lia.
      + exists g'. split; [done|]. lia.
  Qed.
  Lemma call_post_err s c e : inv s -> call_post s c ([], Err e).
  Proof. intro I. split_and!; [constructor|intros _; split_and!; [done|apply final_refl|done]|done]. Qed.

  Lemma in_main_false s id : core s -> is_Some (gen s id) -> ~ anc s id (best s) -> in_main_chain tc (d_tree s) id = false.
  Proof. intros H G N. apply not_true_is_false. by rewrite (in_main_iff cf l0). Qed.
  Definition half (s : db L) (blk : new_block) (b : bindex) : db L := with_tree s (<[nb_id blk := with_status b v_checked]> (idx s)).
  Lemma half_same s blk b : same_tree (idx (added s blk b)) (idx (half s blk b)).
  Proof.
    intro id. cbn. destruct (decide (id = nb_id blk)) as [->|N]; [rewrite !lookup_insert; by repeat split|]. rewrite !lookup_insert_ne by done.
    change (t_idx (d_tree s)) with (idx s). destruct (idx s !! id); [by repeat split|done].
  Qed.
  Lemma create_fits s blk b : inv s -> in_range cf s (ProcessBlock blk) -> create_block_index tc (idx s) blk v_new = Ok b -> bi_height b < U64_MAX /\ bi_trust b < U256_MAX.
  Proof.
    intros I [F R] Cr. destruct (create_index_spec _ _ _ _ _ (core_wf _ _ _ (inv_core _ _ _ I)) Cr) as (p & Gp & Ib & Pb & Tb & Hh & _ & _ & (pr & Epr & ->) & _).
    destruct (R _ Gp) as (R1 & R2 & R3). split; [lia|]. by apply R3.
  Qed.
  Lemma create_panic s blk : inv s -> in_range cf s (ProcessBlock blk) -> create_block_index tc (idx s) blk v_new <> Panic.
  Proof.
    intros I [F R]. pose proof (core_wf _ _ _ (inv_core _ _ _ I)) as W. unfold create_block_index. destruct (get_gen tc (idx s) (nb_prev blk)) as [p|] eqn:Gp; [|done].
    cbn [ok_or rbind]. destruct (R _ eq_refl) as (R1 & R2 & R3). unfold next_height, checked_add.
    rewrite (proj2 (N.leb_le _ _)) by lia. cbn [expect rbind].
    assert (Hsk : get_skip_height (gen_height p + 1) <= gen_height p) by (pose proof (skip_lt (gen_height p + 1)); lia).
    destruct (get_ancestor_spec _ _ _ _ _ W Gp Hsk) as (ga & Ha & _). rewrite Ha. cbn [rbind]. rewrite (proj2 (N.leb_le _ _)) by lia. cbn [expect rbind].
    destruct (nb_proof blk) as [pr|]; [|done]. cbn [ok_or rbind]. specialize (R3 _ eq_refl). rewrite (proj2 (N.leb_le _ _)) by lia. done.
  Qed.
  (** Adding the index of a block without storing the block *)
  Lemma add_index s blk b v : inv s -> nb_id blk <> genesis_id tc -> idx s !! nb_id blk = None -> create_block_index tc (idx s) blk v_new = Ok b ->
    below_parent s blk v -> core (with_tree s (<[nb_id blk := with_status b v]> (idx s))) /\ min_ok cf (with_tree s (<[nb_id blk := with_status b v]> (idx s))).
  Proof.
    intros I Ng Hn Cr Bp. pose proof (inv_core _ _ _ I) as H. assert (C : core (with_tree s (<[nb_id blk := with_status b v]> (idx s)))) by by apply core_add_index.
    split; [done|]. eapply min_ok_tree; [done|exact (core_wf _ _ _ C)|by apply add_ext|apply I].
  Qed.
  Lemma late_reject s blk b bad bb : inv s -> nb_id blk <> genesis_id tc -> idx s !! nb_id blk = None -> create_block_index tc (idx s) blk v_new = Ok b ->
    below_parent s blk v_checked -> idx (added s blk b) !! bad = Some bb -> anc (added s blk b) bad (nb_id blk) -> ~ anc (added s blk b) bad (best s) ->
    (exists t', invalidate_block cf bad false (half s blk b) = ([with_tree (half s blk b) t'], Ok tt) /\ inv (with_tree (half s blk b) t') /\ ext (idx s) t' /\
       forall id x', t' !! id = Some x' -> v_ok (bi_status x') = true -> exists x, idx s !! id = Some x /\ v_ok (bi_status x) = true /\ bi_trust x' = bi_trust x) \/
    (~ fits (half s blk b) /\ invalidate_block cf bad false (half s blk b) = ([], Panic)).
  Proof.
    intros I Ng Hn Cr Bp Hbad A N. destruct (add_index _ _ _ _ I Ng Hn Cr Bp) as [C M]. fold (half s blk b) in C, M. pose proof (half_same s blk b) as St.
    pose proof (core_wf _ _ _ C) as W. apply (same_tree_ancestor _ _ _ _ _ St) in A. assert (N' : ~ anc (half s blk b) bad (best (half s blk b))).
    { intro X. apply N. by apply (same_tree_ancestor _ _ _ _ _ St). }
    pose proof (St bad) as Sb. rewrite Hbad in Sb. destruct (idx (half s blk b) !! bad) as [bb'|] eqn:Hbad'; [|done].
    destruct (wf_block _ _ _ _ W Hbad') as (Gb & _ & _).
    assert (Im : in_main_chain tc (d_tree (half s blk b)) bad = false).
    { apply not_true_is_false. rewrite (in_main_iff cf l0) by (done || by eexists). done. }
    unfold invalidate_block. rewrite cbind_cget, Im. cbn [negb].
    destruct (stale_spec cf l0 _ bad false bb' C Hbad' N') as [(l & t' & E & _ & _ & Mk)|(Nf & E & _)].
    2:{ right. split; [done|]. unfold cbind at 1. rewrite E. done. }
    left. exists t'. unfold cbind at 1. rewrite E. cbn [cret app].
    assert (C' : core (with_tree (half s blk b) t')) by by eapply core_marks.
    assert (E0 : ext (idx s) (idx (half s blk b))) by by apply add_ext.
    assert (Xn : forall id x', t' !! id = Some x' -> v_ok (bi_status x') = true -> exists x, idx (half s blk b) !! id = Some x /\ x' = x /\ ~ anc (half s blk b) bad id).
    { intros id x' Hx Ox. destruct (marks_bwd _ _ _ _ _ _ Mk Hx) as (x & X1 & X2 & X3 & X4 & X5 & X6). exists x. destruct (wf_block _ _ _ _ W X1) as (Gx & _ & _).
      destruct (anc_dec cf l0 _ bad id C) as [Y|Y]; [by eexists|rewrite X5 in Ox; done|]. split_and!; [done|by apply X6|done]. }
    split; [done|]. split; [split|split].
    - done.
    - intros id x' Hx Px. cbn in Hx. destruct (v_ok (bi_status x')) eqn:Ox; [|done]. destruct (Xn _ _ Hx Ox) as (x & X1 & -> & X3). apply add_lookup in X1.
      destruct X1 as [[-> ->]|[Nx X1]]; [done|]. pose proof (inv_marked _ _ _ I _ _ X1 Px). congruence.
    - eapply min_ok_tree; [done|exact (core_wf _ _ _ C')|by eapply marks_ext|done].
    - intros id x Hx Px. destruct (E0 _ _ Hx Px) as (y & Hy & Y1 & Y2). destruct (marks_ext _ _ _ _ Mk _ _ Hy Y2) as (z & Hz & Z1 & Z2). exists z. split; [done|].
      split; [|done]. eapply same_block_trans; done.
    - intros id x' Hx Ox. destruct (Xn _ _ Hx Ox) as (x & X1 & -> & X3). apply add_lookup in X1. destruct X1 as [[-> ->]|[Nx X1]]; [done|]. by exists x.
  Qed.
  Definition proc_post (s : db L) (c : api) (out : list (db L) * res block_err unit) : Prop :=
    call_post s c out /\
    (snd out <> Panic ->
       (tip_is_best cf s -> tip_is_best cf (last_db s (fst out))) /\
       (limit_check cf s -> limit_check cf (last_db s (fst out))) /\
       (forall n n', tip_trust cf s n -> tip_trust cf (last_db s (fst out)) n' -> n <= n')) /\
    (forall e, snd out = Err e -> Forall (fun s' => exists t', s' = with_tree s t') (fst out)).
  Lemma ext_refl t : ext t t.
  Proof. intros x y Hy P. exists y. done. Qed.
  Lemma proc_same s c l e : inv s -> let s' := last_db s l in Forall (fun s' => good_commit s s' \/ window s c s') l -> Forall (fun s' => exists t', s' = with_tree s t') l -> inv s' ->
    main s' = main s -> best s' = best s -> minh s' = minh s -> ext (idx s) (idx s') -> final_kept s s' ->
    (tip_is_best cf s -> tip_is_best cf s') -> proc_post s c (l, Err e).
  Proof.
    intros I s' Fa Fw I' S1 S2 S3 S4 S5 S6. split; [|split; [|done]].
    - split; [done|]. split; [|done]. intros _. cbn [fst]. fold s'. split_and!; [done..|]. tauto.
    - intros _. cbn [fst]. fold s'. split_and!; [done| |].
      + intros Lc h id Hm. rewrite S1 in Hm. rewrite S3. by apply (Lc h id).
      + intros n n' (g & G & <-) (g' & G' & <-).
        destruct (ext_gen _ _ _ _ _ S4 (core_wf _ _ _ (inv_core _ _ _ I)) (best_hard _ _ _ (inv_core _ _ _ I)) G) as (g1 & G1 & _ & T1 & _).
        rewrite S2, G1 in G'. injection G' as <-. lia.
  Qed.
  Lemma proc_err s c e : inv s -> proc_post s c ([], Err e).
  Proof. intro I. apply proc_same; try done. apply ext_refl. Qed.
  Lemma proc_panic s c l : Forall (fun s' => good_commit s s' \/ window s c s') l -> ~ (no_panics /\ in_range cf s c /\ is_Some (cc_checkpoints cf !! 0)) -> proc_post s c (l, Panic).
  Proof. intros Fa N. split; [|done]. split; [done|]. split; done. Qed.
  Lemma main_height s h id g : core s -> main s !! h = Some id -> gen s (best s) = Some g -> h <= gen_height g /\ anc s id (best s).
  Proof.
    intros H Hm G. destruct (co_main _ _ _ H) as [_ M]. apply M in Hm. destruct Hm as (gx & Gx & Hx & A).
    destruct (ancestor_known _ _ _ _ _ (core_wf _ _ _ H) G A) as (gy & Gy & Le). unfold idx in *. rewrite Gx in Gy. injection Gy as <-. split; [lia|done].
  Qed.
  Lemma proc_ok s blk b r s' : inv s -> integrated s blk b r s' -> proc_post s (ProcessBlock blk) ([s'], Ok tt).
  Proof.
    intros I G. split; [|split; [|done]].
    - split; [|split; [|done]].
      + constructor; [|constructor]. left. split; [apply G|apply G].
      + intros _. split_and!; [apply G|apply G|]. intros _ _. by eapply integrated_best.
    - intros _. cbn [fst]. change (last_db s [s']) with s'. split_and!.
      + by eapply integrated_best.
      + intros _ h id Hm. destruct (best_gen _ _ _ (inv_core _ _ _ (ig_inv _ _ _ _ _ G))) as (g & Gg & _).
        destruct (main_height _ _ _ _ (inv_core _ _ _ (ig_inv _ _ _ _ _ G)) Hm Gg) as [Le _].
        pose proof (ig_limit _ _ _ _ _ G (gen_height g)) as X. assert (gen_height g - cc_depth cf <= minh s') by (apply X; by exists g). lia.
      + intros n n' (g & Gg & <-) (g' & Gg' & <-). destruct (ig_tip _ _ _ _ _ G) as (g0 & G0 & Tip). rewrite Gg in G0. injection G0 as <-.
        destruct Tip as [(_ & Eb & Lt)|(_ & Eb & Le)]; rewrite Eb in Gg'.
        * destruct (ig_new _ _ _ _ _ G) as (b' & Hb' & _ & Tb'). destruct (wf_block _ _ _ _ (core_wf _ _ _ (inv_core _ _ _ (ig_inv _ _ _ _ _ G))) Hb') as (Gb' & _ & _).
          rewrite Gb' in Gg'. injection Gg' as <-. cbn. lia.
        * destruct (ext_gen _ _ _ _ _ (ig_ext _ _ _ _ _ G) (core_wf _ _ _ (inv_core _ _ _ I)) (best_hard _ _ _ (inv_core _ _ _ I)) Gg) as (g1 & G1 & _ & T1 & _).
          rewrite G1 in Gg'. injection Gg' as <-. lia.
  Qed.
  Lemma process_spec s blk : inv s -> nb_id blk <> genesis_id tc -> proc_post s (ProcessBlock blk) (run cf (ProcessBlock blk) s).
  Proof.
    intros I Ng. pose proof (inv_core _ _ _ I) as H. pose proof (core_wf _ _ _ H) as W. set (c := ProcessBlock blk).
    unfold run, c. unfold cbind at 1. unfold process_block. rewrite cbind_cget. destruct (gen s (nb_prev blk)) as [p|] eqn:Gp; [|by apply proc_err].
    rewrite cbind_cret. destruct (idx s !! nb_id blk) as [x|] eqn:Hn; [destruct (v_ok (bi_status x)); by apply proc_err|]. rewrite cbind_cret.
    destruct (create_block_index tc (idx s) blk v_new) as [b|e|] eqn:Cr; cbn [rmap_err].
    2:{ by apply proc_err. }
    2:{ apply proc_panic; [constructor|]. intros (_ & R & _). by apply (create_panic s blk I R). }
    rewrite cbind_cret. pose proof (integrate_spec s blk b I Ng Hn Cr) as X.
    destruct (integrate_block cf s blk b) as [[r s']|[e v|e v bad|e v|e]|].
    - assert (Y : proc_post s c ([s'], Ok tt)) by by eapply proc_ok. destruct (ig_new _ _ _ _ _ X) as (b' & Hb' & Ob' & _). unfold get_existing. rewrite Hb'. cbn [ok_or q rmap_err rbind].
      rewrite Ob'. exact Y.
    - subst v. destruct (should_invalidate e); [|by apply proc_err]. set (v := v_set_failed v_new).
      destruct (create_index_spec _ _ _ _ _ W Cr) as (p' & Gp' & Ib & _). set (s1 := with_tree s (<[nb_id blk := with_status b v]> (idx s))).
      assert (Es : set_new_block_index s (with_status b v) = Ok s1).
      { unfold set_new_block_index, set_index. cbn [bi_id with_status]. rewrite Ib, Hn. done. }
      unfold ctry at 1. unfold tx at 1. unfold cbind at 1. rewrite Es. cbn [rbind cret app].
      assert (Bp : below_parent s blk v). { intros q Hq. split; [done|]. cbn. lia. }
      destruct (add_index _ _ _ _ I Ng Hn Cr Bp) as [C M]. fold s1 in C, M.
      assert (I1 : inv s1). { split; [done| |done]. intros id x Hx Px. cbn in Hx. apply add_lookup in Hx. destruct Hx as [[-> ->]|[Nx Hx]]; [done|]. exact (inv_marked _ _ _ I _ _ Hx Px). }
      assert (E1 : ext (idx s) (idx s1)) by by apply add_ext.
      apply proc_same; try done.
      + constructor; [|constructor]. left. split; [done|]. apply final_with_tree.
      + constructor; [|constructor]. by eexists.
      + intro B. refine (best_tree s _ I I1 E1 B _). intros id x Hx Ox. cbn in Hx. apply add_lookup in Hx. destruct Hx as [[-> ->]|[Nx Hx]]; [done|]. by exists x.
    - destruct X as (-> & Bp & (bb & Hbad) & A & N).
      assert (Im : in_main_chain tc (d_tree s) bad = false).
      { destruct (gen s bad) as [g|] eqn:Gb; [|unfold in_main_chain, height_in_main_chain; unfold idx, get_gen in Gb; destruct (bad =? genesis_id tc); [done|]; by destruct (t_idx (d_tree s) !! bad)].
        apply in_main_false; [done|by eexists|]. intro Y. apply N. change (idx (added s blk b)) with (<[nb_id blk := make_persisted (with_status b v_checked)]> (idx s)).
        apply (ext_ancestor cf (idx s)); try done; [by apply add_ext|exact (co_per _ _ _ H)|exact (best_hard _ _ _ H)]. }
      rewrite Im. destruct (should_invalidate e); [|by apply proc_err].
      destruct (create_index_spec _ _ _ _ _ W Cr) as (p' & Gp' & Ib & _ & _ & Hh & _ & _ & _ & _ & _ & Per & _).
      assert (Es : set_new_block_index s (with_status b v_checked) = Ok (half s blk b)).
      { unfold set_new_block_index, set_index. cbn [bi_id with_status]. rewrite Ib, Hn. done. }
      destruct (add_index _ _ _ _ I Ng Hn Cr Bp) as [C M]. fold (half s blk b) in C, M.
      assert (Wd : window s c (half s blk b)).
      { exists blk, (with_status b v_checked). split_and!; done. }
      pose proof (late_reject s blk b bad bb I Ng Hn Cr Bp Hbad A N) as Lr.
      unfold ctry at 1. unfold tx at 1. unfold cbind at 1. rewrite Es. cbn [rbind]. change (last_db s [half s blk b]) with (half s blk b).
      unfold cbind at 1. unfold ctry at 1. destruct Lr as [(t' & -> & I' & E' & Old)|(Nf & ->)].
      + cbn [cret app]. apply proc_same; try done.
        * constructor; [by right|]. constructor; [|constructor]. left. split; done.
        * constructor; [by eexists|]. constructor; [|constructor]. by eexists.
        * intro B. exact (best_tree s _ I I' E' B Old).
      + cbn [app]. apply proc_panic; [constructor; [by right|constructor]|]. intros (_ & R & _). apply Nf. intros id x Hx. apply add_lookup in Hx.
        destruct Hx as [[-> ->]|[Nx Hx]]; [by apply (create_fits s blk b I R)|]. by apply (proj1 R id).
    - by apply proc_err.
    - done.
    - apply proc_panic; [constructor|]. tauto.
  Qed.

  (** *** Invalidating a block *)
  Lemma last_db_in (s : db L) l : last_db s l = s \/ last_db s l ∈ l.
  Proof.
    destruct (list_eq_nil_dec l) as [->|N]; [by left|]. destruct (exists_last N) as (l1 & x & ->). right. unfold last_db. rewrite last_snoc. cbn. set_solver.
  Qed.
  Lemma disconnected_final s s1 g g1 : core s -> core s1 -> idx s1 = idx s -> minh s1 = minh s -> gen s (best s) = Some g -> gen s (best s1) = Some g1 ->
    anc s (best s1) (best s) -> minh s <= gen_height g1 -> final_kept s s1.
  Proof.
    intros H H1 Ei Em G G1 A Le. split; [lia|]. intros h Hh. pose proof (core_wf _ _ _ H) as W. apply option_eq. intro id.
    destruct (co_main _ _ _ H) as [_ M]. destruct (co_main _ _ _ H1) as [_ M1].
    change (t_idx (d_tree s)) with (idx s) in M. change (t_idx (d_tree s1)) with (idx s1) in M1. rewrite Ei in M1. split; intro X.
    - apply M1 in X. apply M. destruct X as (x & X1 & X2 & X3). exists x. split_and!; try done. eapply ancestor_trans; done.
    - apply M in X. apply M1. destruct X as (x & X1 & X2 & X3). exists x. split_and!; try done.
      eapply ancestor_linear; [exact W|exact G|exact X3|exact A|exact X1|exact G1|]. lia.
  Qed.
  Lemma invalidate_spec s id : inv s -> call_post s (InvalidateBlock id) (run cf (InvalidateBlock id) s).
  Proof.
    intro I. pose proof (inv_core _ _ _ I) as H. pose proof (core_wf _ _ _ H) as W. unfold run, invalidate_block. rewrite cbind_cget.
    destruct (in_main_chain tc (d_tree s) id) eqn:Im; cbn [negb].
    2:{ destruct (idx s !! id) as [b|] eqn:Hb.
        - assert (N : ~ anc s id (best s)). { intro X. apply (in_main_iff cf l0) in X; [congruence|done|]. destruct (wf_block _ _ _ _ W Hb) as (Gb & _ & _). by eexists. }
          destruct (stale_spec cf l0 s id true b H Hb N) as [(l & t' & E & _ & _ & Mk)|(Nf & E & _)]; unfold cbind at 1; rewrite E.
          + cbn [cret app]. assert (C' : core (with_tree s t')) by by eapply core_marks.
            assert (I' : inv (with_tree s t')).
            { split; [done|eapply marked_marks; [apply I|done..]|]. eapply min_ok_tree; [done|exact (core_wf _ _ _ C')|by eapply marks_ext|apply I]. }
            split; [constructor; [left; split; done|constructor]|]. split; [|done]. intros _. change (last_db s [with_tree s t']) with (with_tree s t').
            split_and!; [done|done|]. intros _ _ B. refine (best_tree s _ I I' _ B _); [by eapply marks_ext|].
            intros x y Hy Oy. destruct (marks_bwd _ _ _ _ _ _ Mk Hy) as (z & X1 & X2 & X3 & X4 & X5 & X6). exists z. destruct (wf_block _ _ _ _ W X1) as (Gx & _ & _).
            destruct (anc_dec cf l0 _ id x H) as [Y|Y]; [by eexists|rewrite X5 in Oy; done|]. rewrite (X6 Y) in *. done.
          + split; [constructor|]. split; [done|]. intros _ (_ & [R _] & _). done.
        - unfold invalidate_stale_block, collect_stale. unfold cbind at 1. unfold cbind at 1. rewrite Im.
          destruct (collect_branch_cases cf l0 s id H) as [(rb & l & X & _)|[[_ E]|([y Y] & _)]]; [congruence| |congruence].
          change (t_idx (d_tree s)) with (idx s). rewrite E. by apply call_post_err. }
    destruct (idx s !! id) as [b|] eqn:Hb; unfold get_existing; rewrite Hb; cbn [ok_or q rmap_err]; [|by apply call_post_err].
    rewrite cbind_cret. destruct (wf_block _ _ _ _ W Hb) as (Gb & Ib & Nb). apply (in_main_iff cf l0) in Im; [|done|by eexists].
    destruct (t_best (d_tree s) =? genesis_id tc) eqn:Eg.
    { apply N.eqb_eq in Eg. rewrite Eg in Im. apply ancestor_genesis_only in Im. done. }
    rewrite cbind_cret. unfold ensure. destruct (minh s <? bi_height b) eqn:El; [|by apply call_post_err]. apply N.ltb_lt in El. rewrite cbind_cret.
    destruct (wf_prev _ _ _ _ W Hb) as (p & Gp & Hp & _).
    assert (Ap : anc s (bi_prev b) (best s)). { eapply ancestor_trans; [|exact Im]. apply (ancestor_cases _ _ _ _ _ Hb Nb). right. apply ancestor_refl. }
    destruct (best_gen _ _ _ H) as (g & G & _).
    pose proof (disconnect_until_spec cf l0 (tip_fuel cf s) s (bi_prev b) H Ap) as D. unfold tx at 1. unfold cbind at 1.
    destruct (disconnect_until cf (tip_fuel cf s) s (best s) (bi_prev b)) as [s1|e|]; cbn [rbind].
    2:{ by apply call_post_err. }
    2:{ split; [constructor|]. split; [done|]. intros _ (Np & _). apply D; [|done]. intros g' G'. unfold tip_fuel. rewrite G'. done. }
    change (last_db s [s1]) with s1. destruct D as (C1 & Ei & Eb & Em & Ed). { intros g' G'. unfold tip_fuel. rewrite G'. done. }
    assert (I1 : inv s1).
    { split; [done| |].
      - intros x y Hx. unfold idx in *. rewrite Ei in Hx. exact (inv_marked _ _ _ I x y Hx).
      - exists p. rewrite Ei, Eb. split; [done|]. unfold idx in *. lia. }
    assert (F1 : final_kept s s1). { eapply disconnected_final; [done|done|done|done|exact G|rewrite Eb; exact Gp|by rewrite Eb|]. lia. }
    assert (Hb1 : idx s1 !! id = Some b) by by rewrite Ei.
    assert (N1 : ~ anc s1 id (best s1)).
    { intro X. rewrite Ei, Eb in X. destruct (ancestor_known _ _ _ _ _ W Gp X) as (gx & Gx & Le). rewrite Gb in Gx. injection Gx as <-. cbn in Le. lia. }
    destruct (stale_spec cf l0 s1 id true b C1 Hb1 N1) as [(l & t' & E & _ & _ & Mk)|(Nf & E & _)]; unfold cbind at 1; rewrite E.
    2:{ cbn [app]. split; [constructor; [left; by split|constructor]|]. split; [done|]. intros _ (_ & [R _] & _). apply Nf. intros x y Hy. rewrite Ei in Hy. by apply (R x). }
    assert (C2 : core (with_tree s1 t')) by by eapply core_marks.
    assert (I2 : inv (with_tree s1 t')).
    { split; [done|eapply marked_marks; [apply I1|done..]|]. eapply min_ok_tree; [done|exact (core_wf _ _ _ C2)|by eapply marks_ext|apply I1]. }
    change (last_db s1 [with_tree s1 t']) with (with_tree s1 t'). set (s2 := with_tree s1 t') in *.
    assert (F2 : final_kept s s2) by exact F1.
    pose proof (find_spec cf l0 s2 I2) as [Fa R]. unfold cbind at 1. destruct (find_and_activate_best_chain cf s2) as [l2 r2]. cbn [fst snd] in *.
    assert (Fa2 : Forall (fun s' => good_commit s s' \/ window s (InvalidateBlock id) s') (s1 :: s2 :: l2)).
    { constructor; [left; by split|]. constructor; [left; by split|]. eapply Forall_impl; [exact Fa|]. intros x Gx. left. eapply good_commit_trans; [|exact Gx]. by split. }
    assert (La : last_db s (s1 :: s2 :: l2) = last_db s2 l2) by apply (last_db_app s [s1; s2] l2).
    assert (Iz : inv (last_db s2 l2) /\ final_kept s (last_db s2 l2)).
    { destruct (last_db_in s2 l2) as [->|Hin]; [done|]. rewrite Forall_forall in Fa. destruct (Fa _ Hin) as [Y1 Y2]. split; [done|]. eapply final_trans; done. }
    destruct r2 as [r|e|]; cbn [app cret].
    - rewrite app_nil_r. split; [done|]. split; [|done]. intros _. cbn [fst]. rewrite La. split_and!; [apply Iz|apply Iz|]. auto.
    - split; [done|]. split; [|done]. intros _. cbn [fst]. rewrite La. split_and!; [apply Iz|apply Iz|]. done.
    - split; [done|]. split; [done|]. intros _ (Np & [Rg _] & _). apply R. split; [done|]. eapply (fits_same s); [|done]. cbn. rewrite <- Ei. by eapply marks_same.
  Qed.
  (** *** Resetting failure marks *)
  Lemma reset_spec s id : inv s -> reset_below_valid s (ResetFailureFlags id) -> call_post s (ResetFailureFlags id) (run cf (ResetFailureFlags id) s).
  Proof.
    intros I V. pose proof (inv_core _ _ _ I) as H. unfold run, reset_block_failure_flags. rewrite cbind_cget.
    destruct (collect_branch_cases cf l0 s id H) as [(rb & l & Hb & E & Br)|[[_ E]|(_ & Nf & E)]]; rewrite E; cbn [q rmap_err].
    2:{ by apply call_post_err. }
    2:{ split; [constructor|]. split; [done|]. intros _ (_ & [R _] & _). done. }
    rewrite cbind_cret. destruct (clear_all_spec cf l0 s id rb l H Hb Br) as (t' & Et & Cl). unfold tx at 1. unfold cbind at 1. rewrite Et.
    change (last_db s [with_tree s t']) with (with_tree s t').
    assert (C2 : core (with_tree s t')). { eapply core_clears; [done|exact Hb| |done]. intros p Hp. exact (V _ _ Hb Hp). }
    assert (I2 : inv (with_tree s t')).
    { split; [done|eapply marked_clears; [done|apply I|done]|]. eapply min_ok_tree; [done|exact (core_wf _ _ _ C2)|by eapply clears_ext|apply I]. }
    set (s2 := with_tree s t') in *. assert (F2 : final_kept s s2) by done.
    pose proof (find_spec cf l0 s2 I2) as [Fa R]. unfold cbind at 1. destruct (find_and_activate_best_chain cf s2) as [l2 r2]. cbn [fst snd] in *.
    assert (Fa2 : Forall (fun s' => good_commit s s' \/ window s (ResetFailureFlags id) s') (s2 :: l2)).
    { constructor; [left; by split|]. eapply Forall_impl; [exact Fa|]. intros x Gx. left. eapply good_commit_trans; [|exact Gx]. by split. }
    assert (La : last_db s (s2 :: l2) = last_db s2 l2) by apply (last_db_app s [s2] l2).
    assert (Iz : inv (last_db s2 l2) /\ final_kept s (last_db s2 l2)).
    { destruct (last_db_in s2 l2) as [->|Hin]; [done|]. rewrite Forall_forall in Fa. destruct (Fa _ Hin) as [Y1 Y2]. split; [done|]. eapply final_trans; done. }
    destruct r2 as [r|e|]; cbn [app cret].
    - rewrite app_nil_r. split; [done|]. split; [|done]. intros _. cbn [fst]. rewrite La. split_and!; [apply Iz|apply Iz|]. auto.
    - split; [done|]. split; [|done]. intros _. cbn [fst]. rewrite La. split_and!; [apply Iz|apply Iz|]. done.
    - split; [done|]. split; [done|]. intros _ (Np & [Rg _] & _). apply R. split; [done|]. intros x y Hy. cbn in Hy.
      destruct (clears_bwd _ _ _ _ _ _ _ H Cl Hy) as (z & Hz & Sz & _). destruct Sz as (_ & _ & _ & S4 & _ & _ & S7 & _). rewrite S4, S7. by apply (Rg x).
  Qed.
  Theorem call_spec s c : inv s -> proper cf c -> reset_below_valid s c -> call_post s c (run cf c s).
  Proof.
    intros I P V. destruct c as [blk|id|id]; [by apply process_spec|by apply invalidate_spec|by apply reset_spec].
  Qed.

  (** *** What the invariant says *)
  Lemma inv_index_checks s : inv s -> index_checks cf s.
  Proof.
    intro I. pose proof (inv_core _ _ _ I) as H. pose proof (core_wf _ _ _ H) as W. constructor.
    - intros id blk D. destruct (co_index _ _ _ H _ _ D) as (b & Hb & _). by eexists.
    - intros id b Hb D. assert (P : bi_persisted b = false).
      { destruct (bi_persisted b) eqn:P; [|done]. destruct (co_data _ _ _ H _ _ Hb P) as (x & X). congruence. }
      split; [done|]. exact (inv_marked _ _ _ I _ _ Hb P).
    - intros id b blk Hb D. destruct (co_index _ _ _ H _ _ D) as (b' & Hb' & X). rewrite Hb in Hb'. injection Hb' as <-. done.
    - intros id b Hb. apply (wf_block _ _ _ _ W Hb).
    - intros id b Hb Np. destruct (wf_prev _ _ _ _ W Hb) as (p & Gp & _ & _). destruct p as [|p]; [apply get_gen_gen in Gp; done|]. apply get_gen_block in Gp. destruct Gp as [_ Hp].
      exists p. split_and!; [done| | |].
      + intro P. exact (co_per _ _ _ H _ _ _ Hb P Hp).
      + intro P. exact (co_okp _ _ _ H _ _ _ Hb P Hp).
      + exact (co_stage _ _ _ H _ _ _ Hb Hp).
  Qed.
  Lemma core_height_checks s : core s -> height_checks cf s.
  Proof.
    intro H. pose proof (core_wf _ _ _ H) as W. destruct (co_main _ _ _ H) as [[g G] M]. change (t_idx (d_tree s)) with (idx s) in *. constructor.
    - apply M. exists Genesis. split_and!; [apply get_gen_genesis|done|]. eapply genesis_ancestor; done.
    - exists (gen_height g). split.
      + apply M. exists g. split_and!; [done|done|apply ancestor_refl].
      + intros h' id Hm. by destruct (main_height s h' id g H Hm G).
    - intros h id Hm Nh. destruct (main_height s h id g H Hm G) as [_ A]. apply M in Hm. destruct Hm as (x & Gx & Hx & _). destruct x as [|b]; [done|].
      apply get_gen_block in Gx. destruct Gx as [Ng Hb]. exists b. cbn in Hx. subst h. split_and!; [done|done| |by apply (co_mainok _ _ _ H _ _ Hb A)..].
      destruct (wf_prev _ _ _ _ W Hb) as (p & Gp & Hp & _). apply M. exists p. split_and!; [done|lia|]. eapply ancestor_trans; [|exact A].
      apply (ancestor_cases _ _ _ _ _ Hb Ng). right. apply ancestor_refl.
  Qed.
  Lemma initial_inv : inv (initial_db cf l0).
  Proof.
    assert (G : get_gen tc ∅ (genesis_id tc) = Some Genesis) by apply get_gen_genesis.
    split.
    - constructor; cbn; unfold idx; cbn; try (intros; done).
      + constructor.
      + split; [by eexists|]. cbn. intros h id. rewrite lookup_singleton_Some. split.
        * intros [<- <-]. exists Genesis. split_and!; [done|done|apply ancestor_refl].
        * intros (g & Gg & Hg & A). apply ancestor_genesis_only in A. subst id. rewrite G in Gg. injection Gg as <-. done.
      + intros _. exists []. split; [|done]. split; [by exists Genesis|]. intros i blk Hi. done.
    - intros id b Hb. done.
    - exists Genesis. split; [done|]. cbn. lia.
  Qed.
  Lemma initial_best : tip_is_best cf (initial_db cf l0).
  Proof. intros id b Hb. done. Qed.
  Lemma initial_limit : limit_check cf (initial_db cf l0).
  Proof. intros h id Hm. cbn in Hm. apply lookup_singleton_Some in Hm. destruct Hm as [<- _]. cbn. lia. Qed.
End ChainstateCall.
