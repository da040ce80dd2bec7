(** C35 ancestor lookup, C36 fork points and new branches, C39 median time, C41 branches and candidates. *)
From Coq Require Import Sorting.Sorted.
From Verif Require Import Base StatusModel StatusSpec BlockTreeModel BlockTreeSpec BlockTreeProofs BlockTreeMoreProofs BranchProofs.
Local Open Scope N_scope.

(** *** A concrete tree: genesis 1000, blocks 1..40 in a row, a branch 101..103 leaving at block 20 *)
Definition ex_cf : tree_cfg := TreeCfg 1000 50.
Fixpoint add_all (cf : tree_cfg) (t : index_map) (l : list new_block) : index_map :=
  match l with
  | [] => t
  | blk :: l' =>
      if (nb_id blk =? genesis_id cf) || (match t !! nb_id blk with Some _ => true | None => false end) then t
      else match create_block_index cf t blk (View FullyChecked false false false) with
           | Ok b => add_all cf (<[bi_id b := b]> t) l'
           | _ => t
           end
  end.
Definition ex_blocks : list new_block :=
  ((fun n => let k := N.of_nat n in NewBlock k (if k =? 1 then 1000 else k - 1) (100 + (k * 7) mod 5 + k) 2 (Some 3)) <$> seq 1 40) ++
  [NewBlock 101 20 130 1 (Some 4); NewBlock 102 101 131 1 (Some 100); NewBlock 103 102 140 1 (Some 1)].
Definition ex_tree : index_map := add_all ex_cf ∅ ex_blocks.
Lemma add_all_built cf l t : built cf t -> built cf (add_all cf t l).
Proof.
  revert t. induction l as [|blk l IH]; intros t Ht; [exact Ht|]. cbn [add_all].
  destruct (nb_id blk =? genesis_id cf) eqn:E1; [exact Ht|]. destruct (t !! nb_id blk) eqn:E2; [exact Ht|]. cbn [orb].
  destruct (create_block_index cf t blk _) as [b| |] eqn:Ec; [|exact Ht|exact Ht]. apply IH.
  eapply (built_add cf t blk _ b b); [exact Ht|lia|exact E2|exact Ec|]. unfold same_block. tauto.
Qed.
Lemma ex_tree_built : built ex_cf ex_tree.
Proof. apply add_all_built, built_empty. Qed.
Definition id_of (r : res terr gindex) : N := match r with Ok g => gen_id ex_cf g | _ => 0 end.
Definition ex_gen (id : N) : gindex := default Genesis (get_gen ex_cf ex_tree id).

(** ** C35 *)
(** In every tree the code can build, looking up the ancestor at height [h] of a stored block gives the stored block
    reached by following parent links down to that height; there always is one; above the block there is an error. *)
Theorem C35_ancestor_at_height cf t id g h : built cf t -> get_gen cf t id = Some g -> h <= gen_height g ->
  exists a, get_ancestor cf t g h = Ok a /\ stored cf t a /\ gen_height a = h /\ up cf t (N.to_nat (gen_height g - h)) id = Some (gen_id cf a).
Proof.
  intros Hb Hg Hh. apply built_wf in Hb. destruct (get_ancestor_spec cf t id g h Hb Hg Hh) as (a & Ha & Hs & Hu).
  exists a. split; [exact Ha|]. split; [exact Hs|]. split; [|exact Hu].
  destruct (up_height cf _ _ _ _ _ Hb Hg Hu) as (a' & Ha' & He). rewrite Hs in Ha'. injection Ha' as <-. lia.
Qed.
Print Assumptions C35_ancestor_at_height.
Theorem C35_no_ancestor_above cf t g h : gen_height g < h -> get_ancestor cf t g h = Err InvalidAncestorHeight.
Proof. intro H. unfold get_ancestor. replace (gen_height g <? h) with true by lia. reflexivity. Qed.
Print Assumptions C35_no_ancestor_above.
(** The skip link of every stored block points to one of its proper ancestors. *)
Theorem C35_skip_links_point_to_ancestors cf t id b : built cf t -> t !! id = Some b ->
  exists n, (0 < n)%nat /\ up cf t n id = Some (bi_skip b) /\ is_Some (get_gen cf t (bi_skip b)).
Proof.
  intros Hb Hi. apply built_wf in Hb. destruct (Hb _ _ Hi) as (_ & Hne & _ & _ & Hu). pose proof (wf_height_pos cf _ _ _ Hb Hi) as Hp.
  pose proof (skip_lt (bi_height b) Hp). eexists. split; [|split; [exact Hu|]]; [lia|].
  destruct (up_height cf _ _ _ (Block b) _ Hb ltac:(apply get_gen_block; split; [exact Hne|exact Hi]) Hu) as (g & Hg & _). exists g. exact Hg.
Qed.
Print Assumptions C35_skip_links_point_to_ancestors.
(** A new block's index: one above its parent, trust increased by its proof, transactions added, the latest time kept. *)
Theorem C35_index_of_new_block cf t blk st b : built cf t -> create_block_index cf t blk st = Ok b ->
  exists p proof, get_gen cf t (nb_prev blk) = Some p /\ nb_proof blk = Some proof /\
    bi_id b = nb_id blk /\ bi_prev b = nb_prev blk /\ bi_time b = nb_time blk /\ bi_height b = gen_height p + 1 /\
    bi_trust b = gen_trust p + proof /\ bi_txs b = gen_txs p + nb_txs blk /\ bi_time_max b = N.max (gen_time_max cf p) (nb_time blk) /\ bi_status b = st.
Proof.
  intros Hb Hc. apply built_wf in Hb. destruct (create_index_spec cf t blk st b Hb Hc) as (p & Hp & H1 & H2 & H3 & H4 & _ & H5 & (proof & Hpf & H6) & H7 & H8 & _ & _).
  exists p, proof. tauto.
Qed.
Print Assumptions C35_index_of_new_block.
(** The recorded latest time of a chain is the greatest timestamp among the block and its ancestors. *)
Theorem C35_latest_time_of_chain cf t id g : built cf t -> get_gen cf t id = Some g ->
  (forall a ga, ancestor cf t a id -> get_gen cf t a = Some ga -> gen_time cf ga <= gen_time_max cf g) /\
  exists a ga, ancestor cf t a id /\ get_gen cf t a = Some ga /\ gen_time cf ga = gen_time_max cf g.
Proof.
  intros Hb Hg. apply built_wf in Hb.
  assert (Hind : forall n id g, N.to_nat (gen_height g) = n -> get_gen cf t id = Some g ->
    (forall a ga, ancestor cf t a id -> get_gen cf t a = Some ga -> gen_time cf ga <= gen_time_max cf g) /\
    exists a ga, ancestor cf t a id /\ get_gen cf t a = Some ga /\ gen_time cf ga = gen_time_max cf g).
  { clear id g Hg. induction n as [|n IH]; intros id g Hn Hg.
    - pose proof (wf_height_0 cf t id g Hb Hg ltac:(lia)) as ->. pose proof Hg as Hg'. apply get_gen_gen in Hg' as ->. split.
      + intros a ga [m Hm] Ha. destruct (up_height cf _ _ _ _ _ Hb Hg Hm) as (ga' & Ha' & He). rewrite Ha in Ha'. injection Ha' as <-. cbn in He.
        rewrite (wf_height_0 cf t a ga Hb Ha ltac:(lia)). cbn. lia.
      + exists (genesis_id cf), Genesis. split; [apply ancestor_refl|]. split; [exact Hg|reflexivity].
    - destruct g as [|b]; [cbn in Hn; lia|]. cbn [gen_time_max]. pose proof Hg as Hg'. apply get_gen_block in Hg' as [_ Hg'].
      destruct (Hb _ _ Hg') as (_ & _ & _ & (p & Hp & Hh & _ & Htm) & _). cbn in Hn. destruct (IH (bi_prev b) p ltac:(lia) Hp) as [IHa (a0 & g0 & A0 & G0 & E0)]. split.
      + intros a ga [m Hm] Ha. destruct m as [|m].
        * injection Hm as ->. rewrite Hg in Ha. injection Ha as <-. cbn. lia.
        * cbn in Hm. replace (parent cf t id) with (Some (bi_prev b)) in Hm by (symmetry; apply parent_some; exists b; split; [exact Hg|reflexivity]).
          assert (gen_time cf ga <= gen_time_max cf p) by (apply (IHa a); [exists m; exact Hm|exact Ha]). lia.
      + destruct (N.le_gt_cases (gen_time_max cf p) (bi_time b)).
        * exists id, (Block b). split; [apply ancestor_refl|]. split; [exact Hg|cbn; lia].
        * exists a0, g0. split; [eapply ancestor_parent; [exact Hg|reflexivity|exact A0]|]. split; [exact G0|lia]. }
  exact (Hind _ id g eq_refl Hg).
Qed.
Print Assumptions C35_latest_time_of_chain.
Example C35_example : built ex_cf ex_tree /\ gen_height (ex_gen 37) = 37 /\ gen_height (ex_gen 103) = 23 /\
  id_of (get_ancestor ex_cf ex_tree (ex_gen 37) 12) = 12 /\ id_of (get_ancestor ex_cf ex_tree (ex_gen 103) 21) = 101 /\
  id_of (get_ancestor ex_cf ex_tree (ex_gen 103) 0) = 1000 /\ up ex_cf ex_tree 3 103 = Some 20 /\
  (match ex_gen 36 with Block b => bi_skip b | Genesis => 0 end) = 32.
Proof. split; [exact ex_tree_built|]. vm_compute. repeat split; reflexivity. Qed.

(** ** C36 *)
(** The reported common ancestor is an ancestor of both blocks, and every common ancestor is an ancestor of it. *)
Theorem C36_last_common_ancestor cf t id1 id2 g1 g2 : built cf t -> get_gen cf t id1 = Some g1 -> get_gen cf t id2 = Some g2 ->
  exists g, last_common_ancestor cf t g1 g2 = Ok g /\ stored cf t g /\ ancestor cf t (gen_id cf g) id1 /\ ancestor cf t (gen_id cf g) id2 /\
    forall x, ancestor cf t x id1 -> ancestor cf t x id2 -> ancestor cf t x (gen_id cf g).
Proof. intros Hb H1 H2. exact (lca_spec cf t id1 id2 g1 g2 (built_wf cf t Hb) H1 H2). Qed.
Print Assumptions C36_last_common_ancestor.
(** Being in the main chain, as reported by the height map, is being the best block or one of its ancestors. *)
Theorem C36_in_main_chain cf s id : built cf (t_idx s) -> main_chain_listed cf s -> is_Some (get_gen cf (t_idx s) id) ->
  in_main_chain cf s id = true <-> ancestor cf (t_idx s) id (t_best s).
Proof. intros Hb. apply in_main_chain_spec, built_wf, Hb. Qed.
Print Assumptions C36_in_main_chain.
(** The blocks to connect run from right above the fork point with the main chain up to the new tip, each the parent of
    the next, none of them in the main chain. *)
Theorem C36_new_branch cf s b : built cf (t_idx s) -> main_chain_listed cf s -> t_idx s !! bi_id b = Some b -> in_main_chain cf s (bi_id b) = false ->
  exists f fg l, get_new_chain cf s b = Ok l /\ l <> [] /\ path f l (bi_id b) /\
    (forall x, x ∈ l -> t_idx s !! bi_id x = Some x /\ in_main_chain cf s (bi_id x) = false) /\
    get_gen cf (t_idx s) f = Some fg /\ lca_in_main_chain cf s (Block b) = Ok fg /\ ancestor cf (t_idx s) f (bi_id b) /\ ancestor cf (t_idx s) f (t_best s).
Proof. intros Hb. apply new_chain_spec, built_wf, Hb. Qed.
Print Assumptions C36_new_branch.
Definition ex_main : gmap N N := list_to_map ((0, 1000) :: ((fun n => (N.of_nat n, N.of_nat n)) <$> seq 1 40)).
Definition ex_state : tree := Tree ex_tree ex_main 40 10.
Example C36_example : built ex_cf ex_tree /\
  id_of (last_common_ancestor ex_cf ex_tree (ex_gen 33) (ex_gen 103)) = 20 /\
  id_of (lca_in_main_chain ex_cf ex_state (ex_gen 102)) = 20 /\
  in_main_chain ex_cf ex_state 103 = false /\ in_main_chain ex_cf ex_state 20 = true /\
  (match ex_gen 103 with Block b => match get_new_chain ex_cf ex_state b with Ok l => bi_id <$> l | _ => [] end | Genesis => [] end) = [101; 102; 103].
Proof. split; [exact ex_tree_built|]. vm_compute. repeat split; reflexivity. Qed.
(** the example's height map does list its main chain *)
Fixpoint ups (cf : tree_cfg) (t : index_map) (fuel : nat) (id : N) : list N :=
  match fuel with O => [id] | S f => id :: match parent cf t id with Some p => ups cf t f p | None => [] end end.
Lemma ups_up cf t fuel id n a : up cf t n id = Some a -> (n <= fuel)%nat -> a ∈ ups cf t fuel id.
Proof.
  revert id n. induction fuel as [|fuel IH]; intros id n Hu Hn.
  - replace n with O in Hu by lia. injection Hu as ->. left.
  - cbn. destruct n as [|n]; [injection Hu as ->; left|]. cbn in Hu. destruct (parent cf t id); [|discriminate]. right. apply (IH n0 n); [exact Hu|lia].
Qed.
Lemma ups_anc cf t fuel id a : a ∈ ups cf t fuel id -> ancestor cf t a id.
Proof.
  revert id. induction fuel as [|fuel IH]; intros id H; cbn in H.
  - apply elem_of_list_singleton in H as ->. apply ancestor_refl.
  - apply elem_of_cons in H as [->|H]; [apply ancestor_refl|]. destruct (parent cf t id) as [p|] eqn:E; [|inversion H].
    apply IH in H as [n Hn]. exists (S n). cbn. rewrite E. exact Hn.
Qed.
Example C36_example_main_chain_listed : main_chain_listed ex_cf ex_state.
Proof.
  assert (Hups : ups ex_cf ex_tree 40 40 = (N.of_nat <$> rev (seq 1 40)) ++ [1000]) by (vm_compute; reflexivity).
  assert (H40 : gen_height (ex_gen 40) = 40) by (vm_compute; reflexivity).
  assert (Hk : forallb (fun n => match get_gen ex_cf ex_tree (N.of_nat n) with Some g => gen_height g =? N.of_nat n | None => false end) (seq 1 40) = true) by (vm_compute; reflexivity).
  assert (Hall : forall n, In n (seq 1 40) -> exists g, get_gen ex_cf ex_tree (N.of_nat n) = Some g /\ gen_height g = N.of_nat n).
  { intros n Hn. rewrite forallb_forall in Hk. specialize (Hk n Hn). cbv beta in Hk. destruct (get_gen ex_cf ex_tree (N.of_nat n)) as [g|]; [|discriminate]. exists g. split; [reflexivity|lia]. }
  destruct (Hall 40%nat ltac:(apply in_seq; lia)) as (g40 & Hg40 & Hh40). change (N.of_nat 40) with 40 in *.
  split; [exists g40; exact Hg40|]. intros h id. cbn [t_main t_idx t_best ex_state].
  assert (Hanc : ancestor ex_cf ex_tree id 40 <-> id = 1000 \/ exists n, In n (seq 1 40) /\ id = N.of_nat n).
  { split.
    - intros [n Hn]. destruct (up_height ex_cf _ _ _ _ _ (built_wf _ _ ex_tree_built) Hg40 Hn) as (g & _ & Hh).
      apply (ups_up _ _ 40) in Hn; [|lia]. rewrite Hups in Hn. apply elem_of_app in Hn as [Hn|Hn].
      + right. apply elem_of_list_fmap in Hn as (m & -> & Hm). exists m. split; [|reflexivity]. apply elem_of_list_In, in_rev in Hm. exact Hm.
      + left. apply elem_of_list_singleton in Hn. exact Hn.
    - intro H. apply (ups_anc _ _ 40). rewrite Hups. apply elem_of_app. destruct H as [->|(n & Hn & ->)]; [right; left|]. left. apply elem_of_list_fmap. exists n. split; [reflexivity|].
      apply elem_of_list_In. rewrite <- in_rev. exact Hn. }
  assert (Hnd : NoDup (fst <$> ((0, 1000) :: ((fun n => (N.of_nat n, N.of_nat n)) <$> seq 1 40)))).
  { rewrite fmap_cons, <- list_fmap_compose. change (compose fst (fun n => (N.of_nat n, N.of_nat n))) with N.of_nat. constructor.
    - intro H. apply elem_of_list_fmap in H as (n & E & H). apply elem_of_list_In, in_seq in H. cbn in E. lia.
    - apply NoDup_fmap_2; [intros x y E; lia|]. apply NoDup_ListNoDup, seq_NoDup. }
  unfold ex_main. rewrite <- elem_of_list_to_map by exact Hnd. rewrite elem_of_cons, elem_of_list_fmap. split.
  - intros [[= -> ->]|(n & [= -> ->] & Hn)].
    + exists Genesis. split; [reflexivity|]. split; [reflexivity|apply Hanc; left; reflexivity].
    + apply elem_of_list_In in Hn. destruct (Hall n Hn) as (g & Hg & Hh). exists g. split; [exact Hg|]. split; [exact Hh|]. apply Hanc. right. exists n. tauto.
  - intros (g & Hg & Hh & HA). apply Hanc in HA as [->|(n & Hn & ->)].
    + left. change (get_gen ex_cf ex_tree 1000) with (Some Genesis) in Hg. injection Hg as <-. cbn in Hh. congruence.
    + right. exists n. destruct (Hall n Hn) as (g' & Hg' & Hh'). rewrite Hg in Hg'. injection Hg' as <-. split; [congruence|]. apply elem_of_list_In, Hn.
Qed.

(** ** C39 *)
(** The time used for time locks: of the timestamps of the block and its ancestors, up to eleven, at most half (rounded
    down) are strictly below it and more than half at or below it; so at least half are at or below, and at least half
    at or above. There is exactly one such time. *)
Theorem C39_median_of_last_eleven cf t id : is_Some (get_gen cf t id) ->
  exists m, median_time_past cf t id = Ok m /\ is_median m (gen_time cf <$> history cf t 11 id).
Proof. exact (median_time_past_spec cf t id). Qed.
Print Assumptions C39_median_of_last_eleven.
Theorem C39_half_below_half_above m l : is_median m l ->
  (length l <= 2 * count (fun x => N.leb x m) l)%nat /\ (length l <= 2 * count (fun x => N.leb m x) l)%nat.
Proof. exact (is_median_half m l). Qed.
Print Assumptions C39_half_below_half_above.
Theorem C39_median_unique m m' l : is_median m l -> is_median m' l -> m = m'.
Proof. exact (is_median_unique m m' l). Qed.
Print Assumptions C39_median_unique.
(** The window is the block and its nearest ancestors. *)
Theorem C39_window_is_nearest_ancestors cf t id i : built cf t -> is_Some (get_gen cf t id) -> (i < 11)%nat ->
  history cf t 11 id !! i = match up cf t i id with Some a => get_gen cf t a | None => None end.
Proof. intros Hb. apply history_lookup, built_wf, Hb. Qed.
Print Assumptions C39_window_is_nearest_ancestors.
(** A block accepted with a timestamp not before its parent's median time never moves the median time back. *)
Theorem C39_median_never_goes_back cf t id b m m' : built cf t -> get_gen cf t id = Some (Block b) -> median_time_past cf t (bi_prev b) = Ok m ->
  m <= bi_time b -> median_time_past cf t id = Ok m' -> m <= m'.
Proof. intros Hb. apply median_time_grows, built_wf, Hb. Qed.
Print Assumptions C39_median_never_goes_back.
Example C39_example : is_Some (get_gen ex_cf ex_tree 30) /\
  (gen_time ex_cf <$> history ex_cf ex_tree 11 3) = [104; 106; 103; 50] /\ median_time_past ex_cf ex_tree 3 = Ok 104 /\
  median_time_past ex_cf ex_tree 30 = Ok 127.
Proof. split; [|vm_compute; repeat split; reflexivity]. destruct (get_gen ex_cf ex_tree 30) as [g|] eqn:E; [exists g; reflexivity|]. vm_compute in E. discriminate. Qed.

(** ** C41 *)
(** Collecting the branch of a block gives, once each, exactly the stored blocks descending from it. *)
Theorem C41_branch_is_all_descendants cf t root rb : built cf t -> t !! root = Some rb -> bi_height rb < U64_MAX ->
  exists l, collect_branch cf t root = Ok (rb :: l) /\ NoDup (bi_id <$> rb :: l) /\
    forall b, b ∈ rb :: l <-> t !! bi_id b = Some b /\ ancestor cf t root (bi_id b).
Proof. intros Hb. apply collect_branch_spec, built_wf, Hb. Qed.
Print Assumptions C41_branch_is_all_descendants.
(** The candidates for a new best block are exactly the tips of valid branches with enough trust that leave the main
    chain no lower than allowed; they come in increasing order of trust. *)
Theorem C41_candidates_are_the_valid_tips cf s min_trust : built cf (t_idx s) -> is_Some (get_gen cf (t_idx s) (t_best s)) ->
  exists l, candidates_new cf s min_trust = Ok l /\ StronglySorted (fun x y => cand_lt x y = true) l /\
    forall p, p ∈ l <-> exists b, candidate_tip cf s min_trust b /\ p = (bi_trust b, bi_id b).
Proof. intros Hb. apply candidates_spec, built_wf, Hb. Qed.
Print Assumptions C41_candidates_are_the_valid_tips.
(** The chosen candidate has at least as much trust as any tip of a valid branch; none is chosen only when there is none. *)
Theorem C41_best_candidate_has_most_trust cf s min_trust l : built cf (t_idx s) -> is_Some (get_gen cf (t_idx s) (t_best s)) ->
  candidates_new cf s min_trust = Ok l ->
  (forall tr id, best_item l = Some (tr, id) ->
     (exists b, candidate_tip cf s min_trust b /\ bi_id b = id /\ bi_trust b = tr) /\
     forall c, candidate_tip cf s min_trust c -> bi_trust c <= tr) /\
  (best_item l = None <-> forall c, ~ candidate_tip cf s min_trust c).
Proof.
  intros Hb Hi Hl. destruct (C41_candidates_are_the_valid_tips cf s min_trust Hb Hi) as (l' & Hl' & Hs & Hin). rewrite Hl in Hl'. injection Hl' as <-. split.
  - intros tr id Hbest. destruct (best_item_greatest l _ Hs Hbest) as [Hx Hy]. split.
    + apply Hin in Hx as (b & Hc & [= -> ->]). exists b. tauto.
    + intros c Hc. destruct (Hy (bi_trust c, bi_id c)) as [[= E _]|E].
      * apply Hin. exists c. tauto.
      * lia.
      * unfold cand_lt in E. cbn in E. lia.
  - rewrite best_item_none. split.
    + intros -> c Hc. assert (H : (bi_trust c, bi_id c) ∈ @nil (N * N)) by (apply Hin; exists c; tauto). inversion H.
    + intro H. destruct l as [|p l]; [reflexivity|]. exfalso. destruct (proj1 (Hin p)) as (b & Hc & _); [left|]. exact (H b Hc).
Qed.
Print Assumptions C41_best_candidate_has_most_trust.
(** After a failed branch is removed, none of its blocks remains a candidate; its parent joins if it has enough trust. *)
Theorem C41_failed_branch_removed cf t cands root rb ds min_trust : built cf t -> t !! root = Some rb -> bi_height rb < U64_MAX ->
  collect_branch cf t root = Ok (rb :: ds) -> StronglySorted (fun x y => cand_lt x y = true) cands ->
  exists l, remove_tree_add_parent cf t cands rb ds min_trust = Ok l /\ StronglySorted (fun x y => cand_lt x y = true) l /\
    (forall b, t !! bi_id b = Some b -> ancestor cf t root (bi_id b) -> (bi_trust b, bi_id b) ∉ l) /\
    forall p, p ∈ l <-> (p ∈ cands /\ forall b, t !! bi_id b = Some b -> ancestor cf t root (bi_id b) -> p <> (bi_trust b, bi_id b)) \/
      (exists pb, t !! bi_prev rb = Some pb /\ min_trust <= bi_trust pb /\ p = (bi_trust pb, bi_id pb)).
Proof.
  intros Hb Hi Hlt Hc Hs. pose proof (built_wf cf t Hb) as Hw.
  destruct (C41_branch_is_all_descendants cf t root rb Hb Hi Hlt) as (ds' & Hc' & _ & Hds). rewrite Hc in Hc'. injection Hc' as <-.
  assert (Hid : bi_id rb = root) by apply (Hw _ _ Hi).
  destruct (remove_tree_spec cf t cands rb ds min_trust Hw ltac:(destruct (Hw _ _ Hi) as (_ & _ & _ & (pp & Hpp & _) & _); eexists; exact Hpp) Hs) as (l & Hl & Hls & Hin).
  assert (Hin' : forall p, p ∈ l <-> (p ∈ cands /\ forall b, t !! bi_id b = Some b -> ancestor cf t root (bi_id b) -> p <> (bi_trust b, bi_id b)) \/
      (exists pb, t !! bi_prev rb = Some pb /\ min_trust <= bi_trust pb /\ p = (bi_trust pb, bi_id pb))).
  { intro p. rewrite Hin. unfold cand_of. setoid_rewrite Hds. split; (intros [[H1 H2]|H]; [left; split; [exact H1|]|right; exact H]); intros; apply H2; tauto. }
  exists l. split; [exact Hl|]. split; [exact Hls|]. split; [|exact Hin']. intros b Hb1 Hb2 Hx. apply Hin' in Hx as [[_ H]|(pb & Hp1 & _ & [= E1 E2])].
  - exact (H b Hb1 Hb2 eq_refl).
  - destruct (Hw _ _ Hp1) as (Hpid & Hpne & _ & _ & _). rewrite <- E2 in Hpid. rewrite Hpid in Hb1, Hb2.
    assert (Hgr : get_gen cf t root = Some (Block rb)) by (apply get_gen_block; split; [apply (Hw _ _ Hi)|exact Hi]).
    assert (Hgp : get_gen cf t (bi_prev rb) = Some (Block pb)) by (apply get_gen_block; split; [exact Hpne|exact Hp1]).
    destruct Hb2 as [n Hn]. destruct (up_height cf _ _ _ _ _ Hw Hgp Hn) as (g & Hg & Hh). rewrite Hgr in Hg. injection Hg as <-. cbn in Hh.
    destruct (Hw _ _ Hi) as (_ & _ & _ & (p & Hp & Hhp & _) & _). rewrite Hgp in Hp. injection Hp as <-. cbn in Hhp. lia.
Qed.
Print Assumptions C41_failed_branch_removed.
Example C41_example : built ex_cf ex_tree /\
  (match collect_branch ex_cf ex_tree 39 with Ok l => bi_id <$> l | _ => [] end) = [39; 40] /\
  (match collect_branch ex_cf ex_tree 101 with Ok l => bi_id <$> l | _ => [] end) = [101; 102; 103] /\
  candidates_new ex_cf ex_state 100 = Ok [(120, 40); (165, 103)] /\ candidates_new ex_cf ex_state 121 = Ok [(165, 103)] /\
  candidates_new ex_cf ex_state 165 = Ok [(165, 103)] /\ candidates_new ex_cf ex_state 166 = Ok [].
Proof. split; [exact ex_tree_built|]. vm_compute. repeat split; reflexivity. Qed.
