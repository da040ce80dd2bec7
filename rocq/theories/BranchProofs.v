(** Proofs about branches and best-chain candidates. *)
From Coq Require Import Sorting.Permutation Sorting.Sorted.
From Verif Require Import Base StatusModel StatusSpec BlockTreeModel BlockTreeSpec BlockTreeProofs BlockTreeMoreProofs.
Local Open Scope N_scope.

(** ** Ids by height *)
Lemma insert_by_height_perm x l : Permutation (insert_by_height x l) (x :: l).
Proof. induction l as [|y l IH]; [reflexivity|]. cbn. destruct (by_height_le x y); [reflexivity|]. rewrite IH. apply perm_swap. Qed.
Lemma sort_by_height_perm l : Permutation (foldr insert_by_height [] l) l.
Proof. induction l as [|x l IH]; [reflexivity|]. cbn. rewrite insert_by_height_perm, IH. reflexivity. Qed.
Definition height_ord (x y : N * N) : Prop := fst x <= fst y.
Lemma insert_by_height_sorted x l : StronglySorted height_ord l -> StronglySorted height_ord (insert_by_height x l).
Proof.
  unfold height_ord. induction 1 as [|y l Hs IH Hy]; cbn; [repeat constructor|]. unfold by_height_le. destruct (_ || _) eqn:E.
  - constructor; [constructor; assumption|]. constructor; [lia|]. eapply List.Forall_impl; [|exact Hy]. intros z Hz. cbn in *. lia.
  - constructor; [exact IH|]. apply List.Forall_forall. intros z Hz. apply (Permutation_in _ (insert_by_height_perm x l)) in Hz as [<-|Hz]; [lia|].
    rewrite List.Forall_forall in Hy. apply Hy, Hz.
Qed.
Lemma sort_by_height_sorted l : StronglySorted height_ord (foldr insert_by_height [] l).
Proof. induction l as [|x l IH]; [constructor|]. cbn. apply insert_by_height_sorted, IH. Qed.

Definition keyed (t : index_map) (start : N) : list (N * N) :=
  foldr insert_by_height []
    ((fun p : N * bindex => (bi_height (snd p), fst p)) <$> filter (fun p : N * bindex => start <= bi_height (snd p)) (map_to_list t)).
Lemma keyed_elem t start h id : (h, id) ∈ keyed t start <-> exists b, t !! id = Some b /\ h = bi_height b /\ start <= h.
Proof.
  unfold keyed. rewrite sort_by_height_perm, elem_of_list_fmap. split.
  - intros ([i b] & [= -> ->] & H). apply elem_of_list_filter in H as [Hs H]. apply elem_of_map_to_list in H. exists b. cbn in Hs. tauto.
  - intros (b & Hb & -> & Hs). exists (id, b). split; [reflexivity|]. apply elem_of_list_filter. split; [exact Hs|]. apply elem_of_map_to_list, Hb.
Qed.
Lemma higher_ids_elem t start id : id ∈ higher_ids t start <-> exists b, t !! id = Some b /\ start <= bi_height b.
Proof.
  unfold higher_ids. fold (keyed t start). rewrite elem_of_list_fmap. split.
  - intros ([h i] & -> & H). apply keyed_elem in H as (b & Hb & -> & Hs). exists b. tauto.
  - intros (b & Hb & Hs). exists (bi_height b, id). split; [reflexivity|]. apply keyed_elem. exists b. tauto.
Qed.
Lemma higher_ids_nodup t start : NoDup (higher_ids t start).
Proof.
  unfold higher_ids. fold (keyed t start). unfold keyed. rewrite sort_by_height_perm. rewrite <- list_fmap_compose.
  change (compose snd (fun p : N * bindex => (bi_height (snd p), fst p))) with (fun p : N * bindex => fst p).
  assert (H : NoDup (map_to_list t).*1) by apply NoDup_fst_map_to_list.
  revert H. generalize (map_to_list t). intro l. induction l as [|[i b] l IH]; intro H; [cbn; constructor|]. cbn in H. inversion H; subst.
  rewrite filter_cons. destruct (decide _); cbn; [|apply IH; assumption]. constructor; [|apply IH; assumption].
  rewrite elem_of_list_fmap. intros ([i' b'] & E & Hin). cbn in E. subst i'. apply elem_of_list_filter in Hin as [_ Hin]. apply H2.
  apply elem_of_list_fmap. exists (i, b'). split; [reflexivity|exact Hin].
Qed.
(** Going through the list upwards, everything strictly lower has been passed. *)
Lemma higher_ids_below t start d id r x b bx : higher_ids t start = d ++ id :: r -> t !! id = Some b -> t !! x = Some bx -> start <= bi_height bx ->
  bi_height bx < bi_height b -> x ∈ d.
Proof.
  intros He Hb Hx Hs Hlt.
  assert (Hin : x ∈ higher_ids t start) by (apply higher_ids_elem; exists bx; tauto).
  rewrite He in Hin. apply elem_of_app in Hin as [Hin|Hin]; [exact Hin|]. exfalso.
  assert (Hsrt : StronglySorted (fun i j => forall bi bj, t !! i = Some bi -> t !! j = Some bj -> bi_height bi <= bi_height bj) (higher_ids t start)).
  { unfold higher_ids. fold (keyed t start). assert (Hk : forall h i, (h, i) ∈ keyed t start -> exists b, t !! i = Some b /\ h = bi_height b).
    { intros h i H. apply keyed_elem in H as (c & ? & ? & _). exists c. tauto. }
    assert (Hs2 : StronglySorted height_ord (keyed t start)) by apply sort_by_height_sorted.
    revert Hk Hs2. generalize (keyed t start). intros l Hk Hs2. induction Hs2 as [|[h i] l Hs2 IH Hall]; cbn; constructor.
    - apply IH. intros h' i' H. apply Hk. right. exact H.
    - apply List.Forall_forall. intros j Hj bi bj Hbi Hbj. apply elem_of_list_In, elem_of_list_fmap in Hj as ([h' j'] & -> & Hj). cbn in Hbj.
      rewrite List.Forall_forall in Hall. apply elem_of_list_In in Hj as Hj'. specialize (Hall _ Hj'). unfold height_ord in Hall. cbn in Hall.
      destruct (Hk h i ltac:(left)) as (c & Hc & ->). destruct (Hk h' j' ltac:(right; exact Hj)) as (c' & Hc' & ->). congruence. }
  rewrite He in Hsrt. clear He. induction d as [|y d IH]; cbn in Hsrt; inversion Hsrt as [|? ? Hs' Hall]; subst; [|apply IH; assumption].
  apply elem_of_cons in Hin as [->|Hin]; [rewrite Hb in Hx; injection Hx as ->; lia|].
  rewrite List.Forall_forall in Hall. apply elem_of_list_In in Hin. specialize (Hall x Hin b bx Hb Hx). lia.
Qed.

Section tree.
Context (cf : tree_cfg).

(** ** Branches *)
Lemma branch_loop_spec t root rb : wf cf t -> t !! root = Some rb -> forall rest d seen acc,
  higher_ids t (bi_height rb + 1) = d ++ rest ->
  (forall x, x ∈ seen <-> (x = root \/ x ∈ d) /\ ancestor cf t root x) ->
  (forall b, b ∈ acc <-> bi_id b ∈ seen /\ t !! bi_id b = Some b) ->
  NoDup (bi_id <$> acc) ->
  exists l, branch_loop cf t rest seen acc = Ok (rev acc ++ l) /\ NoDup (bi_id <$> rev acc ++ l) /\
    forall b, b ∈ rev acc ++ l <-> t !! bi_id b = Some b /\ ancestor cf t root (bi_id b).
Proof.
  intros Hwf Hroot. assert (Hgr : get_gen cf t root = Some (Block rb)) by (apply get_gen_block; split; [apply (Hwf _ _ Hroot)|exact Hroot]).
  induction rest as [|id rest IH]; intros d seen acc He Hseen Hacc Hnd.
  - exists []. rewrite app_nil_r. cbn. split; [reflexivity|]. split; [rewrite <- Permutation_rev; exact Hnd|].
    intro b. rewrite elem_of_list_In, <- in_rev, <- elem_of_list_In, Hacc, Hseen. rewrite app_nil_r in He. split.
    + intros [[_ Ha] Hb]. split; assumption.
    + intros [Hb Ha]. split; [|exact Hb]. split; [|exact Ha].
      destruct (decide (bi_id b = root)) as [->|Hne]; [left; reflexivity|]. right. rewrite <- He. apply higher_ids_elem. exists b. split; [exact Hb|].
      destruct Ha as [n Hn]. assert (Hgb : get_gen cf t (bi_id b) = Some (Block b)) by (apply get_gen_block; split; [apply (Hwf _ _ Hb)|exact Hb]).
      destruct (up_height cf _ _ _ _ _ Hwf Hgb Hn) as (g & Hg & Hh). rewrite Hgr in Hg. injection Hg as <-. cbn in Hh.
      destruct n as [|n]; [cbn in Hn; congruence|]. lia.
  - cbn [branch_loop].
    assert (Hin : id ∈ higher_ids t (bi_height rb + 1)) by (rewrite He; apply elem_of_app; right; left).
    apply higher_ids_elem in Hin as (b & Hb & Hhb). unfold get_existing. rewrite Hb. cbn [ok_or rbind].
    destruct (Hwf _ _ Hb) as (Hid & Hne & _ & (p & Hp & Hhp & _) & _).
    assert (Hgb : get_gen cf t id = Some (Block b)) by (apply get_gen_block; split; assumption).
    pose proof (wf_height_pos cf _ _ _ Hwf Hroot) as Hpos.
    destruct (bi_prev b =? genesis_id cf) eqn:Eg.
    { exfalso. assert (bi_prev b = genesis_id cf) as E by lia. rewrite E, get_gen_genesis in Hp. injection Hp as <-. cbn in Hhp. lia. }
    assert (Hnotd : id ∉ d). { pose proof (higher_ids_nodup t (bi_height rb + 1)) as Hn. rewrite He in Hn. apply NoDup_app in Hn as (_ & Hn & _). intro H. apply (Hn _ H). left. }
    assert (Hnr : id <> root). { intros ->. rewrite Hroot in Hb. injection Hb as ->. lia. }
    assert (Hanc : bi_prev b ∈ seen <-> ancestor cf t root id).
    { rewrite Hseen. split.
      - intros [_ Ha]. eapply ancestor_parent; [exact Hgb|reflexivity|exact Ha].
      - intros [n Hn]. destruct n as [|n]; [cbn in Hn; congruence|]. cbn in Hn.
        replace (parent cf t id) with (Some (bi_prev b)) in Hn by (symmetry; apply parent_some; exists b; split; [exact Hgb|reflexivity]).
        split; [|exists n; exact Hn]. destruct (up_height cf _ _ _ _ _ Hwf Hp Hn) as (g & Hg & Hh). rewrite Hgr in Hg. injection Hg as <-. cbn in Hh.
        destruct n as [|n]; [left; cbn in Hn; congruence|]. right.
        destruct p as [|pb]; [cbn in Hh; lia|]. apply get_gen_block in Hp as [_ Hp].
        eapply (higher_ids_below t _ d id rest (bi_prev b) b pb He Hb Hp); cbn in *; lia. }
    destruct (decide (bi_prev b ∈ seen)) as [Hs|Hs].
    + destruct (IH (d ++ [id]) ({[id]} ∪ seen) (b :: acc)) as (l & Hl & Hnd' & Hall).
      * rewrite <- app_assoc. exact He.
      * intro x. rewrite elem_of_union, elem_of_singleton, Hseen, elem_of_app, elem_of_list_singleton. split.
        -- intros [->|[[?|?] ?]]; [split; [tauto|apply Hanc, Hs]|tauto|tauto].
        -- intros [[?|[?|?]] ?]; [right|right|left]; tauto.
      * intro x. rewrite elem_of_cons, elem_of_union, elem_of_singleton, Hacc. split.
        -- intros [->|[? ?]]; [rewrite Hid; tauto|tauto].
        -- intros [[Hx|Hx] Hx2]; [left; rewrite Hx in Hx2; congruence|right; tauto].
      * cbn. constructor; [|exact Hnd]. rewrite elem_of_list_fmap. intros (y & Hy & Hyin). apply Hacc in Hyin as [Hyin _]. rewrite <- Hy, Hid in Hyin.
        apply Hseen in Hyin as [[?|?] _]; tauto.
      * exists (b :: l). cbn [rev] in *. rewrite <- app_assoc in *. split; [exact Hl|]. split; assumption.
    + destruct (IH (d ++ [id]) seen acc) as (l & Hl & Hnd' & Hall).
      * rewrite <- app_assoc. exact He.
      * intro x. rewrite Hseen, elem_of_app, elem_of_list_singleton. split; [tauto|]. intros [[?|[?|Hx]] Ha]; [tauto|tauto|]. subst x. exfalso. apply Hs, Hanc, Ha.
      * exact Hacc.
      * exact Hnd.
      * exists l. split; [exact Hl|]. split; assumption.
Qed.
Lemma collect_branch_spec t root rb : wf cf t -> t !! root = Some rb -> bi_height rb < U64_MAX ->
  exists l, collect_branch cf t root = Ok (rb :: l) /\ NoDup (bi_id <$> rb :: l) /\
    forall b, b ∈ rb :: l <-> t !! bi_id b = Some b /\ ancestor cf t root (bi_id b).
Proof.
  intros Hwf Hr Hmax. unfold collect_branch, get_existing. rewrite Hr. cbn [ok_or rbind].
  unfold next_height, checked_add. replace (bi_height rb + 1 <=? U64_MAX) with true by lia. cbn [expect rbind].
  assert (Hid : bi_id rb = root) by apply (Hwf _ _ Hr).
  destruct (branch_loop_spec t root rb Hwf Hr (higher_ids t (bi_height rb + 1)) [] {[root]} [rb]) as (l & Hl & Hnd & Hall).
  - reflexivity.
  - intro x. rewrite elem_of_singleton. split; [intros ->; split; [left; reflexivity|apply ancestor_refl]|]. intros [[?|Hx] _]; [assumption|inversion Hx].
  - intro b. rewrite elem_of_list_singleton, elem_of_singleton. split; [intros ->; rewrite Hid; tauto|]. intros [H1 H2]. rewrite H1, Hr in H2. congruence.
  - cbn. apply NoDup_singleton.
  - exists l. cbn in *. split; [exact Hl|]. split; assumption.
Qed.

(** ** Candidates *)
Definition cand_ord (x y : N * N) : Prop := cand_lt x y = true.
Lemma cand_lt_trans x y z : cand_lt x y = true -> cand_lt y z = true -> cand_lt x z = true.
Proof. unfold cand_lt. lia. Qed.
Lemma cand_insert_elem x y l : x ∈ cand_insert y l <-> x = y \/ x ∈ l.
Proof.
  induction l as [|z l IH]; cbn; [rewrite elem_of_list_singleton; split; [tauto|intros [?|H]; [assumption|inversion H]]|].
  destruct (cand_lt y z) eqn:E1; [rewrite !elem_of_cons; tauto|]. destruct (cand_lt z y) eqn:E2; [rewrite !elem_of_cons, IH; tauto|].
  rewrite !elem_of_cons. assert (y = z) as -> by (unfold cand_lt in *; destruct y, z; cbn in *; f_equal; lia). tauto.
Qed.
Lemma cand_insert_sorted y l : StronglySorted cand_ord l -> StronglySorted cand_ord (cand_insert y l).
Proof.
  induction 1 as [|z l Hs IH Hall]; cbn; [repeat constructor|].
  destruct (cand_lt y z) eqn:E1.
  - constructor; [constructor; assumption|]. constructor; [exact E1|]. eapply List.Forall_impl; [|exact Hall]. intros w Hw. eapply cand_lt_trans; eassumption.
  - destruct (cand_lt z y) eqn:E2; [|constructor; assumption]. constructor; [exact IH|]. apply List.Forall_forall. intros w Hw. apply elem_of_list_In, cand_insert_elem in Hw as [->|Hw]; [exact E2|].
    rewrite List.Forall_forall in Hall. apply Hall, elem_of_list_In, Hw.
Qed.
Lemma cand_remove_sorted y l : StronglySorted cand_ord l -> StronglySorted cand_ord (cand_remove y l).
Proof.
  unfold cand_remove. induction 1 as [|z l Hs IH Hall]; [constructor|]. rewrite filter_cons. destruct (decide _); [|exact IH]. constructor; [exact IH|].
  apply List.Forall_forall. intros w Hw. apply elem_of_list_In, elem_of_list_filter in Hw as [_ Hw]. rewrite List.Forall_forall in Hall. apply Hall, elem_of_list_In, Hw.
Qed.
Lemma cand_remove_elem x y l : x ∈ cand_remove y l <-> x <> y /\ x ∈ l.
Proof. unfold cand_remove. rewrite elem_of_list_filter. tauto. Qed.
Lemma best_item_greatest l x : StronglySorted cand_ord l -> best_item l = Some x -> x ∈ l /\ forall y, y ∈ l -> y = x \/ cand_lt y x = true.
Proof.
  unfold best_item. intro Hs. induction Hs as [|z l Hs IH Hall]; [discriminate|]. intro Hl. destruct l as [|w l].
  - cbn in Hl. injection Hl as ->. split; [left|]. intros y Hy. apply elem_of_list_singleton in Hy. left. exact Hy.
  - rewrite last_cons_cons in Hl. destruct (IH Hl) as [Hin Hgr]. split; [right; exact Hin|]. intros y Hy. apply elem_of_cons in Hy as [->|Hy]; [|apply Hgr, Hy].
    right. rewrite List.Forall_forall in Hall. apply Hall, elem_of_list_In, Hin.
Qed.
Lemma best_item_none l : best_item l = None <-> l = [].
Proof. unfold best_item. apply last_None. Qed.

Lemma lca_height s b : wf cf (t_idx s) -> is_Some (get_gen cf (t_idx s) (t_best s)) -> t_idx s !! bi_id b = Some b ->
  exists g, lca_in_main_chain cf s (Block b) = Ok g /\ (forall h, h <= gen_height g <-> fork_height_ge cf s b h).
Proof.
  intros Hwf [gb Hgb] Hb. unfold lca_in_main_chain, best_index. rewrite Hgb. cbn [ok_or rbind].
  assert (Hg : get_gen cf (t_idx s) (bi_id b) = Some (Block b)) by (apply get_gen_block; split; [apply (Hwf _ _ Hb)|exact Hb]).
  destruct (lca_spec cf _ _ _ _ _ Hwf Hg Hgb) as (g & Hl & Hst & A1 & A2 & Hmax). exists g. split; [exact Hl|]. intro h. split.
  - intro Hh. exists (gen_id cf g), g. tauto.
  - intros (f & gf & Hf & Hh & B1 & B2). destruct (ancestor_known cf _ _ _ _ Hwf Hst (Hmax f B1 B2)) as (gf' & Hgf' & Hle). rewrite Hf in Hgf'. injection Hgf' as <-. lia.
Qed.
Lemma cand_loop_spec s min_trust : wf cf (t_idx s) -> is_Some (get_gen cf (t_idx s) (t_best s)) -> forall todo d cands seen,
  higher_ids (t_idx s) (t_min s) = todo ++ d ->
  StronglySorted cand_ord cands ->
  (forall x, x ∈ seen <-> exists c, worthy cf (t_idx s) min_trust c /\ bi_id c ∈ d /\ bi_prev c = x) ->
  (forall p, p ∈ cands <-> exists b, bi_id b ∈ d /\ candidate_tip cf s min_trust b /\ p = cand_of b) ->
  exists cands' seen', rfold (cand_step cf s min_trust) (rev todo) (cands, seen) = Ok (cands', seen') /\ StronglySorted cand_ord cands' /\
    (forall p, p ∈ cands' <-> exists b, bi_id b ∈ todo ++ d /\ candidate_tip cf s min_trust b /\ p = cand_of b).
Proof.
  intros Hwf Hbest. induction todo as [|id todo IH] using rev_ind; intros d cands seen He Hsrt Hseen Hc.
  - exists cands, seen. cbn. repeat split; try assumption; apply Hc.
  - rewrite rev_app_distr. cbn [rev app rfold]. rewrite <- app_assoc in He. cbn [app] in He.
    assert (Hin : id ∈ higher_ids (t_idx s) (t_min s)) by (rewrite He; apply elem_of_app; right; left).
    apply higher_ids_elem in Hin as (b & Hb & Hhb).
    destruct (Hwf _ _ Hb) as (Hid & Hne & _ & (p & Hp & Hhp & _) & _).
    assert (Hchild : forall c, worthy cf (t_idx s) min_trust c -> bi_prev c = id -> bi_id c ∈ d).
    { intros c [Hcs _] Hpc. destruct (Hwf _ _ Hcs) as (_ & _ & _ & (q & Hq & Hhq & _) & _). rewrite Hpc in Hq.
      assert (Hgb : get_gen cf (t_idx s) id = Some (Block b)) by (apply get_gen_block; split; assumption). rewrite Hgb in Hq. injection Hq as <-. cbn in Hhq.
      assert (Hci : bi_id c ∈ higher_ids (t_idx s) (t_min s)) by (apply higher_ids_elem; exists c; split; [exact Hcs|lia]).
      rewrite He in Hci. apply elem_of_app in Hci as [Hci|Hci].
      - exfalso. apply elem_of_list_split in Hci as (l1 & l2 & ->). rewrite <- app_assoc in He. cbn in He.
        pose proof (higher_ids_below (t_idx s) _ l1 (bi_id c) _ id c b He Hcs Hb ltac:(lia) ltac:(lia)) as Hin1.
        pose proof (higher_ids_nodup (t_idx s) (t_min s)) as Hn. rewrite He in Hn. apply NoDup_app in Hn as (_ & Hn & _).
        apply (Hn _ Hin1). right. apply elem_of_app. right. left.
      - apply elem_of_cons in Hci as [Hci|Hci]; [|exact Hci]. exfalso. rewrite Hci, Hb in Hcs. injection Hcs as ->. lia. }
    assert (Hnoc : id ∈ seen <-> exists c, worthy cf (t_idx s) min_trust c /\ bi_prev c = bi_id b).
    { rewrite Hseen, Hid. split; [intros (c & Hw & _ & Hx); exists c; tauto|]. intros (c & Hw & Hx). exists c. split; [exact Hw|]. split; [apply Hchild; assumption|exact Hx]. }
    unfold cand_step at 1, get_existing. rewrite Hb. cbn [ok_or rbind].
    destruct (v_ok (bi_status b) && (min_trust <=? bi_trust b)) eqn:Ew.
    + assert (Hw : worthy cf (t_idx s) min_trust b) by (unfold worthy; rewrite Hid; split; [exact Hb|]; lia).
      assert (Hseen' : forall x, x ∈ ({[bi_prev b]} ∪ seen : gset N) <-> exists c, worthy cf (t_idx s) min_trust c /\ bi_id c ∈ id :: d /\ bi_prev c = x).
      { intro x. rewrite elem_of_union, elem_of_singleton, Hseen. split.
        - intros [->|(c & ? & ? & ?)]; [exists b; rewrite Hid; split; [exact Hw|split; [left|reflexivity]]|exists c; split; [assumption|split; [right; assumption|assumption]]].
        - intros (c & Hc1 & Hc2 & Hc3). apply elem_of_cons in Hc2 as [Hc2|Hc2]; [|right; exists c; tauto]. left. destruct Hc1 as [Hc1 _]. rewrite Hc2, Hb in Hc1. congruence. }
      assert (Hstep : forall cands', StronglySorted cand_ord cands' ->
        (forall q, q ∈ cands' <-> (candidate_tip cf s min_trust b /\ q = cand_of b) \/ q ∈ cands) ->
        exists cands'' seen', rfold (cand_step cf s min_trust) (rev todo) (cands', {[bi_prev b]} ∪ seen) = Ok (cands'', seen') /\ StronglySorted cand_ord cands'' /\
          (forall q, q ∈ cands'' <-> exists b, bi_id b ∈ (todo ++ [id]) ++ d /\ candidate_tip cf s min_trust b /\ q = cand_of b)).
      { intros cands' Hs' Hq. rewrite <- app_assoc. cbn [app]. apply (IH (id :: d)); [exact He|exact Hs'|exact Hseen'|].
        intro q. rewrite Hq, Hc. split.
        - intros [[? ->]|(b' & ? & ? & ->)]; [exists b; rewrite Hid; split; [left|split; [assumption|reflexivity]]|exists b'; split; [right; assumption|tauto]].
        - intros (b' & Hin & Ht & ->). apply elem_of_cons in Hin as [Hin|Hin]; [|right; exists b'; tauto]. left.
          destruct Ht as [[Hbs Hx] Hy]. pose proof Hbs as Hbs'. rewrite Hin, Hb in Hbs'. injection Hbs' as <-. split; [split; [split|]; assumption|reflexivity]. }
      destruct (decide (id ∈ seen)) as [Hs|Hs].
      * cbn [rbind]. apply Hstep; [exact Hsrt|]. intro q. split; [tauto|]. intros [[Ht _]|?]; [|assumption]. exfalso.
        apply Hnoc in Hs as (c & Hcw & Hcp). destruct Ht as (_ & _ & Ht). exact (Ht c Hcw Hcp).
      * destruct (lca_height s b Hwf Hbest ltac:(rewrite Hid; exact Hb)) as (g & Hl & Hfork). rewrite Hl. cbn [rbind].
        assert (Htip : candidate_tip cf s min_trust b <-> t_min s <= gen_height g).
        { rewrite (Hfork (t_min s)). split; [intros (_ & H & _); exact H|]. intro H. split; [exact Hw|]. split; [exact H|].
          intros c Hcw Hcp. apply Hs, Hnoc. exists c. tauto. }
        destruct (t_min s <=? gen_height g) eqn:Eg; cbn [rbind].
        -- apply Hstep; [apply cand_insert_sorted, Hsrt|]. intro q. rewrite cand_insert_elem. split; [intros [->|?]; [left; split; [apply Htip; lia|reflexivity]|right; assumption]|tauto].
        -- apply Hstep; [exact Hsrt|]. intro q. split; [tauto|]. intros [[Ht _]|?]; [|assumption]. apply Htip in Ht. lia.
    + rewrite <- app_assoc. cbn [app].
      assert (Hnw : forall c, worthy cf (t_idx s) min_trust c -> bi_id c = id -> False).
      { intros c (H1 & H2 & H3) H4. rewrite H4, Hb in H1. injection H1 as ->. rewrite H2 in Ew. lia. }
      apply (IH (id :: d)); [exact He|exact Hsrt| |].
      * intro x. rewrite Hseen. split; intros (c & H1 & H2 & H3); exists c; (split; [exact H1|]; split; [|exact H3]); [right; exact H2|].
        apply elem_of_cons in H2 as [H2|H2]; [destruct (Hnw c H1 H2)|exact H2].
      * intro q. rewrite Hc. split; intros (c & H1 & H2 & H3); exists c; (split; [|split; assumption]); [right; exact H1|].
        apply elem_of_cons in H1 as [H1|H1]; [destruct (Hnw c (proj1 H2) H1)|exact H1].
Qed.
Lemma candidates_spec s min_trust : wf cf (t_idx s) -> is_Some (get_gen cf (t_idx s) (t_best s)) ->
  exists l, candidates_new cf s min_trust = Ok l /\ StronglySorted cand_ord l /\
    forall p, p ∈ l <-> exists b, candidate_tip cf s min_trust b /\ p = (bi_trust b, bi_id b).
Proof.
  intros Hwf Hbest. unfold candidates_new.
  destruct (cand_loop_spec s min_trust Hwf Hbest (higher_ids (t_idx s) (t_min s)) [] [] ∅) as (l & seen & Hl & Hs & Hall).
  - rewrite app_nil_r. reflexivity.
  - constructor.
  - intro x. split; [set_solver|]. intros (c & _ & H & _). inversion H.
  - intro p. split; [intro H; inversion H|]. intros (b & H & _). inversion H.
  - rewrite Hl. cbn. exists l. split; [reflexivity|]. split; [exact Hs|]. intro p. rewrite Hall, app_nil_r. split.
    + intros (b & _ & H1 & H2). exists b. tauto.
    + intros (b & H1 & H2). exists b. split; [|tauto]. apply higher_ids_elem. exists b. destruct H1 as ((Hb & _) & (f & gf & Hf & Hh & A1 & _) & _). split; [exact Hb|].
      assert (Hg : get_gen cf (t_idx s) (bi_id b) = Some (Block b)) by (apply get_gen_block; split; [apply (Hwf _ _ Hb)|exact Hb]).
      destruct (ancestor_known cf _ _ _ _ Hwf Hg A1) as (gf' & Hgf' & Hle). rewrite Hf in Hgf'. injection Hgf' as <-. cbn in Hle. lia.
Qed.
Lemma fold_remove_elem ds l p : p ∈ foldl (fun c b => cand_remove (cand_of b) c) l ds <-> p ∈ l /\ forall b, b ∈ ds -> p <> cand_of b.
Proof.
  revert l. induction ds as [|d ds IH]; intro l; cbn; [split; [intro H; split; [exact H|intros b Hb; inversion Hb]|tauto]|].
  rewrite IH, cand_remove_elem. split.
  - intros [[H1 H2] H3]. split; [exact H2|]. intros b Hb. apply elem_of_cons in Hb as [->|Hb]; [exact H1|apply H3, Hb].
  - intros [H1 H2]. split; [split; [apply H2; left|exact H1]|]. intros b Hb. apply H2. right. exact Hb.
Qed.
Lemma fold_remove_sorted ds l : StronglySorted cand_ord l -> StronglySorted cand_ord (foldl (fun c b => cand_remove (cand_of b) c) l ds).
Proof. revert l. induction ds as [|d ds IH]; intros l H; [exact H|]. cbn. apply IH, cand_remove_sorted, H. Qed.
Lemma remove_tree_spec t cands root ds min_trust : wf cf t -> is_Some (get_gen cf t (bi_prev root)) -> StronglySorted cand_ord cands ->
  exists l, remove_tree_add_parent cf t cands root ds min_trust = Ok l /\ StronglySorted cand_ord l /\
    forall p, p ∈ l <-> (p ∈ cands /\ forall b, b ∈ root :: ds -> p <> cand_of b) \/
      (exists pb, t !! bi_prev root = Some pb /\ min_trust <= bi_trust pb /\ p = cand_of pb).
Proof.
  intros Hwf Hr Hs. unfold remove_tree_add_parent.
  assert (Hrem : forall p, p ∈ foldl (fun c b => cand_remove (cand_of b) c) (cand_remove (cand_of root) cands) ds <->
     p ∈ cands /\ forall b, b ∈ root :: ds -> p <> cand_of b).
  { intro p. apply (fold_remove_elem (root :: ds) cands p). }
  assert (Hsr := fold_remove_sorted ds _ (cand_remove_sorted (cand_of root) cands Hs)).
  destruct Hr as [p Hp].
  destruct (bi_prev root =? genesis_id cf) eqn:Eg.
  - eexists. split; [reflexivity|]. split; [exact Hsr|]. intro q. rewrite Hrem. split; [tauto|]. intros [?|(pb & Hpb & _)]; [assumption|].
    exfalso. destruct (Hwf _ _ Hpb) as (_ & Hx & _). lia.
  - destruct p as [|pb]; [apply get_gen_gen in Hp; lia|]. apply get_gen_block in Hp as [_ Hp]. unfold get_existing. rewrite Hp. cbn [ok_or rbind].
    destruct (min_trust <=? bi_trust pb) eqn:E; eexists; (split; [reflexivity|]).
    + split; [apply cand_insert_sorted, Hsr|]. intro q. rewrite cand_insert_elem, Hrem. split.
      * intros [->|?]; [right; exists pb; split; [reflexivity|split; [lia|reflexivity]]|tauto].
      * intros [?|(pb' & [= <-] & _ & ->)]; tauto.
    + split; [exact Hsr|]. intro q. rewrite Hrem. split; [tauto|]. intros [?|(pb' & [= <-] & H & _)]; [assumption|lia].
Qed.
End tree.
