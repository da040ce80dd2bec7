(** Proofs about the picking of transactions for a block: the whole. *)
From stdpp Require Import relations sorting.
From Verif Require Import Base AmountModel DeltaModel LayeredModel TokensModel OrdersModel PosModel PrimModel ChainModel
  MempoolModel MempoolSpec MempoolGraph MempoolTraverse MempoolFolds MempoolAdd MempoolInsert MempoolRemove MempoolHistory TemplateModel TemplateSpec TemplateProofs.
From Coq Require Import Lia.
Local Open Scope N_scope.

(** ** Sorted lists *)
Lemma sorted_snoc {A} (R : A -> A -> Prop) l x : StronglySorted R l -> Forall (fun y => R y x) l -> StronglySorted R (l ++ [x]).
Proof.
  induction 1 as [|a l H IH Ha]; intros Hx; cbn; [repeat constructor|]. apply Forall_cons in Hx as [Hax Hx]. constructor; [by apply IH|].
  apply Forall_app. split; [exact Ha|]. by repeat constructor.
Qed.
Lemma sorted_rev {A} (R S : A -> A -> Prop) l : (forall x y, R x y -> S y x) -> StronglySorted R l -> StronglySorted S (rev l).
Proof.
  intros HRS. induction 1 as [|a l H IH Ha]; cbn; [constructor|]. apply sorted_snoc; [exact IH|]. rewrite Forall_forall in Ha |- *.
  intros x Hx. apply HRS, Ha. by rewrite elem_of_list_In, <- in_rev, <- elem_of_list_In in Hx.
Qed.
Lemma sorted_sub {A} (R : A -> A -> Prop) l l' : l `sublist_of` l' -> StronglySorted R l' -> StronglySorted R l.
Proof.
  induction 1 as [|x l l' H IH|x l l' H IH]; intros HS; [constructor| |]; apply StronglySorted_inv in HS as [HS Hx]; [|by apply IH].
  constructor; [by apply IH|]. rewrite Forall_forall in Hx |- *. intros y Hy. apply Hx. by apply (sublist_in _ _ H).
Qed.
Lemma sorted_map {A B} (f : A -> B) (R : A -> A -> Prop) (S : B -> B -> Prop) l :
  (forall x y, x ∈ l -> y ∈ l -> R x y -> S (f x) (f y)) -> StronglySorted R l -> StronglySorted S (map f l).
Proof.
  intros H. induction 1 as [|a l HS IH Ha]; cbn; [constructor|]. constructor; [apply IH; intros x y Hx Hy; apply H; by right|].
  rewrite Forall_forall in Ha. apply Forall_forall. intros y Hy. apply elem_of_list_fmap in Hy as (x & -> & Hx). apply H; [left|by right|by apply Ha].
Qed.
Lemma sorted_unmap {A B} (f : A -> B) (S : B -> B -> Prop) l : StronglySorted S (map f l) -> StronglySorted (fun x y => S (f x) (f y)) l.
Proof.
  induction l as [|a l IH]; cbn; [constructor|]. intros H. apply StronglySorted_inv in H as [H Ha]. constructor; [by apply IH|].
  rewrite Forall_forall in Ha. apply Forall_forall. intros x Hx. apply Ha, elem_of_list_fmap. eauto.
Qed.

Section collect.
Context (iter : gset N -> list N) (Hiter : forall s, iter s ≡ₚ elements s) (mk : id_makers) (l : list tx_entry) (s : store).
Context (HS : store_exact mk l s) (HPO : pool_ok mk l).
Context {V : Type} (connect : V -> transaction -> V * bool) (unlocked : transaction -> bool).

(** ** Transactions asked for *)
Lemma parents_fuel : (weight (fun x => S (length (parents_in iter s x))) (dom (st_txs s)) <= traversal_fuel s)%nat.
Proof using Hiter.
  unfold traversal_fuel, weight. apply le_S.
  assert (E : elements (dom (st_txs s)) ≡ₚ map fst (map_to_list (st_txs s))).
  { apply NoDup_Permutation; [apply NoDup_elements|apply NoDup_fst_map_to_list|]. intros x. rewrite elem_of_elements, elem_of_dom. split.
    - intros [m Em]. apply elem_of_list_fmap. exists (x, m). split; [reflexivity|]. by apply elem_of_map_to_list.
    - intros H. apply elem_of_list_fmap in H as ([y m] & -> & H). apply elem_of_map_to_list in H. eauto. }
  rewrite (sum_list_with_perm _ _ _ E), sum_list_with_map. apply sum_list_with_le.
  intros [x m] H. apply elem_of_map_to_list in H. cbn. unfold parents_in. rewrite H, (iter_length iter Hiter). lia.
Qed.
Lemma parents_in_spec x c : c ∈ parents_in iter s x <-> parent mk l c x.
Proof using Hiter HS.
  unfold parents_in. split.
  - intros H. destruct (st_txs s !! x) as [m|] eqn:E; [|inversion H]. apply (iter_elem iter Hiter) in H. by apply (parents_of mk l s HS x m).
  - intros H. destruct (entry_at mk l s HS x) as (e0 & m0 & _ & <- & E0 & Hm0); [by apply parent_in in H as []|].
    rewrite E0. apply (iter_elem iter Hiter). by apply (ee_parents _ _ _ _ Hm0).
Qed.
Lemma given_spec given : (forall g, g ∈ given -> g ∈ ids l) ->
  exists out, given_txids iter s given = Ok out /\ (forall x, x ∈ out -> x ∈ ids l) /\
    (forall x, x ∈ out <-> x ∈ given \/ exists g, g ∈ given /\ ancestor mk l x g).
Proof using Hiter HS.
  intros Hg. unfold given_txids.
  replace (forallb _ given) with true; [|symmetry; apply forallb_forall; intros g Hin; apply bool_decide_eq_true, (se_ids _ _ _ HS), Hg; by apply elem_of_list_In].
  cbn [ensure rbind].
  destruct (postorder_any (parents_in iter s) (dom (st_txs s))) with (roots := given)
    (fuel := (traversal_fuel s + sum_list_with (fun t => S (length (parents_in iter s t))) given)%nat) as (out & E & O1 & O2).
  - intros x c Hx Hc. apply parents_in_spec, parent_in in Hc as [Hc _]. by apply elem_of_dom, (se_ids _ _ _ HS).
  - pose proof parents_fuel as Hf. clear - Hf. lia.
  - intros x Hx. apply elem_of_dom, (se_ids _ _ _ HS). by apply Hg.
  - rewrite E. exists out. split; [reflexivity|]. split; [intros x Hx; by apply (se_ids _ _ _ HS), elem_of_dom, O1|].
    intros x. rewrite O2. split.
    + intros (g & Hin & Hr). apply rtc_tc in Hr as [->|Hr]; [by left|]. right. exists g. split; [exact Hin|].
      clear - Hr Hiter HS. induction Hr as [a b H|a b c H _ IH]; [apply tc_once; by apply parents_in_spec|].
      eapply tc_r; [exact IH|]. by apply parents_in_spec.
    + intros [H|(g & Hin & Ha)]; [exists x; split; [exact H|reflexivity]|]. exists g. split; [exact Hin|]. apply tc_rtc.
      clear - Ha Hiter HS. induction Ha as [a b H|a b c H _ IH]; [apply tc_once; by apply parents_in_spec|].
      eapply tc_r; [exact IH|]. by apply parents_in_spec.
Qed.
Lemma given_missing given : ~ (forall g, g ∈ given -> g ∈ ids l) -> given_txids iter s given = Err TTxNotFound.
Proof using HS.
  clear Hiter. intros Hg. unfold given_txids. destruct (forallb _ given) eqn:E; [|reflexivity]. exfalso. apply Hg. intros g Hin.
  rewrite forallb_forall in E. apply elem_of_list_In, E, bool_decide_eq_true in Hin. by apply (se_ids _ _ _ HS).
Qed.

(** ** The order of the whole pool *)
Lemma pool_order_elem x : x ∈ mempool_txids s FillSpace <-> x ∈ ids l.
Proof using HS.
  clear Hiter. cbn [mempool_txids]. rewrite elem_of_list_fmap. setoid_rewrite elem_of_list_In. setoid_rewrite <- in_rev. setoid_rewrite <- elem_of_list_In.
  split.
  - intros ([r i] & -> & H). apply in_order_elem, (se_by_ancestors _ _ _ HS) in H as (m & Em & _). apply (se_ids _ _ _ HS). eauto.
  - intros H. apply (se_ids _ _ _ HS) in H as [m Em]. exists (score_a m, x). split; [reflexivity|]. apply in_order_elem, (se_by_ancestors _ _ _ HS). eauto.
Qed.
Definition score_of (i : N) : N := match st_txs s !! i with Some m => score_a m | None => 0 end.
Lemma pool_order_sorted p : StronglySorted (fun x y => score_of y <= score_of x) (mempool_txids s p).
Proof using HS.
  clear Hiter. destruct p; cbn [mempool_txids]; [|constructor]. apply (sorted_map snd (fun x y => pair_le y x)).
  2:{ apply (sorted_rev pair_le); [auto|]. apply in_order_sorted. }
  intros [a x] [b y] Hx Hy Hle. rewrite elem_of_list_In, <- in_rev, <- elem_of_list_In in Hx, Hy.
  apply in_order_elem, (se_by_ancestors _ _ _ HS) in Hx as (mx & Ex & ->). apply in_order_elem, (se_by_ancestors _ _ _ HS) in Hy as (my & Ey & ->).
  cbn. unfold score_of. rewrite Ex, Ey. clear - Hle. unfold pair_le in Hle. cbn in Hle. unfold score_a. lia.
Qed.

Lemma worth_score m r : st_txs s !! me_id m = Some m -> worth mk l (me_id m) r <-> r = score_a m.
Proof using HS HPO.
  clear Hiter. intros Em. destruct (entry_of mk l s HS _ _ Em) as (e & He & Eid & HE). pose proof (ee_entry _ _ _ _ HE) as Ee. pose proof (ee_ancestors _ _ _ _ HE) as HT.
  unfold worth, score_a, me_fee, me_size. rewrite Ee. rewrite Eid in HT. split.
  - intros (e' & n & f & b & He' & Eid' & HT' & ->). destruct (totals_unique _ _ _ _ _ _ _ _ HT HT') as (_ & -> & ->).
    replace e' with e; [reflexivity|]. apply (ids_inj l); [exact (po_nodup _ _ HPO)|exact He|exact He'|congruence].
  - intros ->. exists e, (me_count_a m), (me_fees_a m), (me_size_a m). auto.
Qed.

Lemma with_picks_holds a x : with_picks a x false = holds a x.
Proof using. reflexivity. Qed.

(** ** The whole *)
Theorem collect_spec a v given p : accum_ok a -> ac_done a = false -> ac_fees a + sum_of te_fee l <= U128_MAX ->
  all_accepted connect v (txs_of a) -> (forall g, g ∈ given -> g ∈ ids l) ->
  let v1 := after connect v (txs_of a) in
  exists tries b, collect_txs iter connect unlocked s (ac_tip a) (ac_tip a) v a given p = Ok (Some b) /\
    tried_best_first connect unlocked mk l (tx_ids a) v1 given p tries /\
    ((b = with_picks a (accepted connect v1 tries) false /\
      (accepted connect v1 tries = [] \/ accum_total b <= ac_target a) /\
      (forall y, y ∈ l -> wanted mk l given p y -> ~ can_come connect unlocked mk l (tx_ids a) v1 tries y)) \/
     (exists tr x, tries = tr ++ [x] /\ accepts connect (after connect v1 (map te_tx tr)) (te_tx x) = true /\
        b = with_picks a (accepted connect v1 tr) true /\
        (accepted connect v1 tr = [] \/ accum_total b <= ac_target a) /\
        ac_target a < accum_total (with_picks a (accepted connect v1 tries) false))).
Proof using Hiter HS HPO.
  intros [Hown Hsize] Hdone Hfees Hacc Hg v1. unfold collect_txs. rewrite N.eqb_refl. cbn [negb].
  replace (connect_given connect v (ac_txs a)) with (Ok v1 : res template_err V); [|symmetry; by apply connect_given_ok]. cbn [rbind].
  destruct (given_spec given Hg) as (g & Eg & G1 & G2). rewrite Eg. cbn [rbind].
  set (own := list_to_set (map (fun x => tx_id (fst x)) (ac_txs a)) : gset N).
  assert (Eown : forall x, x ∈ own <-> x ∈ tx_ids a).
  { intros x. unfold own, tx_ids, txs_of. rewrite elem_of_list_to_set, map_map. reflexivity. }
  assert (Hall : forall t, t ∈ g ++ mempool_txids s p -> t ∈ ids l).
  { intros t Ht. apply elem_of_app in Ht as [Ht|Ht]; [by apply G1|]. destruct p; [by apply pool_order_elem|inversion Ht]. }
  destruct (candidates_spec mk l s HS unlocked (g ++ mempool_txids s p) own Hall) as (cands & Ec & C1 & C2 & C3). rewrite Ec. cbn [rbind].
  assert (Hc_store : forall m, m ∈ cands -> st_txs s !! me_id m = Some m) by (intros m Hm; by apply C2 in Hm as []).
  assert (Hc_own : forall m, m ∈ cands -> me_id m ∉ own) by (intros m Hm; by apply C2 in Hm as (_ & _ & Hm & _)).
  assert (Hth : there connect v1 own [] = own) by (unfold there, yes; cbn; apply leibniz_equiv; clear; set_solver).
  assert (Hho : holds a (yes connect v1 []) = a).
  { unfold holds, yes. cbn [map accepted sum_of fold_right]. rewrite app_nil_r, !N.add_0_r. rewrite <- Hdone. by destruct a. }
  destruct (fill_spec iter Hiter mk l s HS HPO connect v1 a own cands C1 Hc_store Hc_own Hfees (S (length cands)) cands [] ∅ ∅ v1) as (tries & b & Ef & HO).
  { rewrite Hth. split.
    - intros m. split; [auto|]. intros [H|[H|[[H _]|[H _]]]]; auto. inversion H.
    - by exists [].
    - intros m _ H. inversion H.
    - intros m _. apply lookup_empty.
    - intros m sc _. clear. set_solver.
    - intros m H. inversion H.
    - intros m sc H. inversion H.
    - constructor.
    - intros c n H. rewrite lookup_empty in H. discriminate.
    - intros sc c H. exfalso. clear - H. set_solver. }
  { reflexivity. } { left. reflexivity. } { intros b m c E. destruct b; discriminate. } { cbn. lia. }
  rewrite Hth, Hho in Ef. rewrite Ef. cbn [rbind].
  exists (map me_entry tries), b. split; [reflexivity|]. destruct HO as [O1 O2 O3 O4].
  assert (Hentry : forall m, m ∈ cands -> me_entry m ∈ l /\ te_id (me_entry m) = me_id m).
  { intros m Hm. destruct (entry_of mk l s HS _ _ (Hc_store m Hm)) as (e & He & Eid & HE). rewrite (ee_entry _ _ _ _ HE). auto. }
  assert (Hthere : forall b q, q ∈ there connect v1 own b <-> q ∈ tx_ids a \/ q ∈ ids (accepted connect v1 (map me_entry b))).
  { intros b0 q. unfold there, yes. rewrite elem_of_union, elem_of_list_to_set, Eown. reflexivity. }
  assert (Hinj : forall m b0, (forall x, x ∈ b0 -> x ∈ cands) -> m ∈ cands -> te_id (me_entry m) ∈ ids (map me_entry b0) <-> m ∈ b0).
  { intros m b0 Hb Hm. unfold ids. rewrite map_map, elem_of_list_fmap. split; [|intros H; by exists m].
    intros (m' & E & H). replace m with m'; [exact H|]. apply (cand_inj s cands Hc_store); [by apply Hb|exact Hm|by unfold me_id]. }
  assert (Hcome : forall m b0, (forall x, x ∈ b0 -> x ∈ cands) -> m ∈ cands ->
    can_come connect unlocked mk l (tx_ids a) v1 (map me_entry b0) (me_entry m) <-> m ∉ b0 /\ me_parents m ⊆ there connect v1 own b0).
  { intros m b0 Hb Hm. destruct (Hentry m Hm) as [He Eid]. unfold can_come. rewrite (Hinj m b0 Hb Hm), Eid. split.
    - intros (_ & _ & _ & H1 & H2). split; [exact H1|]. intros q Hq. apply Hthere, H2. by apply (parents_of mk l s HS _ _ q (Hc_store m Hm)).
    - intros [H1 H2]. split; [exact He|]. split; [by apply C2 in Hm as (_ & _ & _ & Hm)|]. split; [rewrite <- Eown; by apply Hc_own|]. split; [exact H1|].
      intros q Hq. apply Hthere, H2. by apply (parents_of mk l s HS _ _ q (Hc_store m Hm)). }
  assert (Hwant : forall m, m ∈ cands -> wanted mk l given p (me_entry m)).
  { intros m Hm. destruct (Hentry m Hm) as [_ Eid]. apply C2 in Hm as (_ & Hm & _). unfold wanted. rewrite Eid. apply elem_of_app in Hm as [Hm|Hm].
    - right. by apply G2.
    - destruct p; [by left|inversion Hm]. }
  assert (Hcand : forall y b0, can_come connect unlocked mk l (tx_ids a) v1 b0 y -> wanted mk l given p y -> exists m, m ∈ cands /\ me_entry m = y).
  { intros y b0 (Hy & Hu & Hno & _) Hw. destruct (se_entries _ _ _ HS y Hy) as (m & Em & HE). exists m. pose proof (ee_entry _ _ _ _ HE) as Ey. split; [|exact Ey].
    assert (Eid : me_id m = te_id y) by (unfold me_id; by rewrite Ey). apply C2. rewrite Eid, Ey. split; [exact Em|]. split; [|split; [by rewrite Eown|exact Hu]].
    apply elem_of_app. destruct Hw as [Hw|Hw].
    - right. rewrite Hw. apply pool_order_elem, ids_elem. eauto.
    - left. by apply G2. }
  split.
  { intros before x rest E. apply map_eq_app in E as (b0 & c0 & -> & E1 & E2). destruct c0 as [|m c0]; [discriminate|]. cbn in E2. injection E2 as E2 E3. subst before x.
    assert (Hb : forall x, x ∈ b0 -> x ∈ cands) by (intros x Hx; apply O2, elem_of_app; by left).
    assert (Hm : m ∈ cands) by (apply O2, elem_of_app; right; left). destruct (O3 b0 m c0 eq_refl) as [P1 P2].
    assert (Hmb : m ∉ b0) by (intros H; apply NoDup_app in O1 as (_ & Hd & _); apply (Hd m H); left).
    split; [by apply Hcome|]. split; [by apply Hwant|]. intros -> y r r' Hy Hr Hr'.
    assert (Hgnil : g = []). { destruct g as [|z g0]; [reflexivity|]. exfalso. destruct (proj1 (G2 z)) as [H|(g1 & H & _)]; [left|inversion H..]. }
    assert (Hd : descending cands).
    { rewrite Hgnil in C3. cbn [app] in C3. pose proof (sorted_sub _ _ _ C3 (pool_order_sorted p)) as Hs. apply sorted_unmap in Hs.
      clear - Hs Hc_store. unfold descending. induction Hs as [|x cs H IH Hx]; [constructor|]. constructor; [apply IH; intros; apply Hc_store; by right|].
      rewrite Forall_forall in Hx |- *. intros y Hy. specialize (Hx y Hy). unfold score_of in Hx.
      by rewrite (Hc_store x) in Hx by left; rewrite (Hc_store y) in Hx by (by right). }
    assert (Hwy : wanted mk l [] p y).
    { destruct (Hwant m Hm) as [H|[H|(g1 & H & _)]]; [by left|inversion H..]. }
    destruct (Hcand y _ Hy Hwy) as (my & Hmy & <-). destruct (Hentry my Hmy) as [_ Ey]. destruct (Hentry m Hm) as [_ Ex].
    rewrite Ey in Hr. rewrite Ex in Hr'. apply (worth_score my r (Hc_store my Hmy)) in Hr. apply (worth_score m r' (Hc_store m Hm)) in Hr'. subst r r'.
    apply (Hcome my b0 Hb Hmy) in Hy as [Hy1 Hy2]. by apply P2. }
  destruct O4 as [(-> & Hfit & Hleft)|(tr & m & -> & -> & Hfit & Ey & Hbig)].
  - left. split; [reflexivity|]. split; [exact Hfit|]. intros y Hy Hw Hc. destruct (Hcand y _ Hc Hw) as (m & Hm & <-).
    apply (Hcome m tries O2 Hm) in Hc as [Hc1 Hc2]. destruct (Hleft m Hm); contradiction.
  - right. exists (map me_entry tr), (me_entry m). rewrite map_app. split; [reflexivity|]. split; [|split; [reflexivity|]].
    + pose proof (yes_snoc connect v1 tr m) as Hy. rewrite Ey in Hy. apply app_inv_head in Hy. by destruct (accepts _ _ _).
    + split; [exact Hfit|]. unfold yes in Hbig. rewrite map_app in Hbig. exact Hbig.
Qed.
End collect.
