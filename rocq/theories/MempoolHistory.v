(** Throwing out a transaction with its descendants, and whole histories. *)
From stdpp Require Import relations sorting.
From Verif Require Import Base AmountModel DeltaModel LayeredModel TokensModel OrdersModel PosModel PrimModel ChainModel
  MempoolModel MempoolSpec MempoolGraph MempoolTraverse MempoolFolds MempoolAdd MempoolInsert MempoolRemove.
From Coq Require Import Lia.
Local Open Scope N_scope.

Lemma sublists_eq {A} (l l1 l2 : list A) :
  NoDup l -> l1 `sublist_of` l -> l2 `sublist_of` l -> (forall x, x ∈ l1 <-> x ∈ l2) -> l1 = l2.
Proof.
  revert l1 l2. induction l as [|a l IH]; intros l1 l2 HN H1 H2 E.
  - apply sublist_nil_r in H1 as ->. by apply sublist_nil_r in H2 as ->.
  - apply NoDup_cons in HN as [Ha HN].
    apply sublist_cons_r in H1 as [H1|(k1 & -> & H1)]; apply sublist_cons_r in H2 as [H2|(k2 & -> & H2)].
    + by apply IH.
    + exfalso. apply Ha. apply (sublist_in _ _ H1). apply E. left.
    + exfalso. apply Ha. apply (sublist_in _ _ H2). apply E. left.
    + f_equal. apply IH; auto. intros x. specialize (E x). rewrite !elem_of_cons in E.
      assert (N1 : x ∈ k1 -> x <> a) by (intros H ->; apply Ha; by apply (sublist_in _ _ H1)).
      assert (N2 : x ∈ k2 -> x <> a) by (intros H ->; apply Ha; by apply (sublist_in _ _ H2)). tauto.
Qed.

Section evict.
Context (iter : gset N -> list N) (Hiter : forall s, iter s ≡ₚ elements s) (mk : id_makers).
Lemma remove_all_spec r out : forall l s acc,
  store_exact mk l s -> pool_ok mk l -> NoDup out -> (forall x, x ∈ out -> x ∈ ids l) ->
  (forall a x b, out = a ++ x :: b -> forall c, parent mk l x c -> c ∈ a) ->
  exists s' ms l', remove_all iter mk s out r acc = Ok (s', acc ++ ms) /\ map me_id ms = out /\
    (forall m, m ∈ ms -> me_entry m ∈ l) /\
    l' `sublist_of` l /\ (forall x, x ∈ l' <-> x ∈ l /\ te_id x ∉ out) /\ store_exact mk l' s'.
Proof using Hiter.
  induction out as [|x out IH]; intros l s acc HS HPO HN Hin Hord.
  - exists s, [], l. cbn. rewrite app_nil_r. split; [reflexivity|]. split; [reflexivity|]. split; [intros m H; inversion H|].
    split; [reflexivity|]. split; [|exact HS]. intros y. split; [intros H; split; [exact H|intros H'; inversion H']|by intros []].
  - apply NoDup_cons in HN as [Hx HN]. assert (Hxl : x ∈ ids l) by (apply Hin; left).
    apply ids_elem in Hxl as (e & He & <-). destruct (se_entries _ _ _ HS e He) as (m & Em & HM).
    apply elem_of_list_split in He as (l1 & l2 & ->).
    assert (Hleaf : forall c, ~ parent mk (l1 ++ e :: l2) (te_id e) c).
    { intros c Hc. apply (Hord [] (te_id e) out eq_refl) in Hc. inversion Hc. }
    destruct (remove_leaf iter Hiter mk l1 l2 e s HS HPO Hleaf m Em HM r) as (s1 & E1 & HS1).
    pose proof (extends_remove l1 e l2 (po_nodup _ _ HPO)) as HE.
    destruct (IH (l1 ++ l2) s1 (acc ++ [m])) as (s' & ms & l' & E' & Hms & Hmem & Hsub & Hl' & HS').
    + exact HS1.
    + eapply pool_ok_sub; [exact HPO|exact (ex_sub _ _ _ HE)].
    + exact HN.
    + intros y Hy. assert (Hyl : y ∈ ids (l1 ++ e :: l2)) by (apply Hin; by right). apply (ext_ids _ _ _ HE) in Hyl as [H| ->]; [exact H|contradiction].
    + intros a y b Eq c Hc. apply (ext_parent mk _ _ _ HE Hleaf) in Hc as [Hc Hne].
      assert (H : c ∈ te_id e :: a) by (apply (Hord (te_id e :: a) y b); [cbn; by rewrite Eq|exact Hc]).
      apply elem_of_cons in H as [H|H]; [contradiction|exact H].
    + exists s', (m :: ms), l'. cbn [remove_all]. rewrite E1. cbn [rbind fst snd]. rewrite E', <- app_assoc. split; [reflexivity|].
      split; [|split; [|split; [|split; [|exact HS']]]].
      * cbn. rewrite Hms. unfold me_id. by rewrite (ee_entry _ _ _ _ HM).
      * intros m' Hm'. apply elem_of_cons in Hm' as [->|Hm']; [rewrite (ee_entry _ _ _ _ HM); apply (ex_elem _ _ _ HE); by right|].
        apply Hmem in Hm'. apply (ex_elem _ _ _ HE). by left.
      * etrans; [exact Hsub|exact (ex_sub _ _ _ HE)].
      * intros y. rewrite Hl', (ext_elem0 _ _ _ HE), elem_of_cons. tauto.
Qed.
Lemma sum_list_with_map {A B} (f : B -> nat) (g : A -> B) (l : list A) : sum_list_with f (map g l) = sum_list_with (fun x => f (g x)) l.
Proof. induction l; cbn; congruence. Qed.
Lemma sum_list_with_le {A} (f g : A -> nat) (l : list A) : (forall x, x ∈ l -> f x <= g x)%nat -> (sum_list_with f l <= sum_list_with g l)%nat.
Proof.
  induction l as [|a l IH]; intros H; cbn; [lia|]. assert (f a <= g a)%nat by (apply H; left).
  assert (sum_list_with f l <= sum_list_with g l)%nat by (apply IH; intros x Hx; apply H; by right). lia.
Qed.
Lemma fuel_enough s : (S (weight (fun x => S (length (children_in iter s x))) (dom (st_txs s))) <= traversal_fuel s)%nat.
Proof using Hiter.
  unfold traversal_fuel, weight. apply le_n_S.
  assert (E : elements (dom (st_txs s)) ≡ₚ map fst (map_to_list (st_txs s))).
  { apply NoDup_Permutation; [apply NoDup_elements|apply NoDup_fst_map_to_list|]. intros x. rewrite elem_of_elements, elem_of_dom. split.
    - intros [m Em]. apply elem_of_list_fmap. exists (x, m). split; [reflexivity|]. by apply elem_of_map_to_list.
    - intros H. apply elem_of_list_fmap in H as ([y m] & -> & H). apply elem_of_map_to_list in H. eauto. }
  rewrite (sum_list_with_perm _ _ _ E), sum_list_with_map. apply sum_list_with_le.
  intros [x m] H. apply elem_of_map_to_list in H. cbn. unfold children_in. rewrite H, (iter_length iter Hiter). lia.
Qed.
Lemma evict_spec l s id r : store_exact mk l s -> pool_ok mk l ->
  exists s' ms l', drop_tx_and_descendants iter mk s id r = Ok (s', ms) /\ store_exact mk l' s' /\
    l' `sublist_of` l /\ (forall x, x ∈ l' <-> x ∈ l /\ te_id x <> id /\ ~ ancestor mk l id (te_id x)) /\
    NoDup (map me_id ms) /\ (forall x, x ∈ map me_entry ms <-> x ∈ l /\ (te_id x = id \/ ancestor mk l id (te_id x))) /\
    (forall a m b, ms = a ++ m :: b -> forall x, x ∈ l -> ancestor mk l (me_id m) (te_id x) -> te_id x ∈ map me_id a).
Proof using Hiter.
  intros HS HPO. unfold drop_tx_and_descendants. destruct (st_txs s !! id) as [m|] eqn:Em.
  2:{ assert (Hn : id ∉ ids l) by (intros H; apply (se_ids _ _ _ HS) in H as [? ?]; congruence).
      exists s, [], l. split; [reflexivity|]. split; [exact HS|]. split; [reflexivity|]. split; [|split; [constructor|split]].
      - intros x. split; [|by intros []]. intros Hx. split; [exact Hx|]. split; [intros <-; apply Hn, ids_elem; eauto|].
        intros H. by apply ancestor_in in H as [H _].
      - intros x. cbn. split; [intros H; inversion H|]. intros [Hx [<-|H]]; [exfalso; apply Hn, ids_elem; eauto|by apply ancestor_in in H as [H _]].
      - intros a m b E. destruct a; discriminate. }
  assert (Hch : forall x c, c ∈ children_in iter s x <-> parent mk l x c).
  { intros x c. unfold children_in. split.
    - intros H. destruct (st_txs s !! x) as [m0|] eqn:E0; [|inversion H]. apply (iter_elem iter Hiter) in H.
      destruct (entry_of mk l s HS x m0 E0) as (e0 & _ & <- & Hm0). by apply (ee_children _ _ _ _ Hm0).
    - intros H. destruct (entry_at mk l s HS x) as (e0 & m0 & _ & <- & E0 & Hm0); [by apply parent_in in H as []|].
      rewrite E0. apply (iter_elem iter Hiter). by apply (ee_children _ _ _ _ Hm0). }
  assert (Htc : forall x y, tc (fun x c => c ∈ children_in iter s x) x y <-> ancestor mk l x y).
  { intros x y. split; intros H.
    - induction H as [x y H|x y z H H' IH]; [apply tc_once|eapply tc_l; [|exact IH]]; by apply Hch.
    - induction H as [x y H|x y z H H' IH]; [apply tc_once|eapply tc_l; [|exact IH]]; by apply Hch. }
  destruct (postorder_spec (children_in iter s) (dom (st_txs s))) with (fuel := traversal_fuel s) (root := id) as (out & Eo & On & Of & Om).
  { intros x c Hx Hc. apply Hch, parent_in in Hc as [_ Hc]. by apply elem_of_dom, (se_ids _ _ _ HS). }
  { intros x Hx H. apply Htc in H. by apply ancestor_irrefl in H; [|exact (po_nodup _ _ HPO)]. }
  { apply fuel_enough. }
  { apply elem_of_dom. eauto. }
  assert (Hid : id ∈ ids l) by (apply (se_ids _ _ _ HS); eauto).
  assert (Hout : forall x, x ∈ out <-> x = id \/ ancestor mk l id x).
  { intros x. rewrite Om. split.
    - intros H. apply rtc_tc in H as [->|H]; [by left|right]. by apply Htc.
    - intros [->|H]; [reflexivity|]. apply tc_rtc. by apply Htc. }
  rewrite Eo. cbn [expect rbind].
  destruct (remove_all_spec r out l s []) as (s' & ms & l' & E & Hms & Hmem & Hsub & Hl' & HS').
  - exact HS.
  - exact HPO.
  - exact On.
  - intros x Hx. apply Hout in Hx as [->|Hx]; [exact Hid|by apply ancestor_in in Hx as []].
  - intros a x b Eq c Hc. apply (Of a x b Eq). by apply Hch.
  - exists s', ms, l'. rewrite E. split; [reflexivity|]. split; [exact HS'|]. split; [exact Hsub|]. split; [|split; [|split]].
    + intros x. rewrite Hl', Hout. tauto.
    + by rewrite Hms.
    + intros x. rewrite <- Hout, elem_of_list_fmap. split.
      * intros (m0 & -> & Hm0). split; [by apply Hmem|]. rewrite <- Hms. apply elem_of_list_fmap. exists m0. auto.
      * intros [Hx Ho]. rewrite <- Hms in Ho. apply elem_of_list_fmap in Ho as (m0 & E0 & Hm0). exists m0. split; [|exact Hm0].
        apply (ids_inj l); [exact (po_nodup _ _ HPO)|exact Hx|by apply Hmem|exact E0].
    + intros a m0 b Eq x Hx Ha. subst ms. rewrite map_app in Hms. cbn in Hms.
      assert (Hall : forall y z, ancestor mk l y z -> forall a b, out = a ++ y :: b -> z ∈ a).
      { clear - Of Hch. intros y z H. induction H as [y z H|y w z H H' IH]; intros a b Eq.
        - apply (Of a y b Eq). by apply Hch.
        - assert (Hw : w ∈ a) by (apply (Of a y b Eq); by apply Hch). apply elem_of_list_split in Hw as (a1 & a2 & ->).
          apply elem_of_app. left. apply (IH a1 (a2 ++ y :: b)). rewrite Eq, <- app_assoc. reflexivity. }
      by apply (Hall _ _ Ha (map me_id a) (map me_id b)).
Qed.
End evict.

Section history.
Context (iter : gset N -> list N) (Hiter : forall s, iter s ≡ₚ elements s) (mk : id_makers) (cfg : pool_cfg).
Hypothesis Hcount : 1 <= pc_max_count cfg.
Lemma store_exact_empty : store_exact mk [] empty_store.
Proof.
  assert (F : forall (P : tx_entry -> Prop), (exists e, e ∈ [] /\ P e) -> False) by (intros P (e & H & _); inversion H).
  split; cbn.
  - intros id. rewrite lookup_empty. split; [intros [? ?]; discriminate|intros H; inversion H].
  - intros e H. inversion H.
  - intros r id. split; [set_solver|]. intros (m & H & _). rewrite lookup_empty in H. discriminate.
  - intros r id. split; [set_solver|]. intros (m & H & _). rewrite lookup_empty in H. discriminate.
  - intros t id. split; [set_solver|]. intros H. by apply F in H.
  - intros c id. rewrite lookup_empty. split; [discriminate|]. intros H. by apply F in H.
  - intros c id. rewrite lookup_empty. split; [discriminate|]. intros H. by apply F in H.
  - intros id n. rewrite !lookup_empty. split; discriminate.
  - intros id. rewrite lookup_empty. split; [intros [? ?]; discriminate|intros H; inversion H].
  - intros e1 e2 n1 n2 _ H. rewrite lookup_empty in H. discriminate.
  - intros id n H. rewrite lookup_empty in H. discriminate.
Qed.
Lemma pool_ok_empty : pool_ok mk [].
Proof. split; try (intros e H; inversion H); [constructor|cbn; unfold U128_MAX; lia|cbn; unfold U64_MAX; lia]. Qed.
Lemma do_ops_app s ops op : do_ops iter mk cfg s (ops ++ [op]) =
  match do_ops iter mk cfg s ops with Some s' => do_op iter mk cfg s' op | None => None end.
Proof. revert s. induction ops as [|o ops IH]; intros s; cbn; [by destruct (do_op iter mk cfg s op)|]. destruct (do_op iter mk cfg s o); [apply IH|reflexivity]. Qed.
Lemma evolves_step l op l' s : store_exact mk l s -> pool_ok mk l -> evolves mk cfg l op l' ->
  exists s', do_op iter mk cfg s op = Some s' /\ store_exact mk l' s' /\ pool_ok mk l'.
Proof using Hiter Hcount.
  intros HS HPO H. destruct H as [e HA Hfit|e HA Hfit|id r l' Hsub Hl'].
  - destruct (add_transaction_spec iter Hiter mk cfg Hcount l s e HS HPO HA) as [(s' & E & _ & HS')|(er & _ & _ & Hn)]; [|contradiction].
    exists s'. cbn. rewrite E. split; [reflexivity|]. split; [exact HS'|by apply pool_ok_add].
  - destruct (add_transaction_spec iter Hiter mk cfg Hcount l s e HS HPO HA) as [(s' & _ & Hf & _)|(er & E & _ & _)]; [contradiction|].
    exists s. cbn. rewrite E. auto.
  - destruct (evict_spec iter Hiter mk l s id r HS HPO) as (s' & ms & l'' & E & HS' & Hsub' & Hl'' & _).
    assert (Eq : l'' = l').
    { apply (sublists_eq l); [apply ids_nodup; exact (po_nodup _ _ HPO)|exact Hsub'|exact Hsub|]. intros x. by rewrite Hl', Hl''. }
    subst l''. exists s'. cbn. rewrite E. split; [reflexivity|]. split; [exact HS'|]. eapply pool_ok_sub; eassumption.
Qed.
Lemma history_spec ops l : history mk cfg ops l ->
  exists s, do_ops iter mk cfg empty_store ops = Some s /\ store_exact mk l s /\ pool_ok mk l.
Proof using Hiter Hcount.
  induction 1 as [|ops l op l' H (s & E & HS & HPO) Hev].
  - exists empty_store. split; [reflexivity|]. split; [exact store_exact_empty|exact pool_ok_empty].
  - destruct (evolves_step l op l' s HS HPO Hev) as (s' & E' & HS' & HPO'). exists s'. rewrite do_ops_app, E. auto.
Qed.
(** there is always a next step *)
Lemma history_goes_on ops l op : history mk cfg ops l -> match op with OpAdd e => admissible mk l e | OpEvict _ _ => True end ->
  exists l', history mk cfg (ops ++ [op]) l'.
Proof using Hiter Hcount.
  intros H Hop. destruct (history_spec ops l H) as (s & _ & HS & HPO). destruct op as [e|id r].
  - destruct (add_transaction_spec iter Hiter mk cfg Hcount l s e HS HPO Hop) as [(s' & _ & Hf & _)|(er & _ & _ & Hn)]; eexists; eapply hist_step; try exact H.
    + by apply ev_add.
    + by apply ev_refuse.
  - destruct (evict_spec iter Hiter mk l s id r HS HPO) as (s' & ms & l'' & _ & _ & Hsub' & Hl'' & _). exists l''. eapply hist_step; [exact H|]. by apply ev_evict.
Qed.
End history.

(** ** Clusters *)
Section clusters.
Context (mk : id_makers) (cfg : pool_cfg).
Lemma same_cluster_sym l x y : same_cluster mk l x y -> same_cluster mk l y x.
Proof.
  intros H. induction H as [|x y z H _ IH]; [reflexivity|]. eapply rtc_r; [exact IH|]. destruct H as [H|H]; [right|left]; exact H.
Qed.
Lemma same_cluster_sub l l' x y : l' `sublist_of` l -> same_cluster mk l' x y -> same_cluster mk l x y.
Proof.
  intros Hs H. induction H as [|x y z H _ IH]; [reflexivity|]. eapply rtc_l; [|exact IH].
  assert (P : forall a b, parent mk l' a b -> parent mk l a b).
  { intros a b (ea & eb & H1 & H2). exists ea, eb. split; [etrans; eassumption|exact H2]. }
  destruct H as [H|H]; [left|right]; by apply P.
Qed.
Lemma history_nodup ops l : history mk cfg ops l -> NoDup (ids l).
Proof.
  induction 1 as [|ops l op l' H IH Hev]; [constructor|]. destruct Hev as [e HA _|e HA _|id r l' Hs _].
  - exact (ex_nodup _ _ _ (extends_app l e IH (ad_new _ _ _ HA))).
  - exact IH.
  - eapply sublist_nodup; [apply sublist_map; exact Hs|exact IH].
Qed.
Lemma history_clusters ops l : history mk cfg ops l -> forall x, x ∈ ids l -> cluster_fits mk cfg l x.
Proof.
  induction 1 as [|ops l op l' H IH Hev]; [intros x Hx; inversion Hx|]. pose proof (history_nodup _ _ H) as HN.
  destruct Hev as [e HA Hfit|e HA _|id r l' Hs Hl'].
  - intros x Hx ds Hn Hds.
    pose proof (extends_app l e HN (ad_new _ _ _ HA)) as HE. pose proof (new_leaf mk l e (ad_new _ _ _ HA)) as Hleaf.
    pose proof (ext_parent mk l e _ HE Hleaf) as H0.
    destruct (decide (N.of_nat (length ds) <= pc_max_count cfg /\ sum_of te_size ds <= pc_max_bytes cfg)) as [D|D]; [exact D|exfalso].
    assert (Hnc : ~ same_cluster mk (l ++ [e]) x (te_id e)).
    { intros Hc. apply D, Hfit; [exact Hn|]. intros y Hy. destruct (Hds y Hy) as [Hy1 Hy2]. split; [exact Hy1|].
      etrans; [apply same_cluster_sym; exact Hc|exact Hy2]. }
    assert (Hxe : x <> te_id e) by (intros ->; apply Hnc; reflexivity).
    assert (Hxl : x ∈ ids l) by (apply (ext_ids _ _ _ HE) in Hx as [Hx|Hx]; [exact Hx|contradiction]).
    apply D, (IH x Hxl ds Hn). intros y Hy. destruct (Hds y Hy) as [Hy1 Hy2]. split.
    + apply elem_snoc in Hy1 as [Hy1| ->]; [exact Hy1|contradiction].
    + by apply (leaf_cluster_other _ _ _ H0).
  - exact IH.
  - intros x Hx ds Hn Hds. apply (IH x); [|exact Hn|].
    + apply ids_elem in Hx as (y & Hy & <-). apply ids_elem. exists y. split; [by apply Hl'|reflexivity].
    + intros y Hy. destruct (Hds y Hy) as [Hy1 Hy2]. split; [by apply Hl'|]. eapply same_cluster_sub; eassumption.
Qed.
End clusters.

(** ** The transactions in the order in which they came *)
Global Instance pair_le_trans : Transitive pair_le.
Proof. intros [a b] [c d] [e f]. unfold pair_le. cbn. lia. Qed.
Global Instance pair_le_antisym : AntiSymm (=) pair_le.
Proof. intros [a b] [c d]. unfold pair_le. cbn. intros H1 H2. assert (a = c /\ b = d) as [-> ->] by lia. reflexivity. Qed.
Global Instance pair_le_total : Total pair_le.
Proof. intros [a b] [c d]. unfold pair_le. cbn. lia. Qed.
Lemma rmapM_all {E A B} (f : A -> res E B) (g : A -> B) l : (forall x, x ∈ l -> f x = Ok (g x)) -> rmapM f l = Ok (map g l).
Proof.
  induction l as [|a l IH]; intros H; [reflexivity|]. cbn. rewrite (H a ltac:(left)), IH; [reflexivity|]. intros x Hx. apply H. by right.
Qed.
Lemma rmapM_map {E A B C} (f : B -> res E C) (h : A -> B) l : rmapM f (map h l) = rmapM (fun x => f (h x)) l.
Proof. induction l as [|a l IH]; [reflexivity|]. cbn. by rewrite IH. Qed.
Lemma sorted_pairs {A} (R : A -> A -> Prop) l : (forall x y, [x; y] `sublist_of` l -> R x y) -> StronglySorted R l.
Proof.
  induction l as [|a l IH]; intros H; constructor.
  - apply IH. intros x y Hs. apply H. by apply sublist_cons.
  - apply Forall_forall. intros y Hy. apply H. apply sublist_skip. by apply elem_sublist.
Qed.
Lemma sublist_map_inv {A B} (f : A -> B) x y l : [x; y] `sublist_of` map f l -> exists a b, [a; b] `sublist_of` l /\ f a = x /\ f b = y.
Proof.
  induction l as [|c l IH]; intros H; [apply sublist_nil_r in H; discriminate|]. cbn in H.
  apply sublist_cons_r in H as [H|(k & [= -> <-] & H)].
  - destruct (IH H) as (a & b & Hs & E). exists a, b. split; [by apply sublist_cons|exact E].
  - assert (Hy : y ∈ map f l) by (apply (sublist_in _ _ H); left). apply elem_of_list_fmap in Hy as (b & -> & Hb).
    exists c, b. split; [apply sublist_skip; by apply elem_sublist|auto].
Qed.
Lemma into_transactions_spec mk l s : NoDup (ids l) -> store_exact mk l s -> into_transactions s = Ok l.
Proof.
  intros HN HS. unfold into_transactions.
  set (sq := fun e => default 0 (st_seqs s !! te_id e)). set (L := map (fun e => (sq e, te_id e)) l).
  assert (Hsq : forall e, e ∈ l -> st_seqs s !! te_id e = Some (sq e)).
  { intros e He. assert (H : is_Some (st_seqs s !! te_id e)) by (apply (se_numbered _ _ _ HS), ids_elem; eauto). destruct H as [n En].
    unfold sq. by rewrite En. }
  assert (EL : merge_sort pair_le (map_to_list (st_by_seq s)) = L).
  { apply (StronglySorted_unique pair_le).
    - apply StronglySorted_merge_sort; apply _.
    - apply sorted_pairs. intros x y Hxy. apply sublist_map_inv in Hxy as (a & b & Hs & <- & <-). left. cbn.
      destruct (pair_sublist_elem _ _ _ Hs) as [Ha Hb]. eapply (se_order _ _ _ HS); [exact Hs|by apply Hsq|by apply Hsq].
    - rewrite merge_sort_Permutation. apply NoDup_Permutation.
      + apply NoDup_map_to_list.
      + unfold L. apply (NoDup_fmap_1 snd). change (NoDup (map snd (map (fun e => (sq e, te_id e)) l))). rewrite map_map. exact HN.
      + intros [n id]. rewrite elem_of_map_to_list, <- (se_seqs _ _ _ HS). unfold L. split.
        * intros H. assert (Hid : id ∈ ids l) by (apply (se_numbered _ _ _ HS); eauto). apply ids_elem in Hid as (e & He & <-).
          apply elem_of_list_fmap. exists e. split; [|exact He]. rewrite (Hsq e He) in H. congruence.
        * intros H. apply elem_of_list_fmap in H as (e & [= -> ->] & He). by apply Hsq. }
  rewrite EL. unfold L. rewrite rmapM_map. rewrite (rmapM_all _ id); [by rewrite map_id|].
  intros e He. cbn. destruct (se_entries _ _ _ HS e He) as (m & Em & Hm). rewrite Em. cbn. by rewrite (ee_entry _ _ _ _ Hm).
Qed.
