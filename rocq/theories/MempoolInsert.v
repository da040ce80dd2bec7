(** The changes to the store when a transaction has been accepted. *)
From stdpp Require Import relations sorting.
From Verif Require Import Base AmountModel DeltaModel LayeredModel TokensModel OrdersModel PosModel PrimModel ChainModel
  MempoolModel MempoolSpec MempoolGraph MempoolTraverse MempoolFolds MempoolAdd.
From Coq Require Import Lia.
Local Open Scope N_scope.

Lemma indexed_insert sc t x id m : t !! id = None -> indexed sc t x ∅ -> indexed sc (<[id := m]> t) ({[(sc m, id)]} ∪ x) ∅.
Proof.
  intros En [H1 H2]. split; [|intros r i H; set_solver].
  intros r i. rewrite elem_of_union, elem_of_singleton, H1. destruct (decide (i = id)) as [->|Hi].
  - rewrite lookup_insert. split.
    + intros [[= ->]|[(m' & E & _)|H]]; [left; eauto|congruence|set_solver].
    + intros [(m' & [= <-] & ->)|H]; [by left|set_solver].
  - rewrite lookup_insert_ne by congruence. split.
    + intros [[= -> ->]|H]; [contradiction|exact H].
    + intros H. by right.
Qed.
Lemma gain_descendants_rfold e l s s' : rfold (gain_descendant e) l s = Ok s' -> gain_descendants e s l = (s', Ok tt).
Proof.
  revert s. induction l as [|a l IH]; intros s; cbn; [by intros [= ->]|].
  destruct (gain_descendant e s a) as [s1| |]; cbn; [apply IH|discriminate|discriminate].
Qed.
Lemma pool_ok_add mk l e : pool_ok mk l -> admissible mk l e -> pool_ok mk (l ++ [e]).
Proof.
  intros [H1 H2 H3 H4 H5 H6] [A1 A2 A3 A4 A5 A6 A7 A8]. split.
  - exact (ex_nodup _ _ _ (extends_app l e H1 A1)).
  - intros x Hx. apply elem_of_app in Hx as [Hx|Hx]; [by apply H2|]. by apply elem_of_list_singleton in Hx as ->.
  - intros x Hx. apply elem_of_app in Hx as [Hx|Hx]; [by apply H3|]. by apply elem_of_list_singleton in Hx as ->.
  - intros x Hx. apply elem_of_app in Hx as [Hx|Hx]; [by apply H4|]. by apply elem_of_list_singleton in Hx as ->.
  - exact A7.
  - exact A8.
Qed.
Lemma elem_snoc {A} (l : list A) a x : x ∈ l ++ [a] <-> x ∈ l \/ x = a.
Proof. rewrite elem_of_app, elem_of_list_singleton. reflexivity. Qed.

Section insert.
Context (iter : gset N -> list N) (Hiter : forall s, iter s ≡ₚ elements s) (mk : id_makers).
Context (l : list tx_entry) (s : store) (e : tx_entry) (m : mentry) (A : gset N).
Hypothesis HS : store_exact mk l s.
Hypothesis HA : admissible mk l e.
Hypothesis HPO : pool_ok mk l.
Hypothesis HM : entry_exact mk (l ++ [e]) e m.
Hypothesis HAs : forall x, x ∈ A <-> ancestor mk (l ++ [e]) x (te_id e).
Let HE : extends l e (l ++ [e]) := extends_app l e (po_nodup _ _ HPO) (ad_new _ _ _ HA).
Let Hleaf : forall c, ~ parent mk (l ++ [e]) (te_id e) c := new_leaf mk l e (ad_new _ _ _ HA).
Let HPO' : pool_ok mk (l ++ [e]) := pool_ok_add mk l e HPO HA.
Lemma id_m : me_id m = te_id e.
Proof using HM. unfold me_id. by rewrite (ee_entry _ _ _ _ HM). Qed.
Lemma fee_m : me_fee m = te_fee e.
Proof using HM. unfold me_fee. by rewrite (ee_entry _ _ _ _ HM). Qed.
Lemma size_m : me_size m = te_size e.
Proof using HM. unfold me_size. by rewrite (ee_entry _ _ _ _ HM). Qed.
Lemma in_pool p : p ∈ ids (l ++ [e]) -> p <> te_id e -> p ∈ ids l.
Proof using HE. intros H Hp. apply (ext_ids _ _ _ HE) in H as [H|H]; [exact H|contradiction]. Qed.
Lemma not_self p : parent mk (l ++ [e]) p (te_id e) -> p ∈ ids l.
Proof using HE Hleaf.
  intros H. apply in_pool; [by apply parent_in in H as []|]. intros ->. by apply Hleaf in H.
Qed.
Lemma not_self_a p : ancestor mk (l ++ [e]) p (te_id e) -> p ∈ ids l.
Proof using HE Hleaf.
  intros H. apply in_pool; [by apply ancestor_in in H as []|]. intros ->. by apply (leaf_no_child _ _ Hleaf) in H.
Qed.
Definition adopt (x : mentry) : mentry := with_children ({[te_id e]} ∪ me_children x) x.
Definition can_gain (x : mentry) : Prop :=
  (me_fees_d x + te_fee e) * 1000 <= U128_MAX /\ me_size_d x + te_size e <= U64_MAX /\ 0 < me_size_d x /\
  me_fee x * 1000 <= U128_MAX /\ 0 < me_size x.
Lemma gain_step st a x : st_txs st !! a = Some x -> can_gain x ->
  gain_descendant m st a = Ok (set_td (<[a := gained e x]> (st_txs st)) (replace_score (st_by_descendants st) a (score_d x) (score_d (gained e x))) st).
Proof using HM.
  clear - HM. intros Ea (G1 & G2 & G3 & G4 & G5). unfold gain_descendant. rewrite Ea. cbn [expect rbind].
  rewrite score_d_ok; [|lia|assumption|assumption|assumption]. cbn [rbind]. unfold amount_add, checked_add.
  rewrite fee_m, size_m. rewrite (proj2 (N.leb_le (me_fees_d x + te_fee e) U128_MAX)) by lia. cbn [ok_or rbind].
  rewrite (proj2 (N.leb_le (te_size e + me_size_d x) U64_MAX)) by lia. cbn [expect rbind].
  rewrite (N.add_comm (te_size e) (me_size_d x)). fold (gained e x).
  rewrite score_d_ok; [reflexivity| | | |]; cbn; [assumption|lia|assumption|assumption].
Qed.
Lemma insert_spec : exists s', add_tx_entry iter mk s m A = (s', Ok tt) /\ store_exact mk (l ++ [e]) s'.
Proof using HS HA HPO HM HAs Hiter HE Hleaf HPO'.
  unfold add_tx_entry.
  (* the children of the parents *)
  destruct (upd_fold adopt (append_to_parent (me_id m))) with (l := iter (me_parents m)) (s := s) as (t1 & E1 & Ht1).
  { intros st a x Ea. unfold append_to_parent. rewrite Ea, id_m. reflexivity. }
  { apply iter_nodup; exact Hiter. }
  { intros a Ha. apply (iter_elem iter Hiter) in Ha. apply (se_ids _ _ _ HS). apply not_self. by apply (ee_parents _ _ _ _ HM). }
  unfold append_to_parents. rewrite E1. cbn [on_ok].
  (* the totals of the ancestors *)
  assert (Hold : forall x, x ∈ l -> exists m0, st_txs s !! te_id x = Some m0 /\ entry_exact mk l x m0 /\ entry_ok m0).
  { intros x Hx. destruct (se_entries _ _ _ HS x Hx) as (m0 & Em & Hm). exists m0. split; [exact Em|]. split; [exact Hm|].
    apply (entry_exact_ok mk l x); assumption. }
  destruct (scored_fold (gained e) (gain_descendant m) can_gain gain_step (iter A) (set_txs t1 s)) as (t2 & x2 & E2 & Ht2 & Hx2).
  { apply iter_nodup; exact Hiter. }
  { intros a Ha. apply (iter_elem iter Hiter), HAs, not_self_a, ids_elem in Ha as (x & Hx & <-).
    destruct (Hold x Hx) as (m0 & Em & Hm & Hok). cbn. rewrite Ht1, Em.
    assert (G : can_gain m0).
    { destruct (totals_bound _ _ _ _ _ (ee_descendants _ _ _ _ Hm)) as (B1 & B2 & _).
      pose proof (ad_fees _ _ _ HA) as F. pose proof (ad_bytes _ _ _ HA) as B. rewrite sum_of_app in F, B. cbn in F, B.
      destruct Hok as [O1 O2 O3 O4 O5 O6 O7]. clear - F B B1 B2 O2 O5 O6. split; [|split; [|auto]].
      - generalize dependent U128_MAX. intros. lia.
      - generalize dependent U64_MAX. intros. lia. }
    destruct (decide (te_id x ∈ iter (me_parents m))); eexists; (split; [reflexivity|]); exact G. }
  rewrite (gain_descendants_rfold _ _ _ _ E2). cbn [sbind].
  assert (Hnew : t2 !! te_id e = None).
  { assert (En : st_txs s !! te_id e = None).
    { apply eq_None_not_Some. intros H. apply (se_ids _ _ _ HS) in H. by apply (ad_new _ _ _ HA) in H. }
    rewrite Ht2. cbn. rewrite Ht1, En. by repeat destruct (decide _). }
  assert (Hmok : entry_ok m) by (eapply entry_exact_ok; [exact HPO'| |exact HM]; apply elem_snoc; by right).
  unfold add_indices. rewrite (entry_ok_d _ Hmok), (entry_ok_a _ Hmok). cbn [rbind].
  rewrite id_m. cbn [add_providers mark_spent set_td set_providers set_spenders set_by_descendants set_txs st_txs].
  rewrite Hnew. cbn [on_ok]. eexists. split; [reflexivity|].
  (* entries that were there before *)
  assert (Hlook : forall x, x ∈ l -> exists m0 m1, st_txs s !! te_id x = Some m0 /\ entry_exact mk l x m0 /\ t2 !! te_id x = Some m1 /\
            entry_exact mk (l ++ [e]) x m1 /\ score_a m1 = score_a m0).
  { intros x Hx. destruct (Hold x Hx) as (m0 & Em & Hm & Hok). exists m0.
    set (m1 := if decide (te_id x ∈ iter (me_parents m)) then adopt m0 else m0).
    exists (if decide (te_id x ∈ iter A) then gained e m1 else m1).
    split; [exact Em|]. split; [exact Hm|]. split; [|split].
    - rewrite Ht2. cbn. rewrite Ht1, Em. unfold m1. by repeat destruct (decide _).
    - assert (D1 : te_id x ∈ iter (me_parents m) <-> parent mk (l ++ [e]) (te_id x) (te_id e)).
      { rewrite (iter_elem iter Hiter). apply (ee_parents _ _ _ _ HM). }
      assert (D2 : te_id x ∈ iter A <-> ancestor mk (l ++ [e]) (te_id x) (te_id e)) by (rewrite (iter_elem iter Hiter); apply HAs).
      assert (M1 : me_entry m1 = me_entry m0 /\ me_parents m1 = me_parents m0 /\ me_count_d m1 = me_count_d m0 /\ me_fees_d m1 = me_fees_d m0 /\
              me_size_d m1 = me_size_d m0 /\ me_count_a m1 = me_count_a m0 /\ me_fees_a m1 = me_fees_a m0 /\ me_size_a m1 = me_size_a m0 /\
              (forall c, c ∈ me_children m1 <-> c ∈ me_children m0 \/ c = te_id e /\ parent mk (l ++ [e]) (te_id x) (te_id e))).
      { unfold m1. destruct (decide (te_id x ∈ iter (me_parents m))) as [D|D]; cbn; repeat (split; [reflexivity|]); intros c.
        - rewrite D1 in D. rewrite elem_of_union, elem_of_singleton. tauto.
        - rewrite D1 in D. tauto. }
      destruct M1 as (M1 & M2 & M3 & M4 & M5 & M6 & M7 & M8 & M9).
      apply (entry_gain mk l e (l ++ [e]) HE Hleaf x m0); [exact Hx|exact Hm|..].
      + destruct (decide (te_id x ∈ iter A)); exact M1.
      + destruct (decide (te_id x ∈ iter A)); exact M2.
      + intros c. rewrite <- M9. by destruct (decide (te_id x ∈ iter A)).
      + intros D. rewrite decide_True by (by apply D2). cbn. by rewrite M3, M4, M5.
      + intros D. rewrite decide_False by (by rewrite D2). auto.
      + destruct (decide (te_id x ∈ iter A)) as [D|D]; rewrite D2 in D; auto.
      + destruct (decide (te_id x ∈ iter A)); exact M6.
      + destruct (decide (te_id x ∈ iter A)); exact M7.
      + destruct (decide (te_id x ∈ iter A)); exact M8.
    - unfold m1. by repeat destruct (decide _). }
  assert (Hidx : indexed score_d t2 x2 ∅).
  { apply Hx2. cbn. eapply (indexed_ext _ (st_txs s)).
    - intros id. rewrite Ht1. destruct (decide _); [|reflexivity]. by destruct (st_txs s !! id).
    - split; [|intros r id H; set_solver]. intros r id. rewrite (se_by_descendants _ _ _ HS). unfold score_d. set_solver. }
  assert (Hdom : forall id, is_Some (t2 !! id) <-> id ∈ ids l).
  { intros id. rewrite Ht2. cbn. rewrite Ht1, <- (se_ids _ _ _ HS). repeat destruct (decide _); rewrite ?fmap_is_Some; reflexivity. }
  assert (Hida : indexed score_a t2 (st_by_ancestors s) ∅).
  { eapply (indexed_ext _ (st_txs s)).
    - intros id. destruct (st_txs s !! id) as [m0|] eqn:Em.
      + assert (Hid : id ∈ ids l) by (apply (se_ids _ _ _ HS); eauto). apply ids_elem in Hid as (x & Hx & <-).
        destruct (Hlook x Hx) as (m0' & m1 & Em' & _ & Em1 & _ & Es). rewrite Em in Em'. injection Em' as <-. rewrite Em1. cbn. by rewrite Es.
      + destruct (t2 !! id) as [m1|] eqn:Em1; [|reflexivity]. exfalso.
        assert (Hid : id ∈ ids l) by (apply Hdom; eauto). apply (se_ids _ _ _ HS) in Hid as [? ?]. congruence.
    - split; [|intros r id H; set_solver]. intros r id. rewrite (se_by_ancestors _ _ _ HS). unfold score_a. set_solver. }
  pose proof (indexed_insert score_d t2 x2 (te_id e) m Hnew Hidx) as [HI _].
  pose proof (indexed_insert score_a t2 _ (te_id e) m Hnew Hida) as [HIa _].
  split; unfold add_providers, mark_spent, set_td; cbn [st_txs st_by_descendants st_by_ancestors st_by_time st_spenders st_providers st_by_seq st_seqs st_next set_txs set_seqs set_by_time set_by_ancestors set_by_descendants set_providers set_spenders].
  - intros id. rewrite (ext_ids _ _ _ HE). destruct (decide (id = te_id e)) as [->|Hid].
    + rewrite lookup_insert. split; [by right|eauto].
    + rewrite lookup_insert_ne by congruence. rewrite Hdom. tauto.
  - intros x Hx. apply elem_snoc in Hx as [Hx| ->].
    + destruct (Hlook x Hx) as (m0 & m1 & _ & _ & Em1 & Hm1 & _). exists m1. split; [|exact Hm1].
      rewrite lookup_insert_ne; [exact Em1|]. intros Eq. rewrite <- Eq in Em1. congruence.
    + exists m. rewrite lookup_insert. auto.
  - intros r id. rewrite HI. unfold score_d. set_solver.
  - intros r id. rewrite HIa. unfold score_a. set_solver.
  - intros t id. rewrite elem_of_union, elem_of_singleton, (se_by_time _ _ _ HS). unfold me_time. rewrite (ee_entry _ _ _ _ HM). split.
    + intros [[= -> ->]|(x & Hx & E)]; [exists e; split; [apply elem_snoc; by right|auto]|exists x; split; [apply elem_snoc; by left|auto]].
    + intros (x & Hx & E & E'). apply elem_snoc in Hx as [Hx| ->]; [right; eauto|left; congruence].
  - intros c id. rewrite fold_insert, (ee_entry _ _ _ _ HM). destruct (decide (c ∈ consumed_deps (te_tx e))) as [Hc|Hc].
    + apply uses_up_spec in Hc. split.
      * intros [= <-]. exists e. split; [apply elem_snoc; by right|]. split; [by rewrite id_m|exact Hc].
      * intros (x & Hx & <- & Hu). apply elem_snoc in Hx as [Hx| ->]; [|by rewrite id_m].
        exfalso. by eapply (ad_no_conflict _ _ _ HA).
    + rewrite uses_up_spec in Hc. cbn. rewrite (se_spenders _ _ _ HS). split.
      * intros (x & Hx & E). exists x. split; [apply elem_snoc; by left|exact E].
      * intros (x & Hx & E & Hu). apply elem_snoc in Hx as [Hx| ->]; [eauto|contradiction].
  - intros d id. rewrite fold_insert, (ee_entry _ _ _ _ HM). destruct (decide (d ∈ provided_deps mk (te_tx e))) as [Hc|Hc].
    + apply creates_spec in Hc. split.
      * intros [= <-]. exists e. split; [apply elem_snoc; by right|]. split; [by rewrite id_m|exact Hc].
      * intros (x & Hx & <- & Hu). apply elem_snoc in Hx as [Hx| ->]; [|by rewrite id_m].
        exfalso. by eapply (ad_no_clash _ _ _ HA).
    + rewrite creates_spec in Hc. cbn. rewrite (se_providers _ _ _ HS). split.
      * intros (x & Hx & E). exists x. split; [apply elem_snoc; by left|exact E].
      * intros (x & Hx & E & Hu). apply elem_snoc in Hx as [Hx| ->]; [eauto|contradiction].
  - intros id n. cbn. destruct (decide (id = te_id e)) as [->|Hid].
    + rewrite lookup_insert. split.
      * intros [= <-]. apply lookup_insert.
      * intros H. destruct (decide (n = st_next s)) as [->|Hn]; [reflexivity|]. rewrite lookup_insert_ne in H by congruence.
        apply (se_seqs _ _ _ HS) in H. assert (Hin : te_id e ∈ ids l) by (apply (se_numbered _ _ _ HS); eauto).
        by apply (ad_new _ _ _ HA) in Hin.
    + rewrite lookup_insert_ne by congruence. destruct (decide (n = st_next s)) as [->|Hn].
      * rewrite lookup_insert. split; [intros H; apply (se_next _ _ _ HS) in H; lia|congruence].
      * rewrite lookup_insert_ne by congruence. apply (se_seqs _ _ _ HS).
  - intros id. rewrite (ext_ids _ _ _ HE). cbn. destruct (decide (id = te_id e)) as [->|Hid].
    + rewrite lookup_insert. split; [by right|eauto].
    + rewrite lookup_insert_ne by congruence. rewrite (se_numbered _ _ _ HS). tauto.
  - intros e1 e2 n1 n2 Hs E1' E2'. cbn in E1', E2'. apply pair_sublist_app in Hs as [Hs|[-> Hs]].
    + destruct (pair_sublist_elem _ _ _ Hs) as [I1 I2]. rewrite lookup_insert_ne in E1' by (apply (ext_elem0 _ _ _ HE) in I1 as []; congruence).
      rewrite lookup_insert_ne in E2' by (apply (ext_elem0 _ _ _ HE) in I2 as []; congruence).
      eapply (se_order _ _ _ HS); eassumption.
    + rewrite lookup_insert in E2'. injection E2' as <-.
      rewrite lookup_insert_ne in E1' by (apply (ext_elem0 _ _ _ HE) in Hs as []; congruence). by apply (se_next _ _ _ HS) in E1'.
  - intros id n. cbn. destruct (decide (id = te_id e)) as [->|Hid].
    + rewrite lookup_insert. intros [= <-]. lia.
    + rewrite lookup_insert_ne by congruence. intros H. apply (se_next _ _ _ HS) in H. lia.
Qed.
End insert.

(** ** The whole of [add_transaction] *)
Section add_transaction.
Context (iter : gset N -> list N) (Hiter : forall s, iter s ≡ₚ elements s) (mk : id_makers) (cfg : pool_cfg).
Hypothesis Hcount : 1 <= pc_max_count cfg.
Lemma add_transaction_spec l s e : store_exact mk l s -> pool_ok mk l -> admissible mk l e ->
  (exists s', add_transaction iter mk cfg s e = (s', Ok tt) /\ cluster_fits mk cfg (l ++ [e]) (te_id e) /\ store_exact mk (l ++ [e]) s') \/
  (exists er, add_transaction iter mk cfg s e = (s, Err er) /\ (er = PClusterCount \/ er = PClusterSize) /\ ~ cluster_fits mk cfg (l ++ [e]) (te_id e)).
Proof using Hiter Hcount.
  intros HS HPO HA. unfold add_transaction.
  destruct (new_entry_spec iter Hiter mk l s HS e HA HPO cfg Hcount) as [(m & A & E & Hfit & HM & HAs)|(er & E & Her & Hn)]; rewrite E; cbn [on_ok fst snd].
  - left. destruct (insert_spec iter Hiter mk l s e m A HS HA HPO HM HAs) as (s' & Es & HS'). rewrite Es. eauto.
  - right. eauto.
Qed.
End add_transaction.
