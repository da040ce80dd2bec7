(** Removing transactions from the store. *)
From stdpp Require Import relations sorting.
From Verif Require Import Base AmountModel DeltaModel LayeredModel TokensModel OrdersModel PosModel PrimModel ChainModel
  MempoolModel MempoolSpec MempoolGraph MempoolTraverse MempoolFolds MempoolAdd MempoolInsert.
From Coq Require Import Lia.
Local Open Scope N_scope.

Lemma indexed_delete sc t x id m : t !! id = Some m -> indexed sc t x ∅ -> indexed sc (delete id t) x {[(sc m, id)]}.
Proof.
  intros Em [H1 _]. split.
  - intros r i. rewrite H1, elem_of_singleton. destruct (decide (i = id)) as [->|Hi].
    + rewrite lookup_delete, Em. split.
      * intros [(m' & [= <-] & ->)|H]; [by right|set_solver].
      * intros [(m' & H & _)|[= ->]]; [discriminate|]. left. eauto.
    + rewrite lookup_delete_ne by congruence. split.
      * intros [H|H]; [by left|set_solver].
      * intros [H|[= -> ->]]; [by left|contradiction].
  - intros r i H. apply elem_of_singleton in H as [= -> ->]. apply lookup_delete.
Qed.
Lemma indexed_drop sc t x p : indexed sc t x {[p]} -> indexed sc t (x ∖ {[p]}) ∅.
Proof.
  intros [H1 H2]. split; [|intros r i H; set_solver]. intros r i. rewrite elem_of_difference, H1, elem_of_singleton. split.
  - intros [[H|H] Hn]; [by left|contradiction].
  - intros [(m & Em & ->)|H]; [|set_solver]. split; [left; eauto|]. intros Ep.
    assert (H : t !! i = None) by (apply (H2 (sc m)); rewrite Ep; by apply elem_of_singleton). congruence.
Qed.
Lemma pool_ok_sub mk l l' : pool_ok mk l -> l' `sublist_of` l -> pool_ok mk l'.
Proof.
  intros [H1 H2 H3 H4 H5 H6] Hs. pose proof (sublist_in _ _ Hs) as Hin.
  assert (HN : NoDup (ids l')) by (eapply sublist_nodup; [apply sublist_map; exact Hs|exact H1]).
  pose proof (sum_of_incl te_fee l' l (ids_nodup _ HN) Hin). pose proof (sum_of_incl te_size l' l (ids_nodup _ HN) Hin).
  split; auto.
  - generalize dependent U128_MAX. intros. lia.
  - generalize dependent U64_MAX. intros. lia.
Qed.

Section remove.
Context (iter : gset N -> list N) (Hiter : forall s, iter s ≡ₚ elements s) (mk : id_makers).
Section leaf.
Context (l1 l2 : list tx_entry) (e : tx_entry) (s : store).
Notation l := (l1 ++ e :: l2).
Notation l0 := (l1 ++ l2).
Hypothesis HS : store_exact mk l s.
Hypothesis HPO : pool_ok mk l.
Hypothesis Hleaf : forall c, ~ parent mk l (te_id e) c.
Let HE : extends l0 e l := extends_remove l1 e l2 (po_nodup _ _ HPO).
Let H0 : forall p c, parent mk l0 p c <-> parent mk l p c /\ c <> te_id e := ext_parent mk l0 e l HE Hleaf.
Lemma e_in : e ∈ l.
Proof. apply elem_of_app. right. left. Qed.
Definition lost (m : mentry) : mentry := descendants_of m (me_count_d m - 1) (me_fees_d m - te_fee e) (me_size_d m - te_size e).
Definition can_lose (m : mentry) : Prop := entry_ok m /\ 1 < me_count_d m /\ te_fee e <= me_fees_d m /\ te_size e < me_size_d m.
Context (m : mentry).
Hypothesis Em : st_txs s !! te_id e = Some m.
Hypothesis HM : entry_exact mk l e m.
Lemma lose_step st a x : st_txs st !! a = Some x -> can_lose x ->
  lose_descendant m st a = Ok (set_td (<[a := lost x]> (st_txs st)) (replace_score (st_by_descendants st) a (score_d x) (score_d (lost x))) st).
Proof using HM.
  clear - HM. intros Ea (Hok & G1 & G2 & G3). unfold lose_descendant. rewrite Ea. cbn [expect rbind].
  rewrite (entry_ok_d _ Hok). cbn [rbind]. unfold amount_sub, checked_sub.
  assert (Ef : me_fee m = te_fee e) by (unfold me_fee; by rewrite (ee_entry _ _ _ _ HM)).
  assert (Es : me_size m = te_size e) by (unfold me_size; by rewrite (ee_entry _ _ _ _ HM)).
  rewrite Ef, Es. rewrite (proj2 (N.leb_le (te_fee e) (me_fees_d x))) by lia. cbn [expect rbind].
  rewrite (proj2 (N.leb_le (te_size e) (me_size_d x))) by lia. cbn [expect rbind].
  rewrite (proj2 (N.eqb_neq (me_size_d x - te_size e) 0)) by lia. cbn [expect rbind].
  rewrite (proj2 (N.leb_le 1 (me_count_d x))) by lia. cbn [expect rbind]. fold (lost x).
  destruct Hok as [O1 O2 O3 O4 O5 O6 O7].
  rewrite score_d_ok; [reflexivity| | | |]; cbn; [|lia|assumption|assumption].
  clear - O1. generalize dependent U128_MAX. intros. lia.
Qed.
Definition disown (x : mentry) : mentry := with_children (me_children x ∖ {[te_id e]}) x.
Lemma ids_ne x : x ∈ ids l0 -> x <> te_id e.
Proof using HE. intros H ->. by apply (ex_new _ _ _ HE) in H. Qed.
Lemma remove_leaf r : exists s', remove_tx iter mk s (te_id e) r = Ok (s', Some m) /\ store_exact mk l0 s'.
Proof using HS HPO Hleaf Em HM Hiter HE H0.
  unfold remove_tx. rewrite Em. set (s1 := set_txs (delete (te_id e) (st_txs s)) s).
  assert (Es1 : st_txs s1 = delete (te_id e) (st_txs s)) by reflexivity.
  assert (Hid : me_id m = te_id e) by (unfold me_id; by rewrite (ee_entry _ _ _ _ HM)).
  assert (Hno : me_children m = ∅).
  { apply set_eq. intros c. split; [|set_solver]. intros H. apply (ee_children _ _ _ _ HM) in H. by apply Hleaf in H. }
  assert (Hold : forall x, x ∈ l0 -> exists m0, st_txs s1 !! te_id x = Some m0 /\ st_txs s !! te_id x = Some m0 /\ entry_exact mk l x m0 /\ entry_ok m0).
  { intros x Hx. apply (ext_elem0 _ _ _ HE) in Hx as [Hx Hne]. destruct (se_entries _ _ _ HS x Hx) as (m0 & E0 & Hm0). exists m0.
    rewrite Es1, lookup_delete_ne by congruence. split; [exact E0|]. split; [exact E0|]. split; [exact Hm0|]. by apply (entry_exact_ok mk l x). }
  assert (Hold' : forall i, i ∈ ids l0 -> exists x, x ∈ l0 /\ te_id x = i) by (intros i; apply ids_elem).
  (* ancestors *)
  assert (Hcl : forall i, i ∈ (list_to_set (ids l0) : gset N) ->
            exists m0, st_txs s1 !! i = Some m0 /\ forall j, j ∈ neighbours iter Ancestors m0 -> j ∈ (list_to_set (ids l0) : gset N)).
  { intros i Hi. apply elem_of_list_to_set, Hold' in Hi as (x & Hx & <-). destruct (Hold x Hx) as (m0 & E0 & _ & Hm0 & _).
    exists m0. split; [exact E0|]. intros j Hj. cbn in Hj. apply (iter_elem iter Hiter), (ee_parents _ _ _ _ Hm0) in Hj.
    apply elem_of_list_to_set. assert (Hj' : parent mk l0 j (te_id x)) by (apply H0; split; [exact Hj|by apply (ext_elem0 _ _ _ HE) in Hx as []]).
    by apply parent_in in Hj' as []. }
  assert (Hpar : forall i, i ∈ iter (me_parents m) <-> parent mk l i (te_id e)).
  { intros i. rewrite (iter_elem iter Hiter). apply (ee_parents _ _ _ _ HM). }
  assert (Hpin : forall i, parent mk l i (te_id e) -> i ∈ ids l0).
  { intros i Hi. destruct (parent_in _ _ _ _ Hi) as [Hi' _]. apply (ext_ids _ _ _ HE) in Hi' as [Hi'| ->]; [exact Hi'|]. by apply Hleaf in Hi. }
  destruct (collect_unlimited iter s1 Ancestors (list_to_set (ids l0)) (iter (me_parents m)) Hcl) as (A & EA & HAs).
  { intros i Hi. apply elem_of_list_to_set, Hpin. by apply Hpar. }
  assert (Hlink : forall i j, link iter s1 Ancestors i j <-> parent mk l0 j i).
  { intros i j. split.
    - intros (m0 & E0 & Hj). assert (Hi : i ∈ ids l0).
      { rewrite Es1 in E0. apply lookup_delete_Some in E0 as [Hne E0]. assert (Hi : i ∈ ids l) by (apply (se_ids _ _ _ HS); eauto).
        apply (ext_ids _ _ _ HE) in Hi as [Hi|Hi]; [exact Hi|congruence]. }
      apply Hold' in Hi as (x & Hx & <-). destruct (Hold x Hx) as (m1 & E1 & _ & Hm1 & _). rewrite E0 in E1. injection E1 as <-.
      cbn in Hj. apply (iter_elem iter Hiter), (ee_parents _ _ _ _ Hm1) in Hj. apply H0. split; [exact Hj|]. by apply (ext_elem0 _ _ _ HE) in Hx as [].
    - intros H. destruct (parent_in _ _ _ _ H) as [_ Hi]. apply Hold' in Hi as (x & Hx & <-). destruct (Hold x Hx) as (m0 & E0 & _ & Hm0 & _).
      exists m0. split; [exact E0|]. cbn. apply (iter_elem iter Hiter), (ee_parents _ _ _ _ Hm0). by apply H0 in H as []. }
  assert (HA : forall x, x ∈ A <-> ancestor mk l x (te_id e)).
  { intros x. rewrite HAs. unfold reached, ancestor. rewrite (leaf_tc_e _ _ _ H0 Hleaf). split.
    - intros (p & Hp & Hr). exists p. split; [by apply Hpar|]. clear Hp.
      induction Hr as [|a b x Hab Hr IH]; [by left|]. right. apply Hlink in Hab. destruct IH as [->|IH]; [by apply tc_once|]. eapply tc_r; eassumption.
    - intros (p & Hp & Hx). exists p. split; [by apply Hpar|]. destruct Hx as [->|Hx]; [reflexivity|]. clear Hp.
      induction Hx as [x p H|x y p H Hx IH]; [apply rtc_once; by apply Hlink|]. eapply rtc_r; [exact IH|]. by apply Hlink. }
  assert (HAin : forall x, x ∈ A -> x ∈ ids l0).
  { intros x Hx. apply HA in Hx. destruct (ancestor_in _ _ _ _ Hx) as [Hx' _]. apply (ext_ids _ _ _ HE) in Hx' as [Hx'| ->]; [exact Hx'|].
    by apply (leaf_no_child _ _ Hleaf) in Hx. }
  unfold update_ancestors_for_drop, collect_ancestors. rewrite EA. cbn [unwrap rbind].
  destruct (scored_fold lost (lose_descendant m) can_lose lose_step (iter A) s1) as (t2 & x2 & E2 & Ht2 & Hx2).
  { apply iter_nodup; exact Hiter. }
  { intros a Ha. apply (iter_elem iter Hiter) in Ha. pose proof (HAin a Ha) as Hin. apply Hold' in Hin as (x & Hx & <-).
    destruct (Hold x Hx) as (m0 & E0 & _ & Hm0 & Hok). exists m0. split; [exact E0|]. split; [exact Hok|].
    apply (entry_has mk l0 e l HE Hleaf x m0 Hx); [|exact Hm0|by apply HA].
    apply (po_sizes _ _ HPO). by apply (ext_elem0 _ _ _ HE) in Hx as []. }
  rewrite E2. cbn [rbind].
  assert (Hiter0 : iter ∅ = []).
  { pose proof (Hiter ∅) as H. rewrite elements_empty in H. symmetry in H. by apply Permutation_nil in H. }
  (* a leaf has no descendants *)
  assert (Hblk : match r with RBlock => update_descendants_for_drop iter (set_td t2 x2 s1) m | _ => Ok (set_td t2 x2 s1) end = Ok (set_td t2 x2 s1)).
  { assert (Hd : update_descendants_for_drop iter (set_td t2 x2 s1) m = Ok (set_td t2 x2 s1)); [|by destruct r].
    unfold update_descendants_for_drop, collect_descendants, collect_relatives. rewrite Hno, Hiter0. cbn [visit_all rbind fst snd collect_loop unwrap].
    rewrite Hiter0. reflexivity. }
  rewrite Hblk. cbn [rbind]. unfold drop_tx.
  destruct (upd_fold disown (remove_from_parent (me_id m))) with (l := iter (me_parents m)) (s := set_td t2 x2 s1) as (t3 & E3 & Ht3).
  { intros st a x Ea. unfold remove_from_parent. rewrite Ea, Hid. reflexivity. }
  { apply iter_nodup; exact Hiter. }
  { intros a Ha. apply Hpar, Hpin, Hold' in Ha as (x & Hx & <-). cbn. rewrite Ht2. destruct (Hold x Hx) as (m0 & E0 & _). rewrite E0.
    destruct (decide _); eauto. }
  rewrite E3. cbn [rbind]. rewrite Hno, Hiter0. cbn [rfold rbind].
  pose proof (entry_exact_ok mk l e m HPO e_in HM) as Hmok.
  rewrite (entry_ok_d _ Hmok), (entry_ok_a _ Hmok). cbn [rbind].
  assert (Hseq : exists n, st_seqs s !! te_id e = Some n).
  { apply (se_numbered _ _ _ HS). apply ids_elem. exists e. split; [exact e_in|reflexivity]. }
  destruct Hseq as [n En]. pose proof (proj1 (se_seqs _ _ _ HS _ _) En) as En'.
  unfold remove_seq. rewrite Hid.
  cbn [set_by_time set_by_ancestors set_by_descendants set_txs set_td s1 st_txs st_by_descendants st_by_ancestors st_by_time st_spenders st_providers st_by_seq st_seqs st_next].
  rewrite En. cbn [expect rbind]. rewrite decide_True by exact En'. cbn [rbind].
  unfold remove_providers. rewrite Hid, (ee_entry _ _ _ _ HM).
  destruct (fold_take (te_id e) (provided_deps mk (te_tx e)) (st_providers s)) as (pr & Epr & Hpr).
  { by apply (po_creates _ _ HPO), e_in. }
  { intros d Hd. apply (se_providers _ _ _ HS). exists e. split; [exact e_in|]. split; [reflexivity|]. by apply creates_spec. }
  unfold set_td, s1. cbn [set_by_time set_by_ancestors set_by_descendants set_txs set_td set_seqs set_providers set_spenders st_txs st_by_descendants st_by_ancestors st_by_time st_spenders st_providers st_by_seq st_seqs st_next]. rewrite Epr. cbn [rbind].
  unfold unspend. rewrite Hid, (ee_entry _ _ _ _ HM).
  destruct (fold_take (te_id e) (consumed_deps (te_tx e)) (st_spenders s)) as (sp & Esp & Hsp).
  { by apply (po_uses _ _ HPO), e_in. }
  { intros d Hd. apply (se_spenders _ _ _ HS). exists e. split; [exact e_in|]. split; [reflexivity|]. by apply uses_up_spec. }
  cbn [set_by_time set_by_ancestors set_by_descendants set_txs set_td set_seqs set_providers set_spenders st_txs st_by_descendants st_by_ancestors st_by_time st_spenders st_providers st_by_seq st_seqs st_next]. rewrite Esp. cbn [rbind]. eexists. split; [reflexivity|].
  (* the entries that stay *)
  assert (Hlook : forall x, x ∈ l0 -> exists m0 m1, st_txs s !! te_id x = Some m0 /\ t3 !! te_id x = Some m1 /\
            entry_exact mk l0 x m1 /\ score_a m1 = score_a m0).
  { intros x Hx. destruct (Hold x Hx) as (m0 & E1 & E0 & Hm0 & Hok). exists m0.
    set (m1 := if decide (te_id x ∈ iter A) then lost m0 else m0).
    exists (if decide (te_id x ∈ iter (me_parents m)) then disown m1 else m1).
    split; [exact E0|]. split; [|split].
    - rewrite Ht3. cbn. rewrite Ht2, E1. unfold m1. by repeat destruct (decide _).
    - assert (D2 : te_id x ∈ iter A <-> ancestor mk l (te_id x) (te_id e)) by (rewrite (iter_elem iter Hiter); apply HA).
      assert (Hch : forall c, c ∈ me_children (if decide (te_id x ∈ iter (me_parents m)) then disown m1 else m1) <-> c ∈ me_children m0 /\ c <> te_id e).
      { assert (C1 : me_children m1 = me_children m0) by (unfold m1; by destruct (decide _)).
        intros c. destruct (decide (te_id x ∈ iter (me_parents m))) as [D|D]; cbn; rewrite C1; [set_solver|].
        rewrite Hpar in D. split; [|intros []; assumption]. intros Hc. split; [exact Hc|]. intros ->.
        apply D. by apply (ee_children _ _ _ _ Hm0). }
      assert (Hsame : me_entry (if decide (te_id x ∈ iter (me_parents m)) then disown m1 else m1) = me_entry m1 /\
              me_parents (if decide (te_id x ∈ iter (me_parents m)) then disown m1 else m1) = me_parents m1 /\
              me_count_d (if decide (te_id x ∈ iter (me_parents m)) then disown m1 else m1) = me_count_d m1 /\
              me_fees_d (if decide (te_id x ∈ iter (me_parents m)) then disown m1 else m1) = me_fees_d m1 /\
              me_size_d (if decide (te_id x ∈ iter (me_parents m)) then disown m1 else m1) = me_size_d m1 /\
              me_count_a (if decide (te_id x ∈ iter (me_parents m)) then disown m1 else m1) = me_count_a m1 /\
              me_fees_a (if decide (te_id x ∈ iter (me_parents m)) then disown m1 else m1) = me_fees_a m1 /\
              me_size_a (if decide (te_id x ∈ iter (me_parents m)) then disown m1 else m1) = me_size_a m1).
      { destruct (decide (te_id x ∈ iter (me_parents m))); split_and!; reflexivity. }
      destruct Hsame as (N1 & N2 & N3 & N4 & N5 & N6 & N7 & N8).
      apply (entry_lose mk l0 e l HE Hleaf x m0); [exact Hx|exact Hm0| | |exact Hch| | | | | |].
      + rewrite N1. unfold m1. by destruct (decide _).
      + rewrite N2. unfold m1. by destruct (decide _).
      + intros D. rewrite N3, N4, N5. unfold m1. rewrite decide_True by (by apply D2). auto.
      + intros D. rewrite N3, N4, N5. unfold m1. rewrite decide_False by (by rewrite D2). auto.
      + destruct (decide (te_id x ∈ iter A)) as [D|D]; rewrite D2 in D; auto.
      + rewrite N6. unfold m1. by destruct (decide _).
      + rewrite N7. unfold m1. by destruct (decide _).
      + rewrite N8. unfold m1. by destruct (decide _).
    - unfold m1. by repeat destruct (decide _). }
  assert (Hdom : forall id, is_Some (t3 !! id) <-> id ∈ ids l0).
  { intros id. rewrite Ht3. cbn. rewrite Ht2, Es1.
    assert (Hd : is_Some (delete (te_id e) (st_txs s) !! id) <-> id ∈ ids l0).
    { destruct (decide (id = te_id e)) as [->|Hne].
      - rewrite lookup_delete. split; [intros [? ?]; discriminate|intros H; by apply ids_ne in H].
      - rewrite lookup_delete_ne by congruence. rewrite (se_ids _ _ _ HS), (ext_ids _ _ _ HE). tauto. }
    rewrite <- Hd. repeat destruct (decide _); rewrite ?fmap_is_Some; reflexivity. }
  assert (HI : indexed score_d t3 (x2 ∖ {[(score_d m, te_id e)]}) ∅).
  { apply indexed_drop. eapply (indexed_ext _ t2).
    - intros id. rewrite Ht3. cbn. destruct (decide _); [|reflexivity]. by destruct (t2 !! id).
    - apply Hx2. rewrite Es1. apply indexed_delete; [exact Em|].
      split; [|intros r0 id H; set_solver]. intros r0 id. cbn. rewrite (se_by_descendants _ _ _ HS). unfold score_d. set_solver. }
  assert (HIa : indexed score_a t3 (st_by_ancestors s ∖ {[(score_a m, te_id e)]}) ∅).
  { apply indexed_drop. eapply (indexed_ext _ (delete (te_id e) (st_txs s))).
    - intros id. destruct (t3 !! id) as [m1|] eqn:E1.
      + assert (Hi : id ∈ ids l0) by (apply Hdom; eauto). apply Hold' in Hi as (x & Hx & <-).
        destruct (Hlook x Hx) as (m0 & m1' & E0 & E1' & _ & Es). rewrite E1 in E1'. injection E1' as <-.
        rewrite lookup_delete_ne by (apply (ext_elem0 _ _ _ HE) in Hx as []; congruence). rewrite E0. cbn. by rewrite Es.
      + destruct (decide (id = te_id e)) as [->|Hne]; [by rewrite lookup_delete|]. rewrite lookup_delete_ne by congruence.
        destruct (st_txs s !! id) as [m0|] eqn:E0; [|reflexivity]. exfalso.
        assert (Hi : id ∈ ids l) by (apply (se_ids _ _ _ HS); eauto). apply (ext_ids _ _ _ HE) in Hi as [Hi|Hi]; [|contradiction].
        apply Hdom in Hi as [? ?]. congruence.
    - apply indexed_delete; [exact Em|]. split; [|intros r0 id H; set_solver]. intros r0 id. rewrite (se_by_ancestors _ _ _ HS). unfold score_a. set_solver. }
  destruct HI as [HI _]. destruct HIa as [HIa _].
  assert (Hmem : forall x, x ∈ l -> te_id x <> te_id e -> x ∈ l0) by (intros x Hx Hne; by apply (ext_elem0 _ _ _ HE)).
  assert (Hback : forall x, x ∈ l0 -> x ∈ l /\ te_id x <> te_id e) by (intros x Hx; by apply (ext_elem0 _ _ _ HE)).
  split; cbn [st_txs st_by_descendants st_by_ancestors st_by_time st_spenders st_providers st_by_seq st_seqs st_next set_txs set_seqs set_by_time set_by_ancestors set_by_descendants set_providers set_spenders].
  - exact Hdom.
  - intros x Hx. destruct (Hlook x Hx) as (m0 & m1 & _ & E1 & Hm1 & _). eauto.
  - intros r0 id. rewrite HI. unfold score_d. set_solver.
  - intros r0 id. rewrite HIa. unfold score_a. set_solver.
  - intros t id. rewrite elem_of_difference, elem_of_singleton, (se_by_time _ _ _ HS). unfold me_time. rewrite (ee_entry _ _ _ _ HM). split.
    + intros [(x & Hx & <- & <-) Hn]. exists x. split; [|auto]. apply Hmem; [exact Hx|]. intros Eq. apply Hn.
      by rewrite (ids_inj l x e (po_nodup _ _ HPO) Hx e_in Eq).
    + intros (x & Hx & <- & <-). apply Hback in Hx as [Hx Hne]. split; [eauto|]. congruence.
  - intros c id. rewrite Hsp. destruct (decide (c ∈ consumed_deps (te_tx e))) as [Hc|Hc].
    + apply uses_up_spec in Hc. split; [discriminate|]. intros (x & Hx & <- & Hu). apply Hback in Hx as [Hx Hne]. exfalso.
      assert (F1 : st_spenders s !! c = Some (te_id x)) by (apply (se_spenders _ _ _ HS); eauto).
      assert (F2 : st_spenders s !! c = Some (te_id e)) by (apply (se_spenders _ _ _ HS); exists e; split; [exact e_in|auto]). congruence.
    + rewrite uses_up_spec in Hc. rewrite (se_spenders _ _ _ HS). split.
      * intros (x & Hx & <- & Hu). exists x. split; [|auto]. apply Hmem; [exact Hx|]. intros Eq.
        rewrite (ids_inj l x e (po_nodup _ _ HPO) Hx e_in Eq) in Hu. contradiction.
      * intros (x & Hx & E). apply Hback in Hx as [Hx _]. eauto.
  - intros d id. rewrite Hpr. destruct (decide (d ∈ provided_deps mk (te_tx e))) as [Hc|Hc].
    + apply creates_spec in Hc. split; [discriminate|]. intros (x & Hx & <- & Hu). apply Hback in Hx as [Hx Hne]. exfalso.
      assert (F1 : st_providers s !! d = Some (te_id x)) by (apply (se_providers _ _ _ HS); eauto).
      assert (F2 : st_providers s !! d = Some (te_id e)) by (apply (se_providers _ _ _ HS); exists e; split; [exact e_in|auto]). congruence.
    + rewrite creates_spec in Hc. rewrite (se_providers _ _ _ HS). split.
      * intros (x & Hx & <- & Hu). exists x. split; [|auto]. apply Hmem; [exact Hx|]. intros Eq.
        rewrite (ids_inj l x e (po_nodup _ _ HPO) Hx e_in Eq) in Hu. contradiction.
      * intros (x & Hx & E). apply Hback in Hx as [Hx _]. eauto.
  - intros id k. destruct (decide (id = te_id e)) as [->|Hne].
    + rewrite lookup_delete. split; [discriminate|]. destruct (decide (k = n)) as [->|Hk]; [by rewrite lookup_delete|].
      rewrite lookup_delete_ne by congruence. intros H. apply (se_seqs _ _ _ HS) in H. congruence.
    + rewrite lookup_delete_ne by congruence. destruct (decide (k = n)) as [->|Hk].
      * rewrite lookup_delete. split; [|discriminate]. intros H. apply (se_seqs _ _ _ HS) in H. congruence.
      * rewrite lookup_delete_ne by congruence. apply (se_seqs _ _ _ HS).
  - intros id. destruct (decide (id = te_id e)) as [->|Hne].
    + rewrite lookup_delete. split; [intros [? ?]; discriminate|intros H; by apply ids_ne in H].
    + rewrite lookup_delete_ne by congruence. rewrite (se_numbered _ _ _ HS), (ext_ids _ _ _ HE). tauto.
  - intros e1 e2 n1 n2 Hs F1 F2. apply lookup_delete_Some in F1 as [_ F1]. apply lookup_delete_Some in F2 as [_ F2].
    eapply (se_order _ _ _ HS); [|exact F1|exact F2]. etrans; [exact Hs|exact (ex_sub _ _ _ HE)].
  - intros id k H. apply lookup_delete_Some in H as [_ H]. by apply (se_next _ _ _ HS) in H.
Qed.
End leaf.
End remove.
