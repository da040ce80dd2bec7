(** Loops over the entries of the store, scores and the indices by score; how an entry changes when a leaf comes or goes. *)
From stdpp Require Import relations sorting.
From Verif Require Import Base AmountModel DeltaModel LayeredModel TokensModel OrdersModel PosModel PrimModel ChainModel MempoolModel MempoolSpec MempoolGraph.
From Coq Require Import Lia.
Local Open Scope N_scope.

Lemma set_txs_id s : set_txs (st_txs s) s = s.
Proof. by destruct s. Qed.
Lemma set_txs_twice t t' s : set_txs t (set_txs t' s) = set_txs t s.
Proof. by destruct s. Qed.

(** ** Updating some entries *)
Section upd.
Context (g : mentry -> mentry) (f : store -> N -> res pool_err store).
Hypothesis Hf : forall s a m, st_txs s !! a = Some m -> f s a = Ok (set_txs (<[a := g m]> (st_txs s)) s).
Lemma upd_fold l s : NoDup l -> (forall a, a ∈ l -> is_Some (st_txs s !! a)) ->
  exists t, rfold f l s = Ok (set_txs t s) /\ forall x, t !! x = if decide (x ∈ l) then g <$> st_txs s !! x else st_txs s !! x.
Proof using Hf.
  revert s. induction l as [|a l IH]; intros s HN Hd.
  - exists (st_txs s). rewrite set_txs_id. split; [reflexivity|]. intros x. rewrite decide_False; [reflexivity|]. intros H; inversion H.
  - apply NoDup_cons in HN as [Ha HN]. destruct (Hd a ltac:(left)) as [m Em]. cbn. rewrite (Hf s a m Em).
    set (s1 := set_txs (<[a := g m]> (st_txs s)) s).
    assert (E1 : st_txs s1 = <[a := g m]> (st_txs s)) by reflexivity.
    destruct (IH s1 HN) as (t & E & Ht).
    { intros b Hb. rewrite E1, lookup_insert_ne; [apply Hd; by right|]. intros ->. contradiction. }
    exists t. split; [rewrite E; unfold s1; by rewrite set_txs_twice|]. intros x. rewrite Ht, E1.
    destruct (decide (x = a)) as [->|Hx].
    + rewrite decide_False by exact Ha. rewrite decide_True by left. rewrite lookup_insert, Em. reflexivity.
    + rewrite lookup_insert_ne by congruence. destruct (decide (x ∈ l)) as [Hl|Hl].
      * rewrite decide_True by (by right). reflexivity.
      * rewrite decide_False; [reflexivity|]. intros H. apply elem_of_cons in H as [?|?]; contradiction.
Qed.
End upd.

(** ** Scores *)
Lemma rate_of_ok fee sz : fee * 1000 <= U128_MAX -> 0 < sz -> rate_of fee sz = Ok (rate fee sz).
Proof.
  intros H1 H2. unfold rate_of, amount_mul, checked_mul. rewrite (proj2 (N.leb_le _ _) H1). cbn [ok_or rbind].
  unfold amount_div, checked_div. rewrite (proj2 (N.eqb_neq sz 0)) by lia. reflexivity.
Qed.
Definition score_d (m : mentry) : N := N.max (rate (me_fees_d m) (me_size_d m)) (rate (me_fee m) (me_size m)).
Definition score_a (m : mentry) : N := N.min (rate (me_fees_a m) (me_size_a m)) (rate (me_fee m) (me_size m)).
Lemma score_d_ok m : me_fees_d m * 1000 <= U128_MAX -> 0 < me_size_d m -> me_fee m * 1000 <= U128_MAX -> 0 < me_size m ->
  descendant_score m = Ok (score_d m).
Proof. intros. unfold descendant_score. rewrite !rate_of_ok by assumption. reflexivity. Qed.
Lemma score_a_ok m : me_fees_a m * 1000 <= U128_MAX -> 0 < me_size_a m -> me_fee m * 1000 <= U128_MAX -> 0 < me_size m ->
  ancestor_score m = Ok (score_a m).
Proof. intros. unfold ancestor_score. rewrite !rate_of_ok by assumption. reflexivity. Qed.

(** ** An index by score; [E] are its entries for transactions that are not in the map *)
Definition indexed (sc : mentry -> N) (t : gmap N mentry) (x : gset (N * N)) (E : gset (N * N)) : Prop :=
  (forall r id, (r, id) ∈ x <-> (exists m, t !! id = Some m /\ r = sc m) \/ (r, id) ∈ E) /\
  (forall r id, (r, id) ∈ E -> t !! id = None).
Lemma indexed_ext sc t t' x E :
  (forall id, sc <$> t !! id = sc <$> t' !! id) -> indexed sc t x E -> indexed sc t' x E.
Proof.
  intros Ht [H1 H2]. split.
  - intros r id. rewrite H1. specialize (Ht id).
    assert (Hx : (exists m, t !! id = Some m /\ r = sc m) <-> (exists m, t' !! id = Some m /\ r = sc m)).
    { destruct (t !! id) as [m|], (t' !! id) as [m'|]; cbn in Ht; try discriminate.
      - injection Ht as Ht. split; intros (k & [= <-] & ->); eauto.
      - split; intros (k & H & _); discriminate. }
    rewrite Hx. reflexivity.
  - intros r id H. apply H2 in H. specialize (Ht id). rewrite H in Ht. cbn in Ht. by destruct (t' !! id).
Qed.
Lemma indexed_replace sc t x E a m m' :
  t !! a = Some m -> indexed sc t x E -> indexed sc (<[a := m']> t) (replace_score x a (sc m) (sc m')) E.
Proof.
  intros Ea [H1 H2]. assert (HE : forall r, (r, a) ∉ E) by (intros r H; apply H2 in H; congruence).
  split.
  - intros r id. unfold replace_score. destruct (decide (id = a)) as [->|Hid].
    + rewrite lookup_insert. assert (HR : (r, a) ∈ (if sc m =? sc m' then x else {[(sc m', a)]} ∪ x ∖ {[(sc m, a)]}) <-> r = sc m').
      { destruct (N.eqb_spec (sc m) (sc m')) as [Es|Es].
        - rewrite H1. rewrite Ea. split; [intros [(k & [= <-] & ->)|H]; [exact Es|by apply HE in H]|intros ->; left; eauto].
        - rewrite elem_of_union, elem_of_singleton, elem_of_difference, elem_of_singleton, H1, Ea. split.
          + intros [[= ->]|[[(k & [= <-] & ->)|H] Hn]]; [reflexivity|by contradict Hn|by apply HE in H].
          + intros ->. by left. }
      rewrite HR. split; [intros ->; left; eauto|intros [(k & [= <-] & ->)|H]; [reflexivity|by apply HE in H]].
    + rewrite lookup_insert_ne by congruence. destruct (N.eqb_spec (sc m) (sc m')) as [Es|Es]; [by rewrite H1|].
      rewrite elem_of_union, elem_of_singleton, elem_of_difference, elem_of_singleton, H1. split.
      * intros [[= -> ->]|[H _]]; [contradiction|exact H].
      * intros H. right. split; [exact H|]. intros [= -> ->]. contradiction.
  - intros r id H. destruct (decide (id = a)) as [->|Hid]; [by apply HE in H|]. rewrite lookup_insert_ne by congruence. by apply (H2 r).
Qed.

Definition set_td (t : gmap N mentry) (x : gset (N * N)) (s : store) : store := set_by_descendants x (set_txs t s).
Lemma set_td_id s : set_td (st_txs s) (st_by_descendants s) s = s.
Proof. by destruct s. Qed.
Lemma set_td_twice t x t' x' s : set_td t x (set_td t' x' s) = set_td t x s.
Proof. by destruct s. Qed.
Section scored.
Context (g : mentry -> mentry) (f : store -> N -> res pool_err store) (P : mentry -> Prop).
Hypothesis Hf : forall s a m, st_txs s !! a = Some m -> P m ->
  f s a = Ok (set_td (<[a := g m]> (st_txs s)) (replace_score (st_by_descendants s) a (score_d m) (score_d (g m))) s).
Lemma scored_fold l s : NoDup l -> (forall a, a ∈ l -> exists m, st_txs s !! a = Some m /\ P m) ->
  exists t x, rfold f l s = Ok (set_td t x s) /\
    (forall x, t !! x = if decide (x ∈ l) then g <$> st_txs s !! x else st_txs s !! x) /\
    (forall E, indexed score_d (st_txs s) (st_by_descendants s) E -> indexed score_d t x E).
Proof using Hf.
  revert s. induction l as [|a l IH]; intros s HN Hd.
  - exists (st_txs s), (st_by_descendants s). rewrite set_td_id. split; [reflexivity|]. split; [|auto].
    intros x. rewrite decide_False; [reflexivity|]. intros H; inversion H.
  - apply NoDup_cons in HN as [Ha HN]. destruct (Hd a ltac:(left)) as (m & Em & Pm). cbn. rewrite (Hf s a m Em Pm).
    set (s1 := set_td _ _ s).
    assert (E1 : st_txs s1 = <[a := g m]> (st_txs s)) by reflexivity.
    assert (E2 : st_by_descendants s1 = replace_score (st_by_descendants s) a (score_d m) (score_d (g m))) by reflexivity.
    destruct (IH s1 HN) as (t & x & E & Ht & Hx).
    { intros b Hb. rewrite E1, lookup_insert_ne; [apply Hd; by right|]. intros ->. contradiction. }
    exists t, x. split; [rewrite E; unfold s1; by rewrite set_td_twice|]. split.
    + intros y. rewrite Ht, E1. destruct (decide (y = a)) as [->|Hy].
      * rewrite decide_False by exact Ha. rewrite decide_True by left. rewrite lookup_insert, Em. reflexivity.
      * rewrite lookup_insert_ne by congruence. destruct (decide (y ∈ l)) as [Hl|Hl].
        -- rewrite decide_True by (by right). reflexivity.
        -- rewrite decide_False; [reflexivity|]. intros H. apply elem_of_cons in H as [?|?]; contradiction.
    + intros E0 HE. apply Hx. rewrite E1, E2. by apply indexed_replace.
Qed.
End scored.

(** ** Maps from dependencies to transactions *)
Section deps.
Context {K} `{Countable K}.
Lemma fold_insert (id : N) (ds : list K) (x : gmap K N) c :
  fold_left (fun x d => <[d := id]> x) ds x !! c = if decide (c ∈ ds) then Some id else x !! c.
Proof.
  revert x. induction ds as [|d ds IH]; intros x; cbn.
  - rewrite decide_False; [reflexivity|]. intros Hc; inversion Hc.
  - rewrite IH. destruct (decide (c ∈ ds)) as [Hc|Hc]; [rewrite decide_True by (by right); reflexivity|].
    destruct (decide (c = d)) as [->|Hd].
    + rewrite decide_True by left. apply lookup_insert.
    + rewrite decide_False; [by apply lookup_insert_ne|]. intros Hx. apply elem_of_cons in Hx as [?|?]; contradiction.
Qed.
Lemma fold_take (id : N) (ds : list K) (x : gmap K N) :
  NoDup ds -> (forall d, d ∈ ds -> x !! d = Some id) ->
  exists y, rfold (take_exactly id) ds x = Ok y /\ forall c, y !! c = if decide (c ∈ ds) then None else x !! c.
Proof.
  revert x. induction ds as [|d ds IH]; intros x HN Hd; cbn.
  - exists x. split; [reflexivity|]. intros c. rewrite decide_False; [reflexivity|]. intros Hc; inversion Hc.
  - apply NoDup_cons in HN as [Hn HN]. unfold take_exactly at 1. rewrite decide_True by (apply Hd; left).
    destruct (IH (delete d x) HN) as (y & E & Hy).
    { intros c Hc. rewrite lookup_delete_ne; [apply Hd; by right|]. intros ->. contradiction. }
    exists y. split; [exact E|]. intros c. rewrite Hy. destruct (decide (c ∈ ds)) as [Hc|Hc].
    + rewrite decide_True by (by right). reflexivity.
    + destruct (decide (c = d)) as [->|Hcd].
      * rewrite decide_True by left. apply lookup_delete.
      * rewrite decide_False; [by apply lookup_delete_ne|]. intros Hx. apply elem_of_cons in Hx as [?|?]; contradiction.
Qed.
End deps.

(** ** An entry when a leaf comes or goes *)
Section entry_step.
Context (mk : id_makers) (l0 : list tx_entry) (e : tx_entry) (l : list tx_entry).
Hypothesis HE : extends l0 e l.
Hypothesis Hleaf : forall c, ~ parent mk l (te_id e) c.
Let H0 : forall p c, parent mk l0 p c <-> parent mk l p c /\ c <> te_id e := ext_parent mk l0 e l HE Hleaf.
Lemma step_desc ex : te_id ex <> te_id e -> forall x, x <> te_id e ->
  (x = te_id ex \/ ancestor mk l (te_id ex) x) <-> (x = te_id ex \/ ancestor mk l0 (te_id ex) x).
Proof using HE Hleaf. intros Hex x Hx. unfold ancestor. rewrite (leaf_tc _ _ _ H0 Hleaf) by exact Hx. reflexivity. Qed.
Lemma step_anc ex : te_id ex <> te_id e -> forall x, x <> te_id e ->
  (x = te_id ex \/ ancestor mk l x (te_id ex)) <-> (x = te_id ex \/ ancestor mk l0 x (te_id ex)).
Proof using HE Hleaf. intros Hex x Hx. unfold ancestor. rewrite (leaf_tc _ _ _ H0 Hleaf) by exact Hex. reflexivity. Qed.
Lemma step_anc_e ex : te_id ex <> te_id e -> ~ (te_id e = te_id ex \/ ancestor mk l (te_id e) (te_id ex)).
Proof using HE Hleaf. intros Hex [H|H]; [congruence|]. by apply (leaf_no_child (parent mk l) (te_id e) Hleaf) in H. Qed.
(** the new children and totals of descendants *)
Definition gained (m : mentry) : mentry := descendants_of m (me_count_d m + 1) (me_fees_d m + te_fee e) (me_size_d m + te_size e).
Lemma entry_gain ex m m' :
  ex ∈ l0 -> entry_exact mk l0 ex m ->
  me_entry m' = me_entry m -> me_parents m' = me_parents m ->
  (forall c, c ∈ me_children m' <-> c ∈ me_children m \/ (c = te_id e /\ parent mk l (te_id ex) (te_id e))) ->
  (ancestor mk l (te_id ex) (te_id e) ->
     me_count_d m' = me_count_d m + 1 /\ me_fees_d m' = me_fees_d m + te_fee e /\ me_size_d m' = me_size_d m + te_size e) ->
  (~ ancestor mk l (te_id ex) (te_id e) ->
     me_count_d m' = me_count_d m /\ me_fees_d m' = me_fees_d m /\ me_size_d m' = me_size_d m) ->
  (ancestor mk l (te_id ex) (te_id e) \/ ~ ancestor mk l (te_id ex) (te_id e)) ->
  me_count_a m' = me_count_a m -> me_fees_a m' = me_fees_a m -> me_size_a m' = me_size_a m ->
  entry_exact mk l ex m'.
Proof using HE Hleaf.
  intros Hex [E1 E2 E3 E4 E5] F1 F2 F3 F4 F5 Hdec F6 F7 F8.
  assert (Hne : te_id ex <> te_id e) by (by apply (ext_elem0 _ _ _ HE) in Hex as []).
  split.
  - congruence.
  - intros p. rewrite F2, E2, H0. tauto.
  - intros c. rewrite F3, E3, H0. destruct (decide (c = te_id e)) as [->|Hc]; tauto.
  - destruct Hdec as [Ha|Ha].
    + destruct (F4 Ha) as (-> & -> & ->). eapply (totals_gain _ _ _ HE); [| |exact E4]; [by apply step_desc|by right].
    + destruct (F5 Ha) as (-> & -> & ->). eapply (totals_keep _ _ _ HE); [| |exact E4]; [by apply step_desc|].
      intros [H|H]; [congruence|contradiction].
  - rewrite F6, F7, F8. eapply (totals_keep _ _ _ HE); [| |exact E5]; [by apply step_anc|by apply step_anc_e].
Qed.
Lemma entry_lose ex m m' :
  ex ∈ l0 -> entry_exact mk l ex m ->
  me_entry m' = me_entry m -> me_parents m' = me_parents m ->
  (forall c, c ∈ me_children m' <-> c ∈ me_children m /\ c <> te_id e) ->
  (ancestor mk l (te_id ex) (te_id e) ->
     me_count_d m' = me_count_d m - 1 /\ me_fees_d m' = me_fees_d m - te_fee e /\ me_size_d m' = me_size_d m - te_size e) ->
  (~ ancestor mk l (te_id ex) (te_id e) ->
     me_count_d m' = me_count_d m /\ me_fees_d m' = me_fees_d m /\ me_size_d m' = me_size_d m) ->
  (ancestor mk l (te_id ex) (te_id e) \/ ~ ancestor mk l (te_id ex) (te_id e)) ->
  me_count_a m' = me_count_a m -> me_fees_a m' = me_fees_a m -> me_size_a m' = me_size_a m ->
  entry_exact mk l0 ex m'.
Proof using HE Hleaf.
  intros Hex [E1 E2 E3 E4 E5] F1 F2 F3 F4 F5 Hdec F6 F7 F8.
  assert (Hne : te_id ex <> te_id e) by (by apply (ext_elem0 _ _ _ HE) in Hex as []).
  split.
  - congruence.
  - intros p. rewrite F2, E2, H0. tauto.
  - intros c. rewrite F3, E3, H0. tauto.
  - destruct Hdec as [Ha|Ha].
    + destruct (F4 Ha) as (-> & -> & ->).
      destruct (totals_lose _ _ _ HE _ _ _ _ _ (step_desc ex Hne) (or_intror Ha) E4) as (c0 & f0 & b0 & HT & -> & -> & ->).
      by rewrite !N.add_sub.
    + destruct (F5 Ha) as (-> & -> & ->). eapply (totals_keep _ _ _ HE); [| |exact E4]; [by apply step_desc|].
      intros [H|H]; [congruence|contradiction].
  - rewrite F6, F7, F8. eapply (totals_keep _ _ _ HE); [| |exact E5]; [by apply step_anc|by apply step_anc_e].
Qed.
(** what is subtracted is there and something is left *)
Lemma entry_has ex m :
  ex ∈ l0 -> 0 < te_size ex -> entry_exact mk l ex m -> ancestor mk l (te_id ex) (te_id e) ->
  1 < me_count_d m /\ te_fee e <= me_fees_d m /\ te_size e < me_size_d m.
Proof using HE Hleaf.
  intros Hex Hs [E1 E2 E3 E4 E5] Ha. assert (Hne : te_id ex <> te_id e) by (by apply (ext_elem0 _ _ _ HE) in Hex as []).
  destruct (totals_lose _ _ _ HE _ _ _ _ _ (step_desc ex Hne) (or_intror Ha) E4) as (c0 & f0 & b0 & (ds & _ & Hd & -> & -> & ->) & -> & -> & ->).
  assert (Hx : ex ∈ ds) by (apply Hd; auto).
  pose proof (sum_of_elem te_size _ _ Hx). assert (length ds <> 0)%nat by (destruct ds; [inversion Hx|discriminate]). lia.
Qed.
End entry_step.
