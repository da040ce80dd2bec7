(** Adding a transaction to the store. *)
From stdpp Require Import relations sorting.
From Verif Require Import Base AmountModel DeltaModel LayeredModel TokensModel OrdersModel PosModel PrimModel ChainModel
  MempoolModel MempoolSpec MempoolGraph MempoolTraverse MempoolFolds.
From Coq Require Import Lia.
Local Open Scope N_scope.

(** what holds of every pool that has a history *)
Record pool_ok (mk : id_makers) (l : list tx_entry) : Prop := {
  po_nodup : NoDup (ids l);
  po_sizes : forall e, e ∈ l -> 0 < te_size e;
  po_uses : forall e, e ∈ l -> NoDup (consumed_deps (te_tx e));
  po_creates : forall e, e ∈ l -> NoDup (provided_deps mk (te_tx e));
  po_fees : sum_of te_fee l * 1000 <= U128_MAX;
  po_bytes : sum_of te_size l <= U64_MAX;
}.
Record entry_ok (m : mentry) : Prop := {
  ok_fees_d : me_fees_d m * 1000 <= U128_MAX; ok_size_d : 0 < me_size_d m;
  ok_fees_a : me_fees_a m * 1000 <= U128_MAX; ok_size_a : 0 < me_size_a m;
  ok_fee : me_fee m * 1000 <= U128_MAX; ok_size : 0 < me_size m; ok_bytes_d : me_size_d m <= U64_MAX }.
Lemma entry_exact_ok mk l e m : pool_ok mk l -> e ∈ l -> entry_exact mk l e m -> entry_ok m.
Proof.
  intros HP He [E1 E2 E3 E4 E5]. pose proof (po_sizes _ _ HP) as Hs. pose proof (Hs e He) as Hse.
  destruct (totals_bound _ _ _ _ _ E4) as (B1 & B2 & _). destruct (totals_bound _ _ _ _ _ E5) as (B3 & B4 & _).
  destruct (totals_pos _ _ _ _ _ e Hs He (or_introl eq_refl) E4) as (_ & B5 & _).
  destruct (totals_pos _ _ _ _ _ e Hs He (or_introl eq_refl) E5) as (_ & B6 & _).
  pose proof (sum_of_elem te_fee _ _ He) as B7. pose proof (po_fees _ _ HP). pose proof (po_bytes _ _ HP).
  clear E2 E3 E4 E5. split; unfold me_fee, me_size; rewrite ?E1; generalize dependent U128_MAX; generalize dependent U64_MAX; intros; lia.
Qed.
Lemma entry_ok_d m : entry_ok m -> descendant_score m = Ok (score_d m).
Proof. intros []. by apply score_d_ok. Qed.
Lemma entry_ok_a m : entry_ok m -> ancestor_score m = Ok (score_a m).
Proof. intros []. by apply score_a_ok. Qed.

(** the transactions with given ids *)
Lemma resolve l is : NoDup (ids l) -> NoDup is -> (forall i, i ∈ is -> i ∈ ids l) ->
  exists ds, map te_id ds = is /\ NoDup ds /\ forall x, x ∈ ds <-> x ∈ l /\ te_id x ∈ is.
Proof.
  intros HL. induction is as [|i is IH]; intros HN Hi.
  - exists []. split; [reflexivity|]. split; [constructor|]. intros x. split; [intros H; inversion H|intros [_ H]; inversion H].
  - apply NoDup_cons in HN as [Hn HN]. destruct IH as (ds & E & Hd & Hx); [exact HN|intros j Hj; apply Hi; by right|].
    destruct (proj1 (ids_elem l i) (Hi i ltac:(left))) as (e & He & Ee).
    exists (e :: ds). split; [cbn; congruence|]. split.
    + apply NoDup_cons. split; [|exact Hd]. intros H. apply Hx in H as [_ H]. rewrite Ee in H. contradiction.
    + intros x. rewrite !elem_of_cons, Hx. split.
      * intros [->|[H H']]; [split; [exact He|by left]|auto].
      * intros [H [H'|H']]; [|auto]. left. apply (ids_inj l); auto. congruence.
Qed.

Section add.
Context (iter : gset N -> list N) (Hiter : forall s, iter s ≡ₚ elements s) (mk : id_makers).
Notation parent := (parent mk).
Notation ancestor := (ancestor mk).
Lemma iter_elem s x : x ∈ iter s <-> x ∈ s.
Proof using Hiter. rewrite (Hiter s). apply elem_of_elements. Qed.
Lemma iter_nodup s : NoDup (iter s).
Proof using Hiter. rewrite (Hiter s). apply NoDup_elements. Qed.
Lemma iter_length s : length (iter s) = size s.
Proof using Hiter. rewrite (Permutation_length (Hiter s)). reflexivity. Qed.

(** ** Links of the store *)
Section links.
Context (l : list tx_entry) (s : store).
Hypothesis HS : store_exact mk l s.
Lemma entry_at i : i ∈ ids l -> exists e m, e ∈ l /\ te_id e = i /\ st_txs s !! i = Some m /\ entry_exact mk l e m.
Proof using HS.
  intros Hi. apply ids_elem in Hi as (e & He & <-). destruct (se_entries _ _ _ HS e He) as (m & Em & Hm). eauto 10.
Qed.
Lemma entry_of i m : st_txs s !! i = Some m -> exists e, e ∈ l /\ te_id e = i /\ entry_exact mk l e m.
Proof using HS.
  intros Em. destruct (entry_at i) as (e & m' & He & Ee & Em' & Hm).
  - apply (se_ids _ _ _ HS). eauto.
  - rewrite Em in Em'. injection Em' as <-. eauto.
Qed.
Lemma link_ancestors i j : link iter s Ancestors i j <-> parent l j i.
Proof using HS Hiter.
  split.
  - intros (m & Em & Hj). apply entry_of in Em as (e & He & <- & Hm). cbn in Hj. apply iter_elem in Hj. by apply (ee_parents _ _ _ _ Hm).
  - intros H. destruct (entry_at i) as (e & m & He & <- & Em & Hm); [by apply parent_in in H as []|].
    exists m. split; [exact Em|]. cbn. apply iter_elem. by apply (ee_parents _ _ _ _ Hm).
Qed.
Lemma link_cluster i j : link iter s ClusterOf i j <-> related mk l i j.
Proof using HS Hiter.
  unfold related. split.
  - intros (m & Em & Hj). apply entry_of in Em as (e & He & <- & Hm). cbn in Hj. apply elem_of_app in Hj as [Hj|Hj]; apply iter_elem in Hj.
    + right. by apply (ee_parents _ _ _ _ Hm).
    + left. by apply (ee_children _ _ _ _ Hm).
  - intros H. destruct (entry_at i) as (e & m & He & <- & Em & Hm); [destruct H as [H|H]; by apply parent_in in H as []|].
    exists m. split; [exact Em|]. cbn. apply elem_of_app. destruct H as [H|H]; [right|left]; apply iter_elem.
    + by apply (ee_children _ _ _ _ Hm).
    + by apply (ee_parents _ _ _ _ Hm).
Qed.
Lemma closed_dom k i : i ∈ dom (st_txs s) -> exists m, st_txs s !! i = Some m /\ forall j, j ∈ neighbours iter k m -> j ∈ dom (st_txs s).
Proof using HS Hiter.
  intros Hi. apply elem_of_dom in Hi as [m Em]. exists m. split; [exact Em|]. intros j Hj. apply elem_of_dom.
  apply (se_ids _ _ _ HS). destruct (entry_of i m Em) as (e & He & <- & Hm).
  assert (Hj' : j ∈ me_parents m \/ j ∈ me_children m).
  { destruct k; cbn in Hj; [left; by apply iter_elem|right; by apply iter_elem|].
    apply elem_of_app in Hj as [Hj|Hj]; [left|right]; by apply iter_elem. }
  destruct Hj' as [H|H]; [apply (ee_parents _ _ _ _ Hm) in H; by apply parent_in in H as []
                         |apply (ee_children _ _ _ _ Hm) in H; by apply parent_in in H as []].
Qed.

(** ** The parents found for a new transaction *)
Context (e : tx_entry).
Hypothesis HA : admissible mk l e.
Lemma spent_txs_elem tx t : t ∈ spent_txs tx <-> exists i, InUtxo (FromTx t, i) ∈ tx_inputs tx.
Proof.
  unfold spent_txs. rewrite elem_of_list_omap. split.
  - intros (x & Hx & E). destruct x as [[[u|b] i]|n d a|n c|c]; try discriminate. injection E as ->. eauto.
  - intros (i & H). eexists. split; [exact H|reflexivity].
Qed.
Lemma parents_found p : p ∈ collect_tx_parents s (te_tx e) <-> parent (l ++ [e]) p (te_id e).
Proof using HS HA.
  unfold collect_tx_parents. rewrite elem_of_union, !elem_of_list_to_set, elem_of_list_filter, spent_txs_elem, (se_ids _ _ _ HS).
  assert (HP : p ∈ providers_of s (te_tx e) <-> exists d, asks_for (te_tx e) d /\ st_providers s !! d = Some p).
  { unfold providers_of. rewrite elem_of_list_omap. split.
    - intros (r & Hr & E). destruct (from_requirement r) as [d|] eqn:Er; [|discriminate].
      exists d. split; [apply asks_for_spec; eauto|exact E].
    - intros (d & Hd & E). apply asks_for_spec in Hd as (r & Hr & Er). exists r. split; [exact Hr|]. by rewrite Er. }
  rewrite HP, parent_app. split.
  - intros [[Hp (i & Hi)]|(d & Hd & E)]; right; (split; [reflexivity|]).
    + apply ids_elem in Hp as (ep & Hep & <-). exists ep. split; [exact Hep|]. split; [reflexivity|]. left. exists i. exact Hi.
    + apply (se_providers _ _ _ HS) in E as (ep & Hep & <- & Hc). exists ep. split; [exact Hep|]. split; [reflexivity|]. right. eauto.
  - intros [H|(_ & ep & Hep & <- & [(i & Hi)|(d & Hd & Hc)])].
    + apply parent_in in H as [_ H]. by apply (ad_new _ _ _ HA) in H.
    + left. split; [apply ids_elem; eauto|]. exists i. exact Hi.
    + right. exists d. split; [exact Hd|]. apply (se_providers _ _ _ HS). eauto.
Qed.
Hypothesis HPO : pool_ok mk l.
Let HE : extends l e (l ++ [e]) := extends_app l e (po_nodup _ _ HPO) (ad_new _ _ _ HA).
Let Hleaf : forall c, ~ parent (l ++ [e]) (te_id e) c := new_leaf mk l e (ad_new _ _ _ HA).
Let H0 : forall p c, parent l p c <-> parent (l ++ [e]) p c /\ c <> te_id e := ext_parent mk l e _ HE Hleaf.
Lemma reached_ancestors x : reached iter s Ancestors (iter (collect_tx_parents s (te_tx e))) x <-> ancestor (l ++ [e]) x (te_id e).
Proof using HS HA Hiter HPO.
  unfold reached, ancestor. rewrite (leaf_tc_e _ _ _ H0 Hleaf). split.
  - intros (p & Hp & Hr). apply iter_elem, parents_found in Hp. exists p. split; [exact Hp|].
    clear Hp. induction Hr as [|a b x Hab Hr IH]; [by left|]. right. apply link_ancestors in Hab.
    destruct IH as [->|IH]; [by apply tc_once|]. eapply tc_r; eassumption.
  - intros (p & Hp & Hx). exists p. split; [by apply iter_elem, parents_found|].
    destruct Hx as [->|Hx]; [reflexivity|]. clear Hp. induction Hx as [x p H|x y p H Hx IH].
    + apply rtc_once. by apply link_ancestors.
    + eapply rtc_r; [exact IH|]. by apply link_ancestors.
Qed.
Lemma reached_cluster x : reached iter s ClusterOf (iter (collect_tx_parents s (te_tx e))) x ->
  same_cluster mk (l ++ [e]) (te_id e) x /\ x <> te_id e.
Proof using HS HA Hiter HPO.
  intros (p & Hp & Hr). apply iter_elem, parents_found in Hp. split.
  - unfold same_cluster, related. rewrite (leaf_cluster _ _ _ H0 Hleaf). right. exists p. split; [exact Hp|].
    clear Hp. induction Hr as [|a b x Hab Hr IH]; [reflexivity|]. eapply rtc_l; [|exact IH]. by apply link_cluster in Hab.
  - assert (Hpl : p ∈ ids l).
    { apply parent_app in Hp as [Hp|(_ & ep & Hep & <- & _)]; [by apply parent_in in Hp as []|apply ids_elem; eauto]. }
    assert (Hin : forall a y, rtc (link iter s ClusterOf) a y -> a ∈ ids l -> y ∈ ids l).
    { intros a y H. induction H as [|a b y Hab H IH]; [auto|]. intros _. apply IH. apply link_cluster in Hab.
      destruct Hab as [Hab|Hab]; by apply parent_in in Hab as []. }
    intros ->. apply (ad_new _ _ _ HA). by apply (Hin p).
Qed.
Lemma cluster_reached x : same_cluster mk (l ++ [e]) (te_id e) x -> x <> te_id e ->
  reached iter s ClusterOf (iter (collect_tx_parents s (te_tx e))) x.
Proof using HS HA Hiter HPO.
  intros H Hx. unfold same_cluster, related in H. rewrite (leaf_cluster _ _ _ H0 Hleaf) in H.
  destruct H as [->|(p & Hp & Hr)]; [contradiction|]. exists p. split; [by apply iter_elem, parents_found|].
  clear Hp. induction Hr as [|a b x Hab Hr IH]; [reflexivity|]. eapply rtc_l; [by apply link_cluster|by apply IH].
Qed.

(** ** The limits on the cluster *)
Lemma sum_sizes_ok ds acc : (forall x, x ∈ ds -> x ∈ l) -> acc + sum_of te_size ds <= U64_MAX ->
  sum_sizes s (map te_id ds) acc = Ok (acc + sum_of te_size ds).
Proof using HS.
  clear - HS. revert acc. induction ds as [|x ds IH]; intros acc Hd Hb; cbn [map sum_sizes].
  - cbn. f_equal. lia.
  - destruct (se_entries _ _ _ HS x (Hd x ltac:(left))) as (m & Em & Hm). rewrite Em. cbn [ok_or rbind].
    rewrite sum_of_cons in *. unfold me_size. rewrite (ee_entry _ _ _ _ Hm). unfold checked_add.
    rewrite (proj2 (N.leb_le _ _)) by lia. cbn [expect rbind]. rewrite IH; [f_equal; lia|intros y Hy; apply Hd; by right|lia].
Qed.
Lemma sum_ancestors_ok ds sz fees : (forall x, x ∈ ds -> x ∈ l) -> sz + sum_of te_size ds <= U64_MAX -> fees + sum_of te_fee ds <= U128_MAX ->
  sum_ancestors s (map te_id ds) sz fees = Ok (sz + sum_of te_size ds, fees + sum_of te_fee ds).
Proof using HS.
  clear - HS. revert sz fees. induction ds as [|x ds IH]; intros sz fees Hd Hb Hc; cbn [map sum_ancestors].
  - cbn. f_equal. f_equal; lia.
  - destruct (se_entries _ _ _ HS x (Hd x ltac:(left))) as (m & Em & Hm). rewrite Em. cbn [expect rbind].
    rewrite sum_of_cons in *. rewrite (sum_of_cons te_fee) in *. unfold me_size, me_fee. rewrite (ee_entry _ _ _ _ Hm). unfold amount_add, checked_add.
    rewrite (proj2 (N.leb_le _ _)) by lia. cbn [expect rbind]. rewrite (proj2 (N.leb_le _ _)) by lia. cbn [ok_or rbind].
    rewrite IH; [f_equal; f_equal; lia|intros y Hy; apply Hd; by right|lia|lia].
Qed.
(** the transactions of a set of ids together with the new one *)
Lemma with_new (X : gset N) (P : N -> Prop) :
  (forall x, x ∈ X -> x ∈ ids l) -> (forall x, x <> te_id e -> x ∈ ids l -> P x <-> x ∈ X) -> P (te_id e) ->
  exists ds, map te_id ds = iter X /\ NoDup ds /\ (forall x, x ∈ ds -> x ∈ l) /\ N.of_nat (length ds) = N.of_nat (size X) /\
    totals (l ++ [e]) P (1 + N.of_nat (size X)) (te_fee e + sum_of te_fee ds) (te_size e + sum_of te_size ds).
Proof using HA HPO Hiter.
  intros HX HP Hpe. destruct (resolve l (iter X) (po_nodup _ _ HPO) (iter_nodup X)) as (ds & E & Hn & Hd).
  { intros i Hi. apply HX. by apply iter_elem. }
  assert (El : N.of_nat (length ds) = N.of_nat (size X)) by (rewrite <- iter_length, <- E, map_length; reflexivity).
  exists ds. split; [exact E|]. split; [exact Hn|]. split; [intros x Hx; by apply Hd in Hx as []|]. split; [exact El|].
  exists (e :: ds). split; [|split; [|split; [|split]]].
  - apply NoDup_cons. split; [|exact Hn]. intros H. apply Hd in H as [H _]. apply (ad_new _ _ _ HA). apply ids_elem. eauto.
  - intros x. rewrite elem_of_cons, Hd, iter_elem, (ex_elem _ _ _ HE). split.
    + intros [->|[Hx Hx']]; [auto|]. split; [by left|]. apply HP; [|apply ids_elem; eauto|exact Hx'].
      intros Eq. apply (ad_new _ _ _ HA). rewrite <- Eq. apply ids_elem. eauto.
    + intros [[Hx| ->] Hpx]; [|by left]. right. split; [exact Hx|]. apply HP; [|apply ids_elem; eauto|exact Hpx].
      intros Eq. apply (ad_new _ _ _ HA). rewrite <- Eq. apply ids_elem. eauto.
  - cbn [length]. lia.
  - reflexivity.
  - reflexivity.
Qed.
Lemma reached_in k x : (forall i, i ∈ iter (collect_tx_parents s (te_tx e)) -> i ∈ dom (st_txs s)) ->
  reached iter s k (iter (collect_tx_parents s (te_tx e))) x -> x ∈ ids l.
Proof using HS Hiter.
  intros Hi (i & Hii & Hr). apply Hi in Hii. apply (se_ids _ _ _ HS). apply elem_of_dom.
  induction Hr as [|a b x Hab Hr IH]; [exact Hii|]. apply IH. destruct (closed_dom k a Hii) as (m & Em & Hm).
  destruct Hab as (m' & Em' & Hb). rewrite Em in Em'. injection Em' as <-. by apply Hm.
Qed.
Lemma parents_in i : i ∈ iter (collect_tx_parents s (te_tx e)) -> i ∈ dom (st_txs s).
Proof using HS HA Hiter.
  intros Hi. apply iter_elem, parents_found in Hi. apply elem_of_dom, (se_ids _ _ _ HS).
  apply parent_app in Hi as [Hi|(_ & ep & Hep & <- & _)]; [by apply parent_in in Hi as []|apply ids_elem; eauto].
Qed.
Lemma in_range ds : (forall x, x ∈ ds -> x ∈ l) -> NoDup ds ->
  te_size e + sum_of te_size ds <= U64_MAX /\ te_fee e + sum_of te_fee ds <= U128_MAX.
Proof using HA.
  clear - HA. intros Hd Hn. pose proof (sum_of_incl te_size ds l Hn Hd). pose proof (sum_of_incl te_fee ds l Hn Hd).
  pose proof (ad_fees _ _ _ HA) as F. pose proof (ad_bytes _ _ _ HA) as B. rewrite sum_of_app in F, B. cbn in F, B.
  set (u := U128_MAX) in *. clearbody u. set (v := U64_MAX) in *. clearbody v. lia.
Qed.
Context (cfg : pool_cfg).
Hypothesis Hcount : 1 <= pc_max_count cfg.
Lemma count_limit_no_panic n : count_limit cfg n <> Panic.
Proof. unfold count_limit, ensure. by destruct (_ <=? _). Qed.
Lemma count_limit_ok n : count_limit cfg n = Ok tt <-> 1 + n <= pc_max_count cfg.
Proof. clear. unfold count_limit, ensure. destruct (N.leb_spec (1 + n) (pc_max_count cfg)); split; intros; try discriminate; auto; lia. Qed.
Lemma count_limit_err n er : count_limit cfg n = Err er <-> er = PClusterCount /\ pc_max_count cfg < 1 + n.
Proof. clear.
  unfold count_limit, ensure. destruct (N.leb_spec (1 + n) (pc_max_count cfg)).
  - split; [discriminate|intros [_ ?]; lia].
  - split; [intros [= <-]; auto|intros [-> _]; reflexivity].
Qed.
(** The new entry, or the reason why it does not fit. *)
Lemma new_entry_spec :
  (exists m A, new_with_ancestors iter cfg s e = Ok (m, A) /\ cluster_fits mk cfg (l ++ [e]) (te_id e) /\
     entry_exact mk (l ++ [e]) e m /\ (forall x, x ∈ A <-> ancestor (l ++ [e]) x (te_id e))) \/
  (exists er, new_with_ancestors iter cfg s e = Err er /\ (er = PClusterCount \/ er = PClusterSize) /\
     ~ cluster_fits mk cfg (l ++ [e]) (te_id e)).
Proof using HS HA HPO Hiter Hcount.
  unfold new_with_ancestors. set (P := collect_tx_parents s (te_tx e)).
  destruct (collect_unlimited iter s ClusterOf (dom (st_txs s)) (iter P) (closed_dom ClusterOf) parents_in) as (K & EK & HK).
  (* the cluster as it is *)
  destruct (with_new K (same_cluster mk (l ++ [e]) (te_id e))) as (ds & Eds & Hnd & Hdl & Hlen & HT).
  { intros x Hx. apply HK in Hx. eapply reached_in; [exact parents_in|exact Hx]. }
  { intros x Hx Hxl. rewrite HK. split; [intros H; by apply cluster_reached|intros H; by apply reached_cluster in H as []]. }
  { reflexivity. }
  destruct (in_range ds Hdl Hnd) as [Rs Rf].
  pose proof (collect_relatives_spec iter s ClusterOf (count_limit cfg) (dom (st_txs s)) count_limit_no_panic (closed_dom ClusterOf) (iter P) parents_in) as HC.
  destruct (collect_relatives iter s (iter P) ClusterOf (count_limit cfg)) as [K'|er|] eqn:EK'; [| |contradiction].
  2:{ destruct HC as (X & HX & El). apply count_limit_err in El as [-> El]. right. exists PClusterCount. split; [reflexivity|].
      split; [by left|]. intros Hfit. apply (fits_totals _ _ _ _ _ _ _ HT) in Hfit as [F _].
      assert (size X <= size K)%nat by (apply subseteq_size; intros x Hx; apply HK; by apply HX). lia. }
  destruct HC as [HK' Hl]. assert (EqK : K' = K) by (apply set_eq; intros x; by rewrite HK, HK'). subst K'.
  assert (Hcnt : 1 + N.of_nat (size K) <= pc_max_count cfg).
  { destruct Hl as [->|Hl]; [rewrite size_empty; lia|by apply count_limit_ok]. }
  cbn [rbind]. rewrite <- Eds, (sum_sizes_ok ds (te_size e) Hdl Rs). cbn [rbind]. unfold ensure.
  destruct (N.leb_spec (te_size e + sum_of te_size ds) (pc_max_bytes cfg)) as [Hb|Hb].
  2:{ right. exists PClusterSize. split; [reflexivity|]. split; [by right|]. intros Hfit. apply (fits_totals _ _ _ _ _ _ _ HT) in Hfit as [_ F]. lia. }
  cbn [rbind]. left.
  destruct (collect_unlimited iter s Ancestors (dom (st_txs s)) (iter P) (closed_dom Ancestors) parents_in) as (A & EA & HAs).
  rewrite EA. cbn [rbind].
  destruct (with_new A (fun x => x = te_id e \/ ancestor (l ++ [e]) x (te_id e))) as (das & Edas & Hnda & Hdal & Hlena & HTa).
  { intros x Hx. apply HAs in Hx. eapply reached_in; [exact parents_in|exact Hx]. }
  { intros x Hx Hxl. rewrite HAs; unfold P; rewrite reached_ancestors. tauto. }
  { by left. }
  destruct (in_range das Hdal Hnda) as [Rsa Rfa].
  unfold new_mentry. rewrite <- Edas, (sum_ancestors_ok das (te_size e) (te_fee e) Hdal Rsa Rfa). cbn [rbind fst snd].
  eexists. exists A. split; [reflexivity|]. split; [|split].
  - apply (fits_totals _ _ _ _ _ _ _ HT). auto.
  - split.
    + reflexivity.
    + intros p. cbn. apply parents_found.
    + intros c. cbn. split; [intros H; set_solver|intros H; by apply Hleaf in H].
    + cbn. exists [e]. split; [apply NoDup_singleton|]. split; [|cbn; repeat split; lia].
      intros x. rewrite elem_of_list_singleton, (ex_elem _ _ _ HE). split; [intros ->; auto|].
      intros [[Hx| ->] H]; [|reflexivity]. exfalso. destruct H as [H|H].
      * apply (ad_new _ _ _ HA). rewrite <- H. apply ids_elem. eauto.
      * by apply (leaf_no_child (parent (l ++ [e])) (te_id e) Hleaf) in H.
    + exact HTa.
  - intros x. rewrite HAs. apply reached_ancestors.
Qed.
End links.
End add.
