(** Transactions that have been connected cannot be connected again. *)
From Verif Require Import Base BaseProofs AmountModel DeltaModel DeltaProofs LayeredModel TokensModel OrdersModel PosModel PrimModel ChainModel
  UtxoModel ConstraintsModel RewardModel UndoCacheModel NonceModel VerifierModel.
From Verif Require Import TokensSpec TokensProofs OrdersSpec OrdersProofs PosSpec PosProofs UtxoSpec UtxoProofs ConstraintsSpec
  ConstraintsProofs RewardSpec RewardProofs UndoCacheSpec UndoCacheProofs NonceProofs VerifierRecords VerifierSteps VerifierParts VerifierTx
  VerifierBlock SupplySpec HoldingProofs VerifierChain.
Local Open Scope N_scope.
Local Arguments value : simpl never.

(** ** Unspent outputs along transactions and rewards *)
Lemma tx_utxos cc h b s tx x s' : tx_done cc h b s tx x s' -> forall k u, us_map (k_utxo s') k = Some u ->
  (k.1 = FromTx (tx_id tx) /\ u_output u ∈ tx_outputs tx) \/ (k ∉ spent_by (tx_inputs tx) /\ us_map (k_utxo s) k = Some u).
Proof.
  intros HD k u E. pose proof (td_ustep _ _ _ _ _ _ _ HD) as HU. cbn [utxo_step] in HU.
  destruct (take_all (us_map (k_utxo s)) (spent_by (tx_inputs tx))) as [U1|] eqn:E1; [|discriminate HU].
  injection HU as HU. destruct (take_all_spec _ _ _ E1) as (T1 & T2 & T3). rewrite <- HU in E. cbn [set_map us_map] in E.
  destruct (decide (k ∈ map fst (created (FromTx (tx_id tx)) (tx_outputs tx)))) as [Hin|Hnin].
  - left. split; [exact (created_src _ _ _ Hin)|]. apply elem_of_list_fmap in Hin as ([k' o] & -> & Hin). cbn [fst] in E.
    rewrite (put_all_at _ _ _ _ _ (created_nodup _ _ _) Hin) in E. injection E as <-. cbn [u_output]. clear -Hin.
    unfold created in Hin. revert Hin. generalize 0. induction (tx_outputs tx) as [|o' l IH]; intros i Hin; cbn [created_from] in Hin; [inversion Hin|].
    destruct (spendable o'); [apply elem_of_cons in Hin as [[= _ ->]|Hin]; [left|]|]; right; exact (IH _ Hin).
  - rewrite put_all_other in E by exact Hnin. right. destruct (decide (k ∈ spent_by (tx_inputs tx))) as [Hs|Hs]; [destruct (T2 _ Hs) as [E' _]; congruence|].
    split; [exact Hs|]. rewrite <- T3 by exact Hs. exact E.
Qed.
Lemma tx_gone cc h b K (B : N -> Prop) s tx x s' : known cc K B s -> ~ K (FromTx (tx_id tx)) -> tx_done cc h b s tx x s' ->
  forall k, us_map (k_utxo s) k = None \/ k ∈ spent_by (tx_inputs tx) -> K k.1 -> us_map (k_utxo s') k = None.
Proof.
  intros HK Hnew HD k Hk HKk. destruct (us_map (k_utxo s') k) as [u|] eqn:E; [|reflexivity]. destruct (tx_utxos _ _ _ _ _ _ _ HD _ _ E) as [[G _]|[G1 G2]].
  - rewrite G in HKk. destruct (Hnew HKk).
  - destruct Hk as [Hk|Hk]; [congruence|destruct (G1 Hk)].
Qed.
Lemma reward_utxos b total s y s' : reward_done b total s y s' -> forall k u, us_map (k_utxo s') k = Some u ->
  (k.1 = FromReward (b_id b) /\ u_output u ∈ b_reward b) \/ us_map (k_utxo s) k = Some u.
Proof.
  intros HD k u E. pose proof (rd_ustep _ _ _ _ _ HD) as HU. cbn [utxo_step] in HU. unfold reward_of in HU. cbn [rt_inputs rt_outputs option_list] in HU.
  destruct (take_all (us_map (k_utxo s)) _) as [U1|] eqn:E1; [|discriminate HU].
  destruct (forallb _ _); [|discriminate HU]. injection HU as HU. destruct (take_all_spec _ _ _ E1) as (T1 & T2 & T3).
  rewrite <- HU in E. cbn [set_map us_map] in E.
  destruct (decide (k ∈ map fst (created (FromReward (b_id b)) (b_reward b)))) as [Hin|Hnin].
  - left. split; [exact (created_src _ _ _ Hin)|]. apply elem_of_list_fmap in Hin as ([k' o] & -> & Hin). cbn [fst] in E.
    rewrite (put_all_at _ _ _ _ _ (created_nodup _ _ _) Hin) in E. injection E as <-. cbn [u_output]. clear -Hin.
    unfold created in Hin. revert Hin. generalize 0. induction (b_reward b) as [|o' l IH]; intros i Hin; cbn [created_from] in Hin; [inversion Hin|].
    destruct (spendable o'); [apply elem_of_cons in Hin as [[= _ ->]|Hin]; [left|]|]; right; exact (IH _ Hin).
  - rewrite put_all_other in E by exact Hnin. right. match type of E1 with take_all _ ?ks = _ => destruct (decide (k ∈ ks)) as [Hs|Hs] end;
      [destruct (T2 _ Hs) as [E' _]; congruence|]. rewrite <- T3 by exact Hs. exact E.
Qed.

(** ** Orders along a transaction *)
Lemma ord_step_data O o O' id d' : ord_step O o = Ok O' -> os_data O' id = Some d' ->
  (exists d, os_data O id = Some d /\ od_ask d' = od_ask d /\ od_give d' = od_give d /\ (od_frozen d = true -> od_frozen d' = true)) \/
  (o = CreateOrder id d' /\ side_amount (od_ask d') <> None).
Proof.
  intros H E. destruct o as [i d|i|i a ver|i]; cbn [ord_step] in H.
  - destruct (os_data O i); [discriminate H|]. destruct (side_amount (od_ask d)) eqn:Ea; [|discriminate H]. destruct (side_amount (od_give d)); [|discriminate H].
    destruct (decide _); [discriminate H|]. injection H as <-. cbn in E. destruct (decide (i = id)) as [->|]; [|left; eauto 10].
    injection E as ->. right. split; [reflexivity|congruence].
  - destruct (os_data O i); [|discriminate H]. injection H as <-. cbn in E. destruct (decide (i = id)); [discriminate E|]. left; eauto 10.
  - destruct (os_data O i) as [d|] eqn:Ed; [|discriminate H]. destruct (od_frozen d); [discriminate H|]. destruct (decide _); [discriminate H|].
    assert (exists a g, O' = put_order O i (Some d) a g) as (a' & g' & ->).
    { destruct ver; [|destruct (side_amount (od_ask d)); [|discriminate H]; destruct (side_amount (od_give d)); [|discriminate H]];
        (destruct (decide _) in H; [discriminate H|]; injection H as <-; eauto). }
    left. cbn in E. destruct (decide (i = id)) as [->|]; [injection E as <-|]; eauto 10.
  - destruct (os_data O i) as [d|] eqn:Ed; [|discriminate H]. destruct (od_frozen d) eqn:Ef; [discriminate H|]. injection H as <-. left. cbn in E.
    destruct (decide (i = id)) as [->|]; [injection E as <-; cbn|]; eauto 10.
Qed.
Lemma ord_ran_data id d' : forall ops O O', ran ord_step O ops O' -> os_data O' id = Some d' ->
  (exists d, os_data O id = Some d /\ od_ask d' = od_ask d /\ od_give d' = od_give d /\ (od_frozen d = true -> od_frozen d' = true)) \/
  exists d, CreateOrder id d ∈ ops /\ od_ask d' = od_ask d /\ od_give d' = od_give d /\ side_amount (od_ask d) <> None.
Proof.
  intros ops. induction ops as [|o ops IH]; intros O O' H E; cbn [ran] in H; [subst; left; eauto 10|]. destruct H as (O1 & H1 & H).
  destruct (IH _ _ H E) as [(d & Ed & A1 & A2 & A3)|(d & Hd & A)]; [|right; exists d; split; [right; exact Hd|exact A]].
  destruct (ord_step_data _ _ _ _ _ H1 Ed) as [(d0 & E0 & B1 & B2 & B3)|[-> Hs]].
  - left. exists d0. split; [exact E0|]. split; [congruence|]. split; [congruence|auto].
  - right. exists d. split; [left|auto].
Qed.
Lemma ord_outs_ops cc ins outs op : op ∈ concat (map (ord_ops_out cc ins) outs) ->
  exists d k, OCreateOrder d ∈ outs /\ first_outpoint ins = Some k /\ op = CreateOrder (cc_order_id cc k) (new_order d).
Proof.
  intros H. apply elem_of_list_In, in_concat in H as (l & Hl & H). apply in_map_iff in Hl as (o & <- & Ho). destruct o; cbn in H; try (destruct H; fail).
  destruct (first_outpoint ins) as [k|]; cbn in H; [|destruct H]. destruct H as [<-|[]]. apply elem_of_list_In in Ho. eauto.
Qed.
Lemma ord_ins_ops ins id d : CreateOrder id d ∉ concat (map ord_ops_in ins).
Proof.
  intros H. apply elem_of_list_In, in_concat in H as (l & Hl & H). apply in_map_iff in Hl as (o & <- & Ho).
  destruct o as [| |? []|[]]; cbn in H; try (destruct H; fail); destruct H as [[=]|[]].
Qed.
Lemma one_command ins i : (count is_command ins <= 1)%nat -> i ∈ ins -> is_command i = true -> concat (map ord_ops_in ins) = ord_ops_in i.
Proof.
  assert (forall l, (count is_command l <= 0)%nat -> concat (map ord_ops_in l) = []) as G.
  { clear. induction l as [|j l IH]; [reflexivity|]. rewrite count_cons. intros Hc. cbn [map concat]. rewrite IH by lia. destruct j; cbn in Hc; try lia; reflexivity. }
  induction ins as [|j ins IH]; intros Hc Hi Ei; [inversion Hi|]. rewrite count_cons in Hc. cbn [map concat]. apply elem_of_cons in Hi as [<-|Hi].
  - rewrite Ei in Hc. rewrite G by lia. apply app_nil_r.
  - destruct (is_command j) eqn:Ej.
    + exfalso. assert (In i (List.filter is_command ins)) as Hf by (apply filter_In; split; [apply elem_of_list_In; exact Hi|exact Ei]).
      unfold count in Hc. destruct (List.filter is_command ins); [destruct Hf|cbn in Hc; lia].
    + rewrite IH by (try assumption; lia). destruct j; try discriminate Ej; reflexivity.
Qed.

(** ** What transactions leave behind; [X]: the transactions connected so far *)
Section past.
Context (cc : chain_config).
Hypothesis Hord : forall k k', cc_order_id cc k = cc_order_id cc k' -> k = k'.

Definition from_gone (K : source_id -> Prop) (s : books) (id : N) : Prop := exists k, id = cc_order_id cc k /\ K k.1 /\ us_map (k_utxo s) k = None.
Record past (K : source_id -> Prop) (X : list transaction) (s : books) : Prop := {
  pa_ids : forall t, K (FromTx t) -> t ∈ map tx_id X;
  pa_spent : forall tx k, tx ∈ X -> InUtxo k ∈ tx_inputs tx -> K k.1 /\ us_map (k_utxo s) k = None;
  pa_nonces : forall tx i a n, tx ∈ X -> i ∈ tx_inputs tx -> nonce_use i = Some (a, n) -> n < k_uses s a;
  pa_orders : forall id d, os_data (k_ord s) id = Some d ->
    from_gone K s id /\ side_amount (od_ask d) <> None /\ currency_of (od_ask d) <> currency_of (od_give d);
  pa_concluded : forall tx id, tx ∈ X -> InOrder (OcConclude id) ∈ tx_inputs tx -> from_gone K s id /\ os_data (k_ord s) id = None;
  pa_frozen : forall tx id d, tx ∈ X -> InOrder (OcFreeze id) ∈ tx_inputs tx -> from_gone K s id /\ (os_data (k_ord s) id = Some d -> od_frozen d = true) }.

Lemma in_spent ins k : InUtxo k ∈ ins -> k ∈ spent_by ins.
Proof.
  induction ins as [|i ins IH]; intros H; [inversion H|]. apply elem_of_cons in H as [<-|H]; [left|]. destruct i; cbn [spent_by]; try right; exact (IH H).
Qed.

Lemma past_refuses K X h s tx utxos fee : past K X s -> tx_checked cc h s tx utxos fee -> tx ∉ X.
Proof.
  intros HP HC HX. destruct (tx_inputs tx) as [|i l] eqn:Ei; [exact (tc_inputs _ _ _ _ _ _ HC Ei)|].
  assert (i ∈ tx_inputs tx) as Hi by (rewrite Ei; left).
  assert (forall a n, nonce_use i = Some (a, n) -> False) as Hno.
  { intros a n E. pose proof (tc_nonces _ _ _ _ _ _ HC _ _ _ Hi E). pose proof (pa_nonces _ _ _ HP _ _ _ _ HX Hi E). lia. }
  pose proof (zs_fit _ _ _ _ _ _ HC) as Hf. pose proof (zs_balance _ _ _ _ _ _ HC) as Hbal.
  pose proof (tc_order_ins _ _ _ _ _ _ HC) as Hoi. pose proof (tc_utxos _ _ _ _ _ _ HC) as Hut. rewrite Ei in Hf, Hbal, Hoi, Hut.
  inversion Hut as [|? o ? utxos' Hu1 Hu2 E1 E2]. subst utxos. cbn [zip zip_with] in Hf, Hbal.
  destruct i as [k|nonce d a|nonce c|c].
  - destruct (pa_spent _ _ _ HP _ _ HX Hi) as [_ E]. destruct (spent_present _ _ _ _ _ _ HC k (in_spent _ _ Hi)) as [u Hu]. congruence.
  - exact (Hno _ _ eq_refl).
  - exact (Hno _ _ eq_refl).
  - destruct c as [id a|id|id].
    + destruct l as [|j l].
      * inversion Hu2. subst utxos'. cbn [inputs_fit fst lg_ord k_ledger] in Hf. destruct Hf as [(O' & E) _]. cbn [forallb] in Hoi. rewrite andb_true_r in Hoi.
        destruct (cf_orders (ru_values (cc_rules cc h))) eqn:Ev; [discriminate Hoi|]. cbn in Hoi. apply N.ltb_lt in Hoi.
        destruct (os_data (k_ord s) id) as [d|] eqn:Ed; [|cbn [ord_step] in E; rewrite Ed in E; discriminate E].
        destruct (pa_orders _ _ _ HP _ _ Ed) as (_ & Hs & Hc).
        cbn [unlocked charged app] in Hbal. rewrite !app_nil_r in Hbal. unfold input_yields, filling_yields, input_costs in Hbal. cbn [fst lg_ord k_ledger] in Hbal.
        change (lg_ord (k_ledger s)) with (k_ord s) in Hbal. rewrite Ed in Hbal.
        assert (exists c, forall x, units (od_ask d) x = [Portion c 0 x] /\ currency_of (od_ask d) = Some c) as (c & Hu).
        { destruct (od_ask d); [exists Coin|destruct Hs|exists (Token id0)]; auto. }
        specialize (Hbal c). rewrite (proj1 (Hu a)), !value_one in Hbal. unfold of_currency at 2 in Hbal. rewrite bool_decide_true in Hbal by reflexivity.
        assert (forall z, val c (units (od_give d) z) = 0) as Hz.
        { intros z. destruct (od_give d); cbn [units]; [|apply value_nil|]; rewrite value_one; unfold of_currency; (rewrite bool_decide_false; [reflexivity|]);
            intros <-; apply Hc; rewrite (proj2 (Hu 0)); reflexivity. }
        rewrite Hz in Hbal. lia.
      * (* a second input is not a command, so it names an output or an account *)
        assert (j ∈ tx_inputs tx) as Hj by (rewrite Ei; right; left).
        pose proof (proj1 (proj2 (purposes _ _ _ _ _ _ HC))) as Hcnt. rewrite Ei, !count_cons in Hcnt. cbn [is_command] in Hcnt.
        destruct j as [k|nonce d a'|nonce c|c]; cbn [is_command] in Hcnt; try lia.
        -- destruct (pa_spent _ _ _ HP _ _ HX Hj) as [_ E]. destruct (spent_present _ _ _ _ _ _ HC k (in_spent _ _ Hj)) as [u Hu]. congruence.
        -- pose proof (tc_nonces _ _ _ _ _ _ HC _ _ _ Hj eq_refl). pose proof (pa_nonces _ _ _ HP _ _ _ _ HX Hj eq_refl). lia.
    + destruct (tc_freeze _ _ _ _ _ _ HC _ Hi) as (d & Hd & Hz). destruct (pa_frozen _ _ _ HP _ _ d HX Hi) as [_ G]. specialize (G Hd). congruence.
    + destruct (pa_concluded _ _ _ HP _ _ HX Hi) as [_ G]. cbn [inputs_fit fst lg_ord k_ledger] in Hf. destruct Hf as [(O' & E) _].
      cbn [ord_step] in E. rewrite G in E. discriminate E.
Qed.

Lemma past_tx K (B : N -> Prop) X h b s tx utxos fee x s' : known cc K B s -> ~ K (FromTx (tx_id tx)) -> past K X s -> tx_checked cc h s tx utxos fee -> tx_done cc h b s tx x s' ->
  past (fun k => K k \/ k = FromTx (tx_id tx)) (X ++ [tx]) s'.
Proof.
  intros HK Hnew HP HC HD. pose proof (tx_gone _ _ _ _ _ _ _ _ _ HK Hnew HD) as Hgone.
  assert (forall id, from_gone K s id -> from_gone (fun k => K k \/ k = FromTx (tx_id tx)) s' id) as Hfg.
  { intros id (k & -> & HKk & E). exists k. split; [reflexivity|]. split; [left; exact HKk|]. apply Hgone; auto. }
  pose proof (td_oran _ _ _ _ _ _ _ HD) as HO. unfold ord_ops in HO. pose proof HO as HO0. apply ran_app in HO as (O1 & HO1 & HO2).
  pose proof (proj1 (proj2 (purposes _ _ _ _ _ _ HC))) as Hone.
  assert (forall id d, from_gone K s id -> CreateOrder id d ∉ concat (map (ord_ops_out cc (tx_inputs tx)) (tx_outputs tx))) as Hnc.
  { intros id d (k & -> & _ & E) H. apply ord_outs_ops in H as (d' & k' & _ & Ek & [= Eid _]). apply Hord in Eid as <-.
    destruct (spent_present _ _ _ _ _ _ HC k (first_spent _ _ Ek)) as [u Hu]. congruence. }
  assert (forall id d, from_gone K s id -> os_data (k_ord s') id = Some d -> exists d0, os_data (k_ord s) id = Some d0 /\ (od_frozen d0 = true -> od_frozen d = true)) as Hback.
  { intros id d Hg E. destruct (ord_ran_data _ _ _ _ _ HO0 E) as [(d0 & E0 & _ & _ & F)|(d0 & Hd & _)]; [eauto|].
    apply elem_of_app in Hd as [Hd|Hd]; [destruct (ord_ins_ops _ _ _ Hd)|destruct (Hnc _ _ Hg Hd)]. }
  assert (forall id d, from_gone K s id -> os_data (k_ord s') id = Some d -> exists d0, os_data O1 id = Some d0 /\ (od_frozen d0 = true -> od_frozen d = true)) as Hback1.
  { intros id d Hg E. destruct (ord_ran_data _ _ _ _ _ HO2 E) as [(d0 & E0 & _ & _ & F)|(d0 & Hd & _)]; [eauto|]. destruct (Hnc _ _ Hg Hd). }
  constructor.
  - intros t [Ht|[= ->]]; rewrite map_app; apply elem_of_app; [left; exact (pa_ids _ _ _ HP _ Ht)|right; left].
  - intros tx' k Hx Hk. apply elem_of_app in Hx as [Hx|Hx].
    + destruct (pa_spent _ _ _ HP _ _ Hx Hk) as [A1 A2]. split; [left; exact A1|]. apply Hgone; auto.
    + apply elem_of_list_singleton in Hx as ->. apply in_spent in Hk. destruct (spent_present _ _ _ _ _ _ HC k Hk) as [u Hu].
      pose proof (kn_utxo _ _ _ _ HK _ _ Hu) as A1. split; [left; exact A1|]. apply Hgone; auto.
  - intros tx' i a n Hx Hi Hn. rewrite (td_uses _ _ _ _ _ _ _ HD). apply elem_of_app in Hx as [Hx|Hx].
    + pose proof (pa_nonces _ _ _ HP _ _ _ _ Hx Hi Hn). lia.
    + apply elem_of_list_singleton in Hx as ->. exact (proj2 (tc_nonces _ _ _ _ _ _ HC _ _ _ Hi Hn)).
  - intros id d E. destruct (ord_ran_data _ _ _ _ _ HO0 E) as [(d0 & E0 & -> & -> & _)|(d0 & Hd & -> & -> & Hs)].
    + destruct (pa_orders _ _ _ HP _ _ E0) as (A1 & A2 & A3). auto.
    + apply elem_of_app in Hd as [Hd|Hd]; [destruct (ord_ins_ops _ _ _ Hd)|]. apply ord_outs_ops in Hd as (d' & k & Ho & Ek & [= -> ->]).
      apply first_spent in Ek. destruct (spent_present _ _ _ _ _ _ HC k Ek) as [u Hu]. pose proof (kn_utxo _ _ _ _ HK _ _ Hu) as A1.
      split; [exists k; split; [reflexivity|]; split; [left; exact A1|apply Hgone; auto]|]. split; [exact Hs|].
      pose proof (tc_order_outs _ _ _ _ _ _ HC) as Hc. rewrite forallb_forall in Hc. specialize (Hc _ (proj1 (elem_of_list_In _ _) Ho)).
      cbn [order_output_ok] in Hc. apply andb_true_iff in Hc as [_ Hc]. apply negb_true_iff, bool_decide_eq_false in Hc. exact Hc.
  - intros tx' id Hx Hi. apply elem_of_app in Hx as [Hx|Hx].
    + destruct (pa_concluded _ _ _ HP _ _ Hx Hi) as [A1 A2]. split; [auto|]. destruct (os_data (k_ord s') id) as [d|] eqn:E; [|reflexivity].
      destruct (Hback _ _ A1 E) as (d0 & E0 & _). congruence.
    + apply elem_of_list_singleton in Hx as ->. rewrite (one_command _ _ Hone Hi eq_refl) in HO1. cbn [ord_ops_in ran] in HO1. destruct HO1 as (O2 & E2 & <-).
      cbn [ord_step] in E2. destruct (os_data (k_ord s) id) as [d|] eqn:Ed; [|discriminate E2]. injection E2 as <-.
      destruct (pa_orders _ _ _ HP _ _ Ed) as (A1 & _). split; [auto|]. destruct (os_data (k_ord s') id) as [d'|] eqn:E; [|reflexivity].
      destruct (Hback1 _ _ A1 E) as (d0 & E0 & _). cbn in E0. rewrite decide_True in E0 by reflexivity. discriminate E0.
  - intros tx' id d Hx Hi. apply elem_of_app in Hx as [Hx|Hx].
    + destruct (pa_frozen _ _ _ HP _ _ d Hx Hi) as [A1 _]. split; [auto|]. intros E. destruct (Hback _ _ A1 E) as (d0 & E0 & F).
      destruct (pa_frozen _ _ _ HP _ _ d0 Hx Hi) as [_ A2]. auto.
    + apply elem_of_list_singleton in Hx as ->. rewrite (one_command _ _ Hone Hi eq_refl) in HO1. cbn [ord_ops_in ran] in HO1. destruct HO1 as (O2 & E2 & <-).
      cbn [ord_step] in E2. destruct (os_data (k_ord s) id) as [d1|] eqn:Ed; [|discriminate E2]. destruct (od_frozen d1); [discriminate E2|]. injection E2 as <-.
      destruct (pa_orders _ _ _ HP _ _ Ed) as (A1 & _). split; [auto|]. intros E.
      destruct (Hback1 _ _ A1 E) as (d0 & E0 & F). cbn in E0. rewrite decide_True in E0 by reflexivity. injection E0 as <-. apply F. reflexivity.
Qed.

Lemma past_reward K X bl total s y s' : ~ K (FromReward (b_id bl)) -> past K X s -> reward_done bl total s y s' ->
  past (fun k => K k \/ k = FromReward (b_id bl)) X s'.
Proof.
  intros Hnew HP HD.
  assert (forall k, us_map (k_utxo s) k = None -> K k.1 -> us_map (k_utxo s') k = None) as Hgone.
  { intros k Hk HKk. destruct (us_map (k_utxo s') k) as [u|] eqn:E; [|reflexivity]. destruct (reward_utxos _ _ _ _ _ HD _ _ E) as [[G _]|G]; [|congruence].
    rewrite G in HKk. destruct (Hnew HKk). }
  assert (forall id, from_gone K s id -> from_gone (fun k => K k \/ k = FromReward (b_id bl)) s' id) as Hfg.
  { intros id (k & -> & HKk & E). exists k. auto. }
  destruct HP as [P1 P2 P3 P4 P5 P6]. constructor; rewrite ?(rd_ord _ _ _ _ _ HD), ?(rd_uses _ _ _ _ _ HD).
  - intros t [Ht|[=]]. auto.
  - intros tx k Hx Hk. destruct (P2 _ _ Hx Hk). auto.
  - exact P3.
  - intros id d Hd. destruct (P4 _ _ Hd) as (A1 & A2 & A3). auto.
  - intros tx id Hx Hi. destruct (P5 _ _ Hx Hi). auto.
  - intros tx id d Hx Hi. destruct (P6 _ _ d Hx Hi). auto.
Qed.
Lemma past_ext (K K' : source_id -> Prop) X s : (forall k, K k <-> K' k) -> past K X s -> past K' X s.
Proof.
  intros E [P1 P2 P3 P4 P5 P6].
  assert (forall id, from_gone K s id -> from_gone K' s id) as Hfg. { intros id (k & -> & HKk & G). exists k. rewrite <- E. auto. }
  constructor; auto.
  - intros t Ht. apply P1, E, Ht.
  - intros tx k Hx Hk. rewrite <- E. eauto.
  - intros id d Hd. destruct (P4 _ _ Hd) as (A1 & A2 & A3). auto.
  - intros tx id Hx Hi. destruct (P5 _ _ Hx Hi). auto.
  - intros tx id d Hx Hi. destruct (P6 _ _ d Hx Hi). auto.
Qed.
End past.
