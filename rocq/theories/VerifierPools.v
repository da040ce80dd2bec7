(** Pools and the outputs that control them. *)
From Verif Require Import Base BaseProofs AmountModel DeltaModel DeltaProofs LayeredModel TokensModel OrdersModel PosModel PrimModel ChainModel
  UtxoModel ConstraintsModel RewardModel UndoCacheModel NonceModel VerifierModel.
From Verif Require Import TokensSpec TokensProofs OrdersSpec OrdersProofs PosSpec PosProofs UtxoSpec UtxoProofs ConstraintsSpec
  ConstraintsProofs RewardSpec RewardProofs UndoCacheSpec UndoCacheProofs NonceProofs VerifierRecords VerifierSteps VerifierParts VerifierTx VerifierBlock.
From Verif Require Import SupplySpec HoldingProofs VerifierChain VerifierPast VerifierHistory SupplyProofs.
Local Open Scope N_scope.

(** [L]: the pools that exist *)
Record controlled (U : outpoint -> option utxo) (L : N -> Prop) : Prop := {
  ct_some : forall p, L p -> exists k u, U k = Some u /\ controls (u_output u) = Some p;
  ct_live : forall k u p, U k = Some u -> controls (u_output u) = Some p -> L p;
  ct_one : forall k k' u u' p, U k = Some u -> U k' = Some u' -> controls (u_output u) = Some p -> controls (u_output u') = Some p -> k = k' }.
Definition live (P : pos_state) (p : N) : Prop := is_Some (ps_pool P p).

Lemma controlled_ext U L L' : (forall p, L p <-> L' p) -> controlled U L -> controlled U L'.
Proof.
  intros E [C1 C2 C3]. constructor; [|intros k u p Hk Ho; apply E; eauto|exact C3]. intros p Hp. apply C1, E, Hp.
Qed.
Lemma controlled_take U L k u : U k = Some u -> controlled U L -> controlled (upd U k None) (fun p => L p /\ controls (u_output u) <> Some p).
Proof.
  intros Hk [C1 C2 C3]. unfold upd. constructor.
  - intros p [Hp Hn]. destruct (C1 p Hp) as (k' & u' & Hk' & Ho). exists k', u'. split; [|exact Ho]. destruct (decide (k = k')) as [->|]; [congruence|exact Hk'].
  - intros k' u' p Hk' Ho. destruct (decide (k = k')) as [->|Hne]; [discriminate|]. split; [exact (C2 _ _ _ Hk' Ho)|]. intros E. apply Hne. exact (C3 _ _ _ _ _ Hk Hk' E Ho).
  - intros k1 k2 u1 u2 p H1 H2. destruct (decide (k = k1)), (decide (k = k2)); try discriminate. exact (C3 _ _ _ _ _ H1 H2).
Qed.
Lemma controlled_put U L k u : U k = None -> (forall p, controls (u_output u) = Some p -> ~ L p) -> controlled U L ->
  controlled (upd U k (Some u)) (fun p => L p \/ controls (u_output u) = Some p).
Proof.
  intros Hk Hnew [C1 C2 C3]. unfold upd. constructor.
  - intros p [Hp|Ho]; [|exists k, u; rewrite decide_True by reflexivity; auto]. destruct (C1 p Hp) as (k' & u' & Hk' & Ho). exists k', u'. split; [|exact Ho]. rewrite decide_False by congruence. exact Hk'.
  - intros k' u' p Hk' Ho. destruct (decide (k = k')) as [->|Hne]; [injection Hk' as <-; auto|]. left. exact (C2 _ _ _ Hk' Ho).
  - intros k1 k2 u1 u2 p H1 H2 O1 O2. destruct (decide (k = k1)) as [E1|], (decide (k = k2)) as [E2|]; [congruence| | |].
    + injection H1 as <-. destruct (Hnew _ O1). exact (C2 _ _ _ H2 O2).
    + injection H2 as <-. destruct (Hnew _ O2). exact (C2 _ _ _ H1 O1).
    + exact (C3 _ _ _ _ _ H1 H2 O1 O2).
Qed.

(** Inputs *)
Lemma decommission_live P p P' q : pos_step P (DecommissionPool p) = Ok P' -> (live P' q <-> live P q /\ Some p <> Some q).
Proof.
  intros H. cbn in H. destruct (ps_pool P p) eqn:E; [|discriminate H]. injection H as <-. unfold live. cbn. unfold put. destruct (decide (p = q)) as [->|Hne].
  - split; [intros [? [=]]|intros [_ G]; destruct (G eq_refl)].
  - split; [intros G; split; [exact G|congruence]|intros [G _]; exact G].
Qed.
Lemma spend_live P d a P' q : pos_step P (SpendShare d a) = Ok P' -> (live P' q <-> live P q).
Proof.
  intros H. cbn in H. destruct (ps_deleg P d); [|discriminate H]. repeat (destruct (decide _) in H; [discriminate H|] || destruct (decide _) in H; [|discriminate H]). injection H as <-. unfold live. cbn. destruct (ps_pool P _); reflexivity.
Qed.
Lemma inputs_controlled U0 : forall ins U P U1 P1, (forall k, k ∈ spent_by ins -> U k = U0 k) -> take_all U (spent_by ins) = Some U1 ->
  ran pos_step P (concat (map (pos_ops_in U0) ins)) P1 -> controlled U (live P) -> controlled U1 (live P1).
Proof.
  induction ins as [|i ins IH]; intros U P U1 P1 H0 HT HP HC; [cbn in HT, HP; injection HT as <-; subst; exact HC|].
  cbn [map concat] in HP. apply ran_app in HP as (P2 & HP1 & HP). destruct i as [k|nonce d a|nonce c|c]; cbn [spent_by] in *.
  - cbn [take_all] in HT. destruct (U k) as [u|] eqn:Eu; [|discriminate HT]. pose proof (take_all_spec _ _ _ HT) as (_ & T2 & _).
    apply (IH (upd U k None) P2); [|exact HT|exact HP|].
    + intros j Hj. unfold upd. destruct (decide (k = j)) as [<-|]; [|apply H0; right; exact Hj]. destruct (T2 _ Hj) as [_ (w & Hw)]. unfold upd in Hw. rewrite decide_True in Hw by reflexivity. discriminate Hw.
    + pose proof (controlled_take _ _ _ _ Eu HC) as G. revert G. apply controlled_ext. intros q. cbn [pos_ops_in] in HP1. rewrite <- (H0 k) in HP1 by left. rewrite Eu in HP1.
      destruct (u_output u); cbn [ran] in HP1; cbn [controls]; try (subst; split; [intros [G _]; exact G|intros G; split; [exact G|discriminate]]).
      * destruct HP1 as (P3 & E & <-). symmetry. exact (decommission_live _ _ _ _ E).
      * destruct HP1 as (P3 & E & <-). symmetry. exact (decommission_live _ _ _ _ E).
  - cbn [pos_ops_in ran] in HP1. destruct HP1 as (P3 & E & <-). apply (IH U P2); [exact H0|exact HT|exact HP|]. revert HC. apply controlled_ext. intros q. symmetry. exact (spend_live _ _ _ _ _ E).
  - cbn [pos_ops_in ran] in HP1. subst. exact (IH U _ _ _ H0 HT HP HC).
  - cbn [pos_ops_in ran] in HP1. subst. exact (IH U _ _ _ H0 HT HP HC).
Qed.

(** Outputs *)
Lemma create_live P p x P' q : pos_step P (CreatePool p x) = Ok P' -> (live P' q <-> live P q \/ Some p = Some q) /\ ~ live P p.
Proof.
  intros H. cbn in H. destruct (ps_pool P p) eqn:E; [discriminate H|]. destruct (decide _); [discriminate H|]. injection H as <-. unfold live. cbn. unfold put.
  split; [|rewrite E; intros [? [=]]]. destruct (decide (p = q)) as [->|Hne].
  - split; [auto|eauto].
  - split; [auto|intros [G|G]; [exact G|congruence]].
Qed.
Lemma out_live cc ins o P P' q : pool_op o = [] -> ran pos_step P (pos_ops_out cc ins o) P' -> (live P' q <-> live P q).
Proof.
  intros Ho H. destruct o; cbn [pos_ops_out] in H; try discriminate Ho; try (cbn in H; subst; reflexivity).
  - destruct (first_outpoint ins); [|cbn in H; subst; reflexivity]. cbn [ran] in H. destruct H as (P1 & H & <-). cbn in H.
    destruct (ps_pool P _); [|discriminate H]. destruct (ps_deleg P _); [discriminate H|]. injection H as <-. reflexivity.
  - cbn [ran] in H. destruct H as (P1 & H & <-). cbn in H. destruct (ps_deleg P _); [|discriminate H].
    repeat (destruct (decide _) in H; [discriminate H|] || destruct (decide _) in H; [|discriminate H]). injection H as <-. reflexivity.
Qed.
Lemma one_output cc ins src k o U P P' : U k = None -> is_produce o = false -> ran pos_step P (pos_ops_out cc ins o) P' -> controlled U (live P) ->
  controlled (upd U k (Some (Utxo o src))) (live P') /\ (pool_op o = [] -> controlled U (live P')).
Proof.
  intros Hk Hnp HP HC. destruct (decide (pool_op o = [])) as [Ho|Ho].
  - pose proof (fun q => out_live _ _ _ _ _ q Ho HP) as E.
    assert (controls o = None) as Ec by (destruct o; try discriminate Ho; try discriminate Hnp; reflexivity). split.
    + assert (controlled (upd U k (Some (Utxo o src))) (fun p => live P p \/ controls (u_output (Utxo o src)) = Some p)) as G.
      { apply controlled_put; [exact Hk| |exact HC]. cbn [u_output]. rewrite Ec. discriminate. }
      revert G. apply controlled_ext. intros q. rewrite E. cbn [u_output]. rewrite Ec. split; [intros [G|[=]]; exact G|auto].
    + intros _. revert HC. apply controlled_ext. intros q. symmetry. apply E.
  - split; [|intros G; destruct (Ho G)]. destruct o as [| | |p x| | | | | | | |]; try (destruct Ho; reflexivity). cbn [pos_ops_out ran] in HP. destruct HP as (P1 & E & <-).
    assert (controlled (upd U k (Some (Utxo (OCreateStakePool p x) src))) (fun q => live P q \/ controls (u_output (Utxo (OCreateStakePool p x) src)) = Some q)) as G.
    { apply controlled_put; [exact Hk| |exact HC]. cbn [u_output controls]. intros q [= <-]. exact (proj2 (create_live _ _ _ _ p E)). }
    revert G. apply controlled_ext. intros q. symmetry. exact (proj1 (create_live _ _ _ _ q E)).
Qed.
Lemma outputs_controlled cc ins src us : forall outs i U P P', (forall j, i <= j -> U (src, j) = None) -> count is_produce outs = 0%nat ->
  ran pos_step P (concat (map (pos_ops_out cc ins) outs)) P' -> controlled U (live P) -> controlled (put_all U us (created_from src i outs)) (live P').
Proof.
  induction outs as [|o outs IH]; intros i U P P' Hf Hnp HP HC; [cbn in HP |- *; subst; exact HC|]. cbn [map concat] in HP. apply ran_app in HP as (P1 & HP1 & HP).
  unfold count in Hnp. cbn [List.filter] in Hnp. destruct (is_produce o) eqn:Ep; [discriminate Hnp|]. cbn [created_from].
  destruct (one_output cc ins us (src, i) o U P P1 (Hf i ltac:(lia)) Ep HP1 HC) as [G1 G2]. destruct (spendable o) eqn:Es.
  - cbn [put_all]. apply (IH _ _ P1); [|exact Hnp|exact HP|exact G1]. intros j Hj. unfold upd. rewrite decide_False by (intros [= ->]; lia). apply Hf. lia.
  - apply (IH _ _ P1); [|exact Hnp|exact HP|]. { intros j Hj. apply Hf. lia. } apply G2. destruct o; try discriminate Es; reflexivity.
Qed.

Section pools.
Context (cc : chain_config) (g : genesis).
Hypothesis Hids : ids_distinct cc g.
Hypothesis Hgen : forall d p, OProduceBlockFromStake d p ∉ g_outputs g.

Definition pools_ok (X : list transaction) (s : books) : Prop := controlled (us_map (k_utxo s)) (live (k_pos s)).

Lemma genesis_out : forall outs i U P P', (forall j, i <= j -> U (FromReward (g_id g), j) = None) -> (forall d p, OProduceBlockFromStake d p ∉ outs) ->
  ran pos_step P (concat (map pool_op outs)) P' -> controlled U (live P) ->
  controlled (put_all U (InChain 0) (map (fun io => ((FromReward (g_id g), io.1), io.2)) (enumerate_from i outs))) (live P').
Proof.
  induction outs as [|o outs IH]; intros i U P P' Hf Hnp HP HC; [cbn in HP |- *; subst; exact HC|]. cbn [map concat] in HP. apply ran_app in HP as (P1 & HP1 & HP).
  cbn [enumerate_from map put_all fst snd]. apply (IH _ _ P1); [|intros d p G; apply (Hnp d p); right; exact G|exact HP|].
  - intros j Hj. unfold upd. rewrite decide_False by (intros [= ->]; lia). apply Hf. lia.
  - assert (is_produce o = false) as Ep by (destruct o as [| | | |d p| | | | | | |]; try reflexivity; destruct (Hnp d p); left).
    destruct (decide (pool_op o = [])) as [Ho|Ho].
    + rewrite Ho in HP1. cbn in HP1. subst P1. assert (controls o = None) as Ec by (destruct o; try discriminate Ho; try discriminate Ep; reflexivity).
      assert (controlled (upd U (FromReward (g_id g), i) (Some (Utxo o (InChain 0)))) (fun p => live P p \/ controls (u_output (Utxo o (InChain 0))) = Some p)) as G.
      { apply controlled_put; [apply Hf; lia| |exact HC]. cbn [u_output]. rewrite Ec. discriminate. }
      revert G. apply controlled_ext. intros q. cbn [u_output]. rewrite Ec. split; [intros [G|[=]]; exact G|auto].
    + apply (one_output cc [] (InChain 0) _ o U P P1); [apply Hf; lia|exact Ep| |exact HC]. destruct o; try (destruct Ho; reflexivity). exact HP1.
Qed.
Lemma pools_genesis P : ran pos_step no_stakes (concat (map pool_op (g_outputs g))) P -> pools_ok [] (genesis_books g P).
Proof.
  intros HP. unfold pools_ok. cbn [genesis_books k_utxo us_map k_pos]. unfold genesis_keys, enumerate. apply (genesis_out _ _ _ no_stakes); [reflexivity|exact Hgen|exact HP|].
  constructor; [intros p [x [=]]|intros k u p [=]|intros k k' u u' p [=]].
Qed.
Lemma pools_tx b K B X n D s tx utxos fee x s' : fine cc K B X n D s -> ~ K (FromTx (tx_id tx)) -> tx_checked cc (b_height b) s tx utxos fee ->
  tx_done cc (b_height b) (b_id b) s tx x s' -> pools_ok X s -> pools_ok (X ++ [tx]) s'.
Proof.
  intros HF HK HC HD HJ. unfold pools_ok in *. pose proof (td_ustep _ _ _ _ _ _ _ HD) as HU. cbn [utxo_step] in HU.
  destruct (take_all (us_map (k_utxo s)) (spent_by (tx_inputs tx))) as [U1|] eqn:E1; [|discriminate HU]. injection HU as HU. rewrite <- HU. cbn [set_map us_map].
  pose proof (td_pran _ _ _ _ _ _ _ HD) as HP. unfold pos_ops in HP. apply ran_app in HP as (P1 & HP1 & HP2).
  pose proof (inputs_controlled (us_map (k_utxo s)) _ _ _ _ _ (fun _ _ => eq_refl) E1 HP1 HJ) as HC1.
  apply (outputs_controlled cc (tx_inputs tx) _ _ _ _ _ P1); [|exact (proj1 (proj2 (proj2 (purposes _ _ _ _ _ _ HC))))|exact HP2|exact HC1].
  intros j _. destruct (take_all_spec _ _ _ E1) as (_ & T2 & T3). destruct (decide ((FromTx (tx_id tx), j) ∈ spent_by (tx_inputs tx))) as [Hin|Hnin]; [exact (proj1 (T2 _ Hin))|].
  rewrite T3 by exact Hnin. destruct (us_map (k_utxo s) _) as [u|] eqn:E; [|reflexivity]. destruct (HK (kn_utxo _ _ _ _ (fi_known _ _ _ _ _ _ _ HF) _ _ E)).
Qed.
Lemma pools_reward b K B X n D s fees y s' : fine cc K B X n D s -> ~ K (FromReward (b_id b)) -> reward_checked cc b s fees ->
  reward_done b (subsidy_of cc b + fees) s y s' -> pools_ok X s -> pools_ok X (with_best s' (b_id b)).
Proof.
  intros HF HK HC HD HJ. unfold pools_ok in *. cbn [with_best k_utxo us_map k_pos]. pose proof (rd_ustep _ _ _ _ _ HD) as HU. cbn [utxo_step] in HU.
  assert (forall j, us_map (k_utxo s) (FromReward (b_id b), j) = None) as Hf.
  { intros j. destruct (us_map (k_utxo s) _) as [u|] eqn:E; [|reflexivity]. destruct (HK (kn_utxo _ _ _ _ (fi_known _ _ _ _ _ _ _ HF) _ _ E)). }
  pose proof (rd_pos _ _ _ _ _ HD) as HP. unfold reward_of in HU. cbn [rt_inputs rt_outputs] in HU. unfold reward_checked in HC.
  destruct (b_pos b) as [[ins pool]|].
  - destruct HC as (k & u & p & d & d' & -> & Hk & Hp & Er). rewrite Er in HU. cbn in HU. rewrite Hk in HU. injection HU as <-. cbn [set_map us_map].
    assert (controls (u_output u) = Some p) as Ec by (destruct (u_output u); cbn in Hp |- *; congruence).
    pose proof (controlled_take _ _ _ _ Hk HJ) as G. cbn [put_all created created_from].
    eapply (controlled_put _ _ (FromReward (b_id b), 0) (Utxo (OProduceBlockFromStake d' p) (InChain (b_height b)))) in G.
    + revert G. apply controlled_ext. intros q. cbn [u_output controls]. destruct HP as (x & l & R & Hx & _ & _ & _ & (A1 & _) & _).
      assert (live (k_pos s') q <-> live (k_pos s) q) as ->. { unfold live. rewrite A1. destruct (decide (q = pool)) as [->|]; [|reflexivity]. rewrite Hx. split; eauto. }
      rewrite Ec. split; [intros [[G _]|[= <-]]; [exact G|]|].
      * exact (ct_live _ _ HJ _ _ _ Hk Ec).
      * intros G. destruct (decide (p = q)) as [->|Hne]; [auto|left; split; [exact G|congruence]].
    + unfold upd. destruct (decide _); [reflexivity|apply Hf].
    + cbn [u_output controls]. intros q [= <-] [_ G']. exact (G' Ec).
  - destruct HP as [_ ->]. destruct HC as [HL _]. cbn in HU. destruct (forallb _ _) in HU; [|discriminate HU]. injection HU as <-. cbn [set_map us_map].
    apply (outputs_controlled cc [] _ _ _ _ _ (k_pos s)); [intros j _; apply Hf| | |exact HJ].
    + clear -HL. induction (b_reward b) as [|o l IH]; [reflexivity|]. cbn in HL. apply andb_true_iff in HL as [H1 H2]. unfold count in *. cbn. destruct o; try discriminate H1; exact (IH H2).
    + clear -HL. induction (b_reward b) as [|o l IH]; [reflexivity|]. cbn in HL. apply andb_true_iff in HL as [H1 H2]. destruct o; try discriminate H1; exact (IH H2).
Qed.

Theorem pools_controlled bs db s : hist cc g bs db s -> controlled (us_map (k_utxo s)) (live (k_pos s)).
Proof. intros H. exact (proj2 (hist_inv cc g Hids pools_ok pools_genesis pools_tx pools_reward _ _ _ H)). Qed.
End pools.

Lemma one_output_each cc g bs db p : ids_distinct cc g -> (forall d q, OProduceBlockFromStake d q ∉ g_outputs g) -> reached cc g bs db ->
  (is_Some (pdb_pool (db_pos db) !! p) <-> exists k u, udb_map (db_utxo db) !! k = Some u /\ controls (u_output u) = Some p) /\
  (forall k k' u u', udb_map (db_utxo db) !! k = Some u -> udb_map (db_utxo db) !! k' = Some u' ->
     controls (u_output u) = Some p -> controls (u_output u') = Some p -> k = k').
Proof.
  intros Hids Hg H. destruct (reached_hist cc g Hids _ _ H) as (s & Hs). pose proof (hist_db _ _ _ _ _ Hs) as Hdb. destruct (pools_controlled cc g Hids Hg _ _ _ Hs) as [C1 C2 C3].
  pose proof (proj1 (di_utxo _ _ Hdb) : forall k, udb_map (db_utxo db) !! k = us_map (k_utxo s) k) as EU. destruct (di_pos _ _ Hdb) as [EP _]. rewrite EP. split; [split|].
  - intros G. destruct (C1 _ G) as (k & u & Hk & Ho). exists k, u. rewrite EU. auto.
  - intros (k & u & Hk & Ho). rewrite EU in Hk. exact (C2 _ _ _ Hk Ho).
  - intros k k' u u' Hk Hk'. rewrite EU in Hk, Hk'. exact (C3 _ _ _ _ _ Hk Hk').
Qed.
