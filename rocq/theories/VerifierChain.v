(** Accepted transactions and blocks fit, and what they do to the amounts held. *)
From Verif Require Import Base BaseProofs AmountModel DeltaModel DeltaProofs LayeredModel TokensModel OrdersModel PosModel PrimModel ChainModel
  UtxoModel ConstraintsModel RewardModel UndoCacheModel NonceModel VerifierModel.
From Verif Require Import TokensSpec TokensProofs OrdersSpec OrdersProofs PosSpec PosProofs UtxoSpec UtxoProofs ConstraintsSpec
  ConstraintsProofs RewardSpec RewardProofs UndoCacheSpec UndoCacheProofs NonceProofs VerifierRecords VerifierSteps VerifierParts VerifierTx
  VerifierBlock SupplySpec HoldingProofs.
Local Open Scope N_scope.
Local Arguments value : simpl never.

Notation held s := (holding (us_map (k_utxo s)) (k_pos s) (k_ord s)).

(** ** A transaction *)
Lemma nodup_spent ins : NoDup ins -> NoDup (spent_by ins).
Proof.
  assert (forall k l, k ∈ spent_by l -> InUtxo k ∈ l) as G.
  { intros k l. induction l as [|i l IH]; intros H; [inversion H|]. destruct i; cbn [spent_by] in H; try (right; exact (IH H)).
    apply elem_of_cons in H as [->|H]; [left|right; exact (IH H)]. }
  induction ins as [|i ins IH]; intros H; [constructor|]. apply NoDup_cons in H as [H1 H2]. destruct i; cbn [spent_by]; try exact (IH H2).
  apply NoDup_cons. split; [|exact (IH H2)]. intros Hin. exact (H1 (G _ _ Hin)).
Qed.
Lemma take_all_succeeds ks : forall m, NoDup ks -> (forall k, k ∈ ks -> is_Some (m k)) -> exists m', take_all m ks = Some m'.
Proof.
  induction ks as [|k ks IH]; intros m Hn H; [exists m; reflexivity|]. apply NoDup_cons in Hn as [Hn1 Hn2]. cbn [take_all].
  destruct (H k) as [u Hu]; [left|]. rewrite Hu. apply IH; [exact Hn2|]. intros j Hj. unfold upd. rewrite decide_False by congruence. apply H. right. exact Hj.
Qed.

Section tx.
Context (cc : chain_config) (h : N) (s : books) (tx : transaction) (utxos : list (option tx_output)) (fee : accumulator).
Hypothesis HC : tx_checked cc h s tx utxos fee.
Notation ins := (tx_inputs tx). Notation outs := (tx_outputs tx). Notation cf := (ru_values (cc_rules cc h)).
Notation U := (us_map (k_utxo s)). Notation zs := (zip ins utxos).

Lemma zs_fst : zs.*1 = ins.
Proof. apply fst_zip. pose proof (Forall2_length _ _ _ (tc_utxos _ _ _ _ _ _ HC)) as E. lia. Qed.
Lemma purposes : Forall (fun o => match o with Some o => spendable_in_tx o = true | None => True end) utxos /\ (count is_command ins <= 1)%nat /\
  count is_produce outs = 0%nat /\ (count is_create_pool outs <= 1)%nat.
Proof.
  pose proof (tc_purposes _ _ _ _ _ _ HC) as H. unfold check_tx_purposes in H. apply rbind_ok in H as ([] & H1 & H). apply rbind_ok in H as ([] & H2 & H).
  apply rbind_ok in H as ([] & H3 & H). apply rbind_ok in H as ([] & H4 & _). apply ensure_ok in H1, H2, H3, H4.
  apply Nat.leb_le in H2, H4. apply Nat.eqb_eq in H3. split; [|auto]. apply Forall_forall. intros o Ho.
  rewrite forallb_forall in H1. specialize (H1 o (proj1 (elem_of_list_In _ _) Ho)). destruct o; [exact H1|exact Logic.I].
Qed.
Lemma spent_present k : k ∈ spent_by ins -> is_Some (U k).
Proof.
  pose proof (tc_utxos _ _ _ _ _ _ HC) as H. revert H. generalize ins, utxos. clear. intros l r H. induction H as [|i o l r Hi H IH]; intros Hk; [inversion Hk|].
  destruct i; cbn [spent_by] in Hk; try exact (IH Hk). apply elem_of_cons in Hk as [->|Hk]; [|exact (IH Hk)]. destruct Hi as (u & Hu & _). rewrite Hu. eauto.
Qed.
Lemma zs_ok : Forall (in_ok U) zs.
Proof.
  destruct purposes as (HS & _). pose proof (tc_utxos _ _ _ _ _ _ HC) as H. revert H HS. generalize ins, utxos. clear. intros l r H.
  induction H as [|i o l r Hi H IH]; intros HS; [constructor|]. apply Forall_cons in HS as [Ho HS]. constructor; [|exact (IH HS)].
  unfold in_ok. cbn [fst snd]. destruct i; try exact Logic.I. destruct Hi as (u & Hu & ->). eauto.
Qed.
Lemma zs_fit : inputs_fit cf (k_ledger s) zs.
Proof. destruct (tc_values _ _ _ _ _ _ HC) as (V & HV & H). exact (check_values_fit _ _ _ _ _ _ _ HV (tc_sound _ _ _ _ _ _ HC) H). Qed.
Lemma zs_balance c : val c (unlocked cf (k_ledger s) zs) = val c (charged cf (k_ledger s) zs) + val c (needed cf outs) + fee_value (of_currency c) fee.
Proof. destruct (tc_values _ _ _ _ _ _ HC) as (V & HV & H). exact (proj1 (check_values_conserves _ _ _ _ _ _ _ HV (tc_sound _ _ _ _ _ _ HC) H) c). Qed.

Lemma tx_inputs_give c f U' P' O' : (forall i, f i = ord_ops_in i \/ exists id, i = InOrder (OcFreeze id) /\ f i = []) ->
  take_all U (spent_by ins) = Some U' -> ran pos_step (k_pos s) (concat (map (pos_ops_in U) ins)) P' -> ran ord_step (k_ord s) (concat (map f ins)) O' ->
  gives (held s c) (holding U' P' O' c) (val c (charged cf (k_ledger s) zs) + sum_over (minted c) ins) (val c (unlocked cf (k_ledger s) zs)).
Proof.
  intros Hf HT HP HO. pose proof (inputs_give cf c U f Hf zs U (k_pos s) (k_ord s) (k_ledger s) U' P' O') as G. rewrite zs_fst in G. apply G; clear G.
  - apply nodup_spent, (tc_nodup _ _ _ _ _ _ HC).
  - exact zs_ok.
  - reflexivity.
  - apply follows_refl.
  - right. split; [exact (proj1 (proj2 purposes))|]. split; [reflexivity|]. destruct (tc_sound _ _ _ _ _ _ HC) as (_ & _ & _ & _ & G). exact G.
  - exact (tc_order_ins _ _ _ _ _ _ HC).
  - exact zs_fit.
  - exact HT.
  - exact HP.
  - exact HO.
Qed.

(** Order commands other than freezing succeed *)
Definition no_freeze (i : tx_input) : list ord_op := match i with InOrder (OcFreeze _) => [] | _ => ord_ops_in i end.
Lemma orders_run : exists O', ran ord_step (k_ord s) (concat (map no_freeze ins)) O'.
Proof.
  pose proof zs_fit as Hf. pose proof (tc_order_ins _ _ _ _ _ _ HC) as Hv. pose proof (proj1 (proj2 purposes)) as Hc. rewrite <- zs_fst in Hv, Hc |- *.
  assert (forall l L O, inputs_fit cf L l -> forallb (order_input_ok (cf_orders cf)) l.*1 = true -> (count is_command l.*1 = 0%nat \/ ((count is_command l.*1 <= 1)%nat /\ O = lg_ord L)) ->
    exists O', ran ord_step O (concat (map no_freeze l.*1)) O') as G.
  2:{ apply (G zs (k_ledger s) (k_ord s)); [exact Hf|exact Hv|right; auto]. }
  clear. induction l as [|[i o] l IH]; intros L O Hf Hv Hc; [exists O; reflexivity|].
  cbn [fmap list_fmap fst map concat] in Hv, Hc |- *. cbn [inputs_fit fst] in Hf. destruct Hf as [Hf Hr]. cbn [forallb] in Hv. apply andb_true_iff in Hv as [Hv Hv'].
  rewrite count_cons in Hc.
  assert (is_command i = false -> exists O', ran ord_step O (no_freeze i ++ concat (map no_freeze l.*1)) O') as G1.
  { intros E. destruct (IH (after_input cf L (i, o)) O Hr Hv') as (O' & R).
    - rewrite E in Hc. destruct Hc as [Hc|[Hc ->]]; [left; exact Hc|right]. split; [exact Hc|]. unfold after_input. cbn [fst].
      destruct i; try discriminate E; [reflexivity|]. unfold with_pos. destruct (pos_step _ _); reflexivity.
    - exists O'. apply ran_app. exists O. split; [|exact R]. destruct i; try discriminate E; reflexivity. }
  assert (is_command i = true -> forall O1, ran ord_step O (no_freeze i) O1 -> exists O', ran ord_step O (no_freeze i ++ concat (map no_freeze l.*1)) O') as G2.
  { intros E O1 R1. destruct (IH (after_input cf L (i, o)) O1 Hr Hv') as (O' & R); [left; rewrite E in Hc; lia|]. exists O'. apply ran_app. eauto. }
  destruct (is_command i) eqn:Ei; [|exact (G1 eq_refl)]. assert (O = lg_ord L) as -> by (destruct Hc as [Hc|[_ Hc]]; [lia|exact Hc]).
  destruct i as [k|nonce d a|nonce cm|oc]; try discriminate Ei.
  - destruct cm as [id a|id|id|id b|id|id dst|id|id a dst|id uri]; try exact (G2 eq_refl _ eq_refl).
    + destruct Hf as (O1 & E). apply (G2 eq_refl O1). exists O1. split; [exact E|reflexivity].
    + destruct Hf as (O1 & E). apply (G2 eq_refl O1). exists O1. split; [|reflexivity]. cbn [order_input_ok] in Hv. destruct (cf_orders cf); [exact E|discriminate Hv].
  - destruct oc as [id a|id|id].
    + destruct Hf as (O1 & E). apply (G2 eq_refl O1). exists O1. split; [|reflexivity]. cbn [order_input_ok] in Hv. destruct (cf_orders cf); [discriminate Hv|exact E].
    + exact (G2 eq_refl _ eq_refl).
    + destruct Hf as (O1 & E). apply (G2 eq_refl O1). exists O1. split; [exact E|reflexivity].
Qed.

Lemma tx_pos_fit n D : at_most (held s Coin) n -> (Z.of_N n <= I128_MAX)%Z -> dead_ok (k_pos s) D -> (Z.of_N (D + sum_over delegated outs) <= I128_MAX)%Z ->
  (forall k, first_outpoint ins = Some k -> ~ uses (k_pos s) (cc_pool_id cc k)) ->
  fit pos_step pos_fits (k_pos s) (pos_ops cc U tx).
Proof.
  intros Hn Hb Hd HD Hu. unfold pos_ops. apply fit_app.
  assert (fit pos_step pos_fits (k_pos s) (concat (map (pos_ops_in U) ins))) as Hin.
  { pose proof (inputs_pos_fit cf U zs (k_pos s) (k_ledger s) (follows_refl _) zs_fit) as G. rewrite zs_fst in G. exact G. }
  split; [exact Hin|]. intros P1 HP.
  destruct (take_all_succeeds (spent_by ins) U (nodup_spent _ (tc_nodup _ _ _ _ _ _ HC)) spent_present) as (U1 & HU1).
  destruct orders_run as (O1 & HO1).
  assert (forall i, no_freeze i = ord_ops_in i \/ exists id, i = InOrder (OcFreeze id) /\ no_freeze i = []) as Hnf.
  { intros [| | |[|id|]]; try (left; reflexivity). right. eauto. }
  destruct (tx_inputs_give Coin no_freeze U1 P1 O1 Hnf HU1 HP HO1 n Hn) as (n1 & Hn1 & Hle).
  assert (sum_over (minted Coin) ins = 0) as Hm.
  { apply sum_over_zero. intros [| |? []|] _; reflexivity. }
  assert (n1 + val Coin (needed cf outs) <= n) as Hle1 by (rewrite zs_balance, Hm in Hle; clear -Hle; lia).
  assert (sound_stakes (k_pos s)) as Hs by (destruct (tc_sound _ _ _ _ _ _ HC) as ((_ & _ & _ & G) & _); exact G).
  pose proof (ran_dead _ _ _ _ HP Hd) as Hd1. rewrite delegating_ins, N.add_0_r in Hd1.
  destruct (first_outpoint ins) as [k|] eqn:Ek.
  - apply (outputs_pos_fit cf cc ins (cc_pool_id cc k) outs U1 P1 O1 n1 D); auto.
    + clear -Hle1 Hb. lia.
    + exact (ran_sound _ _ _ Hs Hin HP).
    + intros q dat Hq. destruct (tc_pools _ _ _ _ _ _ HC _ _ Hq) as (k' & E & ->). congruence.
    + right. split; [exact (proj2 (proj2 (proj2 purposes)))|]. intros Hu1. destruct (ran_uses _ _ _ _ HP Hu1) as [G|(x & Hx)]; [exact (Hu k eq_refl G)|].
      apply elem_of_list_In, in_concat in Hx as (l & Hl & Hx). apply in_map_iff in Hl as (i & <- & _). clear -Hx.
      destruct i as [k'| | |]; cbn in Hx; try (destruct Hx; fail); [|destruct Hx as [[=]|[]]]. destruct (U k') as [u|]; [|destruct Hx].
      destruct (u_output u); cbn in Hx; try (destruct Hx; fail); destruct Hx as [[=]|[]].
  - apply (outputs_pos_fit cf cc ins 0 outs U1 P1 O1 n1 D); auto.
    + clear -Hle1 Hb. lia.
    + exact (ran_sound _ _ _ Hs Hin HP).
    + intros q dat Hq. destruct (tc_pools _ _ _ _ _ _ HC _ _ Hq) as (k' & E & ->). congruence.
    + left. destruct (count is_create_pool outs) eqn:E; [reflexivity|]. exfalso.
      assert (exists o, o ∈ outs /\ is_create_pool o = true) as (o & Ho & Eo).
      { unfold count in E. destruct (List.filter is_create_pool outs) as [|o l] eqn:El; [discriminate E|]. exists o.
        assert (In o (List.filter is_create_pool outs)) as Hin' by (rewrite El; left; reflexivity). apply filter_In in Hin' as [H1 H2]. split; [apply elem_of_list_In; exact H1|exact H2]. }
      destruct o; try discriminate Eo. destruct (tc_pools _ _ _ _ _ _ HC _ _ Ho) as (k' & E' & _). congruence.
Qed.

Lemma tx_tok_fit : fit tok_step tok_fits (k_tok s) (tok_ops cc h tx).
Proof.
  unfold tok_ops. apply fit_app. split.
  - pose proof zs_fit as Hf. pose proof (proj1 (proj2 purposes)) as Hc. rewrite <- zs_fst in Hc |- *.
    assert (forall l L T, inputs_fit cf L l -> (count is_command l.*1 = 0%nat \/ ((count is_command l.*1 <= 1)%nat /\ T = lg_tok L)) ->
      fit tok_step tok_fits T (concat (map (tok_ops_in outs) l.*1))) as G.
    2:{ apply (G zs (k_ledger s) (k_tok s)); [exact Hf|right; auto]. }
    clear. induction l as [|[i o] l IH]; intros L T Hf Hc; [exact Logic.I|].
    cbn [fmap list_fmap fst map concat] in Hc |- *. cbn [inputs_fit fst] in Hf. destruct Hf as [Hf Hr]. rewrite count_cons in Hc. apply fit_app.
    destruct (is_command i) eqn:Ei.
    + assert (T = lg_tok L) as -> by (destruct Hc as [Hc|[_ Hc]]; [lia|exact Hc]). split; [|intros T1 _; apply (IH (after_input cf L (i, o))); [exact Hr|left; lia]].
      destruct i as [k|nonce d a|nonce cm|oc]; try discriminate Ei; [|exact Logic.I].
      destruct cm as [id a|id|id|id b|id|id dst|id|id a dst|id uri]; cbn [tok_ops_in fit]; try (split; [exact Logic.I|auto]); try exact Logic.I.
      * split; [exact Hf|auto].
      * destruct (0 <? burned id outs); cbn [fit]; auto.
    + assert (tok_ops_in outs i = []) as -> by (destruct i; try discriminate Ei; reflexivity). split; [exact Logic.I|]. intros T1 ->.
      apply (IH (after_input cf L (i, o))); [exact Hr|]. destruct Hc as [Hc|[Hc ->]]; [left; exact Hc|right]. split; [exact Hc|]. unfold after_input. cbn [fst].
      destruct i; try discriminate Ei; [reflexivity|]. unfold with_pos. destruct (pos_step _ _); reflexivity.
  - intros T1 _. generalize outs. clear. intros l. revert T1. generalize ins. intros ins'. induction l as [|o l IH]; intros T; [exact Logic.I|].
    cbn [map concat]. apply fit_app. split; [|intros T1 _; apply IH].
    destruct o; cbn [tok_ops_out fit]; try exact Logic.I. destruct (token_id cc h ins'); cbn [fit]; [|exact Logic.I]. split; [reflexivity|auto].
Qed.

Lemma tx_gives b x s' c : tx_done cc h b s tx x s' ->
  gives (held s c) (held s' c) (sum_over (minted c) ins + sum_over (nfts c) outs) (fee_value (of_currency c) fee + sum_over (burnt c) outs).
Proof.
  intros HD. pose proof (td_ustep _ _ _ _ _ _ _ HD) as HU. cbn [utxo_step] in HU. destruct (take_all U (spent_by ins)) as [U1|] eqn:E1; [|discriminate HU].
  injection HU as HU. pose proof (td_pran _ _ _ _ _ _ _ HD) as HP. pose proof (td_oran _ _ _ _ _ _ _ HD) as HO. unfold pos_ops in HP. unfold ord_ops in HO.
  apply ran_app in HP as (P1 & HP1 & HP2). apply ran_app in HO as (O1 & HO1 & HO2).
  pose proof (tx_inputs_give c ord_ops_in U1 P1 O1 (fun i => or_introl eq_refl) E1 HP1 HO1) as G1.
  pose proof (outputs_give cf cc ins c (InChain h) (FromTx (tx_id tx)) outs 0 U1 P1 O1 (k_pos s') (k_ord s') HP2 HO2) as G2.
  rewrite <- HU. cbn [set_map us_map]. unfold created. eapply gives_net; [eapply gives_trans; [exact G1|exact G2]|]. rewrite zs_balance. lia.
Qed.
End tx.

(** ** Ids that have been used *)
Definition src_in (B : N -> Prop) (src : tx_source) : Prop := match src with SrcChain b => B b | SrcMempool => False end.
Definition tx_recs {I R} (B : N -> Prop) (K : source_id -> Prop) (T : undo_table I R) : Prop :=
  forall src t i, ut_tx T !! (src, t) = Some i -> src_in B src /\ K (FromTx t).
Definition rew_recs {I R} (B : N -> Prop) (T : undo_table I R) : Prop := forall src r, ut_reward T !! src = Some r -> src_in B src.
Record known (cc : chain_config) (K : source_id -> Prop) (B : N -> Prop) (s : books) : Prop := {
  kn_utxo : forall k u, us_map (k_utxo s) k = Some u -> K k.1;
  kn_u : tx_recs B K (k_u s); kn_p : tx_recs B K (k_p s); kn_t : tx_recs B K (k_t s); kn_o : tx_recs B K (k_o s);
  kn_ur : rew_recs B (k_u s); kn_pr : rew_recs B (k_p s); kn_tr : rew_recs B (k_t s); kn_or : rew_recs B (k_o s);
  kn_from : forall src t u ss, ut_tx (k_u s) !! (src, t) = Some (u, ss) -> Forall K ss;
  kn_index : forall t i, k_index s t = Some i -> K (FromTx t);
  kn_pools : forall k, uses (k_pos s) (cc_pool_id cc k) -> K k.1 /\ us_map (k_utxo s) k = None }.

Lemma tx_recs_mono {I R} (B B' : N -> Prop) (K K' : source_id -> Prop) (T : undo_table I R) :
  (forall b, B b -> B' b) -> (forall k, K k -> K' k) -> tx_recs B K T -> tx_recs B' K' T.
Proof. intros HB HK H src t i E. destruct (H _ _ _ E) as [H1 H2]. split; [|auto]. destruct src; [exact (HB _ H1)|exact H1]. Qed.
Lemma rew_recs_mono {I R} (B B' : N -> Prop) (T : undo_table I R) : (forall b, B b -> B' b) -> rew_recs B T -> rew_recs B' T.
Proof. intros HB H src r E. specialize (H _ _ E). destruct src; [exact (HB _ H)|exact H]. Qed.
Lemma known_mono cc (B B' : N -> Prop) (K K' : source_id -> Prop) s :
  (forall b, B b -> B' b) -> (forall k, K k -> K' k) -> known cc K B s -> known cc K' B' s.
Proof.
  intros HB HK [H1 H2 H3 H4 H5 H6 H7 H8 H9 H10 H11 H12]. constructor.
  - eauto.
  - exact (tx_recs_mono _ _ _ _ _ HB HK H2).
  - exact (tx_recs_mono _ _ _ _ _ HB HK H3).
  - exact (tx_recs_mono _ _ _ _ _ HB HK H4).
  - exact (tx_recs_mono _ _ _ _ _ HB HK H5).
  - exact (rew_recs_mono _ _ _ HB H6).
  - exact (rew_recs_mono _ _ _ HB H7).
  - exact (rew_recs_mono _ _ _ HB H8).
  - exact (rew_recs_mono _ _ _ HB H9).
  - intros src t u ss E. eapply Forall_impl; [exact (H10 _ _ _ _ E)|auto].
  - eauto.
  - intros k Hk. destruct (H12 _ Hk). auto.
Qed.
Lemma tx_recs_add {I R} (B : N -> Prop) (K : source_id -> Prop) (T : undo_table I R) b t i : B b -> K (FromTx t) -> tx_recs B K T ->
  tx_recs B K (ut_add T (SrcChain b) t i).
Proof.
  intros Hb Ht H src t' i' E. unfold ut_add in E. cbn [ut_tx] in E. apply lookup_insert_Some in E as [[E _]|[_ E]]; [|exact (H _ _ _ E)].
  injection E as <- <-. split; assumption.
Qed.
Lemma tx_recs_rec {U R} (B : N -> Prop) (K : source_id -> Prop) (T : undo_table (list U) R) b t us : B b -> K (FromTx t) -> tx_recs B K T ->
  tx_recs B K (rec_add T (SrcChain b) t us).
Proof. intros Hb Ht H. destruct us; [exact H|]. apply tx_recs_add; assumption. Qed.
Lemma rec_add_reward {U R} (T : undo_table (list U) R) src t us : ut_reward (rec_add T src t us) = ut_reward T.
Proof. destruct us; reflexivity. Qed.
Lemma known_none {I R} (B : N -> Prop) K (T : undo_table I R) b : tx_recs B K T -> rew_recs B T -> ~ B b -> ut_none T (SrcChain b).
Proof.
  intros H1 H2 Hb. split.
  - destruct (ut_reward T !! SrcChain b) eqn:E; [|reflexivity]. destruct (Hb (H2 _ _ E)).
  - intros t. destruct (ut_tx T !! (SrcChain b, t)) eqn:E; [|reflexivity]. destruct (H1 _ _ _ E) as [G _]. destruct (Hb G).
Qed.

Lemma first_spent ins k : first_outpoint ins = Some k -> k ∈ spent_by ins.
Proof.
  induction ins as [|i ins IH]; [discriminate|]. cbn [first_outpoint]. destruct i; cbn; try exact IH. intros [= ->]. left.
Qed.

Section known_tx.
Context (cc : chain_config) (h b : N) (K : source_id -> Prop) (B : N -> Prop).
Hypothesis Hinj : forall k k', cc_pool_id cc k = cc_pool_id cc k' -> k = k'.

Lemma tx_room_known s tx utxos fee n D : known cc K B s -> ~ K (FromTx (tx_id tx)) -> tx_checked cc h s tx utxos fee ->
  at_most (held s Coin) n -> (Z.of_N n <= I128_MAX)%Z -> dead_ok (k_pos s) D -> (Z.of_N (D + sum_over delegated (tx_outputs tx)) <= I128_MAX)%Z ->
  tx_room cc h b s tx.
Proof.
  intros HK Hnew HC Hn Hb Hd HD.
  assert (forall I R (T : undo_table I R), tx_recs B K T -> ut_tx T !! (SrcChain b, tx_id tx) = None) as G.
  { intros I R T HT. destruct (ut_tx T !! (SrcChain b, tx_id tx)) eqn:E; [|reflexivity]. destruct (HT _ _ _ E) as [_ G]. destruct (Hnew G). }
  constructor.
  - exact (G _ _ _ (kn_u _ _ _ _ HK)).
  - exact (G _ _ _ (kn_p _ _ _ _ HK)).
  - exact (G _ _ _ (kn_t _ _ _ _ HK)).
  - exact (G _ _ _ (kn_o _ _ _ _ HK)).
  - destruct (k_index s (tx_id tx)) eqn:E; [|reflexivity]. destruct (Hnew (kn_index _ _ _ _ HK _ _ E)).
  - intros k o Hk. destruct (us_map (k_utxo s) k) as [u|] eqn:E; [|reflexivity]. apply (kn_utxo _ _ _ _ HK) in E.
    destruct (created_keys _ _ _ _ _ Hk) as [Ek _]. rewrite Ek in E. destruct (Hnew E).
  - intros u (t & u' & ss & E & Hin). unfold ut_add in E. cbn [ut_tx] in E. apply lookup_insert_Some in E as [[E1 E2]|[_ E]].
    + injection E2 as <- <-. apply elem_of_list_fmap in Hin as (k & Ek & Hk). destruct (spent_present _ _ _ _ _ _ HC k Hk) as [w Hw].
      apply (kn_utxo _ _ _ _ HK) in Hw. rewrite <- Ek in Hw. exact (Hnew Hw).
    + pose proof (kn_from _ _ _ _ HK _ _ _ _ E) as F. rewrite Forall_forall in F. exact (Hnew (F _ Hin)).
  - apply (tx_pos_fit cc h s tx utxos fee HC n D Hn Hb Hd HD). intros k Hk Hu. destruct (kn_pools _ _ _ _ HK k Hu) as [_ Hnone].
    destruct (spent_present _ _ _ _ _ _ HC k (first_spent _ _ Hk)) as [w Hw]. congruence.
  - exact (tx_tok_fit cc h s tx utxos fee HC).
Qed.

Lemma known_tx s tx utxos fee x s' : B b -> known cc K B s -> ~ K (FromTx (tx_id tx)) -> tx_checked cc h s tx utxos fee -> tx_done cc h b s tx x s' ->
  known cc (fun k => K k \/ k = FromTx (tx_id tx)) B s'.
Proof.
  intros Hb HK Hnew HC HD. set (K' := fun k => K k \/ k = FromTx (tx_id tx)). assert (forall k, K k -> K' k) as HKK by (intros k; left; assumption).
  assert (K' (FromTx (tx_id tx))) as Ht by (right; reflexivity).
  pose proof (known_mono cc B B K K' s (fun _ H => H) HKK HK) as [H1 H2 H3 H4 H5 H6 H7 H8 H9 H10 H11 H12].
  pose proof (td_ustep _ _ _ _ _ _ _ HD) as HU. cbn [utxo_step] in HU. destruct (take_all (us_map (k_utxo s)) (spent_by (tx_inputs tx))) as [U1|] eqn:E1; [|discriminate HU].
  injection HU as HU. destruct (take_all_spec _ _ _ E1) as (T1 & T2 & T3).
  assert (forall k u, us_map (k_utxo s') k = Some u -> k.1 = FromTx (tx_id tx) \/ (k ∉ spent_by (tx_inputs tx) /\ us_map (k_utxo s) k = Some u)) as HS'.
  { intros k u E. rewrite <- HU in E. cbn [set_map us_map] in E.
    destruct (decide (k ∈ map fst (created (FromTx (tx_id tx)) (tx_outputs tx)))) as [Hin|Hnin]; [left; exact (created_src _ _ _ Hin)|].
    rewrite put_all_other in E by exact Hnin. right. destruct (decide (k ∈ spent_by (tx_inputs tx))) as [Hs|Hs]; [destruct (T2 _ Hs) as [E' _]; congruence|].
    split; [exact Hs|]. rewrite <- T3 by exact Hs. exact E. }
  assert (forall k, us_map (k_utxo s) k = None \/ k ∈ spent_by (tx_inputs tx) -> K k.1 -> us_map (k_utxo s') k = None) as Hgone.
  { intros k Hk HKk. destruct (us_map (k_utxo s') k) as [u|] eqn:E; [|reflexivity]. destruct (HS' _ _ E) as [G|[G1 G2]].
    - rewrite G in HKk. destruct (Hnew HKk).
    - destruct Hk as [Hk|Hk]; [congruence|destruct (G1 Hk)]. }
  constructor.
  - intros k u E. destruct (HS' _ _ E) as [G|[_ G]]; [right; exact G|exact (H1 _ _ G)].
  - rewrite (td_u _ _ _ _ _ _ _ HD). apply tx_recs_add; assumption.
  - rewrite (td_p _ _ _ _ _ _ _ HD). apply tx_recs_rec; assumption.
  - rewrite (td_t _ _ _ _ _ _ _ HD). apply tx_recs_rec; assumption.
  - rewrite (td_o _ _ _ _ _ _ _ HD). apply tx_recs_rec; assumption.
  - rewrite (td_u _ _ _ _ _ _ _ HD). exact H6.
  - intros src r. rewrite (td_p _ _ _ _ _ _ _ HD), rec_add_reward. apply H7.
  - intros src r. rewrite (td_t _ _ _ _ _ _ _ HD), rec_add_reward. apply H8.
  - intros src r. rewrite (td_o _ _ _ _ _ _ _ HD), rec_add_reward. apply H9.
  - intros src t u ss. rewrite (td_u _ _ _ _ _ _ _ HD). unfold ut_add. cbn [ut_tx]. intros E. apply lookup_insert_Some in E as [[_ E]|[_ E]]; [|exact (H10 _ _ _ _ E)].
    injection E as <- <-. apply Forall_forall. intros y Hy. apply elem_of_list_fmap in Hy as (k & -> & Hk).
    destruct (spent_present _ _ _ _ _ _ HC k Hk) as [w Hw]. exact (H1 _ _ Hw).
  - intros t i E. pose proof (td_aux _ _ _ _ _ _ _ HD) as HA. destruct (issued_nft (tx_outputs tx)) as [id|].
    + destruct HA as (_ & _ & _ & _ & HI). rewrite HI in E. unfold set_at in E. destruct (decide (t = tx_id tx)) as [->|Hne]; [exact Ht|].
      exact (H11 _ _ E).
    + destruct HA as (_ & HI). rewrite HI in E. exact (H11 _ _ E).
  - intros k Hu. destruct (ran_uses _ _ _ _ (td_pran _ _ _ _ _ _ _ HD) Hu) as [Hu0|(y & Hy)].
    + destruct (kn_pools _ _ _ _ HK k Hu0) as [G1 G2]. split; [left; exact G1|]. apply Hgone; [left; exact G2|exact G1].
    + assert (exists dat, OCreateStakePool (cc_pool_id cc k) dat ∈ tx_outputs tx) as (dat & Hout).
      { unfold pos_ops in Hy. apply elem_of_app in Hy as [Hy|Hy]; apply elem_of_list_In, in_concat in Hy as (l & Hl & Hy); apply in_map_iff in Hl as (i & <- & Hi).
        - exfalso. clear -Hy. destruct i as [k'| | |]; cbn in Hy; try (destruct Hy; fail); [|destruct Hy as [[=]|[]]]. destruct (us_map (k_utxo s) k') as [u|]; [|destruct Hy].
          destruct (u_output u); cbn in Hy; try (destruct Hy; fail); destruct Hy as [[=]|[]].
        - apply elem_of_list_In in Hi. destruct i; cbn in Hy; try (destruct Hy; fail).
          + destruct Hy as [[= <- _]|[]]. eauto.
          + destruct (first_outpoint (tx_inputs tx)); cbn in Hy; [destruct Hy as [[=]|[]]|destruct Hy].
          + destruct Hy as [[=]|[]]. }
      destruct (tc_pools _ _ _ _ _ _ HC _ _ Hout) as (k0 & Ek & Eid). apply Hinj in Eid as <-.
      destruct (spent_present _ _ _ _ _ _ HC k (first_spent _ _ Ek)) as [w Hw]. pose proof (kn_utxo _ _ _ _ HK _ _ Hw) as HKk.
      split; [left; exact HKk|]. apply Hgone; [right; exact (first_spent _ _ Ek)|exact HKk].
Qed.

Lemma paid_uses P p x l R P' q : ps_pool P p = Some x -> paid P p x l R P' -> uses P' q -> uses P q.
Proof.
  intros Hx (A1 & A2 & A3 & A4 & A5) [Hu|(d & y & Hd & Hy)].
  - left. rewrite A1 in Hu. destruct (decide (q = p)) as [->|]; [rewrite Hx; eauto|exact Hu].
  - right. exists d, y. split; [|exact Hy]. rewrite <- Hd. symmetry. auto.
Qed.
Lemma known_reward bl total s y s' : B (b_id bl) -> known cc K B s -> ~ K (FromReward (b_id bl)) -> reward_done bl total s y s' ->
  known cc (fun k => K k \/ k = FromReward (b_id bl)) B s'.
Proof.
  intros Hb HK Hnew HD. set (K' := fun k => K k \/ k = FromReward (b_id bl)). assert (forall k, K k -> K' k) as HKK by (intros k; left; assumption).
  pose proof (known_mono cc B B K K' s (fun _ H => H) HKK HK) as [H1 H2 H3 H4 H5 H6 H7 H8 H9 H10 H11 H12].
  pose proof (rd_ustep _ _ _ _ _ HD) as HU. cbn [utxo_step] in HU. destruct (take_all (us_map (k_utxo s)) _) as [U1|] eqn:E1; [|discriminate HU].
  destruct (forallb _ _); [|discriminate HU]. injection HU as HU. destruct (take_all_spec _ _ _ E1) as (T1 & T2 & T3).
  assert (forall k u, us_map (k_utxo s') k = Some u -> k.1 = FromReward (b_id bl) \/ us_map (k_utxo s) k = Some u) as HS'.
  { intros k u E. rewrite <- HU in E. cbn [set_map us_map] in E.
    match type of E with put_all _ _ (created _ ?o) _ = _ => destruct (decide (k ∈ map fst (created (FromReward (b_id bl)) o))) as [Hin|Hnin] end; [left; exact (created_src _ _ _ Hin)|].
    rewrite put_all_other in E by exact Hnin. right. match type of E1 with take_all _ ?ks = _ => destruct (decide (k ∈ ks)) as [Hs|Hs] end;
      [destruct (T2 _ Hs) as [E' _]; congruence|]. rewrite <- T3 by exact Hs. exact E. }
  assert (forall I R (T : undo_table I R) r, tx_recs B K' T -> tx_recs B K' (rew_add T (SrcChain (b_id bl)) r)) as Hrec by (intros I R T [r|] HT; exact HT).
  assert (forall I R (T : undo_table I R) r, rew_recs B T -> rew_recs B (rew_add T (SrcChain (b_id bl)) r)) as Hrew.
  { intros I R T [r|] HT; [|exact HT]. intros src r' E. cbn in E. apply lookup_insert_Some in E as [[<- _]|[_ E]]; [exact Hb|exact (HT _ _ E)]. }
  constructor.
  - intros k u E. destruct (HS' _ _ E) as [G|G]; [right; exact G|exact (H1 _ _ G)].
  - rewrite (rd_u _ _ _ _ _ HD). apply Hrec. exact H2.
  - rewrite (rd_p _ _ _ _ _ HD). apply Hrec. exact H3.
  - rewrite (rd_t _ _ _ _ _ HD). exact H4.
  - rewrite (rd_o _ _ _ _ _ HD). exact H5.
  - rewrite (rd_u _ _ _ _ _ HD). apply Hrew. exact H6.
  - rewrite (rd_p _ _ _ _ _ HD). apply Hrew. exact H7.
  - rewrite (rd_t _ _ _ _ _ HD). exact H8.
  - rewrite (rd_o _ _ _ _ _ HD). exact H9.
  - intros src t u ss. rewrite (rd_u _ _ _ _ _ HD). destruct (y_u y); exact (H10 src t u ss).
  - rewrite (rd_index _ _ _ _ _ HD). exact H11.
  - intros k Hu.
    assert (uses (k_pos s) (cc_pool_id cc k)) as Hu0.
    { pose proof (rd_pos _ _ _ _ _ HD) as HP. destruct (b_pos bl) as [[ins pool]|]; [|destruct HP as [_ E]; rewrite E in Hu; exact Hu].
      destruct HP as (x & l & R & Hx & _ & _ & _ & Hp & _). exact (paid_uses _ _ _ _ _ _ _ Hx Hp Hu). }
    destruct (kn_pools _ _ _ _ HK k Hu0) as [G1 G2]. split; [left; exact G1|].
    destruct (us_map (k_utxo s') k) as [u|] eqn:E; [|reflexivity]. destruct (HS' _ _ E) as [G|G]; [rewrite G in G1; destruct (Hnew G1)|congruence].
Qed.
End known_tx.
