(** What transactions and rewards do to the amounts held anywhere, and that the staking operations of an accepted
    transaction fit. *)
From Verif Require Import Base BaseProofs AmountModel DeltaModel DeltaProofs LayeredModel TokensModel OrdersModel PosModel PrimModel ChainModel
  UtxoModel ConstraintsModel RewardModel UndoCacheModel NonceModel VerifierModel.
From Verif Require Import TokensSpec TokensProofs OrdersSpec OrdersProofs PosSpec PosProofs UtxoSpec UtxoProofs ConstraintsSpec
  ConstraintsProofs RewardSpec RewardProofs UndoCacheSpec UndoCacheProofs NonceProofs VerifierRecords VerifierSteps VerifierParts VerifierTx
  VerifierBlock SupplySpec.
Local Open Scope N_scope.

(** ** Moving amounts *)
Lemma at_most_change {K} `{EqDecision K} (f g : K -> N) ks n n' :
  at_most f n -> NoDup ks -> (forall j, j ∉ ks -> g j <= f j) -> sum_over g ks + n <= n' + sum_over f ks -> at_most g n'.
Proof.
  intros Hf Hk Ho Hs l Hl.
  set (l1 := filter (fun j => j ∈ ks) l). set (l2 := filter (fun j => j ∉ ks) l).
  assert (l ≡ₚ l1 ++ l2) as Hp.
  { unfold l1, l2. clear. induction l as [|x l IH]; [reflexivity|]. rewrite !filter_cons. destruct (decide (x ∈ ks)) as [Hx|Hx].
    - rewrite (decide_False (P := x ∉ ks)) by auto. cbn. constructor. exact IH.
    - rewrite (decide_True (P := x ∉ ks)) by auto. rewrite <- Permutation_middle. constructor. exact IH. }
  rewrite (sum_over_perm _ _ _ Hp), sum_over_app.
  assert (NoDup l1 /\ NoDup l2) as [N1 N2] by (split; apply NoDup_filter; exact Hl).
  assert (sum_over g l1 <= sum_over g ks) as H1.
  { assert (l1 ⊆+ ks) as Hsub.
    { apply NoDup_submseteq; [exact N1|]. intros x Hx. unfold l1 in Hx. apply elem_of_list_filter in Hx as [Hx _]. exact Hx. }
    apply submseteq_Permutation in Hsub as (r & Hr). rewrite (sum_over_perm _ _ _ Hr), sum_over_app. lia. }
  assert (sum_over g l2 <= sum_over f l2) as H2.
  { apply sum_over_le. intros x Hx. unfold l2 in Hx. apply elem_of_list_filter in Hx as [Hx _]. exact (Ho _ Hx). }
  assert (sum_over f ks + sum_over f l2 <= n) as H3.
  { rewrite <- sum_over_app. apply Hf. apply NoDup_app. split; [exact Hk|]. split; [|exact N2]. intros x Hx Hx2.
    unfold l2 in Hx2. apply elem_of_list_filter in Hx2 as [Hx2 _]. exact (Hx2 Hx). }
  lia.
Qed.

(** [gives f g a b]: going from [f] to [g], [a] comes in and [b] goes out *)
Definition gives {K} (f g : K -> N) (a b : N) : Prop := forall n, at_most f n -> exists n', at_most g n' /\ n' + b <= n + a.
Lemma gives_change {K} `{EqDecision K} (f g : K -> N) ks a b :
  NoDup ks -> (forall j, j ∉ ks -> g j <= f j) -> sum_over g ks + b <= sum_over f ks + a -> gives f g a b.
Proof.
  intros Hk Ho Hs n Hf. pose proof (Hf ks Hk) as Hn. exists (n + a - b). split; [|lia].
  apply (at_most_change f g ks n); [exact Hf|exact Hk|exact Ho|lia].
Qed.
Lemma gives_one {K} `{EqDecision K} (f g : K -> N) k a b : (forall j, j <> k -> g j <= f j) -> g k + b <= f k + a -> gives f g a b.
Proof.
  intros Ho Hs. apply (gives_change f g [k]); [apply NoDup_singleton|intros j Hj; apply Ho; intros ->; apply Hj; left|].
  rewrite !sum_over_cons. cbn. lia.
Qed.
Lemma gives_two {K} `{EqDecision K} (f g : K -> N) k1 k2 a b : k1 <> k2 ->
  (forall j, j <> k1 -> j <> k2 -> g j <= f j) -> g k1 + g k2 + b <= f k1 + f k2 + a -> gives f g a b.
Proof.
  intros Hne Ho Hs. apply (gives_change f g [k1; k2]).
  - apply NoDup_cons. split; [intros Hx; apply elem_of_list_singleton in Hx; congruence|apply NoDup_singleton].
  - intros j Hj. apply Ho; intros ->; apply Hj; set_solver.
  - rewrite !sum_over_cons. cbn. lia.
Qed.
Lemma gives_same {K} (f g : K -> N) a b : (forall j, g j <= f j) -> b <= a -> gives f g a b.
Proof.
  intros Ho Hab n Hf. exists (n + a - b). split; [|lia]. intros l Hl.
  assert (sum_over g l <= sum_over f l) by (apply sum_over_le; auto). pose proof (Hf l Hl). lia.
Qed.
Lemma gives_trans {K} (f g h : K -> N) a b a' b' : gives f g a b -> gives g h a' b' -> gives f h (a + a') (b + b').
Proof. intros H1 H2 n Hn. destruct (H1 _ Hn) as (n1 & A1 & L1). destruct (H2 _ A1) as (n2 & A2 & L2). exists n2. split; [exact A2|lia]. Qed.
Lemma gives_weaken {K} (f g : K -> N) a b a' b' : gives f g a b -> a <= a' -> b' <= b -> gives f g a' b'.
Proof. intros H1 Ha Hb n Hn. destruct (H1 _ Hn) as (n1 & A1 & L1). exists n1. split; [exact A1|lia]. Qed.
Lemma gives_net {K} (f g : K -> N) a b a' b' : gives f g a b -> a + b' <= a' + b -> gives f g a' b'.
Proof. intros H1 Ha n Hn. destruct (H1 _ Hn) as (n1 & A1 & L1). exists n1. split; [exact A1|lia]. Qed.
Lemma at_most_get {K} (f : K -> N) n k : at_most f n -> f k <= n.
Proof. intros H. specialize (H [k] (NoDup_singleton k)). rewrite sum_over_cons in H. cbn in H. lia. Qed.
Lemma at_most_ext {K} (f g : K -> N) n : (forall k, g k <= f k) -> at_most f n -> at_most g n.
Proof. intros E H l Hl. pose proof (H l Hl). assert (sum_over g l <= sum_over f l) by (apply sum_over_le; auto). lia. Qed.

(** ** Values *)
Notation val c := (value (of_currency c)).
Lemma val_coin a k : val Coin [Portion Coin k a] = a.
Proof. rewrite value_one. reflexivity. Qed.
Lemma val_lock c d k k' a : val c [Portion d k a] = val c [Portion d k' a].
Proof. reflexivity. Qed.
Lemma val_one_add c d k a b : val c [Portion d k (a + b)] = val c [Portion d k a] + val c [Portion d k b].
Proof. rewrite !value_one. destruct (of_currency c d k); lia. Qed.
Lemma val_one_mono c d k a b : a <= b -> val c [Portion d k a] <= val c [Portion d k b].
Proof. intros H. rewrite !value_one. destruct (of_currency c d k); lia. Qed.
Lemma val_units_add c v a b : val c (units v (a + b)) = val c (units v a) + val c (units v b).
Proof. destruct v; cbn [units]; [apply val_one_add|reflexivity|apply val_one_add]. Qed.
Lemma val_units_mono c v a b : a <= b -> val c (units v a) <= val c (units v b).
Proof. intros H. destruct v; cbn [units]; [apply val_one_mono; exact H|reflexivity|apply val_one_mono; exact H]. Qed.
Lemma val_units_zero c v : val c (units v 0) = 0.
Proof. destruct v; cbn [units]; rewrite ?value_one; try reflexivity; destruct (of_currency _ _ _); reflexivity. Qed.

(** ** Single operations *)
Local Arguments value : simpl never.
Section ops.
Context (U : outpoint -> option utxo) (P : pos_state) (O : ord_state) (c : currency).

Lemma take_gives k u : U k = Some u -> gives (holding U P O c) (holding (upd U k None) P O c) 0 (val c (kept (u_output u))).
Proof.
  intros Hk. apply (gives_one _ _ (AtOutput k)).
  - intros [j|j|j|j|j] Hj; cbn; try reflexivity. unfold upd. rewrite decide_False by congruence. reflexivity.
  - cbn. unfold upd. rewrite decide_True by reflexivity. rewrite Hk. lia.
Qed.
Lemma put_gives k u : gives (holding U P O c) (holding (upd U k (Some u)) P O c) (val c (kept (u_output u))) 0.
Proof.
  apply (gives_one _ _ (AtOutput k)).
  - intros [j|j|j|j|j] Hj; cbn; try reflexivity. unfold upd. rewrite decide_False by congruence. reflexivity.
  - cbn. unfold upd. rewrite decide_True by reflexivity. lia.
Qed.

Lemma decommission_gives p P' : pos_step P (DecommissionPool p) = Ok P' ->
  exists x, ps_pool P p = Some x /\ gives (holding U P O c) (holding U P' O c) 0 (val c [Portion Coin 0 (pd_pledge x + pd_rewards x)]).
Proof.
  cbn. destruct (ps_pool P p) as [x|] eqn:Hx; [|discriminate]. intros [= <-]. exists x. split; [reflexivity|].
  apply (gives_one _ _ (InPool p)).
  - intros [j|j|j|j|j] Hj; cbn; try reflexivity. unfold put. rewrite decide_False by congruence. reflexivity.
  - cbn. unfold put. rewrite decide_True by reflexivity. rewrite Hx. lia.
Qed.
Lemma create_pool_gives p x P' : pos_step P (CreatePool p x) = Ok P' ->
  gives (holding U P O c) (holding U P' O c) (val c [Portion Coin 0 (pd_pledge x + pd_rewards x)]) 0.
Proof.
  cbn. destruct (ps_pool P p) as [y|] eqn:Hx; [discriminate|]. destruct (decide _); [discriminate|]. intros [= <-].
  apply (gives_one _ _ (InPool p)).
  - intros [j|j|j|j|j] Hj; cbn; try reflexivity. unfold put. rewrite decide_False by congruence. reflexivity.
  - cbn. unfold put. rewrite decide_True by reflexivity. lia.
Qed.
Lemma create_delegation_gives p d key P' : pos_step P (CreateDelegation p d key) = Ok P' ->
  gives (holding U P O c) (holding U P' O c) 0 0.
Proof.
  cbn. destruct (ps_pool P p) as [y|]; [|discriminate]. destruct (ps_deleg P d); [discriminate|]. intros [= <-].
  apply gives_same; [|lia]. intros [j|j|j|j|j]; cbn; reflexivity.
Qed.
Lemma delegate_gives d a P' : pos_step P (Delegate d a) = Ok P' ->
  gives (holding U P O c) (holding U P' O c) (val c [Portion Coin 0 a]) 0.
Proof.
  cbn. destruct (ps_deleg P d) as [y|]; [|discriminate]. intros [= <-].
  apply (gives_one _ _ (InDelegation d)).
  - intros [j|j|j|j|j] Hj; cbn; try reflexivity. unfold put. rewrite decide_False by congruence. reflexivity.
  - cbn. unfold put. rewrite decide_True by reflexivity. rewrite val_one_add. lia.
Qed.
Lemma spend_share_gives d a P' : a <= ps_deleg_balance P d -> pos_step P (SpendShare d a) = Ok P' ->
  gives (holding U P O c) (holding U P' O c) 0 (val c [Portion Coin 0 a]).
Proof.
  intros Ha. cbn. destruct (ps_deleg P d) as [y|]; [|discriminate]. intros [= <-].
  apply (gives_one _ _ (InDelegation d)).
  - intros [j|j|j|j|j] Hj; cbn; try reflexivity.
    + destruct (ps_pool P (dd_pool y)); reflexivity.
    + unfold put. rewrite decide_False by congruence. destruct (ps_pool P (dd_pool y)); reflexivity.
  - cbn. unfold put. rewrite decide_True by reflexivity. rewrite N.add_0_r, <- val_one_add. apply val_one_mono. lia.
Qed.

Lemma conclude_gives id O' : ord_step O (ConcludeOrder id) = Ok O' ->
  exists d, os_data O id = Some d /\
    gives (holding U P O c) (holding U P O' c) 0
      (val c (units (od_ask d) (default 0 (side_amount (od_ask d)) - os_ask O id) ++ units (od_give d) (os_give O id))).
Proof.
  cbn. destruct (os_data O id) as [d|] eqn:Hd; [|discriminate]. intros [= <-]. exists d. split; [reflexivity|].
  apply (gives_two _ _ (PaidIntoOrder id) (OfferedByOrder id)); [discriminate| |].
  - intros [j|j|j|j|j] Hj Hj'; cbn; try reflexivity; rewrite !decide_False by congruence; reflexivity.
  - cbn. rewrite !decide_True by reflexivity. rewrite Hd, value_app. lia.
Qed.
Lemma create_order_gives id d O' : ord_step O (CreateOrder id d) = Ok O' ->
  gives (holding U P O c) (holding U P O' c) (val c (worth (od_give d))) 0.
Proof.
  cbn. destruct (os_data O id) as [x|] eqn:Hd; [discriminate|]. destruct (side_amount (od_ask d)) as [a|] eqn:Ea; [|discriminate].
  destruct (side_amount (od_give d)) as [g|] eqn:Eg; [|discriminate]. destruct (decide _); [discriminate|]. intros [= <-].
  apply (gives_two _ _ (PaidIntoOrder id) (OfferedByOrder id)); [discriminate| |].
  - intros [j|j|j|j|j] Hj Hj'; cbn; try reflexivity; rewrite !decide_False by congruence; reflexivity.
  - cbn. rewrite !decide_True by reflexivity. rewrite Hd, Ea. cbn. rewrite N.sub_diag, val_units_zero. unfold worth. rewrite Eg. cbn. lia.
Qed.
Lemma freeze_gives id O' : ord_step O (FreezeOrder id) = Ok O' -> gives (holding U P O c) (holding U P O' c) 0 0.
Proof.
  cbn. destruct (os_data O id) as [d|] eqn:Hd; [|discriminate]. destruct (od_frozen d); [discriminate|]. intros [= <-].
  apply gives_same; [|lia]. intros [j|j|j|j|j]; cbn; try reflexivity; destruct (decide (id = j)) as [->|Hne]; try reflexivity; rewrite Hd; cbn; reflexivity.
Qed.
Lemma fill_gives id fill ver O' : sound_book O -> ord_step O (FillOrder id fill ver) = Ok O' ->
  exists d, os_data O id = Some d /\
    gives (holding U P O c) (holding U P O' c) (val c (units (od_ask d) fill))
      (val c (units (od_give d) (payout ver (default 0 (side_amount (od_ask d))) (default 0 (side_amount (od_give d))) (os_ask O id) (os_give O id) fill))).
Proof.
  intros HB H. specialize (HB id). cbn in H. destruct (os_data O id) as [d|] eqn:Hd; [|discriminate]. cbn in HB.
  destruct HB as (a0 & g0 & Ea & Eg & Ha0 & Hg0 & Hask & Hgive & Hprice). exists d. split; [reflexivity|].
  destruct (od_frozen d); [discriminate|]. destruct (decide (os_ask O id < fill)) as [|Hle]; [discriminate|].
  rewrite Ea, Eg in *. change (default 0 (Some a0)) with a0. change (default 0 (Some g0)) with g0.
  assert (exists pay, payout ver a0 g0 (os_ask O id) (os_give O id) fill = pay /\ pay <= os_give O id /\
    O' = put_order O id (Some d) (os_ask O id - fill) (os_give O id - pay)) as (pay & -> & Hpay & ->).
  { destruct ver; cbn [payout].
    - destruct (decide (os_ask O id = 0)) as [|Hz]; [discriminate|]. injection H as <-. eexists. split; [reflexivity|]. split; [|reflexivity].
      apply N.div_le_upper_bound; [exact Hz|]. rewrite (N.mul_comm (os_ask O id)). apply N.mul_le_mono_l. lia.
    - destruct (decide (g0 * fill / a0 = 0)); [discriminate|]. injection H as <-. eexists. split; [reflexivity|]. split; [|reflexivity].
      apply N.div_le_upper_bound; [lia|]. transitivity (g0 * os_ask O id); [apply N.mul_le_mono_l; lia|]. lia. }
  apply (gives_two _ _ (PaidIntoOrder id) (OfferedByOrder id)); [discriminate| |].
  - intros [j|j|j|j|j] Hj Hj'; cbn; try reflexivity; rewrite !decide_False by congruence; reflexivity.
  - cbn [holding put_order os_data os_ask os_give]. rewrite !decide_True by reflexivity. rewrite Hd, Ea. change (default 0 (Some a0)) with a0.
    replace (a0 - (os_ask O id - fill)) with ((a0 - os_ask O id) + fill) by lia. rewrite val_units_add.
    replace (val c (units (od_give d) (os_give O id))) with (val c (units (od_give d) ((os_give O id - pay) + pay))) by (f_equal; f_equal; lia).
    rewrite val_units_add. lia.
Qed.
End ops.

(** ** The inputs of an accepted transaction *)
Definition minted (c : currency) (i : tx_input) : N :=
  match i with InCommand _ (CmdMint id a) => val c [Portion (Token id) 0 a] | _ => 0 end.
Definition in_ok (U0 : outpoint -> option utxo) (io : tx_input * option tx_output) : Prop :=
  match io.1 with
  | InUtxo k => exists u, U0 k = Some u /\ io.2 = Some (u_output u) /\ spendable_in_tx (u_output u) = true
  | _ => True
  end.
(** The staking tables [P] while the inputs are applied, next to those the values are computed from *)
Definition follows (P L : pos_state) : Prop :=
  (forall p x, ps_pool P p = Some x -> ps_pool L p = Some x) /\ (forall d, ps_deleg P d = ps_deleg L d) /\
  (forall d, ps_deleg_balance P d = ps_deleg_balance L d).
Lemma follows_refl P : follows P P.
Proof. repeat split; auto. Qed.
Lemma follows_decommission P L p P' : follows P L -> pos_step P (DecommissionPool p) = Ok P' -> follows P' L.
Proof.
  intros (F1 & F2 & F3). cbn. destruct (ps_pool P p); [|discriminate]. intros [= <-]. split; [|split; assumption]. cbn. unfold put.
  intros q x. destruct (decide (p = q)); [discriminate|]. apply F1.
Qed.
Lemma follows_spend P L d a P' : follows P L -> pos_step P (SpendShare d a) = Ok P' ->
  exists L', pos_step L (SpendShare d a) = Ok L' /\ follows P' L'.
Proof.
  intros (F1 & F2 & F3). cbn. rewrite <- F2. destruct (ps_deleg P d) as [y|]; [|discriminate]. intros [= <-]. eexists. split; [reflexivity|].
  split; [|split].
  - intros q x. destruct (ps_pool P (dd_pool y)), (ps_pool L (dd_pool y)); cbn; apply F1.
  - intros e. destruct (ps_pool P (dd_pool y)), (ps_pool L (dd_pool y)); cbn; apply F2.
  - intros e. cbn. unfold put. rewrite <- F3. destruct (ps_pool P (dd_pool y)), (ps_pool L (dd_pool y)); cbn; destruct (decide (d = e)); auto.
Qed.

Lemma inputs_pos_fit cf U0 : forall l P L, follows P (lg_pos L) -> inputs_fit cf L l ->
  fit pos_step pos_fits P (concat (map (pos_ops_in U0) l.*1)).
Proof.
  induction l as [|[i o] l IH]; intros P L F Hf; [exact Logic.I|]. cbn [fmap list_fmap fst map concat]. cbn [inputs_fit fst] in Hf. destruct Hf as [Hf Hr].
  assert (forall P', follows P' (lg_pos L) -> lg_pos (after_input cf L (i, o)) = lg_pos L -> fit pos_step pos_fits P' (concat (map (pos_ops_in U0) l.*1))) as G.
  { intros P' F' E. apply (IH P' (after_input cf L (i, o))); [rewrite E; exact F'|exact Hr]. }
  destruct i as [k|nonce d a|nonce cm|oc]; cbn [pos_ops_in].
  - destruct (U0 k) as [u|]; [|exact (G P F eq_refl)].
    destruct (u_output u); cbn [app]; try exact (G P F eq_refl);
      (split; [exact Logic.I|]; intros P' E; exact (G P' (follows_decommission _ _ _ _ F E) eq_refl)).
  - cbn [app fit]. split; [cbn; rewrite (proj2 (proj2 F)); exact Hf|]. intros P' E.
    destruct (follows_spend _ _ _ _ _ F E) as (L' & E' & F'). apply (IH P' (after_input cf L (InAccount nonce d a, o))); [|exact Hr].
    unfold after_input. cbn [fst]. rewrite E'. exact F'.
  - cbn [app]. apply (G P F). unfold after_input. cbn [fst].
    destruct cm; try reflexivity; unfold with_tok, with_ord; match goal with |- context [match ?r with _ => _ end] => destruct r; reflexivity end.
  - cbn [app]. apply (G P F). unfold after_input. cbn [fst].
    destruct oc; try reflexivity; unfold with_tok, with_ord; match goal with |- context [match ?r with _ => _ end] => destruct r; reflexivity end.
Qed.

Lemma spent_upd (U U0 : outpoint -> option utxo) k ks : NoDup (k :: ks) -> (forall j, j ∈ k :: ks -> U j = U0 j) -> forall j, j ∈ ks -> upd U k None j = U0 j.
Proof.
  intros Hn H j Hj. apply NoDup_cons in Hn as [Hn _]. unfold upd. rewrite decide_False by congruence. apply H. right. exact Hj.
Qed.

Lemma count_cons {A} (f : A -> bool) x l : count f (x :: l) = ((if f x then 1 else 0) + count f l)%nat.
Proof. unfold count. cbn. destruct (f x); reflexivity. Qed.

Lemma inputs_give cf c U0 (f : tx_input -> list ord_op) : (forall i, f i = ord_ops_in i \/ exists id, i = InOrder (OcFreeze id) /\ f i = []) -> forall l U P O L U' P' O',
  NoDup (spent_by l.*1) -> Forall (in_ok U0) l -> (forall k, k ∈ spent_by l.*1 -> U k = U0 k) -> follows P (lg_pos L) ->
  count is_command l.*1 = 0%nat \/ ((count is_command l.*1 <= 1)%nat /\ O = lg_ord L /\ sound_book O) ->
  forallb (order_input_ok (cf_orders cf)) l.*1 = true -> inputs_fit cf L l ->
  take_all U (spent_by l.*1) = Some U' -> ran pos_step P (concat (map (pos_ops_in U0) l.*1)) P' ->
  ran ord_step O (concat (map f l.*1)) O' ->
  gives (holding U P O c) (holding U' P' O' c) (val c (charged cf L l) + sum_over (minted c) l.*1) (val c (unlocked cf L l)).
Proof.
  intros Hfz. induction l as [|[i o] l IH]; intros U P O L U' P' O' Hnd Hok HU F HO Hver Hf Ht HP Hran.
  { cbn in Ht, HP, Hran. injection Ht as <-. subst. apply gives_same; [reflexivity|]. cbn. lia. }
  cbn [fmap list_fmap fst map concat] in Hnd, HU, HO, Hver, Ht, HP, Hran |- *. apply Forall_cons in Hok as [Hi Hok'].
  cbn [inputs_fit fst] in Hf. destruct Hf as [Hf Hr]. cbn [forallb] in Hver. apply andb_true_iff in Hver as [Hv Hver].
  apply ran_app in HP as (P1 & HP1 & HP2). apply ran_app in Hran as (O1 & HO1 & HO2).
  cbn [charged unlocked]. rewrite !value_app, sum_over_cons. rewrite count_cons in HO.
  enough (exists U1, take_all U1 (spent_by l.*1) = Some U' /\ (forall k, k ∈ spent_by l.*1 -> U1 k = U0 k) /\ follows P1 (lg_pos (after_input cf L (i, o))) /\
    (count is_command l.*1 = 0%nat \/ ((count is_command l.*1 <= 1)%nat /\ O1 = lg_ord (after_input cf L (i, o)) /\ sound_book O1)) /\
    NoDup (spent_by l.*1) /\
    gives (holding U P O c) (holding U1 P1 O1 c) (val c (input_costs cf L (i, o)) + minted c i) (val c (input_yields cf L (i, o)))) as
    (U1 & A1 & A2 & A3 & A4 & A5 & A6).
  { eapply gives_weaken; [eapply gives_trans; [exact A6|]; apply (IH U1 P1 O1 (after_input cf L (i, o)) U' P' O'); assumption| |]; lia. }
  clear IH. assert (ran ord_step O (ord_ops_in i) O1 \/ exists id, i = InOrder (OcFreeze id) /\ O1 = O) as Hord.
  { destruct (Hfz i) as [E|(id & -> & E)]; rewrite E in HO1; [left; exact HO1|right; eauto]. }
  clear HO1. destruct i as [k|nonce d a|nonce cm|oc]; [destruct Hord as [HO1|(? & [=] & _)]..|].
  - cbn [spent_by] in Hnd, HU, Ht. cbn [take_all] in Ht. destruct Hi as (u & Hu & Ho & Hs). cbn [fst snd] in Hu, Ho. subst o.
    rewrite (HU k) in Ht by left. rewrite Hu in Ht. cbn [ord_ops_in] in HO1. cbn in HO1. subst O1.
    exists (upd U k None). split; [exact Ht|]. split; [exact (spent_upd _ _ _ _ Hnd HU)|].
    assert (follows P1 (lg_pos L) /\ gives (holding (upd U k None) P O c) (holding (upd U k None) P1 O c) 0
      (val c (output_yields cf L (u_output u)) - val c (kept (u_output u))) /\ val c (kept (u_output u)) <= val c (output_yields cf L (u_output u))) as (F1 & G1 & G2).
    { cbn [pos_ops_in] in HP1. rewrite Hu in HP1.
      destruct (u_output u) as [v dst|v dst tl|v|p sp|dst p|dst p|a del|is|id da dst|da|v hc|od] eqn:Eo; try discriminate Hs; cbn [ran] in HP1;
        cbn [kept output_yields].
      1,2,5,6: subst P1; split; [exact F|]; split; [apply gives_same; [reflexivity|lia]|reflexivity].
      all: destruct HP1 as (P2 & E & ->); split; [exact (follows_decommission _ _ _ _ F E)|].
      all: destruct (decommission_gives (upd U k None) P O c _ _ E) as (x & Hx & G); rewrite (proj1 F _ _ Hx).
      all: split; [|rewrite value_nil; lia]; rewrite value_nil, N.sub_0_r; exact G. }
    split; [exact F1|]. split; [exact HO|]. split; [apply NoDup_cons in Hnd; tauto|].
    cbn [input_costs input_yields minted fst]. rewrite value_nil.
    assert (U k = Some u) as HUk by (rewrite HU by left; exact Hu).
    eapply gives_weaken; [eapply gives_trans; [exact (take_gives U P O c k u HUk)|exact G1]| |]; lia.
  - exists U. cbn [pos_ops_in ran] in HP1. destruct HP1 as (P2 & E & ->). cbn [ord_ops_in ran] in HO1. subst O1. cbn [is_command] in HO.
    destruct (follows_spend _ _ _ _ _ F E) as (L' & E' & F'). split; [exact Ht|]. split; [exact HU|].
    assert (a <= ps_deleg_balance P d) as Ha by (rewrite (proj2 (proj2 F)); exact Hf).
    unfold after_input. cbn [fst]. rewrite E'. cbn [with_pos lg_pos lg_ord]. split; [exact F'|]. split; [exact HO|]. split; [exact Hnd|].
    cbn [input_costs input_yields minted fst]. rewrite value_nil. rewrite (val_lock _ _ _ 0). exact (spend_share_gives U P O c d a _ Ha E).
  - exists U. cbn [pos_ops_in ran] in HP1. subst P1. cbn [is_command] in HO. assert (count is_command l.*1 = 0%nat /\ O = lg_ord L /\ sound_book O) as (Hc0 & HOL & Hsb).
    { destruct HO as [HO|(HO & H1 & H2)]; [lia|]. split; [lia|auto]. }
    split; [exact Ht|]. split; [exact HU|]. split; [|split; [left; exact Hc0|]; split; [exact Hnd|]].
    { assert (lg_pos (after_input cf L (InCommand nonce cm, o)) = lg_pos L) as ->; [|exact F]. unfold after_input. cbn [fst].
      destruct cm; try reflexivity; unfold with_tok, with_ord; match goal with |- context [match ?r with _ => _ end] => destruct r; reflexivity end. }
    destruct cm as [id a|id|id|id b|id|id dst|id|id a dst|id uri]; cbn [ord_ops_in ran] in HO1; cbn [input_costs input_yields minted fst];
      try (subst O1; apply gives_same; [reflexivity|rewrite ?value_nil; lia]).
    + destruct HO1 as (O2 & E & ->). destruct (conclude_gives U P O c _ _ E) as (d & Hd & G). unfold closing_yields. rewrite <- HOL, Hd, value_nil. exact G.
    + destruct HO1 as (O2 & E & ->). destruct (fill_gives U P O c _ _ _ _ Hsb E) as (d & Hd & G). unfold filling_yields. rewrite <- HOL, Hd.
      cbn [order_input_ok] in Hv. destruct (cf_orders cf); [|discriminate Hv]. rewrite N.add_0_r. exact G.
  - exists U. cbn [pos_ops_in ran] in HP1. subst P1. cbn [is_command] in HO. assert (count is_command l.*1 = 0%nat /\ O = lg_ord L /\ sound_book O) as (Hc0 & HOL & Hsb).
    { destruct HO as [HO|(HO & H1 & H2)]; [lia|]. split; [lia|auto]. }
    split; [exact Ht|]. split; [exact HU|]. split; [|split; [left; exact Hc0|]; split; [exact Hnd|]].
    { assert (lg_pos (after_input cf L (InOrder oc, o)) = lg_pos L) as ->; [|exact F]. unfold after_input. cbn [fst].
      destruct oc; try reflexivity; unfold with_tok, with_ord; match goal with |- context [match ?r with _ => _ end] => destruct r; reflexivity end. }
    destruct Hord as [HO1|(id & -> & ->)]; [|cbn [input_costs input_yields minted fst]; apply gives_same; [reflexivity|rewrite value_nil; lia]].
    destruct oc as [id a|id|id]; cbn [ord_ops_in ran] in HO1; cbn [input_costs input_yields minted fst]; destruct HO1 as (O2 & E & ->).
    + destruct (fill_gives U P O c _ _ _ _ Hsb E) as (d & Hd & G). unfold filling_yields. rewrite <- HOL, Hd.
      cbn [order_input_ok] in Hv. destruct (cf_orders cf); [discriminate Hv|]. rewrite N.add_0_r. exact G.
    + rewrite value_nil. exact (freeze_gives U P O c _ _ E).
    + destruct (conclude_gives U P O c _ _ E) as (d & Hd & G). unfold closing_yields. rewrite <- HOL, Hd, value_nil. exact G.
Qed.

(** ** The outputs *)
Definition nfts (c : currency) (o : tx_output) : N := match o with OIssueNft id _ _ => val c [Portion (Token id) 0 1] | _ => 0 end.
Definition burnt (c : currency) (o : tx_output) : N := match o with OBurn v => val c (worth v) | _ => 0 end.
Lemma lock_costs c cf v d t : val c (output_costs cf (OLockThenTransfer v d t)) = val c (worth v).
Proof. destruct v, t; reflexivity. Qed.
Lemma needed_cons cf o outs : needed cf (o :: outs) = output_costs cf o ++ needed cf outs.
Proof. reflexivity. Qed.

Lemma output_pos_gives cf cc ins c o U P O P' : ran pos_step P (pos_ops_out cc ins o) P' ->
  gives (holding U P O c) (holding U P' O c) (match o with OCreateStakePool _ _ | ODelegateStaking _ _ => val c (output_costs cf o) | _ => 0 end) 0.
Proof.
  intros H. destruct o as [v dst|v dst tl|v|p sp|dst p|dst p|a del|is|id da dst|da|v hc|od]; cbn [pos_ops_out ran] in H;
    try (subst P'; apply gives_same; [reflexivity|lia]).
  - destruct H as (P1 & E & ->). pose proof (create_pool_gives U P O c _ _ _ E) as G. unfold pool_of in G. cbn [pd_pledge pd_rewards] in G.
    rewrite N.add_0_r in G. exact G.
  - destruct (first_outpoint ins); cbn [ran] in H; [|subst P'; apply gives_same; [reflexivity|lia]].
    destruct H as (P1 & E & ->). exact (create_delegation_gives U P O c _ _ _ _ E).
  - destruct H as (P1 & E & ->). exact (delegate_gives U P O c _ _ _ E).
Qed.
Lemma outputs_give cf cc ins c hs src : forall outs i U P O P' O',
  ran pos_step P (concat (map (pos_ops_out cc ins) outs)) P' -> ran ord_step O (concat (map (ord_ops_out cc ins) outs)) O' ->
  gives (holding U P O c) (holding (put_all U hs (created_from src i outs)) P' O' c)
    (val c (needed cf outs) + sum_over (nfts c) outs) (sum_over (burnt c) outs).
Proof.
  induction outs as [|o outs IH]; intros i U P O P' O' HP HO.
  { cbn in HP, HO. subst. apply gives_same; [reflexivity|]. cbn. lia. }
  cbn [map concat] in HP, HO. apply ran_app in HP as (P1 & HP1 & HP2). apply ran_app in HO as (O1 & HO1 & HO2).
  rewrite needed_cons, value_app, !sum_over_cons.
  enough (exists U1, put_all U hs (created_from src i (o :: outs)) = put_all U1 hs (created_from src (i + 1) outs) /\
    gives (holding U P O c) (holding U1 P1 O1 c) (val c (output_costs cf o) + nfts c o) (burnt c o)) as (U1 & -> & G).
  { eapply gives_weaken; [eapply gives_trans; [exact G|exact (IH (i + 1) U1 P1 O1 P' O' HP2 HO2)]| |]; lia. }
  clear IH. pose proof (output_pos_gives cf cc ins c o U P O P1 HP1) as GP.
  cbn [created_from]. destruct (spendable o) eqn:Es.
  - cbn [put_all]. exists (upd U (src, i) (Some (Utxo o hs))). split; [reflexivity|].
    pose proof (put_gives U P1 O c (src, i) (Utxo o hs)) as GU. cbn [u_output] in GU.
    assert (O1 = O) as -> by (destruct o; try discriminate Es; exact HO1).
    eapply gives_weaken; [eapply gives_trans; [exact GP|exact GU]| |].
    + destruct o; try discriminate Es; cbn [kept nfts]; rewrite ?value_nil, ?lock_costs; cbn [output_costs]; rewrite ?value_nil; lia.
    + destruct o; try discriminate Es; cbn [burnt]; lia.
  - exists U. split; [reflexivity|].
    destruct o as [v dst|v dst tl|v|p sp|dst p|dst p|a del|is|id da dst|da|v hc|od]; try discriminate Es; cbn [ord_ops_out ran] in HO1; cbn [nfts burnt output_costs] in GP |- *.
    all: try (subst O1; eapply gives_net; [exact GP|]; rewrite ?value_nil; lia).
    cbn [pos_ops_out ran] in HP1. subst P1. destruct (first_outpoint ins); cbn [ran] in HO1; [|subst O1; apply gives_same; [reflexivity|lia]].
    destruct HO1 as (O2 & E & ->). eapply gives_weaken; [exact (create_order_gives U P O c _ _ _ E)| |]; cbn [new_order od_give]; lia.
Qed.

(** ** Pools in use, pools that are gone *)
Definition uses (P : pos_state) (p : N) : Prop := is_Some (ps_pool P p) \/ exists d x, ps_deleg P d = Some x /\ dd_pool x = p.
Lemma step_uses P o P' p : pos_step P o = Ok P' -> uses P' p -> uses P p \/ exists x, o = CreatePool p x.
Proof.
  intros H Hu. destruct o as [q x|q|q a|q d key|d|d a|d a]; cbn in H.
  - destruct (ps_pool P q) eqn:E; [discriminate|]. destruct (decide _); [discriminate|]. injection H as <-.
    destruct (decide (q = p)) as [->|Hne]; [right; eauto|left]. destruct Hu as [Hu|Hu]; [left|right; exact Hu].
    cbn in Hu. unfold put in Hu. rewrite decide_False in Hu by exact Hne. exact Hu.
  - destruct (ps_pool P q) eqn:E; [|discriminate]. injection H as <-. left. destruct Hu as [Hu|Hu]; [left|right; exact Hu].
    cbn in Hu. unfold put in Hu. destruct (decide (q = p)); [destruct Hu; discriminate|exact Hu].
  - destruct (ps_pool P q) eqn:E; [|discriminate]. injection H as <-. left. destruct Hu as [Hu|Hu]; [left|right; exact Hu].
    cbn in Hu. unfold put in Hu. destruct (decide (q = p)) as [->|]; [rewrite E; eauto|exact Hu].
  - destruct (ps_pool P q) eqn:E; [|discriminate]. destruct (ps_deleg P d) eqn:Ed; [discriminate|]. injection H as <-. left.
    destruct Hu as [Hu|(d' & x & Hd & Hx)]; [left; exact Hu|]. cbn in Hd. unfold put in Hd. destruct (decide (d = d')); [|right; eauto].
    injection Hd as <-. cbn in Hx. subst q. left. rewrite E. eauto.
  - destruct (ps_deleg P d) as [y|] eqn:Ed; [|discriminate]. destruct (decide _); [discriminate|]. destruct (ps_pool P (dd_pool y)); [discriminate|]. injection H as <-. left.
    destruct Hu as [Hu|(d' & x & Hd & Hx)]; [left; exact Hu|]. cbn in Hd. unfold put in Hd. destruct (decide (d = d')); [discriminate|right; eauto].
  - destruct (ps_deleg P d) as [y|]; [|discriminate]. injection H as <-. left. exact Hu.
  - destruct (ps_deleg P d) as [y|]; [|discriminate]. injection H as <-. left. unfold uses in *. destruct (ps_pool P (dd_pool y)); exact Hu.
Qed.
Lemma unused_shares P p : sound_stakes P -> ~ uses P p -> forall d, ps_share P (p, d) = 0.
Proof.
  intros (_ & S2 & S3) Hn d. destruct (ps_deleg P d) as [x|] eqn:E.
  - destruct (S2 _ _ E) as [_ H]. apply H. intros ->. apply Hn. right. eauto.
  - exact (proj2 (S3 _ E) p).
Qed.

Definition dead_ok (P : pos_state) (D : N) : Prop := forall p, ps_pool P p = None -> ps_pool_balance P p <= D.
Definition delegating (o : pos_op) : N := match o with Delegate _ a => a | _ => 0 end.
Lemma step_dead P o P' D : pos_step P o = Ok P' -> dead_ok P D -> dead_ok P' (D + delegating o).
Proof.
  intros H Hd p Hp. destruct o as [q x|q|q a|q d key|d|d a|d a]; cbn in H; cbn [delegating].
  - destruct (ps_pool P q) eqn:E; [discriminate|]. destruct (decide (0 < ps_pool_balance P q)); [discriminate|]. injection H as <-. cbn in *. unfold put in *.
    destruct (decide (q = p)); [discriminate|]. specialize (Hd _ Hp). lia.
  - destruct (ps_pool P q) eqn:E; [|discriminate]. injection H as <-. cbn in *. unfold put in *. destruct (decide (q = p)); [lia|]. specialize (Hd _ Hp). lia.
  - destruct (ps_pool P q) eqn:E; [|discriminate]. injection H as <-. cbn in *. unfold put in *. destruct (decide (q = p)); [discriminate|]. specialize (Hd _ Hp). lia.
  - destruct (ps_pool P q) eqn:E; [|discriminate]. destruct (ps_deleg P d) eqn:Ed; [discriminate|]. injection H as <-. cbn in *. specialize (Hd _ Hp). lia.
  - destruct (ps_deleg P d) as [y|] eqn:Ed; [|discriminate]. destruct (decide _); [discriminate|]. destruct (ps_pool P (dd_pool y)); [discriminate|]. injection H as <-.
    cbn in *. specialize (Hd _ Hp). lia.
  - destruct (ps_deleg P d) as [y|]; [|discriminate]. injection H as <-. cbn in *. unfold put. specialize (Hd _ Hp). destruct (decide (dd_pool y = p)) as [->|]; lia.
  - destruct (ps_deleg P d) as [y|]; [|discriminate]. injection H as <-. destruct (ps_pool P (dd_pool y)) as [z|] eqn:E; cbn in *; [|specialize (Hd _ Hp); lia].
    unfold put. destruct (decide (dd_pool y = p)) as [Ep|]; [rewrite Ep in E; rewrite E in Hp; discriminate Hp|]. specialize (Hd _ Hp). lia.
Qed.
Lemma ran_dead ops : forall P P' D, ran pos_step P ops P' -> dead_ok P D -> dead_ok P' (D + sum_over delegating ops).
Proof.
  induction ops as [|o ops IH]; intros P P' D H Hd; cbn [ran] in H.
  - subst. cbn. rewrite N.add_0_r. exact Hd.
  - destruct H as (P1 & H1 & H). rewrite sum_over_cons, N.add_assoc. exact (IH _ _ _ H (step_dead _ _ _ _ H1 Hd)).
Qed.
Lemma ran_uses ops p : forall P P', ran pos_step P ops P' -> uses P' p -> uses P p \/ exists x, CreatePool p x ∈ ops.
Proof.
  induction ops as [|o ops IH]; intros P P' H Hu; cbn [ran] in H.
  - subst. left. exact Hu.
  - destruct H as (P1 & H1 & H). destruct (IH _ _ H Hu) as [Hu1|(x & Hx)]; [|right; exists x; right; exact Hx].
    destruct (step_uses _ _ _ _ H1 Hu1) as [G|(x & ->)]; [left; exact G|right; exists x; left].
Qed.
Lemma ran_sound ops : forall P P', sound_stakes P -> fit pos_step pos_fits P ops -> ran pos_step P ops P' -> sound_stakes P'.
Proof.
  induction ops as [|o ops IH]; intros P P' Hs Hf H; cbn [ran fit] in *.
  - subst. exact Hs.
  - destruct H as (P1 & H1 & H), Hf as [Hf Hr]. exact (IH _ _ (pos_step_sound _ _ _ Hs Hf H1) (Hr _ H1) H).
Qed.

Lemma pool_balance_le U P O n p x : sound_stakes P -> ps_pool P p = Some x -> at_most (holding U P O Coin) n -> ps_pool_balance P p <= n.
Proof.
  intros (S1 & S2 & S3) Hx Hn. destruct (S1 _ _ Hx) as (m & (l & Hl & Hz & ->) & ->).
  specialize (Hn (InPool p :: map InDelegation l)). rewrite sum_over_cons in Hn.
  assert (NoDup (InPool p :: map InDelegation l)) as HN.
  { apply NoDup_cons. split; [|apply NoDup_fmap_2; [intros ? ? [= ->]; reflexivity|exact Hl]]. intros Hin. apply elem_of_list_fmap in Hin as (? & [=] & _). }
  specialize (Hn HN). cbn [holding] in Hn. rewrite Hx, val_coin in Hn.
  assert (sum_over (fun d => ps_share P (p, d)) l <= sum_over (holding U P O Coin) (map InDelegation l)) as Hle; [|lia].
  clear -S2 S3. induction l as [|d l IH]; [reflexivity|]. cbn [map]. rewrite !sum_over_cons. cbn [holding]. rewrite val_coin.
  assert (ps_share P (p, d) <= ps_deleg_balance P d); [|lia]. destruct (ps_deleg P d) as [y|] eqn:E.
  - destruct (S2 _ _ E) as [E1 E2]. destruct (decide (p = dd_pool y)) as [->|Hne]; [rewrite E1; lia|rewrite E2 by exact Hne; lia].
  - destruct (S3 _ E) as [_ E2]. rewrite E2. lia.
Qed.

Lemma delegating_outs cc ins outs : sum_over delegating (concat (map (pos_ops_out cc ins) outs)) = sum_over delegated outs.
Proof.
  induction outs as [|o outs IH]; [reflexivity|]. cbn [map concat]. rewrite sum_over_app, IH, sum_over_cons. f_equal.
  destruct o; cbn; try reflexivity; [destruct (first_outpoint ins); reflexivity|lia].
Qed.
Lemma delegating_ins U ins : sum_over delegating (concat (map (pos_ops_in U) ins)) = 0.
Proof.
  apply sum_over_zero. intros o Ho. apply elem_of_list_In, in_concat in Ho as (l & Hl & Ho). apply in_map_iff in Hl as (i & <- & _).
  destruct i as [k| | |]; cbn in Ho; try (destruct Ho; fail).
  - destruct (U k) as [u|]; [|destruct Ho]. destruct (u_output u); cbn in Ho; try (destruct Ho; fail); destruct Ho as [<-|[]]; reflexivity.
  - destruct Ho as [<-|[]]; reflexivity.
Qed.

Lemma outputs_pos_fit cf cc ins p0 : forall outs U P O n D,
  at_most (holding U P O Coin) n -> (Z.of_N (n + val Coin (needed cf outs)) <= I128_MAX)%Z -> sound_stakes P ->
  dead_ok P D -> (Z.of_N (D + sum_over delegated outs) <= I128_MAX)%Z -> (forall q dat, OCreateStakePool q dat ∈ outs -> q = p0) ->
  count is_create_pool outs = 0%nat \/ ((count is_create_pool outs <= 1)%nat /\ ~ uses P p0) ->
  fit pos_step pos_fits P (concat (map (pos_ops_out cc ins) outs)).
Proof.
  induction outs as [|o outs IH]; intros U P O n D Hn Hb Hs Hd HD Hp Hc; [exact Logic.I|].
  rewrite needed_cons, value_app in Hb. rewrite sum_over_cons in HD. rewrite count_cons in Hc. cbn [map concat]. apply fit_app.
  assert (fit pos_step pos_fits P (pos_ops_out cc ins o)) as Hfit.
  { destruct o as [v dst|v dst tl|v|p sp|dst p|dst p|a del|is|id da dst|da|v hc|od]; try exact Logic.I; cbn [pos_ops_out].
    - cbn [fit]. split; [|auto]. cbn [pos_fits pool_of pd_pledge pd_rewards]. intros _. cbn [output_costs] in Hb. rewrite val_coin in Hb.
      split; [clear -Hb; lia|]. split; [reflexivity|]. cbn [is_create_pool] in Hc. destruct Hc as [Hc|[_ Hu]]; [lia|].
      rewrite (Hp p sp) by left. exact (unused_shares _ _ Hs Hu).
    - destruct (first_outpoint ins); [|exact Logic.I]. cbn [fit]. split; [exact Logic.I|auto].
    - cbn [fit]. split; [|auto]. cbn [pos_fits]. intros x Hx. cbn [output_costs] in Hb. rewrite val_coin in Hb. cbn [delegated] in HD. split.
      + pose proof (at_most_get _ _ (InDelegation del) Hn) as Hg. cbn [holding] in Hg. rewrite val_coin in Hg. clear -Hb Hg. lia.
      + destruct (ps_pool P (dd_pool x)) as [y|] eqn:E.
        * pose proof (pool_balance_le _ _ _ _ _ _ Hs E Hn) as Hg. clear -Hb Hg. lia.
        * pose proof (Hd _ E) as Hg. clear -HD Hg. lia. }
  split; [exact Hfit|]. intros P1 HR.
  destruct (output_pos_gives cf cc ins Coin o U P O P1 HR _ Hn) as (n1 & Hn1 & Hle).
  apply (IH U P1 O n1 (D + delegated o)).
  - exact Hn1.
  - assert (n1 <= n + val Coin (output_costs cf o)) as Hle' by (clear -Hle; destruct o; lia). clear -Hb Hle'. lia.
  - exact (ran_sound _ _ _ Hs Hfit HR).
  - pose proof (ran_dead _ _ _ _ HR Hd) as G. replace (sum_over delegating (pos_ops_out cc ins o)) with (delegated o) in G; [exact G|].
    pose proof (delegating_outs cc ins [o]) as E. cbn [map concat] in E. rewrite app_nil_r in E. rewrite E, sum_over_cons. cbn. lia.
  - rewrite <- N.add_assoc. exact HD.
  - intros q dat Hq. apply (Hp q dat). right. exact Hq.
  - destruct Hc as [Hc|[Hc Hu]]; [left; lia|]. destruct (is_create_pool o) eqn:Eo; [left; lia|]. right. split; [lia|]. intros Hu1.
    destruct (ran_uses _ _ _ _ HR Hu1) as [G|(x & Hx)]; [exact (Hu G)|].
    destruct o; try discriminate Eo; cbn [pos_ops_out] in Hx; try (destruct (first_outpoint ins)); try (apply elem_of_nil in Hx; destruct Hx);
      try (apply elem_of_list_singleton in Hx; discriminate Hx).
Qed.
