(** Proofs about the value accumulator. *)
From stdpp Require Import sorting.
From Verif Require Import Base BaseProofs AmountModel DeltaModel LayeredModel TokensModel OrdersModel PosModel PrimModel ChainModel.
From Verif Require Import DeltaSpec DeltaProofs LayerProofs TokensSpec OrdersSpec PosSpec TokensProofs OrdersProofs PosProofs ConstraintsModel ConstraintsSpec.
Local Open Scope N_scope.

(** ** Sums over maps *)
Definition sumP {K} `{Countable K} (P : K -> bool) (m : gmap K N) : N :=
  sum_over (fun ka => if P ka.1 then ka.2 else 0) (map_to_list m).
Definition pick {K} (P : K -> bool) (k : K) (a : N) : N := if P k then a else 0.

Lemma sum_over_app {A} (f : A -> N) l1 l2 : sum_over f (l1 ++ l2) = sum_over f l1 + sum_over f l2.
Proof. induction l1 as [|x l1 IH]; [reflexivity|]. cbn [app]. rewrite !sum_over_cons, IH. lia. Qed.
Lemma sum_over_le {A} (f g : A -> N) l : (forall x, x ∈ l -> f x <= g x) -> sum_over f l <= sum_over g l.
Proof.
  induction l as [|x l IH]; intros H; [reflexivity|]. rewrite !sum_over_cons.
  assert (f x <= g x) by (apply H; left). assert (sum_over f l <= sum_over g l) by (apply IH; intros y Hy; apply H; right; exact Hy). lia.
Qed.
Lemma sum_over_zero {A} (f : A -> N) l : (forall x, x ∈ l -> f x = 0) -> sum_over f l = 0.
Proof.
  induction l as [|x l IH]; intros H; [reflexivity|]. rewrite sum_over_cons, (H x) by left.
  rewrite IH; [reflexivity|]. intros y Hy. apply H. right. exact Hy.
Qed.

Section sums.
Context {K : Type} {EqK : EqDecision K} {CntK : Countable K}.
Implicit Types (m : gmap K N) (P : K -> bool).
Lemma sumP_empty P : sumP P (∅ : gmap K N) = 0.
Proof. unfold sumP. rewrite map_to_list_empty. reflexivity. Qed.
Lemma sumP_delete P m k : sumP P m = pick P k (default 0 (m !! k)) + sumP P (delete k m).
Proof.
  unfold sumP, pick. destruct (m !! k) as [a|] eqn:E; cbn.
  - rewrite <- (sum_over_perm _ _ _ (map_to_list_delete m k a E)). rewrite sum_over_cons. reflexivity.
  - rewrite delete_notin by exact E. destruct (P k); reflexivity.
Qed.
Lemma sumP_insert P m k a : sumP P (<[k := a]> m) = pick P k a + sumP P (delete k m).
Proof. rewrite (sumP_delete P _ k), lookup_insert, delete_insert_delete. reflexivity. Qed.
Lemma sumP_add P m k a : sumP P (<[k := default 0 (m !! k) + a]> m) = sumP P m + pick P k a.
Proof. rewrite sumP_insert, (sumP_delete P m k). unfold pick. destruct (P k); lia. Qed.
Lemma sumP_sub P m k v a : m !! k = Some v -> a <= v -> sumP P m = sumP P (<[k := v - a]> m) + pick P k a.
Proof. intros E H. rewrite sumP_insert, (sumP_delete P m k), E. cbn. unfold pick. destruct (P k); lia. Qed.
Lemma sumP_ext P Q m : (forall k, is_Some (m !! k) -> P k = Q k) -> sumP P m = sumP Q m.
Proof.
  intros H. apply sum_over_ext. intros [k a] Hk. apply elem_of_map_to_list in Hk. cbn. rewrite H; [reflexivity|eexists; exact Hk].
Qed.
Lemma sumP_singleton P k a : sumP P ({[ k := a ]} : gmap K N) = pick P k a.
Proof. unfold sumP. rewrite map_to_list_singleton, sum_over_cons. cbn. unfold pick. destruct (P k); lia. Qed.
Lemma sumP_one m k : sumP (fun k' => bool_decide (k' = k)) m = default 0 (m !! k).
Proof.
  rewrite (sumP_delete _ m k). unfold pick. rewrite bool_decide_true by reflexivity.
  assert (sumP (fun k' => bool_decide (k' = k)) (delete k m) = 0) as ->; [|lia].
  unfold sumP. apply sum_over_zero. intros [k' a] H. apply elem_of_map_to_list in H. cbn.
  apply lookup_delete_Some in H as [H _]. rewrite bool_decide_false by congruence. reflexivity.
Qed.
Lemma sumP_keys P m l : NoDup l -> (forall k, k ∈ l -> P k = true) -> (forall k, is_Some (m !! k) -> P k = true -> k ∈ l) ->
  sumP P m = sum_over (fun k => default 0 (m !! k)) l.
Proof.
  intros Hn Hp Hm. revert m Hm. induction l as [|k l IH]; intros m Hm.
  - unfold sumP. apply sum_over_zero. intros [k a] H. apply elem_of_map_to_list in H. cbn.
    destruct (P k) eqn:E; [|reflexivity]. exfalso. apply (not_elem_of_nil k), Hm; [eexists; exact H|exact E].
  - apply NoDup_cons in Hn as [Hk Hn]. rewrite sum_over_cons, (sumP_delete P m k).
    unfold pick. rewrite (Hp k) by left. f_equal. rewrite IH; [|exact Hn|intros; apply Hp; right; assumption|].
    + apply sum_over_ext. intros k' H. rewrite lookup_delete_ne; [reflexivity|]. intros ->. contradiction.
    + intros k' Hs HP. destruct (decide (k' = k)) as [->|Hne].
      * rewrite lookup_delete in Hs. destruct Hs; discriminate.
      * rewrite lookup_delete_ne in Hs by congruence. specialize (Hm k' Hs HP). apply elem_of_cons in Hm as [?|?]; [contradiction|assumption].
Qed.
Lemma sumP_le_all P m : sumP P m <= sumP (fun _ => true) m.
Proof. apply sum_over_le. intros [k a] _. cbn. destruct (P k); lia. Qed.

(** [insert_or_increase] *)
Lemma increase_ok m k a m' : insert_or_increase m k a = Ok m' -> m' = <[k := default 0 (m !! k) + a]> m.
Proof.
  unfold insert_or_increase, amount_add, checked_add. destruct (_ <=? U128_MAX); cbn; congruence.
Qed.
Lemma increase_sum P m k a m' : insert_or_increase m k a = Ok m' -> sumP P m' = sumP P m + pick P k a.
Proof. intros H. rewrite (increase_ok _ _ _ _ H). apply sumP_add. Qed.
Lemma rfold_increase P l : forall m m', rfold (fun m ka => insert_or_increase m ka.1 ka.2) l m = Ok m' ->
  sumP P m' = sumP P m + sum_over (fun ka => pick P ka.1 ka.2) l.
Proof.
  induction l as [|[k a] l IH]; intros m m' H; cbn in H.
  - injection H as <-. cbn. lia.
  - destruct (insert_or_increase m k a) as [m1| |] eqn:E; [|discriminate..].
    rewrite sum_over_cons, (IH _ _ H), (increase_sum P _ _ _ _ E). cbn. lia.
Qed.
End sums.

(** ** The accumulator *)
Lemma fee_value_sum S ac : fee_value S ac = sumP (fun c => S c 0) (ac_free ac) + sumP (S Coin) (ac_locked ac).
Proof. reflexivity. Qed.
Lemma value_app S l1 l2 : value S (l1 ++ l2) = value S l1 + value S l2.
Proof. apply sum_over_app. Qed.
Lemma value_nil S : value S [] = 0.
Proof. reflexivity. Qed.
Lemma value_one S c k a : value S [Portion c k a] = if S c k then a else 0.
Proof. unfold value. rewrite sum_over_cons. cbn. lia. Qed.

Lemma rbind_ok {E A B} (m : res E A) (k : A -> res E B) b : rbind m k = Ok b -> exists a, m = Ok a /\ k a = Ok b.
Proof. destruct m as [a| |]; cbn; [eauto|discriminate..]. Qed.
Lemma ok_or_ok {E A} (o : option A) (e : E) a : ok_or o e = Ok a -> o = Some a.
Proof. destruct o; cbn; congruence. Qed.
Lemma rmap_err_ok {E F A} (f : E -> F) (m : res E A) a : rmap_err f m = Ok a -> m = Ok a.
Proof. destruct m; cbn; congruence. Qed.
Lemma amount_add_some a b c : amount_add a b = Some c -> c = a + b /\ a + b <= U128_MAX.
Proof. unfold amount_add, checked_add. destruct (N.leb_spec (a + b) U128_MAX); intros [= <-]. auto. Qed.
Lemma amount_sub_some a b c : amount_sub a b = Some c -> c = a - b /\ b <= a.
Proof. unfold amount_sub, checked_sub. destruct (N.leb_spec b a); intros [= <-]. auto. Qed.

Lemma add_free_value S ac c a ac' : add_free ac c a = Ok ac' -> fee_value S ac' = fee_value S ac + (if S c 0 then a else 0).
Proof.
  unfold add_free. intros H. apply rbind_ok in H as (m & Hm & [= <-]). rewrite !fee_value_sum. cbn [ac_free ac_locked].
  rewrite (increase_sum (fun c => S c 0) _ _ _ _ Hm). unfold pick. lia.
Qed.
Lemma add_locked_value S ac k a v : v = default 0 (ac_locked ac !! k) + a ->
  fee_value S (Accu (ac_free ac) (<[k := v]> (ac_locked ac))) = fee_value S ac + (if S Coin k then a else 0).
Proof. intros ->. rewrite !fee_value_sum. cbn [ac_free ac_locked]. rewrite sumP_add. unfold pick. lia. Qed.
Lemma add_maturing_value S cf ac a ac' : add_maturing cf ac a = Ok ac' ->
  fee_value S ac' = fee_value S ac + (if S Coin (cf_maturity cf) then a else 0).
Proof.
  unfold add_maturing. destruct (N.eqb_spec (cf_maturity cf) 0) as [->|_]; [apply add_free_value|].
  intros H. apply rbind_ok in H as (v & Hv & [= <-]). apply ok_or_ok, amount_add_some in Hv as [Hv _]. apply add_locked_value, Hv.
Qed.
Lemma add_value_value S ac v ac' : add_value ac v = Ok ac' -> fee_value S ac' = fee_value S ac + value S (worth v).
Proof.
  unfold add_value, worth. destruct v as [a| |id a]; cbn [units side_amount default].
  - intros H. rewrite (add_free_value S _ _ _ _ H), value_one. reflexivity.
  - intros [= <-]. rewrite value_nil. lia.
  - intros H. rewrite (add_free_value S _ _ _ _ H), value_one. reflexivity.
Qed.
Lemma add_units S ac v c a ac' : currency_of v = Some c -> add_free ac c a = Ok ac' ->
  fee_value S ac' = fee_value S ac + value S (units v a).
Proof.
  intros Hc H. destruct v; cbn in Hc; [injection Hc as <-|discriminate|injection Hc as <-];
    rewrite (add_free_value S _ _ _ _ H); cbn [units]; rewrite value_one; reflexivity.
Qed.

(** Outputs *)
Lemma process_output_value S cf ac o ac' : process_output cf ac o = Ok ac' -> fee_value S ac' = fee_value S ac + value S (output_costs cf o).
Proof.
  destruct o; cbn [process_output output_costs];
    try (apply add_value_value); try (intros [= <-]; rewrite value_nil; lia);
    try (intros H; rewrite (add_free_value S _ _ _ _ H), value_one; reflexivity).
  - destruct v as [a| |id a].
    + unfold process_output_timelock. destruct t as [h|t|n|n];
        try (intros H; rewrite (add_free_value S _ _ _ _ H); unfold worth; cbn; rewrite N.add_0_r; reflexivity).
      destruct (N.eqb_spec n 0) as [->|_].
      * intros H. rewrite (add_free_value S _ _ _ _ H), value_one. reflexivity.
      * intros H. apply rbind_ok in H as (m & Hm & [= <-]). rewrite !fee_value_sum. cbn [ac_free ac_locked].
        rewrite (increase_sum _ _ _ _ _ Hm), value_one. unfold pick. lia.
    + intros [= <-]. destruct t; rewrite value_nil; lia.
    + intros H. rewrite (add_free_value S _ _ _ _ H). destruct t; unfold worth; cbn [units side_amount default]; rewrite value_one; reflexivity.
  - intros H. apply rbind_ok in H as (c & Hc & H). apply ok_or_ok in Hc. apply rbind_ok in H as (a & Ha & H).
    rewrite (add_units S _ (od_give d) _ _ _ Hc H). unfold worth. destruct (od_give d); cbn in Ha; [injection Ha as <-|discriminate|injection Ha as <-]; reflexivity.
Qed.
Lemma from_outputs_value S cf outs ac : from_outputs cf outs = Ok ac -> fee_value S ac = value S (needed cf outs).
Proof.
  unfold from_outputs, needed. intros H. assert (forall l a0 a1, rfold (process_output cf) l a0 = Ok a1 ->
    fee_value S a1 = fee_value S a0 + value S (concat (map (output_costs cf) l))) as G.
  { clear. induction l as [|o l IH]; intros a0 a1 H; cbn [rfold] in H; cbn [map concat].
    - injection H as <-. rewrite value_nil. lia.
    - destruct (process_output cf a0 o) as [a2| |] eqn:E; [|discriminate..].
      rewrite (IH _ _ H), (process_output_value S _ _ _ _ E), value_app. lia. }
  rewrite (G _ _ _ H). rewrite fee_value_sum. cbn [acc_new ac_free ac_locked]. rewrite !sumP_empty. lia.
Qed.

(** ** Inputs *)
Definition linv (L0 : ledger) (ds : deltas) (L : ledger) : Prop :=
  pos_inv (lg_pos L0) (dl_pos ds) (lg_pos L) /\ tok_inv (lg_tok L0) (dl_tok ds) (lg_tok L) /\ ord_inv (lg_ord L0) (dl_ord ds) (lg_ord L).

Lemma result_ok {S E A} (m : S * res E A) s : result m = Ok s -> exists a, m = (s, Ok a).
Proof. destruct m as [s' [a| |]]; cbn; intros [= <-]. eauto. Qed.

(** Taking more than the balance leaves an unreadable balance. *)
Lemma sub_unreadable {K} `{Countable K} (p : K -> N) m s k a m' :
  acc p m s -> sub_unsigned m k a = (m', Ok tt) -> is_ok (combine_amount_delta (p k) (m' !! k)) -> a <= s k.
Proof.
  intros (Hwf & Hr & Hp & Hs) Hsub [v Hv]. destruct (decide (a <= s k)) as [|Hgt]; [assumption|exfalso].
  destruct (sub_unsigned_inv _ _ _ _ Hwf Hsub) as (_ & _ & _ & Hd). specialize (Hd k). rewrite decide_True in Hd by reflexivity.
  apply combine_amount_delta_val in Hv. specialize (Hr k). unfold dval in *. lia.
Qed.
Lemma add_unreadable {K} `{Countable K} (p : K -> N) m s k a m' :
  amounts_wf m -> areads p m s -> bounded p -> add_unsigned m k a = (m', Ok tt) -> is_ok (combine_amount_delta (p k) (m' !! k)) -> (Z.of_N (s k + a) <= I128_MAX)%Z.
Proof.
  intros Hwf Hr Hp Hadd [v Hv].
  destruct (add_unsigned_inv _ _ _ _ Hwf Hadd) as (_ & _ & _ & Hd). specialize (Hd k). rewrite decide_True in Hd by reflexivity.
  pose proof (combine_amount_delta_val _ _ _ Hv) as Hval. specialize (Hr k). specialize (Hp k). unfold dval in *.
  destruct (m' !! k) as [z|] eqn:E; cbn [default] in *.
  - apply combine_amount_delta_some in Hv. unfold in_i128 in Hv. unfold id in *. lia.
  - unfold id in *. lia.
Qed.

Lemma spend_readable V0 p d s del a d' v :
  pos_reads V0 p -> pos_inv p d s -> result (spend_share V0 d del a) = Ok d' -> pos_get_deleg_balance V0 d' del = Ok v ->
  exists s', pos_step s (SpendShare del a) = Ok s' /\ pos_inv p d' s' /\ a <= ps_deleg_balance s del.
Proof.
  intros HP Hi Hr Hv. pose proof Hi as [Hi0 Hsnd]. assert (a <= ps_deleg_balance s del) as Hle.
  { apply result_ok in Hr as [u Hr]. unfold spend_share in Hr. rewrite (get_deleg_ok _ _ _ _ HP Hi0) in Hr. cbn [rbind] in Hr.
    destruct (ps_deleg s del) as [x|]; [|discriminate]. cbn [ok_or on_ok] in Hr.
    unfold pos_sub_share in Hr. destruct (sub_unsigned (psd_share d) _ a) as [m1 [[]| |]] eqn:E1; [|discriminate..]. cbn [rmap_err sbind] in Hr.
    destruct (pos_pool_exists V0 _ (dd_pool x)) as [ex| |] eqn:E2; [|discriminate..]. cbn [on_ok] in Hr.
    assert (forall c, (psd_deleg_balance c) = psd_deleg_balance d ->
      sbind (pos_sub_deleg_balance c del a) (fun c _ => (c, Ok (PUndoSpend del a))) = (d', Ok u) -> a <= ps_deleg_balance s del) as G.
    { intros c Hc H. unfold pos_sub_deleg_balance in H. rewrite Hc in H.
      destruct (sub_unsigned (psd_deleg_balance d) del a) as [m2 [[]| |]] eqn:E3; [|discriminate..]. cbn in H. injection H as <- <-.
      destruct Hi0 as (_ & _ & _ & Hacc & _). destruct HP as (_ & HP1 & _). destruct (HP1 del) as [_ Eb].
      unfold pos_get_deleg_balance, pos_fail in Hv. rewrite Eb in Hv. cbn [rmap_err rbind psd_deleg_balance] in Hv.
      apply rmap_err_ok in Hv. apply (sub_unreadable _ _ _ _ _ _ Hacc E3). exists v. exact Hv. }
    destruct ex.
    - unfold pos_sub_pool_balance in Hr. cbn [psd_pool_balance psd_deleg_balance] in Hr.
      destruct (sub_unsigned (psd_pool_balance d) (dd_pool x) a) as [m2 [[]| |]] eqn:E3; [|discriminate..]. cbn [rmap_err sbind] in Hr.
      refine (G _ _ Hr); reflexivity.
    - cbn [sbind] in Hr. refine (G _ _ Hr); reflexivity. }
  pose proof (pos_op_refines V0 p d s (SpendShare del a) HP Hi Hle) as H.
  destruct (pos_step s (SpendShare del a)) as [s'|e|]; [|destruct H as (d2 & H & _)|contradiction].
  - exists s'. split; [reflexivity|]. split; [|exact Hle]. destruct H as (d2 & u & H & Hi' & _). cbn [pos_run] in H. rewrite H in Hr. cbn in Hr. congruence.
  - cbn [pos_run] in H. rewrite H in Hr. discriminate.
Qed.

Lemma mint_readable V0 p d s id a d' v :
  tok_reads V0 p -> tok_inv p d s -> result (mint_tokens V0 d id a) = Ok d' -> tok_get_supply V0 d' id = Ok v ->
  exists s', tok_step s (MintTokens id a) = Ok s' /\ tok_inv p d' s' /\ tok_fits s (MintTokens id a).
Proof.
  intros HP Hi Hr Hv. assert (tok_fits s (MintTokens id a)) as Hle.
  { pose proof Hi as (Hd & Hwf & Ha & Hp & Hs & Hl). intros s' Hs'.
    apply result_ok in Hr as [u Hr]. unfold mint_tokens in Hr.
    match type of Hr with on_ok d ?c _ = _ => destruct c as [[]| |]; [|discriminate..] end. cbn [on_ok] in Hr.
    unfold ret_undo, tok_add_supply in Hr. destruct (add_unsigned (td_supply d) id a) as [m1 [[]| |]] eqn:E1; [|discriminate..].
    cbn in Hr. injection Hr as <- <-.
    unfold tok_get_supply in Hv. destruct (HP id) as [_ Eb]. rewrite Eb in Hv. cbn [rmap_err rbind td_supply] in Hv. apply rmap_err_ok in Hv.
    assert (Z.of_N (ts_supply s id + a) <= I128_MAX)%Z as G by (apply (add_unreadable _ _ _ _ _ _ Hwf Ha Hp E1); exists v; exact Hv).
    assert (ts_supply s' id = ts_supply s id + a) as ->; [|exact G].
    clear - Hs'. unfold tok_step in Hs'. destruct (ts_data s id) as [t|]; [|discriminate]. destruct (tk_frozen t); [|discriminate].
    destruct (tk_supply t) as [cap| |].
    - destruct (decide _); [discriminate|]. destruct (decide _); [|discriminate]. injection Hs' as <-. apply put_supply_eq.
    - destruct (tk_locked t); [discriminate|]. injection Hs' as <-. apply put_supply_eq.
    - injection Hs' as <-. apply put_supply_eq. }
  pose proof (tok_op_refines V0 p d s (MintTokens id a) HP Hi Hle) as H.
  destruct (tok_step s (MintTokens id a)) as [s'|e|]; [|destruct H as (d2 & H & _)|contradiction].
  - exists s'. split; [reflexivity|]. split; [|exact Hle]. destruct H as (d2 & u & H & Hi' & _). cbn [tok_run] in H. rewrite H in Hr. cbn in Hr. congruence.
  - cbn [tok_run] in H. rewrite H in Hr. discriminate.
Qed.

Lemma conclude_done V0 p d s id d' :
  ord_reads V0 p -> ord_inv p d s -> result (conclude_order V0 d id) = Ok d' ->
  exists s', ord_step s (ConcludeOrder id) = Ok s' /\ ord_inv p d' s'.
Proof.
  intros HP Hi Hr. pose proof (ord_op_refines V0 p d s (ConcludeOrder id) HP Hi I) as H.
  destruct (ord_step s (ConcludeOrder id)) as [s'|e|]; [|destruct H as (d2 & H & _)|contradiction].
  - exists s'. split; [reflexivity|]. destruct H as (d2 & u & H & Hi' & _). cbn [ord_run] in H. rewrite H in Hr. cbn in Hr. congruence.
  - cbn [ord_run] in H. rewrite H in Hr. discriminate.
Qed.
Lemma fill_done V0 p d s id f ver d' :
  ord_reads V0 p -> ord_inv p d s -> result (fill_order V0 d id f ver) = Ok d' ->
  exists s', ord_step s (FillOrder id f ver) = Ok s' /\ ord_inv p d' s'.
Proof.
  intros HP Hi Hr. pose proof (ord_op_refines V0 p d s (FillOrder id f ver) HP Hi I) as H.
  destruct (ord_step s (FillOrder id f ver)) as [s'|e|]; [|destruct H as (d2 & H & _)|contradiction].
  - exists s'. split; [reflexivity|]. destruct H as (d2 & u & H & Hi' & _). cbn [ord_run] in H. rewrite H in Hr. cbn in Hr. congruence.
  - cbn [ord_run] in H. rewrite H in Hr. discriminate.
Qed.
(** The computed payout. *)
Lemma calculate_is_payout v s id f ver d r : ord_reads v s -> os_data s id = Some d -> calculate_fill_order v id f ver = Ok r ->
  r = payout ver (default 0 (side_amount (od_ask d))) (default 0 (side_amount (od_give d))) (os_ask s id) (os_give s id) f.
Proof.
  intros [HP _] Hd. destruct (HP id) as (E1 & E2 & E3). destruct ver; cbn [calculate_fill_order payout].
  - unfold fill_remaining. rewrite E2, E3. cbn [rmap_err rbind]. intros H. apply rbind_ok in H as (_ & _ & H). apply ok_or_ok in H.
    unfold calculate_filled_amount, checked_div in H. destruct (os_ask s id =? 0); [discriminate|]. destruct (_ <=? U128_MAX); congruence.
  - unfold fill_original. rewrite E1, E2, Hd. cbn [rmap_err rbind ok_or]. intros H.
    apply rbind_ok in H as (a0 & Ha & H). apply rbind_ok in H as (g0 & Hg & H). apply rbind_ok in H as (_ & _ & H).
    apply rbind_ok in H as (r' & Hr & H). apply rbind_ok in H as (_ & _ & [= <-]). apply ok_or_ok in Hr.
    assert (side_amount (od_ask d) = Some a0) as -> by (destruct (od_ask d); cbn in Ha |- *; congruence).
    assert (side_amount (od_give d) = Some g0) as -> by (destruct (od_give d); cbn in Hg |- *; congruence). cbn.
    unfold calculate_filled_amount, checked_div in Hr. destruct (a0 =? 0); [discriminate|]. destruct (_ <=? U128_MAX); congruence.
Qed.

Definition fee_of (x : currency * amount) : list portion := [Portion x.1 0 x.2].
Lemma value_units S v c a : currency_of v = Some c -> value S (units v a) = value S [Portion c 0 a].
Proof. destruct v; cbn [currency_of units]; intros [= <-]; reflexivity. Qed.

Section inputs.
Context (cf : config) (V : views) (L0 : ledger).
Hypothesis HV : views_read V L0.

Lemma conclude_value ac ds id ac' ds' x L :
  linv L0 ds L -> process_conclude_order V ac ds id = Ok (ac', ds', x) ->
  linv L0 ds' (with_ord L (ord_step (lg_ord L) (ConcludeOrder id))) /\
  (forall S, fee_value S ac' = fee_value S ac + value S (closing_yields L id)) /\ x = (Coin, 0).
Proof.
  intros (Hi1 & Hi2 & Hi3) H. destruct HV as (_ & _ & HP). pose proof (proj1 Hi3) as Hi0. unfold process_conclude_order in H.
  rewrite (inv0_get_data _ _ _ _ _ _ _ HP Hi0), (inv0_get_ask _ _ _ _ _ _ _ HP Hi0), (inv0_get_give _ _ _ _ _ _ _ HP Hi0) in H.
  cbn [rmap_err rbind] in H. apply rbind_ok in H as (data & Hd & H). apply ok_or_ok in Hd.
  apply rbind_ok in H as (d' & Hd' & H). apply rmap_err_ok in Hd'. apply rbind_ok in H as (_ & _ & H). apply rbind_ok in H as (_ & _ & H).
  apply rbind_ok in H as (ask0 & Ha & H). apply rbind_ok in H as (filled & Hf & H). apply ok_or_ok, amount_sub_some in Hf as [-> _].
  apply rbind_ok in H as (ca & Hca & H). apply ok_or_ok in Hca. apply rbind_ok in H as (ac1 & Hac1 & H).
  apply rbind_ok in H as (cg & Hcg & H). apply ok_or_ok in Hcg. apply rbind_ok in H as (ac2 & Hac2 & [= <- <- <-]).
  destruct (conclude_done _ _ _ _ _ _ HP Hi3 Hd') as (s' & Hs' & Hi3'). rewrite Hs'. cbn [with_ord].
  split; [exact (conj Hi1 (conj Hi2 Hi3'))|]. split; [|reflexivity]. intros S. unfold closing_yields. rewrite Hd, value_app.
  assert (side_amount (od_ask data) = Some ask0) as -> by (destruct (od_ask data); cbn in Ha |- *; congruence). change (default 0 (Some ask0)) with ask0.
  rewrite (add_units S _ _ _ _ _ Hcg Hac2), (add_units S _ _ _ _ _ Hca Hac1). lia.
Qed.

Lemma fill_value ac ds id fill ac' ds' x L :
  linv L0 ds L -> process_fill_order cf V ac ds id fill = Ok (ac', ds', x) ->
  linv L0 ds' (with_ord L (ord_step (lg_ord L) (FillOrder id fill (cf_orders cf)))) /\
  (forall S, fee_value S ac' = fee_value S ac + value S (filling_yields cf L id fill)) /\
  exists d, os_data (lg_ord L) id = Some d /\ forall S, value S (units (od_ask d) fill) = value S (fee_of x).
Proof.
  intros (Hi1 & Hi2 & Hi3) H. destruct HV as (_ & _ & HP). pose proof (proj1 Hi3) as Hi0. unfold process_fill_order in H.
  rewrite (inv0_get_data _ _ _ _ _ _ _ HP Hi0) in H.
  cbn [rmap_err rbind] in H. apply rbind_ok in H as (data & Hd & H). apply ok_or_ok in Hd.
  apply rbind_ok in H as (r & Hr & H). apply rmap_err_ok in Hr.
  apply rbind_ok in H as (d' & Hd' & H). apply rmap_err_ok in Hd'. apply rbind_ok in H as (_ & _ & H). apply rbind_ok in H as (_ & _ & H).
  apply rbind_ok in H as (cg & Hcg & H). apply ok_or_ok in Hcg. apply rbind_ok in H as (ac1 & Hac1 & H).
  apply rbind_ok in H as (ca & Hca & H). apply ok_or_ok in Hca. injection H as <- <- <-.
  destruct (fill_done _ _ _ _ _ _ _ _ HP Hi3 Hd') as (s' & Hs' & Hi3'). rewrite Hs'. cbn [with_ord].
  split; [exact (conj Hi1 (conj Hi2 Hi3'))|]. split.
  - intros S. unfold filling_yields. rewrite Hd. rewrite (add_units S _ _ _ _ _ Hcg Hac1).
    rewrite (calculate_is_payout _ _ _ _ _ _ _ (ord_reads_cache _ _ _ _ HP Hi3) Hd Hr). reflexivity.
  - exists data. split; [exact Hd|]. intros S. apply value_units, Hca.
Qed.

Lemma process_input_value ac ds td iu ac' ds' td' L :
  linv L0 ds L -> process_input cf V (ac, ds, td) iu = Ok (ac', ds', td') ->
  linv L0 ds' (after_input cf L iu) /\
  (forall S, fee_value S ac' = fee_value S ac + value S (input_yields cf L iu)) /\
  (forall S, sumP (fun c => S c 0) td' = sumP (fun c => S c 0) td + value S (input_costs cf L iu)).
Proof.
  intros Hi H. destruct iu as [[o|nonce del a|nonce c|c] u]; cbn [process_input] in H.
  - (* an output *)
    apply rbind_ok in H as (out & Ho & H). apply ok_or_ok in Ho as ->. apply rbind_ok in H as (ac1 & Hac1 & [= <- <- <-]).
    split; [exact Hi|]. split; [|intros S; cbn; lia]. intros S. cbn [input_yields].
    destruct out as [v d|v d t|v|p dat|d p|d p|a del|i|i dat d|dat|v h|d]; cbn [process_input_utxo output_yields] in Hac1 |- *;
      try (apply add_value_value; exact Hac1); try discriminate; try (rewrite (add_free_value S _ _ _ _ Hac1), value_one; reflexivity).
    all: destruct Hi as ([Hi0 _] & _), HV as (HP & _); cbn [pos_cache_view pv_pool] in Hac1;
      rewrite (get_pool_ok _ _ _ _ HP Hi0) in Hac1; cbn [rmap_err rbind] in Hac1;
      apply rbind_ok in Hac1 as (x & Hx & Hac1); apply ok_or_ok in Hx; apply rbind_ok in Hac1 as (b & Hb & Hac1);
      apply rmap_err_ok in Hb; unfold staker_balance in Hb; apply ok_or_ok, amount_add_some in Hb as [-> _];
      rewrite Hx, (add_maturing_value S _ _ _ _ Hac1), value_one; reflexivity.
  - (* a delegation *)
    apply rbind_ok in H as ([ac1 ds1] & H & [= <- <- <-]). unfold process_input_account in H.
    apply rbind_ok in H as (d' & Hd' & H). apply rmap_err_ok in Hd'. apply rbind_ok in H as (b & Hb & H). apply rmap_err_ok in Hb.
    apply rbind_ok in H as (ac2 & Hac2 & [= <- <-]). destruct Hi as (Hi1 & Hi2 & Hi3), HV as (HP & _).
    destruct (spend_readable _ _ _ _ _ _ _ _ HP Hi1 Hd' Hb) as (s' & Hs' & Hi1' & _). cbn [after_input fst]. rewrite Hs'.
    split; [exact (conj Hi1' (conj Hi2 Hi3))|]. split; [|intros S; cbn; lia]. intros S. cbn [input_yields].
    rewrite (add_maturing_value S _ _ _ _ Hac2), value_one. reflexivity.
  - (* a command *)
    apply rbind_ok in H as ([[ac1 ds1] [cur amt]] & H & Htd). apply rbind_ok in Htd as (td1 & Htd & [= <- <- <-]).
    assert (forall S, sumP (fun c => S c 0) td1 = sumP (fun c => S c 0) td + value S [Portion cur 0 amt]) as HT.
    { intros S. rewrite (increase_sum _ _ _ _ _ Htd), value_one. reflexivity. }
    destruct c as [id a|id|id|id b|id|id d|id|id a d|id uri]; cbn [process_command] in H; cbn [after_input input_yields input_costs fst];
      try (injection H as <- <- <- <-; split; [exact Hi|]; split; [intros S; cbn; lia|exact HT]).
    + apply rbind_ok in H as (d' & Hd' & H). apply rmap_err_ok in Hd'. apply rbind_ok in H as (b & Hb & H). apply rmap_err_ok in Hb.
      apply rbind_ok in H as (ac2 & Hac2 & [= <- <- <- <-]). destruct Hi as (Hi1 & Hi2 & Hi3), HV as (_ & HP & _).
      destruct (mint_readable _ _ _ _ _ _ _ _ HP Hi2 Hd' Hb) as (s' & Hs' & Hi2' & _). rewrite Hs'.
      split; [exact (conj Hi1 (conj Hi2' Hi3))|]. split; [|exact HT]. intros S. rewrite (add_free_value S _ _ _ _ Hac2), value_one. reflexivity.
    + destruct (conclude_value _ _ _ _ _ _ _ Hi H) as (A & B & [= -> ->]). split; [exact A|]. split; [exact B|].
      intros S. rewrite HT, value_one, value_nil. destruct (S Coin 0); reflexivity.
    + destruct (fill_value _ _ _ _ _ _ _ _ Hi H) as (A & B & dd & C & D). split; [exact A|]. split; [exact B|].
      intros S. rewrite HT, C, D. reflexivity.
  - (* an order command *)
    apply rbind_ok in H as ([[ac1 ds1] o] & H & Htd). destruct c as [id a|id|id]; cbn [process_order_command] in H; cbn [after_input input_yields input_costs fst].
    + apply rbind_ok in H as ([[x1 x2] x3] & H & [= <- <- <-]). destruct x3 as [cur amt]. apply rbind_ok in Htd as (td1 & Htd & [= <- <- <-]).
      destruct (fill_value _ _ _ _ _ _ _ _ Hi H) as (A & B & dd & C & D). split; [exact A|]. split; [exact B|].
      intros S. rewrite (increase_sum _ _ _ _ _ Htd), C, D. unfold fee_of. rewrite value_one. reflexivity.
    + injection H as <- <- <-. injection Htd as <- <- <-. split; [exact Hi|]. split; intros S; rewrite value_nil; lia.
    + apply rbind_ok in H as ([[x1 x2] x3] & H & [= <- <- <-]). destruct x3 as [cur amt]. apply rbind_ok in Htd as (td1 & Htd & [= <- <- <-]).
      destruct (conclude_value _ _ _ _ _ _ _ Hi H) as (A & B & [= -> ->]). split; [exact A|]. split; [exact B|].
      intros S. rewrite (increase_sum _ _ _ _ _ Htd), value_nil. unfold pick. destruct (S Coin 0); lia.
Qed.

(** What the check has established about the inputs: no more is withdrawn than there is, minting stays in range, orders can
    be filled and closed. *)
Lemma conclude_steps ac ds id r L : linv L0 ds L -> process_conclude_order V ac ds id = Ok r -> exists s, ord_step (lg_ord L) (ConcludeOrder id) = Ok s.
Proof.
  intros (Hi1 & Hi2 & Hi3) H. destruct HV as (_ & _ & HP). pose proof (proj1 Hi3) as Hi0. unfold process_conclude_order in H.
  rewrite (inv0_get_data _ _ _ _ _ _ _ HP Hi0), (inv0_get_ask _ _ _ _ _ _ _ HP Hi0), (inv0_get_give _ _ _ _ _ _ _ HP Hi0) in H.
  cbn [rmap_err rbind] in H. apply rbind_ok in H as (data & Hd & H). apply rbind_ok in H as (d' & Hd' & _). apply rmap_err_ok in Hd'.
  destruct (conclude_done _ _ _ _ _ _ HP Hi3 Hd') as (s' & Hs' & _). eauto.
Qed.
Lemma fill_steps ac ds id fill r L : linv L0 ds L -> process_fill_order cf V ac ds id fill = Ok r ->
  exists s, ord_step (lg_ord L) (FillOrder id fill (cf_orders cf)) = Ok s.
Proof.
  intros (Hi1 & Hi2 & Hi3) H. destruct HV as (_ & _ & HP). pose proof (proj1 Hi3) as Hi0. unfold process_fill_order in H.
  rewrite (inv0_get_data _ _ _ _ _ _ _ HP Hi0) in H. cbn [rmap_err rbind] in H. apply rbind_ok in H as (data & _ & H).
  apply rbind_ok in H as (r' & _ & H). apply rbind_ok in H as (d' & Hd' & _). apply rmap_err_ok in Hd'.
  destruct (fill_done _ _ _ _ _ _ _ _ HP Hi3 Hd') as (s' & Hs' & _). eauto.
Qed.
Fixpoint inputs_fit (L : ledger) (l : list (tx_input * option tx_output)) : Prop :=
  match l with
  | [] => True
  | iu :: l' => match iu.1 with
                | InAccount _ del a => a <= ps_deleg_balance (lg_pos L) del
                | InCommand _ (CmdMint id a) => tok_fits (lg_tok L) (MintTokens id a)
                | InCommand _ (CmdConcludeOrder id) | InOrder (OcConclude id) => exists s, ord_step (lg_ord L) (ConcludeOrder id) = Ok s
                | InCommand _ (CmdFillOrder id a _) | InOrder (OcFill id a) => exists s, ord_step (lg_ord L) (FillOrder id a (cf_orders cf)) = Ok s
                | _ => True
                end /\ inputs_fit (after_input cf L iu) l'
  end.
Lemma process_inputs_fit l : forall ac ds td r L,
  linv L0 ds L -> rfold (process_input cf V) l (ac, ds, td) = Ok r -> inputs_fit L l.
Proof.
  induction l as [|iu l IH]; intros ac ds td r L Hi H; [exact I|]. cbn [rfold] in H.
  destruct (process_input cf V (ac, ds, td) iu) as [[[ac1 ds1] td1]| |] eqn:E; [|discriminate..].
  destruct (process_input_value _ _ _ _ _ _ _ _ Hi E) as (A & _). cbn [inputs_fit]. split; [|exact (IH _ _ _ _ _ A H)].
  destruct iu as [[o|nonce del a|nonce c|c] u]; try exact I; cbn [process_input fst] in E |- *.
  - apply rbind_ok in E as ([ac2 ds2] & E & _). unfold process_input_account in E.
    apply rbind_ok in E as (d' & Hd' & E). apply rmap_err_ok in Hd'. apply rbind_ok in E as (b & Hb & _). apply rmap_err_ok in Hb.
    destruct Hi as (Hi1 & _), HV as (HP & _). destruct (spend_readable _ _ _ _ _ _ _ _ HP Hi1 Hd' Hb) as (_ & _ & _ & G). exact G.
  - destruct c as [id a|id|id|id b|id|id d|id|id a d|id uri]; try exact I;
      apply rbind_ok in E as ([[ac2 ds2] x] & E & _); cbn [process_command] in E.
    2: exact (conclude_steps _ _ _ _ _ Hi E).
    2: exact (fill_steps _ _ _ _ _ _ Hi E).
    apply rbind_ok in E as (d' & Hd' & E). apply rmap_err_ok in Hd'. apply rbind_ok in E as (b & Hb & _). apply rmap_err_ok in Hb.
    destruct Hi as (_ & Hi2 & _), HV as (_ & HP & _). destruct (mint_readable _ _ _ _ _ _ _ _ HP Hi2 Hd' Hb) as (_ & _ & _ & G). exact G.
  - destruct c as [id a|id|id]; try exact I; apply rbind_ok in E as ([[ac2 ds2] x] & E & _); cbn [process_order_command] in E;
      apply rbind_ok in E as ([[x1 x2] x3] & E & _).
    + exact (fill_steps _ _ _ _ _ _ Hi E).
    + exact (conclude_steps _ _ _ _ _ Hi E).
Qed.

Lemma process_inputs_value l : forall ac ds td ac' ds' td' L,
  linv L0 ds L -> rfold (process_input cf V) l (ac, ds, td) = Ok (ac', ds', td') ->
  (forall S, fee_value S ac' = fee_value S ac + value S (unlocked cf L l)) /\
  (forall S, sumP (fun c => S c 0) td' = sumP (fun c => S c 0) td + value S (charged cf L l)).
Proof.
  induction l as [|iu l IH]; intros ac ds td ac' ds' td' L Hi H; cbn [rfold] in H.
  - injection H as <- <- <-. split; intros S; cbn; lia.
  - destruct (process_input cf V (ac, ds, td) iu) as [[[ac1 ds1] td1]| |] eqn:E; [|discriminate..].
    destruct (process_input_value _ _ _ _ _ _ _ _ Hi E) as (A & B & C). destruct (IH _ _ _ _ _ _ _ A H) as [D F].
    cbn [unlocked charged]. split; intros S; rewrite value_app; [rewrite D, B|rewrite F, C]; lia.
Qed.
End inputs.

(** ** Taking away *)
Lemma decrease_sum P m k a e m' : decrease_or m k a e = Ok m' -> sumP P m = sumP P m' + pick P k a.
Proof.
  unfold decrease_or. destruct (N.ltb_spec 0 a) as [Hp|Hz].
  - destruct (m !! k) as [v|] eqn:E; [|discriminate]. intros H. apply rbind_ok in H as (v' & Hv & [= <-]).
    apply ok_or_ok, amount_sub_some in Hv as [-> Hle]. apply sumP_sub; assumption.
  - intros [= <-]. assert (a = 0) as -> by lia. unfold pick. destruct (P k); lia.
Qed.
Lemma rfold_decrease P e l : forall m m', rfold (fun m ka => decrease_or m ka.1 ka.2 e) l m = Ok m' ->
  sumP P m = sumP P m' + sum_over (fun ka => if P ka.1 then ka.2 else 0) l.
Proof.
  induction l as [|[k a] l IH]; intros m m' H; cbn [rfold] in H.
  - injection H as <-. cbn. lia.
  - cbn [fst snd] in H. destruct (decrease_or m k a e) as [m1| |] eqn:E; [|discriminate..].
    rewrite sum_over_cons, (decrease_sum P _ _ _ _ _ E), (IH _ _ H). cbn. unfold pick. lia.
Qed.

Lemma from_inputs_value cf V L inputs utxos ac : views_read V L -> ledger_sound L ->
  from_inputs cf V inputs utxos = Ok ac ->
  forall S, value S (unlocked cf L (zip inputs utxos)) = value (fun c _ => S c 0) (charged cf L (zip inputs utxos)) + fee_value S ac.
Proof.
  intros HV (G1 & G2 & G3) H S. unfold from_inputs in H. apply rbind_ok in H as (_ & _ & H).
  apply rbind_ok in H as ([[ac1 ds1] td1] & H1 & H). apply rbind_ok in H as (free & H2 & [= <-]).
  assert (linv L deltas_new L) as Hi by exact (conj (pos_inv_empty _ G1) (conj (tok_inv_empty _ G2) (ord_inv_empty _ G3))).
  destruct (process_inputs_value cf V L HV _ _ _ _ _ _ _ _ Hi H1) as [A B].
  specialize (A S). specialize (B (fun c _ => S c 0)). cbn beta in B. rewrite sumP_empty in B.
  pose proof (rfold_decrease (fun c => S c 0) _ _ _ _ H2) as C.
  change (sum_over _ (map_to_list td1)) with (sumP (fun c => S c 0) td1) in C.
  rewrite !fee_value_sum in *. cbn [acc_new ac_free ac_locked] in *. rewrite !sumP_empty in A. cbn beta in *.
  rewrite !N.add_0_l in *. rewrite <- A, C, B. lia.
Qed.

(** ** Using up locked coins *)
Definition coins (ac : accumulator) : N := default 0 (ac_free ac !! Coin).
Lemma use_coins_value keys : forall out ac ac', use_coins keys out ac = Ok ac' ->
  (forall c, c <> Coin -> ac_free ac' !! c = ac_free ac !! c) /\
  (forall P, (forall k, k ∈ keys -> P k = true) -> coins ac + sumP P (ac_locked ac) = coins ac' + sumP P (ac_locked ac') + out) /\
  (forall P, sumP P (ac_locked ac') <= sumP P (ac_locked ac)) /\
  (forall P, sumP P (ac_locked ac) <= sumP P (ac_locked ac') + out) /\
  (forall P, (forall k, k ∈ keys -> P k = false) -> sumP P (ac_locked ac') = sumP P (ac_locked ac)) /\
  coins ac' <= coins ac.
Proof.
  induction keys as [|k keys IH]; intros out ac ac' H; cbn [use_coins] in H.
  - destruct (N.ltb_spec 0 out) as [Hp|Hz].
    + unfold coins. destruct (ac_free ac !! Coin) as [v|] eqn:E; [|discriminate]. destruct (N.ltb_spec v out) as [|Hle]; [discriminate|].
      apply rbind_ok in H as (v' & Hv & [= <-]). unfold expect in Hv. destruct (amount_sub v out) as [v''|] eqn:Es; [|discriminate].
      apply amount_sub_some in Es as [-> _]. injection Hv as <-. cbn [ac_free ac_locked]. rewrite lookup_insert. cbn.
      split; [intros c Hc; apply lookup_insert_ne; congruence|]. split; [intros P _; lia|].
      split; [intros P; lia|]. split; [intros P; lia|]. split; [reflexivity|lia].
    + injection H as <-. assert (out = 0) as -> by lia. split; [reflexivity|]. split; [intros P _; lia|].
      split; [intros P; lia|]. split; [intros P; lia|]. split; [reflexivity|lia].
  - destruct (N.ltb_spec 0 out) as [Hp|Hz].
    + set (v := default 0 (ac_locked ac !! k)) in *.
      assert (forall P x, sumP P (<[k := x]> (ac_locked ac)) + pick P k v = sumP P (ac_locked ac) + pick P k x) as HS.
      { intros P x. rewrite sumP_insert, (sumP_delete P (ac_locked ac) k). fold v. lia. }
      destruct (N.ltb_spec v out) as [Hlt|Hle].
      * apply rbind_ok in H as (rest & Hr & H). unfold expect in Hr. destruct (amount_sub out v) as [r|] eqn:Es; [|discriminate].
        apply amount_sub_some in Es as [-> _]. injection Hr as <-.
        destruct (IH _ _ _ H) as (A & B & C & D & F & G). cbn [ac_free ac_locked] in *.
        assert (coins (Accu (ac_free ac) (<[k := 0]> (ac_locked ac))) = coins ac) as Ec by reflexivity. rewrite Ec in *.
        split; [exact A|]. split; [|split; [|split; [|split; [|exact G]]]].
        -- intros P HP. specialize (B P (fun k' Hk' => HP k' (elem_of_list_further _ _ _ Hk'))).
           specialize (HS P 0). unfold pick in HS. rewrite (HP k) in HS by left. lia.
        -- intros P. specialize (C P). specialize (HS P 0). unfold pick in HS. destruct (P k); lia.
        -- intros P. specialize (D P). specialize (HS P 0). unfold pick in HS. destruct (P k); lia.
        -- intros P HP. specialize (F P (fun k' Hk' => HP k' (elem_of_list_further _ _ _ Hk'))).
           specialize (HS P 0). unfold pick in HS. rewrite (HP k) in HS by left. lia.
      * apply rbind_ok in H as (v' & Hv & [= <-]). unfold expect in Hv. destruct (amount_sub v out) as [v''|] eqn:Es; [|discriminate].
        apply amount_sub_some in Es as [-> _]. injection Hv as <-. cbn [ac_free ac_locked].
        assert (coins (Accu (ac_free ac) (<[k := v - out]> (ac_locked ac))) = coins ac) as Ec by reflexivity. rewrite Ec in *.
        split; [reflexivity|]. split; [|split; [|split; [|split; [|lia]]]].
        -- intros P HP. specialize (HS P (v - out)). unfold pick in HS. rewrite (HP k) in HS by left. lia.
        -- intros P. specialize (HS P (v - out)). unfold pick in HS. destruct (P k); lia.
        -- intros P. specialize (HS P (v - out)). unfold pick in HS. destruct (P k); lia.
        -- intros P HP. specialize (HS P (v - out)). unfold pick in HS. rewrite (HP k) in HS by left. lia.
    + injection H as <-. assert (out = 0) as -> by lia. split; [reflexivity|]. split; [intros P _; lia|].
      split; [intros P; lia|]. split; [intros P; lia|]. split; [reflexivity|lia].
Qed.
Lemma use_coins_enough keys : forall out ac, NoDup keys ->
  out <= coins ac + sum_over (fun k => default 0 (ac_locked ac !! k)) keys -> is_ok (use_coins keys out ac).
Proof.
  induction keys as [|k keys IH]; intros out ac Hn Hle; cbn [use_coins]; destruct (N.ltb_spec 0 out) as [Hp|Hz]; try (eexists; reflexivity).
  - cbn in Hle. unfold coins in Hle. destruct (ac_free ac !! Coin) as [v|]; cbn in Hle; [|lia].
    destruct (N.ltb_spec v out) as [|Hv]; [lia|]. unfold amount_sub, checked_sub. destruct (N.leb_spec out v); [|lia]. eexists; reflexivity.
  - rewrite sum_over_cons in Hle. apply NoDup_cons in Hn as [Hk Hn]. set (v := default 0 (ac_locked ac !! k)) in *.
    destruct (N.ltb_spec v out) as [Hlt|Hge]; unfold amount_sub, checked_sub.
    + destruct (N.leb_spec v out); [|lia]. cbn [expect rbind]. apply IH; [exact Hn|]. unfold coins in *. cbn [ac_free ac_locked].
      rewrite (sum_over_ext _ (fun k' => default 0 (ac_locked ac !! k'))); [lia|].
      intros k' Hk'. rewrite lookup_insert_ne; [reflexivity|]. intros ->. contradiction.
    + destruct (N.leb_spec out v); [|lia]. eexists; reflexivity.
Qed.
Lemma use_coins_no_panic keys : forall out ac, use_coins keys out ac <> Panic.
Proof.
  induction keys as [|k keys IH]; intros out ac; cbn [use_coins]; destruct (N.ltb_spec 0 out) as [Hp|Hz]; try discriminate.
  - destruct (ac_free ac !! Coin) as [v|]; [|discriminate]. destruct (N.ltb_spec v out) as [|Hv]; [discriminate|].
    unfold amount_sub, checked_sub. destruct (N.leb_spec out v); [discriminate|lia].
  - destruct (N.ltb_spec (default 0 (ac_locked ac !! k)) out) as [Hlt|Hge]; unfold amount_sub, checked_sub.
    + destruct (N.leb_spec (default 0 (ac_locked ac !! k)) out); [|lia]. apply IH.
    + destruct (N.leb_spec out (default 0 (ac_locked ac !! k))); [discriminate|lia].
Qed.

(** The keys in order. *)
Lemma sorted_keys_elem m k : k ∈ sorted_keys m <-> is_Some (m !! k).
Proof. unfold sorted_keys. rewrite merge_sort_Permutation, elem_of_elements, elem_of_dom. reflexivity. Qed.
Lemma sorted_keys_nodup m : NoDup (sorted_keys m).
Proof. unfold sorted_keys. rewrite merge_sort_Permutation. apply NoDup_elements. Qed.
Lemma sorted_keys_sorted m : StronglySorted N.le (sorted_keys m).
Proof.
  apply Sorted_StronglySorted; [intros x y z; apply N.le_trans|]. apply Sorted_merge_sort. intros x y. apply N.le_ge_cases.
Qed.

(** The loop of [satisfy_with] over the locks of the outputs. *)
Definition lock_step (om : gmap N amount) (ac : accumulator) (lock : N) : res acv_err accumulator :=
  use_coins (rev (filter (fun k => k <= lock) (sorted_keys (ac_locked ac)))) (default 0 (om !! lock)) ac.
Definition demand (om : gmap N amount) (P : N -> bool) (ls : list N) : N := sum_over (fun l => if P l then default 0 (om !! l) else 0) ls.

Lemma usable_keys m lock k : k ∈ rev (filter (fun k => k <= lock) (sorted_keys m)) <-> k <= lock /\ is_Some (m !! k).
Proof. rewrite elem_of_list_In, <- in_rev, <- elem_of_list_In, elem_of_list_filter, sorted_keys_elem. reflexivity. Qed.

Lemma lock_step_value om ac lock ac' : lock_step om ac lock = Ok ac' ->
  (forall c, c <> Coin -> ac_free ac' !! c = ac_free ac !! c) /\
  (forall P, (forall k, k <= lock -> P k = true) -> coins ac + sumP P (ac_locked ac) = coins ac' + sumP P (ac_locked ac') + default 0 (om !! lock)) /\
  (forall P, sumP P (ac_locked ac') <= sumP P (ac_locked ac)) /\
  (forall P, (forall k, k <= lock -> P k = false) -> sumP P (ac_locked ac') = sumP P (ac_locked ac)) /\
  (forall P, sumP P (ac_locked ac) <= sumP P (ac_locked ac') + default 0 (om !! lock)) /\ coins ac' <= coins ac.
Proof.
  intros H. destruct (use_coins_value _ _ _ _ H) as (A & B & C & D & F & G).
  split; [exact A|]. split; [|split; [exact C|split; [|split; [exact D|exact G]]]].
  - intros P HP. apply B. intros k Hk. apply HP. apply usable_keys in Hk as [Hk _]. exact Hk.
  - intros P HP. apply F. intros k Hk. apply HP. apply usable_keys in Hk as [Hk _]. exact Hk.
Qed.
Lemma lock_step_ok om ac lock : is_ok (lock_step om ac lock) <->
  default 0 (om !! lock) <= coins ac + sumP (fun k => k <=? lock) (ac_locked ac).
Proof.
  split.
  - intros [ac' H]. destruct (lock_step_value _ _ _ _ H) as (_ & B & _). rewrite (B (fun k => k <=? lock)); [lia|]. intros k Hk. lia.
  - intros H. apply use_coins_enough.
    + apply NoDup_ListNoDup, NoDup_rev, NoDup_ListNoDup. apply NoDup_filter, sorted_keys_nodup.
    + rewrite (sumP_keys _ _ (rev (filter (fun k => k <= lock) (sorted_keys (ac_locked ac))))) in H; [exact H| | |].
      * apply NoDup_ListNoDup, NoDup_rev, NoDup_ListNoDup. apply NoDup_filter, sorted_keys_nodup.
      * intros k Hk. apply usable_keys in Hk. lia.
      * intros k Hs Hk. apply usable_keys. split; [lia|exact Hs].
Qed.

Lemma lock_loop_value om ls : forall ac ac', rfold (lock_step om) ls ac = Ok ac' ->
  (forall c, c <> Coin -> ac_free ac' !! c = ac_free ac !! c) /\
  coins ac + sumP (fun _ => true) (ac_locked ac) = coins ac' + sumP (fun _ => true) (ac_locked ac') + demand om (fun _ => true) ls /\
  (forall t, sumP (N.leb t) (ac_locked ac) <= sumP (N.leb t) (ac_locked ac') + demand om (N.leb t) ls) /\
  (forall P, sumP P (ac_locked ac') <= sumP P (ac_locked ac)) /\ coins ac' <= coins ac.
Proof.
  induction ls as [|l ls IH]; intros ac ac' H; cbn [rfold] in H.
  - injection H as <-. split; [reflexivity|]. split; [cbn; lia|]. split; [intros t; cbn; lia|]. split; [reflexivity|lia].
  - destruct (lock_step om ac l) as [ac1| |] eqn:E; [|discriminate..].
    destruct (lock_step_value _ _ _ _ E) as (A & B & C & D & F & G). destruct (IH _ _ H) as (A' & B' & C' & D' & G').
    unfold demand in *. split; [intros c Hc; rewrite A', A by assumption; reflexivity|]. split; [|split; [|split]].
    + rewrite sum_over_cons, (B (fun _ => true)) by reflexivity. lia.
    + intros t. rewrite sum_over_cons. specialize (C' t). destruct (N.leb_spec t l) as [Hle|Hgt].
      * specialize (F (N.leb t)). lia.
      * rewrite <- (D (N.leb t)); [lia|]. intros k Hk. lia.
    + intros P. specialize (C P). specialize (D' P). lia.
    + lia.
Qed.
Lemma lock_loop_ok om ls : forall ac, StronglySorted N.le ls ->
  (is_ok (rfold (lock_step om) ls ac) <->
   forall t, t ∈ ls -> demand om (fun l => l <=? t) ls <= coins ac + sumP (fun k => k <=? t) (ac_locked ac)).
Proof.
  induction ls as [|l ls IH]; intros ac Hs; cbn [rfold].
  - split; [intros _ t Ht; apply not_elem_of_nil in Ht; contradiction|intros _; eexists; reflexivity].
  - inversion Hs as [|? ? Hs' Hall]; subst. rewrite Forall_forall in Hall.
    assert (forall t, l <= t -> demand om (fun l => l <=? t) (l :: ls) = default 0 (om !! l) + demand om (fun l => l <=? t) ls) as Hd.
    { intros t Ht. unfold demand. rewrite sum_over_cons. destruct (N.leb_spec l t); [reflexivity|lia]. }
    assert (forall ac1, lock_step om ac l = Ok ac1 -> forall t, l <= t ->
      coins ac + sumP (fun k => k <=? t) (ac_locked ac) = coins ac1 + sumP (fun k => k <=? t) (ac_locked ac1) + default 0 (om !! l)) as Hstep.
    { intros ac1 E t Ht. destruct (lock_step_value _ _ _ _ E) as (_ & B & _). apply B. intros k Hk. lia. }
    split.
    + intros [r Hr]. destruct (lock_step om ac l) as [ac1| |] eqn:E; [|discriminate..].
      assert (is_ok (rfold (lock_step om) ls ac1)) as Hok by (exists r; exact Hr). pose proof (proj1 (IH ac1 Hs') Hok) as Hok'.
      intros t Ht. apply elem_of_cons in Ht as [->|Ht].
      * rewrite Hd by lia. rewrite (Hstep ac1 eq_refl l) by lia.
        destruct ls as [|x ls']; [cbn; lia|]. destruct (decide (x = l)) as [->|Hne].
        -- specialize (Hok' l (elem_of_list_here _ _)). lia.
        -- assert (demand om (fun l0 => l0 <=? l) (x :: ls') = 0) as ->; [|lia].
           apply sum_over_zero. intros y Hy. destruct (N.leb_spec y l) as [Hyl|]; [|reflexivity]. exfalso.
           inversion Hs' as [|? ? _ Hall']; subst. rewrite Forall_forall in Hall'.
           assert (l <= x) by (apply Hall; left). apply elem_of_cons in Hy as [->|Hy]; [lia|]. specialize (Hall' _ Hy). lia.
      * assert (l <= t) by (apply Hall; exact Ht). rewrite Hd by assumption. rewrite (Hstep ac1 eq_refl t) by assumption. specialize (Hok' t Ht). lia.
    + intros H. assert (is_ok (lock_step om ac l)) as [ac1 E].
      { apply lock_step_ok. specialize (H l (elem_of_list_here _ _)). rewrite Hd in H by lia. lia. }
      rewrite E. apply IH; [exact Hs'|]. intros t Ht. assert (l <= t) by (apply Hall; exact Ht).
      specialize (H t (elem_of_list_further _ _ _ Ht)). rewrite Hd in H by assumption. rewrite (Hstep ac1 E t) in H by assumption. lia.
Qed.

Lemma demand_sum om P : demand om P (sorted_keys om) = sumP P om.
Proof.
  unfold demand, sumP. set (f := fun l => if P l then default 0 (om !! l) else 0).
  assert (sum_over (fun ka : N * N => if P ka.1 then ka.2 else 0) (map_to_list om) = sum_over f (map_to_list om).*1) as ->.
  { assert (forall l, (forall k a, (k, a) ∈ l -> om !! k = Some a) ->
      sum_over (fun ka : N * N => if P ka.1 then ka.2 else 0) l = sum_over f l.*1) as G.
    { induction l as [|[k a] l IH]; intros H; [reflexivity|]. cbn [fmap list_fmap]. rewrite !sum_over_cons.
      rewrite IH by (intros k' a' H'; apply H; right; exact H'). f_equal. subst f. cbn [fst snd].
      rewrite (H k a) by left. reflexivity. }
    apply G. intros k a H. apply elem_of_map_to_list, H. }
  apply sum_over_perm. unfold sorted_keys. rewrite merge_sort_Permutation. apply NoDup_Permutation.
  - apply NoDup_elements.
  - apply NoDup_fst_map_to_list.
  - intros k. rewrite elem_of_elements, elem_of_dom, elem_of_list_fmap. split.
    + intros [a Ha]. exists (k, a). split; [reflexivity|apply elem_of_map_to_list; exact Ha].
    + intros ([k' a] & -> & H). apply elem_of_map_to_list in H. eexists. exact H.
Qed.

Lemma satisfy_unfold self other : satisfy_with self other =
  let? free := rfold (fun m ka => decrease_or m ka.1 ka.2 PrintMoneyOrViolateTimelock) (map_to_list (ac_free other)) (ac_free self) in
  rfold (lock_step (ac_locked other)) (sorted_keys (ac_locked other)) (Accu free (ac_locked self)).
Proof. reflexivity. Qed.

Lemma free_split P (ac ac' : accumulator) : (forall c, c <> Coin -> ac_free ac' !! c = ac_free ac !! c) ->
  sumP P (ac_free ac) + pick P Coin (coins ac') = sumP P (ac_free ac') + pick P Coin (coins ac).
Proof.
  intros H. rewrite (sumP_delete P (ac_free ac) Coin), (sumP_delete P (ac_free ac') Coin).
  assert (delete Coin (ac_free ac') = delete Coin (ac_free ac)) as ->; [|unfold coins; lia].
  apply map_eq. intros c. destruct (decide (c = Coin)) as [->|Hne]; [rewrite !lookup_delete; reflexivity|].
  rewrite !lookup_delete_ne by congruence. apply H. congruence.
Qed.

(** The balance of a successful comparison. *)
Lemma satisfy_balance self other fee : satisfy_with self other = Ok fee ->
  (forall c, fee_value (of_currency c) self = fee_value (of_currency c) other + fee_value (of_currency c) fee) /\
  (forall t, 0 < t -> fee_value (locked_from t) self <= fee_value (locked_from t) other + fee_value (locked_from t) fee) /\
  (forall P, sumP P (ac_locked fee) <= sumP P (ac_locked self)).
Proof.
  rewrite satisfy_unfold. intros H. apply rbind_ok in H as (free & Hf & H).
  destruct (lock_loop_value _ _ _ _ H) as (A & B & C & D & _). cbn [ac_free ac_locked] in *.
  split; [|split; [|exact D]].
  - intros c. rewrite !fee_value_sum. pose proof (rfold_decrease (fun c' => of_currency c c' 0) _ _ _ _ Hf) as E.
    change (sum_over _ (map_to_list (ac_free other))) with (sumP (fun c' => of_currency c c' 0) (ac_free other)) in E.
    pose proof (free_split (fun c' => of_currency c c' 0) (Accu free (ac_locked self)) fee A) as F. cbn [ac_free] in F.
    rewrite demand_sum in B. unfold pick in F. destruct (decide (c = Coin)) as [->|Hne].
    + change (of_currency Coin Coin) with (fun _ : N => true). rewrite E.
      assert (of_currency Coin Coin 0 = true) as Ht by reflexivity. rewrite Ht in F. lia.
    + assert (forall k, of_currency c Coin k = false) as Hfalse by (intros k; apply bool_decide_eq_false; congruence).
      rewrite Hfalse in F. assert (forall m, sumP (of_currency c Coin) m = 0) as Hz.
      { intros m. apply sum_over_zero. intros x _. rewrite Hfalse. reflexivity. }
      rewrite !Hz. rewrite E. lia.
  - intros t Ht. rewrite !fee_value_sum. specialize (C t). rewrite demand_sum in C.
    assert (forall m, sumP (fun c => locked_from t c 0) m = 0) as Hz.
    { intros m. apply sum_over_zero. intros x _. unfold locked_from. destruct (N.leb_spec t 0); [lia|reflexivity]. }
    rewrite !Hz. change (locked_from t Coin) with (N.leb t). lia.
Qed.

(** Exactly when a comparison succeeds. *)
Lemma rfold_decrease_ok e l : forall m, NoDup l.*1 ->
  (is_ok (rfold (fun m ka => decrease_or m ka.1 ka.2 e) l m) <-> forall k a, (k, a) ∈ l -> a <= default 0 (m !! k)).
Proof.
  induction l as [|[k a] l IH]; intros m Hn; cbn [rfold].
  - split; [intros _ k a Ht; apply not_elem_of_nil in Ht; contradiction|intros _; eexists; reflexivity].
  - cbn [fmap list_fmap fst] in Hn. apply NoDup_cons in Hn as [Hk Hn]. cbn [fst snd].
    assert (is_ok (decrease_or m k a e) <-> a <= default 0 (m !! k)) as Hstep.
    { unfold decrease_or. destruct (N.ltb_spec 0 a) as [Hp|Hz].
      - destruct (m !! k) as [v|]; cbn.
        + unfold amount_sub, checked_sub. destruct (N.leb_spec a v) as [Hle|Hgt]; cbn.
          * split; [intros _; exact Hle|intros _; eexists; reflexivity].
          * split; [intros [x Hx]; discriminate|intros Hle; lia].
        + split; [intros [x Hx]; discriminate|lia].
      - split; [lia|intros _; eexists; reflexivity]. }
    assert (forall m', decrease_or m k a e = Ok m' -> forall k', k' <> k -> m' !! k' = m !! k') as Hne.
    { intros m' H k' Hne. unfold decrease_or in H. destruct (0 <? a); [|congruence]. destruct (m !! k); [|discriminate].
      apply rbind_ok in H as (v' & _ & [= <-]). apply lookup_insert_ne. congruence. }
    split.
    + intros [r Hr]. destruct (decrease_or m k a e) as [m'| |] eqn:E; [|discriminate..].
      intros k' a' Hin. apply elem_of_cons in Hin as [[= -> ->]|Hin].
      * apply Hstep. eexists; reflexivity.
      * assert (is_ok (rfold (fun m ka => decrease_or m ka.1 ka.2 e) l m')) as Hok by (exists r; exact Hr).
        pose proof (proj1 (IH m' Hn) Hok k' a' Hin) as H. rewrite (Hne m' eq_refl) in H; [exact H|].
        intros ->. apply Hk. apply elem_of_list_fmap. exists (k, a'). auto.
    + intros H. destruct (proj2 Hstep (H k a (elem_of_list_here _ _))) as [m' E]. rewrite E. apply IH; [exact Hn|].
      intros k' a' Hin. rewrite (Hne m' E); [apply H; right; exact Hin|].
      intros ->. apply Hk. apply elem_of_list_fmap. exists (k, a'). auto.
Qed.

(** No lock of zero blocks is ever stored. *)
Definition no_zero_lock (ac : accumulator) : Prop := ac_locked ac !! 0 = None.
Lemma add_free_nz ac c a ac' : no_zero_lock ac -> add_free ac c a = Ok ac' -> no_zero_lock ac'.
Proof. unfold add_free. intros Hn H. apply rbind_ok in H as (m & _ & [= <-]). exact Hn. Qed.
Lemma add_value_nz ac v ac' : no_zero_lock ac -> add_value ac v = Ok ac' -> no_zero_lock ac'.
Proof. intros Hn. destruct v; cbn; [apply add_free_nz, Hn|intros [= <-]; exact Hn|apply add_free_nz, Hn]. Qed.
Lemma add_maturing_nz cf ac a ac' : no_zero_lock ac -> add_maturing cf ac a = Ok ac' -> no_zero_lock ac'.
Proof.
  unfold add_maturing. intros Hn. destruct (N.eqb_spec (cf_maturity cf) 0) as [_|Hne]; [apply add_free_nz, Hn|].
  intros H. apply rbind_ok in H as (v & _ & [= <-]). unfold no_zero_lock. cbn. rewrite lookup_insert_ne by exact Hne. exact Hn.
Qed.
Lemma process_output_nz cf ac o ac' : no_zero_lock ac -> process_output cf ac o = Ok ac' -> no_zero_lock ac'.
Proof.
  intros Hn. destruct o; cbn [process_output]; try (apply add_value_nz, Hn); try (apply add_free_nz, Hn); try (intros [= <-]; exact Hn).
  - destruct v; [|intros [= <-]; exact Hn|apply add_free_nz, Hn]. destruct t; cbn; try (apply add_free_nz, Hn).
    destruct (N.eqb_spec n 0) as [_|Hne]; [apply add_free_nz, Hn|]. intros H. apply rbind_ok in H as (m & Hm & [= <-]).
    unfold no_zero_lock. cbn. rewrite (increase_ok _ _ _ _ Hm). rewrite lookup_insert_ne by exact Hne. exact Hn.
  - intros H. apply rbind_ok in H as (c & _ & H). apply rbind_ok in H as (x & _ & H). apply (add_free_nz _ _ _ _ Hn H).
Qed.
Lemma conclude_nz V ac ds id ac' ds' x : no_zero_lock ac -> process_conclude_order V ac ds id = Ok (ac', ds', x) -> no_zero_lock ac'.
Proof.
  unfold process_conclude_order. intros Hn H. repeat (apply rbind_ok in H as (? & ? & H)). injection H as <- <- <-.
  eapply add_free_nz; [|eassumption]. eapply add_free_nz; [|eassumption]. exact Hn.
Qed.
Lemma fill_nz cf V ac ds id f ac' ds' x : no_zero_lock ac -> process_fill_order cf V ac ds id f = Ok (ac', ds', x) -> no_zero_lock ac'.
Proof.
  unfold process_fill_order. intros Hn H. repeat (apply rbind_ok in H as (? & ? & H)). injection H as <- <- <-.
  eapply add_free_nz; [|eassumption]. exact Hn.
Qed.
Lemma process_input_nz cf V ac ds td iu ac' ds' td' :
  no_zero_lock ac -> process_input cf V (ac, ds, td) iu = Ok (ac', ds', td') -> no_zero_lock ac'.
Proof.
  intros Hn H. destruct iu as [[o|nonce del a|nonce c|c] u]; cbn [process_input] in H.
  - apply rbind_ok in H as (out & Ho & H). apply rbind_ok in H as (ac1 & Hac1 & [= <- <- <-]).
    destruct out; cbn [process_input_utxo] in Hac1; try discriminate; try (apply (add_value_nz _ _ _ Hn Hac1)); try (apply (add_free_nz _ _ _ _ Hn Hac1)).
    all: repeat (apply rbind_ok in Hac1 as (? & ? & Hac1)); apply (add_maturing_nz _ _ _ _ Hn Hac1).
  - apply rbind_ok in H as ([ac1 ds1] & H & [= <- <- <-]). unfold process_input_account in H.
    apply rbind_ok in H as (? & ? & H). apply rbind_ok in H as (? & ? & H). apply rbind_ok in H as (ac2 & Hac2 & [= <- <-]).
    apply (add_maturing_nz _ _ _ _ Hn Hac2).
  - apply rbind_ok in H as ([[ac1 ds1] [cur amt]] & H & Htd). apply rbind_ok in Htd as (td1 & Htd & [= <- <- <-]).
    destruct c; cbn [process_command] in H; try (injection H as <- <- <- <-; exact Hn).
    + apply rbind_ok in H as (? & ? & H). apply rbind_ok in H as (? & ? & H). apply rbind_ok in H as (ac2 & Hac2 & [= <- <- <- <-]).
      apply (add_free_nz _ _ _ _ Hn Hac2).
    + apply (conclude_nz _ _ _ _ _ _ _ Hn H).
    + apply (fill_nz _ _ _ _ _ _ _ _ _ Hn H).
  - apply rbind_ok in H as ([[ac1 ds1] o] & H & Htd).
    assert (ac1 = ac') as <-. { destruct o as [[cur amt]|]; [apply rbind_ok in Htd as (? & _ & Htd)|]; injection Htd as <- _ _; reflexivity. }
    destruct c; cbn [process_order_command] in H.
    + apply rbind_ok in H as ([[x1 x2] x3] & H & [= <- <- <-]). apply (fill_nz _ _ _ _ _ _ _ _ _ Hn H).
    + injection H as <- <- <-. exact Hn.
    + apply rbind_ok in H as ([[x1 x2] x3] & H & [= <- <- <-]). apply (conclude_nz _ _ _ _ _ _ _ Hn H).
Qed.
Lemma from_inputs_nz cf V inputs utxos ac : from_inputs cf V inputs utxos = Ok ac -> no_zero_lock ac.
Proof.
  unfold from_inputs. intros H. apply rbind_ok in H as (_ & _ & H). apply rbind_ok in H as ([[ac1 ds1] td1] & H1 & H).
  apply rbind_ok in H as (free & _ & [= <-]). change (no_zero_lock ac1).
  assert (forall l st st', no_zero_lock st.1.1 -> rfold (process_input cf V) l st = Ok st' -> no_zero_lock st'.1.1) as G.
  { induction l as [|x l IH]; intros [[a b] c] st' Hn H; cbn [rfold] in H; [injection H as <-; exact Hn|].
    destruct (process_input cf V (a, b, c) x) as [[[a1 b1] c1]| |] eqn:E; [|discriminate..].
    apply (IH (a1, b1, c1) _ (process_input_nz _ _ _ _ _ _ _ _ _ Hn E) H). }
  apply (G _ (acc_new, deltas_new, ∅) _ eq_refl H1).
Qed.
Lemma from_outputs_nz cf outs ac : from_outputs cf outs = Ok ac -> no_zero_lock ac.
Proof.
  unfold from_outputs. assert (no_zero_lock acc_new) as Hn by reflexivity. revert Hn. generalize acc_new.
  induction outs as [|o outs IH]; intros a0 Hn H; cbn [rfold] in H; [injection H as <-; exact Hn|].
  destruct (process_output cf a0 o) as [a1| |] eqn:E; [|discriminate..]. apply (IH _ (process_output_nz _ _ _ _ Hn E) H).
Qed.

Lemma free_of_value c ac : no_zero_lock ac -> fee_value (free_of c) ac = default 0 (ac_free ac !! c).
Proof.
  intros Hn. rewrite fee_value_sum, <- (sumP_one (ac_free ac) c).
  assert (sumP (free_of c Coin) (ac_locked ac) = 0) as ->.
  { apply sum_over_zero. intros [k a] H. apply elem_of_map_to_list in H. unfold free_of. cbn [fst].
    destruct (N.eqb_spec k 0) as [->|]; [|rewrite andb_false_r; reflexivity]. unfold no_zero_lock in Hn. congruence. }
  rewrite N.add_0_r. apply sumP_ext. intros k _. unfold free_of. cbn. apply andb_true_r.
Qed.
Lemma up_to_value t ac : fee_value (locked_up_to t) ac = coins ac + sumP (fun k => k <=? t) (ac_locked ac).
Proof.
  rewrite fee_value_sum. f_equal. unfold coins. rewrite <- sumP_one. apply sumP_ext. intros k _. unfold locked_up_to. destruct (N.leb_spec 0 t); [apply andb_true_r|lia].
Qed.

Lemma decrease_at e l : forall m m' k, NoDup l.*1 -> rfold (fun m ka => decrease_or m ka.1 ka.2 e) l m = Ok m' ->
  default 0 (m !! k) = default 0 (m' !! k) + default 0 ((list_to_map l : gmap currency N) !! k).
Proof.
  intros m m' k Hn H. pose proof (rfold_decrease (fun k' => bool_decide (k' = k)) _ _ _ _ H) as E. rewrite !sumP_one in E.
  rewrite E. f_equal. rewrite <- sumP_one. unfold sumP.
  apply sum_over_perm. rewrite map_to_list_to_map by exact Hn. reflexivity.
Qed.

Lemma satisfy_ok_iff self other : no_zero_lock self -> no_zero_lock other ->
  (is_ok (satisfy_with self other) <->
   (forall c, fee_value (free_of c) other <= fee_value (free_of c) self) /\
   (forall t, fee_value (locked_up_to t) other <= fee_value (locked_up_to t) self)).
Proof.
  intros Hs Ho. rewrite satisfy_unfold.
  set (dec := rfold (fun m ka => decrease_or m ka.1 ka.2 PrintMoneyOrViolateTimelock) (map_to_list (ac_free other)) (ac_free self)).
  assert (is_ok dec <-> forall c, default 0 (ac_free other !! c) <= default 0 (ac_free self !! c)) as Hdec.
  { unfold dec. rewrite rfold_decrease_ok by apply NoDup_fst_map_to_list. split.
    - intros H c. destruct (ac_free other !! c) as [a|] eqn:E; [|cbn; lia]. apply H, elem_of_map_to_list, E.
    - intros H k a Hin. apply elem_of_map_to_list in Hin. specialize (H k). rewrite Hin in H. exact H. }
  assert (forall free, dec = Ok free -> default 0 (ac_free self !! Coin) = default 0 (free !! Coin) + default 0 (ac_free other !! Coin)) as Hfree.
  { intros free E. rewrite (decrease_at _ _ _ _ Coin (NoDup_fst_map_to_list _) E), list_to_map_to_list. reflexivity. }
  assert (forall free, dec = Ok free -> (is_ok (rfold (lock_step (ac_locked other)) (sorted_keys (ac_locked other)) (Accu free (ac_locked self))) <->
     forall t, fee_value (locked_up_to t) other <= fee_value (locked_up_to t) self)) as Hloop.
  { intros free E. specialize (Hfree free E). rewrite lock_loop_ok by apply sorted_keys_sorted. split.
    - intros H t. rewrite !up_to_value. unfold coins at 1 2. rewrite Hfree.
      (* only the locks up to t of the outputs matter: take the largest *)
      destruct (decide (Exists (fun l => l <= t) (sorted_keys (ac_locked other)))) as [Hex|Hnone].
      + assert (exists l, l ∈ sorted_keys (ac_locked other) /\ l <= t /\ forall k, k ∈ sorted_keys (ac_locked other) -> k <= t -> k <= l) as (l & Hl & Hlt & Hmax).
        { clear - Hex. induction (sorted_keys (ac_locked other)) as [|x ls IH]; [inversion Hex|].
          destruct (decide (Exists (fun l => l <= t) ls)) as [Hex'|Hno].
          - destruct (IH Hex') as (l & Hl & Hlt & Hmax). destruct (decide (x <= t /\ l <= x)) as [[H1 H2]|Hcase].
            + exists x. split; [left|]. split; [exact H1|]. intros k Hk Hkt. apply elem_of_cons in Hk as [->|Hk]; [lia|]. specialize (Hmax k Hk Hkt). lia.
            + exists l. split; [right; exact Hl|]. split; [exact Hlt|]. intros k Hk Hkt. apply elem_of_cons in Hk as [->|Hk]; [lia|apply Hmax; assumption].
          - inversion Hex as [? ? Hx|? ? Hx]; subst; [|contradiction]. exists x. split; [left|]. split; [exact Hx|].
            intros k Hk Hkt. apply elem_of_cons in Hk as [->|Hk]; [lia|]. exfalso. apply Hno. apply Exists_exists. exists k. auto. }
        specialize (H l Hl). rewrite demand_sum in H. cbn [ac_locked] in H. unfold coins in H. cbn [ac_free] in H.
        assert (sumP (fun k => k <=? t) (ac_locked other) = sumP (fun k => k <=? l) (ac_locked other)) as Eo.
        { apply sumP_ext. intros k Hk. apply sorted_keys_elem in Hk. specialize (Hmax k Hk).
          destruct (N.leb_spec k t), (N.leb_spec k l); try reflexivity; lia. }
        rewrite Eo.
        assert (sumP (fun k => k <=? l) (ac_locked self) <= sumP (fun k => k <=? t) (ac_locked self)) as Es.
        { apply sum_over_le. intros [k a] _. cbn. destruct (N.leb_spec k l), (N.leb_spec k t); lia. }
        lia.
      + assert (sumP (fun k => k <=? t) (ac_locked other) = 0) as ->; [|lia].
        unfold sumP. apply sum_over_zero. intros [k a] Hin. apply elem_of_map_to_list in Hin. cbn. destruct (N.leb_spec k t) as [Hle|]; [|reflexivity].
        exfalso. apply Hnone, Exists_exists. exists k. split; [apply sorted_keys_elem; eexists; exact Hin|exact Hle].
    - intros H t _. specialize (H t). rewrite !up_to_value in H. unfold coins in H. rewrite Hfree in H.
      rewrite demand_sum. unfold coins. cbn [ac_free ac_locked]. lia. }
  split.
  - intros [r Hr]. destruct dec as [free| |] eqn:E; [|discriminate..]. cbn [rbind] in Hr. split.
    + intros c. rewrite !free_of_value by assumption. apply Hdec. eexists; reflexivity.
    + apply (Hloop free eq_refl). exists r. exact Hr.
  - intros [H1 H2]. assert (is_ok dec) as [free E].
    { apply Hdec. intros c. specialize (H1 c). rewrite !free_of_value in H1 by assumption. exact H1. }
    destruct dec as [f'| |]; [|discriminate..]. injection E as ->. cbn [rbind]. apply (Hloop free eq_refl), H2.
Qed.

(** ** The whole check *)
Lemma value_charged_lock cf L l (S : currency -> N -> bool) : value S (charged cf L l) = value (fun c _ => S c 0) (charged cf L l).
Proof.
  revert L. induction l as [|[i u] l IH]; intros L; [reflexivity|]. cbn [charged]. rewrite !value_app, IH. f_equal.
  destruct i as [o|n d a|n c|c]; try reflexivity; destruct c; try reflexivity.
  all: cbn [input_costs fst]; destruct (os_data (lg_ord L) id) as [x|]; [|reflexivity]; destruct (od_ask x); reflexivity.
Qed.

Theorem check_values_conserves cf V L inputs utxos outs fee :
  views_read V L -> ledger_sound L -> check_values cf V inputs utxos outs = Ok fee ->
  (forall c, value (of_currency c) (unlocked cf L (zip inputs utxos)) =
     value (of_currency c) (charged cf L (zip inputs utxos)) + value (of_currency c) (needed cf outs) + fee_value (of_currency c) fee) /\
  (forall t, 0 < t -> value (locked_from t) (unlocked cf L (zip inputs utxos)) <=
     value (locked_from t) (needed cf outs) + fee_value (locked_from t) fee).
Proof.
  intros HV HL H. unfold check_values in H. apply rbind_ok in H as (i & Hi & H). apply rbind_ok in H as (o & Ho & H).
  destruct (satisfy_balance _ _ _ H) as (A & B & _). pose proof (from_inputs_value _ _ _ _ _ _ HV HL Hi) as C.
  split.
  - intros c. pose proof (C (of_currency c)) as E. change (value (fun c0 _ => of_currency c c0 0)) with (value (of_currency c)) in E.
    rewrite E, (A c), (from_outputs_value _ _ _ _ Ho). lia.
  - intros t Ht. rewrite (C (locked_from t)), <- (from_outputs_value _ _ _ _ Ho). specialize (B t Ht).
    assert (value (fun c _ => locked_from t c 0) (charged cf L (zip inputs utxos)) = 0) as ->; [|lia].
    apply sum_over_zero. intros x _. unfold locked_from. destruct (N.leb_spec t 0); [lia|reflexivity].
Qed.

Lemma check_values_fit cf V L inputs utxos outs fee :
  views_read V L -> ledger_sound L -> check_values cf V inputs utxos outs = Ok fee -> inputs_fit cf L (zip inputs utxos).
Proof.
  intros HV (G1 & G2 & G3) H. unfold check_values in H. apply rbind_ok in H as (i & Hi & _). unfold from_inputs in Hi.
  apply rbind_ok in Hi as (_ & _ & H). apply rbind_ok in H as (r & H1 & _).
  assert (linv L deltas_new L) as Hi by exact (conj (pos_inv_empty _ G1) (conj (tok_inv_empty _ G2) (ord_inv_empty _ G3))).
  exact (process_inputs_fit cf V L HV _ _ _ _ _ _ Hi H1).
Qed.

Theorem check_values_ok_iff cf V L inputs utxos outs i o :
  views_read V L -> ledger_sound L -> from_inputs cf V inputs utxos = Ok i -> from_outputs cf outs = Ok o ->
  (is_ok (check_values cf V inputs utxos outs) <->
   (forall c, value (free_of c) (charged cf L (zip inputs utxos)) + value (free_of c) (needed cf outs) <=
              value (free_of c) (unlocked cf L (zip inputs utxos))) /\
   (forall t, value (locked_up_to t) (charged cf L (zip inputs utxos)) + value (locked_up_to t) (needed cf outs) <=
              value (locked_up_to t) (unlocked cf L (zip inputs utxos)))).
Proof.
  intros HV HL Hi Ho. unfold check_values. rewrite Hi, Ho. cbn [rbind].
  rewrite (satisfy_ok_iff _ _ (from_inputs_nz _ _ _ _ _ Hi) (from_outputs_nz _ _ _ Ho)).
  pose proof (from_inputs_value _ _ _ _ _ _ HV HL Hi) as C.
  assert (forall S, fee_value S o <= fee_value S i <->
    value S (charged cf L (zip inputs utxos)) + value S (needed cf outs) <= value S (unlocked cf L (zip inputs utxos))) as G.
  { intros S. rewrite (C S), <- (from_outputs_value S _ _ _ Ho), <- value_charged_lock. lia. }
  split; intros [H1 H2]; (split; [intros c|intros t]).
  - apply G, H1.
  - apply G, H2.
  - apply G, H1.
  - apply G, H2.
Qed.

Lemma rfold_lock_no_panic om ls : forall ac, rfold (lock_step om) ls ac <> Panic.
Proof.
  induction ls as [|l ls IH]; intros ac; cbn [rfold]; [discriminate|].
  destruct (lock_step om ac l) eqn:E; [apply IH|discriminate|]. exfalso. apply (use_coins_no_panic _ _ _ E).
Qed.
Lemma satisfy_no_panic self other : satisfy_with self other <> Panic.
Proof.
  rewrite satisfy_unfold. assert (forall l m e, rfold (fun m ka => decrease_or m ka.1 ka.2 e) l m <> Panic) as G.
  { induction l as [|[k a] l IH]; intros m e; cbn [rfold fst snd]; [discriminate|].
    destruct (decrease_or m k a e) eqn:E; [apply IH|discriminate|].
    unfold decrease_or in E. destruct (0 <? a); [|discriminate]. destruct (m !! k); [|discriminate].
    unfold ok_or in E. destruct (amount_sub _ _); discriminate. }
  destruct (rfold _ (map_to_list (ac_free other)) (ac_free self)) eqn:E; cbn [rbind]; [apply rfold_lock_no_panic|discriminate|].
  exfalso. apply (G _ _ _ E).
Qed.

(** ** Rewards and block fees *)
Theorem reward_values_bounded cf fees subsidy outs fee :
  check_reward_values cf fees subsidy outs = Ok fee ->
  fees + subsidy = value (of_currency Coin) (needed cf outs) + fee_value (of_currency Coin) fee /\
  forall id, value (of_currency (Token id)) (needed cf outs) = 0.
Proof.
  unfold check_reward_values. intros H. apply rbind_ok in H as (i & Hi & H). apply rbind_ok in H as (o & Ho & H).
  apply ok_or_ok in Hi. unfold from_block_reward in Hi. destruct (amount_add fees subsidy) as [s|] eqn:E; [|discriminate].
  injection Hi as <-. apply amount_add_some in E as [-> _]. destruct (satisfy_balance _ _ _ H) as (A & _).
  pose proof (from_outputs_value (of_currency Coin) _ _ _ Ho) as B. split.
  - rewrite <- B, <- (A Coin). rewrite fee_value_sum. cbn [ac_free ac_locked]. rewrite sumP_singleton, sumP_empty.
    unfold pick, of_currency. rewrite bool_decide_true by reflexivity. symmetry. apply N.add_0_r.
  - intros id. rewrite <- (from_outputs_value (of_currency (Token id)) _ _ _ Ho).
    specialize (A (Token id)). rewrite fee_value_sum in A at 1. cbn [ac_free ac_locked] in A. rewrite sumP_singleton, sumP_empty in A.
    change (pick _ Coin _) with 0 in A. lia.
Qed.

Lemma amount_sum_from_val l : forall acc r, amount_sum_from acc l = Some r -> r = acc + foldr N.add 0 l.
Proof.
  induction l as [|a l IH]; intros acc r H; cbn in H |- *; [injection H as <-; lia|].
  destruct (amount_add acc a) as [s|] eqn:E; [|discriminate]. apply amount_add_some in E as [-> _]. rewrite (IH _ _ H). lia.
Qed.
Lemma fee_combine_value S x y z : fee_combine x y = Ok z -> fee_value S z = fee_value S x + fee_value S y.
Proof.
  unfold fee_combine, merge_amount_maps. intros H. apply rbind_ok in H as (f & Hf & H). apply rbind_ok in H as (l & Hl & [= <-]).
  rewrite !fee_value_sum. cbn [ac_free ac_locked].
  rewrite (rfold_increase (fun c => S c 0) _ _ _ Hf), (rfold_increase (S Coin) _ _ _ Hl). unfold sumP, pick. lia.
Qed.
Lemma map_fees_value cf all total : map_into_block_fees cf all = Ok total -> total = fee_value (locked_up_to (cf_maturity cf)) all.
Proof.
  intros H. rewrite up_to_value. unfold map_into_block_fees in H. apply rbind_ok in H as (locked & Hl & H).
  apply ok_or_ok in Hl, H. apply amount_add_some in H as [-> _]. unfold coins. f_equal.
  unfold amount_sum in Hl. rewrite (amount_sum_from_val _ _ _ Hl), N.add_0_l. unfold sumP.
  generalize (map_to_list (ac_locked all)). induction l as [|[k a] l IH]; [reflexivity|].
  rewrite filter_cons, sum_over_cons. cbn [fst snd]. destruct (decide (k <= cf_maturity cf)) as [Hle|Hgt].
  - cbn [fmap list_fmap foldr snd]. rewrite IH. destruct (N.leb_spec k (cf_maturity cf)); [reflexivity|lia].
  - rewrite IH. destruct (N.leb_spec k (cf_maturity cf)); [lia|reflexivity].
Qed.
Lemma map_fees_le cf all total : map_into_block_fees cf all = Ok total -> total <= fee_value (of_currency Coin) all.
Proof.
  intros H. rewrite (map_fees_value _ _ _ H). unfold fee_value. apply N.add_le_mono; apply sum_over_le; intros [k a] _; unfold locked_up_to, of_currency; cbn [fst snd];
    destruct (bool_decide _); cbn [andb]; try lia; destruct (_ <=? _); lia.
Qed.
Theorem block_fees_value cf fees total : block_fees cf fees = Ok total ->
  total = sum_over (fee_value (locked_up_to (cf_maturity cf))) fees.
Proof.
  unfold block_fees. intros H. apply rbind_ok in H as (all & Ha & H).
  assert (forall S, fee_value S all = sum_over (fee_value S) fees) as G.
  { intros S. assert (forall l a b, rfold fee_combine l a = Ok b -> fee_value S b = fee_value S a + sum_over (fee_value S) l) as G.
    { clear. induction l as [|x l IH]; intros a b H; cbn [rfold] in H; [injection H as <-; cbn; lia|].
      destruct (fee_combine a x) as [a1| |] eqn:E; [|discriminate..]. rewrite sum_over_cons, (IH _ _ H), (fee_combine_value S _ _ _ E). lia. }
    rewrite (G _ _ _ Ha). rewrite fee_value_sum at 1. cbn [acc_new ac_free ac_locked]. rewrite !sumP_empty. lia. }
  rewrite <- G. exact (map_fees_value _ _ _ H).
Qed.
