(** Proofs about the completion of requests: the sums by currency, the groups offered, the loop over the tokens. *)
From Coq Require Import ZArith NArith.
From Verif Require Import Base AmountModel OrdersModel PrimModel ChainModel ConstraintsModel CoinSelectModel SendModel.
From Verif Require Import OrdersSpec ConstraintsSpec ConstraintsProofs CoinSelectSpec CoinSelectProofs SendSpec.
From Verif Require CoinSelectProperties.
Local Open Scope N_scope.

(** * Fees *)

Definition fee_for (rate size : N) : N := (rate * size + 999) / 1000.
Lemma compute_fee_ok rate size f : compute_fee rate size = Ok f -> f = fee_for rate size.
Proof.
  unfold compute_fee. intros H. apply rbind_ok in H as (x & H1 & H). apply rbind_ok in H as (y & H2 & H).
  apply ok_or_ok in H1, H2. unfold checked_mul in H1. unfold checked_add in H2.
  destruct (_ <=? _); [injection H1 as <-|done]. destruct (_ <=? _); [injection H2 as <-|done]. injection H as <-. done.
Qed.
Lemma fee_for_add rate a b : fee_for rate (a + b) <= fee_for rate a + fee_for rate b.
Proof.
  unfold fee_for. rewrite N.mul_add_distr_l. generalize (rate * a) (rate * b). intros x y.
  pose proof (N.div_mod (x + y + 999) 1000 ltac:(done)). pose proof (N.div_mod (x + 999) 1000 ltac:(done)).
  pose proof (N.div_mod (y + 999) 1000 ltac:(done)).
  pose proof (N.mod_lt (x + y + 999) 1000 ltac:(done)). pose proof (N.mod_lt (x + 999) 1000 ltac:(done)).
  pose proof (N.mod_lt (y + 999) 1000 ltac:(done)). lia.
Qed.
Lemma fee_for_mono rate a b : a <= b -> fee_for rate a <= fee_for rate b.
Proof. intros H. unfold fee_for. apply N.div_le_mono; [done|]. nia. Qed.
Lemma fee_for_covers rate s : rate * s <= 1000 * fee_for rate s.
Proof.
  unfold fee_for. generalize (rate * s). intros x.
  pose proof (N.div_mod (x + 999) 1000 ltac:(done)). pose proof (N.mod_lt (x + 999) 1000 ltac:(done)). lia.
Qed.
Lemma fee_for_zero rate : fee_for rate 0 = 0.
Proof. unfold fee_for. rewrite N.mul_0_r. done. Qed.
Lemma add_amount_ok a b c : add_amount a b = Ok c -> c = a + b /\ c <= U128_MAX.
Proof.
  unfold add_amount, checked_add. intros H. apply ok_or_ok in H. destruct (_ <=? _) eqn:E; [|done]. injection H as <-. lia.
Qed.

(** * Association lists *)

Section Assoc.
Context {A : Type}.
Implicit Types (l : list (currency * A)).
Lemma find_at_none c l : find_at c l = None <-> c ∉ map fst l.
Proof.
  induction l as [|[c' x] l IH]; cbn [find_at map fst]; [split; [intros _ H; inversion H|done]|].
  rewrite not_elem_of_cons, <- IH. destruct (decide (c' = c)) as [->|E]; [split; [done|intros [? _]; done]|].
  split; [intros H; split; [congruence|done]|tauto].
Qed.
Lemma alter_find {E} c new (f : A -> res E A) l l' : alter_or c new f l = Ok l' ->
  (forall c', c' <> c -> find_at c' l' = find_at c' l) /\
  match find_at c l with
  | None => find_at c l' = Some new
  | Some x => exists y, f x = Ok y /\ find_at c l' = Some y
  end.
Proof.
  revert l'. induction l as [|[c1 x] l IH]; intros l' H; cbn [alter_or] in H.
  { injection H as <-. cbn. destruct (decide (c = c)); [|done]. split; [|done]. intros c' Hc. destruct (decide (c = c')); congruence. }
  cbn [find_at]. destruct (decide (c1 = c)) as [->|Hn].
  - apply rbind_ok in H as (y & Hy & [= <-]). cbn [find_at]. destruct (decide (c = c)); [|done]. split; [|eauto].
    intros c' Hc. destruct (decide (c = c')); congruence.
  - apply rbind_ok in H as (l2 & H2 & [= <-]). destruct (IH _ H2) as [I1 I2]. cbn [find_at]. split.
    + intros c' Hc. destruct (decide (c1 = c')); [done|]. auto.
    + destruct (decide (c1 = c)); [done|]. exact I2.
Qed.
Lemma alter_keys {E} c new (f : A -> res E A) l l' : alter_or c new f l = Ok l' ->
  (forall c', c' ∈ map fst l' <-> c' ∈ map fst l \/ c' = c) /\ (NoDup (map fst l) -> NoDup (map fst l')).
Proof.
  revert l'. induction l as [|[c1 x] l IH]; intros l' H; cbn [alter_or] in H.
  { injection H as <-. cbn. split; [|intros _; apply NoDup_singleton]. intros c'. set_solver. }
  destruct (decide (c1 = c)) as [->|Hn].
  - apply rbind_ok in H as (y & Hy & [= <-]). cbn [map fst]. split; [|done]. intros c'. set_solver.
  - apply rbind_ok in H as (l2 & H2 & [= <-]). destruct (IH _ H2) as [I1 I2]. cbn [map fst]. split.
    + intros c'. rewrite !elem_of_cons, I1. tauto.
    + rewrite !NoDup_cons, I1. intros [? ?]. split; [tauto|auto].
Qed.
End Assoc.

Definition amount_at (c : currency) (l : list (currency * N)) : N := default 0 (find_at c l).
Definition brought_at (c : currency) (l : list (currency * (N * N))) : N := from_option fst 0 (find_at c l).
Definition burned_at (c : currency) (l : list (currency * (N * N))) : N := from_option snd 0 (find_at c l).
Definition only (c c' : currency) (a : N) : N := if decide (c' = c) then a else 0.

Lemma alter_amount c a l l' : alter_or c a (fun x => add_amount x a) l = Ok l' ->
  forall c', amount_at c' l' = amount_at c' l + only c c' a.
Proof.
  intros H c'. apply alter_find in H as [H1 H2]. unfold amount_at, only. destruct (decide (c' = c)) as [->|Hn].
  - destruct (find_at c l) as [x|]; [|rewrite H2; cbn; lia]. destruct H2 as (y & Hy & ->). apply add_amount_ok in Hy as [-> _]. cbn. lia.
  - rewrite H1 by done. lia.
Qed.
Lemma update_preselected_ok c a bc b l l' : update_preselected c a bc b l = Ok l' ->
  (forall c', brought_at c' l' = brought_at c' l + only c c' a /\ burned_at c' l' = burned_at c' l + only bc c' b) /\
  (NoDup (map fst l) -> NoDup (map fst l')).
Proof.
  unfold update_preselected. intros H. apply rbind_ok in H as (l1 & H1 & H2).
  pose proof (alter_keys _ _ _ _ _ H1) as [_ N1]. pose proof (alter_keys _ _ _ _ _ H2) as [_ N2].
  split; [|auto]. intros c'. apply alter_find in H1 as [F1 G1], H2 as [F2 G2].
  assert (brought_at c' l1 = brought_at c' l + only c c' a /\ burned_at c' l1 = burned_at c' l) as [B1 B2].
  { unfold brought_at, burned_at, only. destruct (decide (c' = c)) as [->|Hn]; [|rewrite F1 by done; lia].
    destruct (find_at c l) as [x|]; [|rewrite G1; cbn; lia]. destruct G1 as (y & Hy & ->).
    apply rbind_ok in Hy as (z & Hz & [= <-]). apply add_amount_ok in Hz as [-> _]. cbn. lia. }
  rewrite <- B1, <- B2. unfold brought_at, burned_at, only. destruct (decide (c' = bc)) as [->|Hn]; [|rewrite F2 by done; lia].
  destruct (find_at bc l1) as [x|]; [|rewrite G2; cbn; lia]. destruct G2 as (y & Hy & ->).
  apply rbind_ok in Hy as (z & Hz & [= <-]). apply add_amount_ok in Hz as [-> _]. cbn. lia.
Qed.

(** * Inputs of the request *)

Lemma value_of c c' k a : value (of_currency c) [Portion c' k a] = only c' c a.
Proof.
  rewrite value_one. unfold of_currency, only. destruct (decide (c = c')) as [->|Hn].
  - by rewrite bool_decide_true.
  - rewrite bool_decide_false by congruence. done.
Qed.
Lemma only_zero c c' : only c c' 0 = 0.
Proof. unfold only. by destruct (decide _). Qed.
Lemma spendable_yields cf L o c a : spendable_value o = Ok (c, a) -> forall c', value (of_currency c') (output_yields cf L o) = only c c' a.
Proof.
  intros H c'. destruct o as [v d|v d t|v|p x|dest p|d p|am del|i|id data d|data|v h|d]; cbn in H; try done;
    cbn [output_yields]; unfold worth;
    try (destruct v as [x| |id x]; cbn in H; [|done|]; injection H as <- <-; cbn [units side_amount default]; by rewrite value_of).
  injection H as <- <-. by rewrite value_of.
Qed.
Lemma units_side v x c' a : side_of v = Some x -> value (of_currency c') (units v a) = only x.1 c' a.
Proof. destruct v; cbn [side_of units]; intros [= <-]; cbn [fst]; by rewrite value_of. Qed.
Lemma side_amount_of v x : side_of v = Some x -> default 0 (side_amount v) = x.2.
Proof. by destruct v; cbn; intros [= <-]. Qed.
Lemma filled_amount ask give fill r : calculate_filled_amount ask give fill = Some r -> r = give * fill / ask.
Proof.
  unfold calculate_filled_amount, checked_div. destruct (ask =? 0); [done|]. destruct (_ <=? _); [|done]. by intros [= <-].
Qed.

Section Inputs.
Context (cf : config) (infos : N -> option order_info).
Implicit Types (L : ledger).

Lemma fill_counted L ver id fill l l' : order_known L infos id -> cf_orders cf = ver -> handle_fill infos ver id fill l = Ok l' ->
  (forall c, brought_at c l' = brought_at c l + value (of_currency c) (filling_yields cf L id fill) /\
             burned_at c l' = burned_at c l +
               value (of_currency c) (match os_data (lg_ord L) id with Some d => units (od_ask d) fill | None => [] end)) /\
  (NoDup (map fst l) -> NoDup (map fst l')).
Proof.
  intros (d & asked & given & Hd & Ha & Hg & Hi) Hv H. unfold handle_fill in H. rewrite Hi in H. cbn [ok_or rbind] in H.
  apply rbind_ok in H as (r & Hr & H). apply ok_or_ok in Hr. cbn [oi_asked oi_given oi_ask_balance oi_give_balance] in *.
  apply update_preselected_ok in H as [H Hn]. split; [|done]. intros c. destruct (H c) as [-> ->].
  unfold filling_yields. rewrite Hd, Hv. rewrite (units_side _ _ c _ Hg), (units_side _ _ c _ Ha).
  rewrite (side_amount_of _ _ Ha), (side_amount_of _ _ Hg).
  destruct ver; cbn [payout]; apply filled_amount in Hr; subst r; done.
Qed.
Lemma conclude_counted L id l l' : order_known L infos id -> handle_conclude infos id l = Ok l' ->
  (forall c, brought_at c l' = brought_at c l + value (of_currency c) (closing_yields L id) /\ burned_at c l' = burned_at c l) /\
  (NoDup (map fst l) -> NoDup (map fst l')).
Proof.
  intros (d & asked & given & Hd & Ha & Hg & Hi) H. unfold handle_conclude in H. rewrite Hi in H. cbn [ok_or rbind] in H.
  cbn [oi_asked oi_given oi_ask_balance oi_give_balance] in *.
  apply rbind_ok in H as (l1 & H1 & H). apply rbind_ok in H as (r & Hr & H). apply ok_or_ok in Hr.
  unfold checked_sub in Hr. destruct (_ <=? _) eqn:E; [injection Hr as <-|done].
  apply update_preselected_ok in H as [H Hn], H1 as [H1 Hn1]. split; [|auto]. intros c.
  destruct (H c) as [-> ->], (H1 c) as [-> ->]. rewrite !only_zero. unfold closing_yields. rewrite Hd.
  rewrite value_app, (units_side _ _ c _ Hg), (units_side _ _ c _ Ha), (side_amount_of _ _ Ha). lia.
Qed.
Lemma input_counted L iu l l' : informed_input cf L infos iu.1 -> count_input cf infos l iu = Ok l' ->
  (forall c, brought_at c l' = brought_at c l + value (of_currency c) (input_yields cf L iu) /\
             burned_at c l' = burned_at c l + value (of_currency c) (input_costs cf L iu)) /\
  (NoDup (map fst l) -> NoDup (map fst l')).
Proof.
  destruct iu as [i ou]. unfold count_input, input_costs, input_yields. cbn [fst snd]. intros Hi H.
  destruct i as [o|nonce del a|nonce cmd|cmd].
  - destruct ou as [o'|]; [|done]. cbn [expect rbind] in H. apply rbind_ok in H as ([c a] & Ha & H).
    apply update_preselected_ok in H as [H Hn]. split; [|done]. intros c'. destruct (H c') as [-> ->].
    rewrite (spendable_yields cf L _ _ _ Ha), only_zero, value_nil. lia.
  - apply update_preselected_ok in H as [H Hn]. split; [|done]. intros c'. destruct (H c') as [-> ->].
    rewrite value_of, only_zero, value_nil. lia.
  - destruct cmd as [id a|id|id|id u|id|id d|id|id a d|id u]; cbn [informed_input] in Hi;
      try (apply update_preselected_ok in H as [H Hn]; split; [|exact Hn]; intros c'; destruct (H c') as [-> ->];
           rewrite ?value_of, ?value_nil, ?only_zero; lia).
    + destruct (conclude_counted L _ _ _ Hi H) as [H1 H2]. split; [|exact H2]. intros c'. destruct (H1 c') as [-> ->]. rewrite value_nil. lia.
    + destruct Hi as [Hi Hv]. destruct (fill_counted L _ _ _ _ _ Hi Hv H) as [H1 H2]. split; [exact H1|exact H2].
  - destruct cmd as [id a|id|id]; cbn [informed_input] in Hi.
    + destruct Hi as [Hi Hv]. destruct (fill_counted L _ _ _ _ _ Hi Hv H) as [H1 H2]. split; [exact H1|exact H2].
    + injection H as <-. split; [|done]. intros c'. rewrite !value_nil. lia.
    + destruct (conclude_counted L _ _ _ Hi H) as [H1 H2]. split; [|exact H2]. intros c'. destruct (H1 c') as [-> ->]. rewrite value_nil. lia.
Qed.
Context (isz : tx_input -> option tx_output -> option N) (rate : N).
Lemma preselected_counted ins : forall L p p', informed cf L infos ins -> rfold (preselect_step cf isz infos rate) ins p = Ok p' ->
  (forall c, brought_at c (pr_amounts p') = brought_at c (pr_amounts p) + value (of_currency c) (unlocked cf L ins) /\
             burned_at c (pr_amounts p') = burned_at c (pr_amounts p) + value (of_currency c) (charged cf L ins)) /\
  (NoDup (map fst (pr_amounts p)) -> NoDup (map fst (pr_amounts p'))) /\
  pr_sizes p' = pr_sizes p + inputs_size isz ins /\
  (fee_for rate (pr_sizes p) <= pr_fees p -> fee_for rate (pr_sizes p') <= pr_fees p').
Proof.
  induction ins as [|iu ins IH]; intros L p p' Hi H; cbn [rfold] in H.
  { injection H as <-. unfold inputs_size. cbn [unlocked charged foldr]. split_and!; try done; [|lia]. intros c. rewrite !value_nil. lia. }
  destruct Hi as [Hi Hrest]. apply rbind_ok in H as (p1 & H1 & H). destruct (IH _ _ _ Hrest H) as (I1 & I2 & I3 & I4).
  unfold preselect_step in H1. apply rbind_ok in H1 as (size & Hs & H1). apply rbind_ok in H1 as (fee & Hf & H1).
  apply rbind_ok in H1 as (fees & Hfs & H1). apply rbind_ok in H1 as (am & Ham & [= <-]). apply ok_or_ok in Hs.
  apply compute_fee_ok in Hf. apply add_amount_ok in Hfs as [-> _]. destruct (input_counted _ _ _ _ Hi Ham) as [C1 C2].
  cbn [pr_amounts pr_sizes pr_fees] in *. cbn [unlocked charged]. split_and!.
  - intros c. destruct (I1 c) as [-> ->], (C1 c) as [-> ->]. rewrite !value_app. lia.
  - auto.
  - rewrite I3. unfold inputs_size. cbn [foldr]. rewrite Hs. cbn [from_option id]. lia.
  - intros Hle. apply I4. pose proof (fee_for_add rate (pr_sizes p) size). lia.
Qed.
End Inputs.

(** * Outputs of the request *)

Section Outputs.
Context (cf : config).
Lemma charge_costs o ov c : output_charge cf o = Ok ov ->
  value (of_currency c) (output_costs cf o) = match ov with Some v => value (of_currency c) (worth v) | None => 0 end /\
  (c ∈ map po_currency (output_costs cf o) <-> match ov with Some v => Some c = currency_of v | None => False end).
Proof.
  destruct o as [v d|v d t|v|p x|dest p|d p|am del|i|id data d|data|v h|d]; cbn [output_charge]; intros [= <-]; cbn [output_costs].
  all: try (split; [done|]; unfold worth; try (destruct v; cbn; set_solver); try (cbn; set_solver)).
  - destruct v as [a| |id a]; [destruct t|..]; unfold worth; cbn [units side_amount default currency_of map po_currency]; split;
      rewrite ?value_of; try done; set_solver.
  - destruct (od_give d); cbn; set_solver.
Qed.
Lemma worth_value v c : value (of_currency c) (worth v) =
  match v with OvCoin a => only Coin c a | OvTokenV0 => 0 | OvToken id a => only (Token id) c a end.
Proof. unfold worth. destruct v; cbn [units side_amount default]; by rewrite ?value_of. Qed.
Lemma output_grouped o l l' : group_output cf l o = Ok l' ->
  (forall c, amount_at c l' = amount_at c l + value (of_currency c) (output_costs cf o)) /\
  (forall c, c ∈ map fst l' <-> c ∈ map fst l \/ c ∈ map po_currency (output_costs cf o)) /\
  (NoDup (map fst l) -> NoDup (map fst l')).
Proof.
  unfold group_output. intros H. apply rbind_ok in H as (ov & Ho & H).
  assert (forall c, value (of_currency c) (output_costs cf o) = match ov with Some v => value (of_currency c) (worth v) | None => 0 end) as Hv
    by (intros c; apply (charge_costs _ _ c Ho)).
  assert (forall c, c ∈ map po_currency (output_costs cf o) <-> match ov with Some v => Some c = currency_of v | None => False end) as Hk
    by (intros c; apply (charge_costs _ _ c Ho)).
  destruct ov as [[a| |id a]|].
  - pose proof (alter_keys _ _ _ _ _ H) as [K1 K2]. split_and!; [|intros c; rewrite K1, Hk; cbn; split; intros [?|?]; auto; right; congruence|done].
    intros c. rewrite (alter_amount _ _ _ _ H), Hv, worth_value. done.
  - injection H as <-. split_and!; [|intros c; rewrite Hk; cbn; split; [auto|intros [?|?]; done]|done].
    intros c. rewrite Hv, worth_value. lia.
  - pose proof (alter_keys _ _ _ _ _ H) as [K1 K2]. split_and!; [|intros c; rewrite K1, Hk; cbn; split; intros [?|?]; auto; right; congruence|done].
    intros c. rewrite (alter_amount _ _ _ _ H), Hv, worth_value. done.
  - injection H as <-. split_and!; [|intros c; rewrite Hk; split; [auto|intros [?|?]; done]|done]. intros c. rewrite Hv. lia.
Qed.
Lemma outputs_grouped outs : forall l l', rfold (group_output cf) outs l = Ok l' ->
  (forall c, amount_at c l' = amount_at c l + value (of_currency c) (needed cf outs)) /\
  (forall c, c ∈ map fst l' <-> c ∈ map fst l \/ c ∈ map po_currency (needed cf outs)) /\
  (NoDup (map fst l) -> NoDup (map fst l')).
Proof.
  induction outs as [|o outs IH]; intros l l' H; cbn [rfold] in H.
  { injection H as <-. unfold needed. cbn [map concat]. split_and!; [intros c; rewrite value_nil; lia|set_solver|done]. }
  apply rbind_ok in H as (l1 & H1 & H). destruct (IH _ _ H) as (I1 & I2 & I3), (output_grouped _ _ _ H1) as (J1 & J2 & J3).
  unfold needed in *. cbn [map concat]. split_and!; [..|auto].
  - intros c. rewrite I1, J1, value_app. lia.
  - intros c. rewrite I2, J2, map_app, elem_of_app. tauto.
Qed.

Fixpoint burn_of (c : currency) (p : list (currency * (N * N))) : N :=
  match p with [] => 0 | x :: p' => only x.1 c x.2.2 + burn_of c p' end.
Lemma burn_of_at p c : NoDup (map fst p) -> burn_of c p = burned_at c p.
Proof.
  unfold burned_at. induction p as [|[c' [a b]] p IH]; [done|]. cbn [map fst snd burn_of find_at]. intros [Hn Hd]%NoDup_cons.
  rewrite (IH Hd). unfold only. destruct (decide (c' = c)) as [->|Hc].
  - destruct (decide (c = c)); [|done]. rewrite (proj2 (find_at_none c p) Hn). cbn. lia.
  - destruct (decide (c = c')); [congruence|]. lia.
Qed.
Lemma burns_added p : forall l l', rfold add_burn p l = Ok l' ->
  (forall c, amount_at c l' = amount_at c l + burn_of c p) /\
  (forall c, c ∈ map fst l' <-> c ∈ map fst l \/ burn_of c p <> 0) /\
  (NoDup (map fst l) -> NoDup (map fst l')).
Proof.
  induction p as [|[c0 [a b]] p IH]; intros l l' H; cbn [rfold] in H.
  { injection H as <-. cbn [burn_of]. split_and!; [intros c; lia|intros c; split; [auto|intros [?|?]; done]|done]. }
  apply rbind_ok in H as (l1 & H1 & H). destruct (IH _ _ H) as (I1 & I2 & I3). unfold add_burn in H1. cbn [fst snd] in H1.
  cbn [burn_of fst snd]. destruct (0 <? b) eqn:Eb.
  - pose proof (alter_keys _ _ _ _ _ H1) as [K1 K2]. split_and!; [..|auto].
    + intros c. rewrite I1, (alter_amount _ _ _ _ H1). lia.
    + intros c. rewrite I2, K1. unfold only. destruct (decide (c = c0)) as [->|Hc].
      * split; [intros _; right; lia|auto].
      * split; [intros [[?|?]|?]; auto; try done; right; lia|intros [?|?]; auto].
  - injection H1 as <-. assert (b = 0) as -> by lia. split_and!; [..|auto].
    + intros c. rewrite I1, only_zero. lia.
    + intros c. rewrite I2, only_zero. rewrite N.add_0_l. done.
Qed.
End Outputs.

(** * The groups offered *)

Section Groups.
Context (cf : config) (isz : tx_input -> option tx_output -> option N) (rate consolidate_rate : N).

(** A group is one offered output of its currency, with the fee for its size. *)
Definition sound_group (c : currency) (g : group (tx_input * tx_output)) : Prop :=
  exists o out, g_outputs g = [(InUtxo o, out)] /\ spendable_value out = Ok (c, g_value g) /\
  isz (InUtxo o) (Some out) = Some (g_weight g) /\ g_fee g = fee_for rate (g_weight g).

Lemma groups_made utxos : forall gs, rmapM (utxo_group isz rate consolidate_rate) utxos = Ok gs ->
  Forall (fun x => sound_group x.1 x.2) gs /\ map pick_input (concat (map (fun x => g_outputs x.2) gs)) = offered utxos.
Proof.
  induction utxos as [|[o out] utxos IH]; intros gs H; cbn [rmapM] in H.
  { injection H as <-. done. }
  destruct (utxo_group _ _ _ _) as [x| |] eqn:Hx; [|done..]. destruct (rmapM _ _) as [gs'| |] eqn:Hgs; [|done..].
  injection H as <-. destruct (IH _ eq_refl) as [I1 I2]. unfold utxo_group in Hx. cbn [fst snd] in Hx. apply rbind_ok in Hx as ([c a] & Ha & Hx). apply rbind_ok in Hx as (w & Hw & Hx).
  apply rbind_ok in Hx as (f & Hf & Hx). apply rbind_ok in Hx as (f2 & Hf2 & [= <-]). apply ok_or_ok in Hw. apply compute_fee_ok in Hf.
  split.
  - constructor; [|done]. exists o, out. cbn. split_and!; done.
  - cbn [map concat fst snd g_outputs offered app]. unfold pick_input at 1. cbn [fst snd]. f_equal. exact I2.
Qed.

(** Inputs that spend outputs, with the outputs at hand *)
Definition plain (l : list (tx_input * option tx_output)) : Prop := Forall (fun iu => exists o out, iu = (InUtxo o, Some out)) l.
Lemma unlocked_app l1 : forall L l2, unlocked cf L (l1 ++ l2) = unlocked cf L l1 ++ unlocked cf (foldl (after_input cf) L l1) l2.
Proof. induction l1 as [|i l1 IH]; intros L l2; [done|]. cbn [app unlocked foldl]. rewrite IH. by rewrite <- app_assoc. Qed.
Lemma charged_app l1 : forall L l2, charged cf L (l1 ++ l2) = charged cf L l1 ++ charged cf (foldl (after_input cf) L l1) l2.
Proof. induction l1 as [|i l1 IH]; intros L l2; [done|]. cbn [app charged foldl]. rewrite IH. by rewrite <- app_assoc. Qed.
Lemma plain_after l : plain l -> forall L, foldl (after_input cf) L l = L.
Proof. induction 1 as [|iu l (o & out & ->) Hl IH]; intros L; [done|]. cbn [foldl after_input fst]. apply IH. Qed.
Lemma plain_charged l : plain l -> forall L, charged cf L l = [].
Proof. induction 1 as [|iu l (o & out & ->) Hl IH]; intros L; [done|]. cbn [charged input_costs fst app after_input]. apply IH. Qed.
Lemma inputs_size_app l1 l2 : inputs_size isz (l1 ++ l2) = inputs_size isz l1 + inputs_size isz l2.
Proof. unfold inputs_size. induction l1 as [|i l1 IH]; cbn [app foldr]; lia. Qed.
Lemma needed_app o1 o2 : needed cf (o1 ++ o2) = needed cf o1 ++ needed cf o2.
Proof. unfold needed. by rewrite map_app, concat_app. Qed.

Lemma chosen_sums c chosen : Forall (sound_group c) chosen ->
  let l := map pick_input (concat (map g_outputs chosen)) in
  plain l /\ (forall L c', value (of_currency c') (unlocked cf L l) = only c c' (total g_value chosen)) /\
  inputs_size isz l = total g_weight chosen /\ fee_for rate (total g_weight chosen) <= total g_fee chosen.
Proof.
  induction 1 as [|g chosen (o & out & E1 & E2 & E3 & E4) Hc IH]; cbn zeta.
  { cbn [map concat]. split_and!; [by apply Forall_nil| |done|rewrite total_nil, fee_for_zero; done].
    intros L c'. cbn [map concat unlocked]. rewrite value_nil, total_nil, only_zero. done. }
  destruct IH as (I1 & I2 & I3 & I4). rewrite !total_cons. cbn [map concat]. rewrite E1. cbn [app map]. unfold pick_input at 1 3 5.
  cbn [fst snd]. split_and!.
  - constructor; [eauto|done].
  - intros L c'. cbn [unlocked input_yields after_input fst]. rewrite value_app, (spendable_yields cf L _ _ _ E2), I2. unfold only.
    destruct (decide _); lia.
  - unfold inputs_size in *. cbn [foldr fst snd]. rewrite E3, I3. done.
  - rewrite E4. pose proof (fee_for_add rate (g_weight g) (total g_weight chosen)). lia.
Qed.
Lemma groups_of_sound c gs : Forall (fun x => sound_group x.1 x.2) gs -> Forall (sound_group c) (groups_of c gs).
Proof.
  intros H. unfold groups_of. apply Forall_forall. intros g Hg. apply elem_of_list_fmap in Hg as ([c' g'] & -> & Hx).
  apply elem_of_list_In, filter_In in Hx as [Hx Hb]. apply bool_decide_eq_true in Hb. cbn in Hb. subst c'.
  apply elem_of_list_In in Hx. rewrite Forall_forall in H. exact (H _ Hx).
Qed.
Lemma submseteq_Forall {A} (P : A -> Prop) l k : l ⊆+ k -> Forall P k -> Forall P l.
Proof. intros H Hk. apply submseteq_Permutation in H as [k' H]. rewrite H in Hk. apply Forall_app in Hk. tauto. Qed.

Definition from_keys (done : list currency) (gs : list (currency * group (tx_input * tx_output))) :=
  List.filter (fun x => bool_decide (x.1 ∈ done)) gs.
Definition outputs_in (gs : list (currency * group (tx_input * tx_output))) : list (tx_input * tx_output) :=
  concat (map (fun x => g_outputs x.2) gs).
Lemma from_keys_snoc done c gs : c ∉ done ->
  outputs_in (from_keys (done ++ [c]) gs) ≡ₚ outputs_in (from_keys done gs) ++ concat (map g_outputs (groups_of c gs)).
Proof.
  intros Hn. unfold from_keys, groups_of, outputs_in. induction gs as [|[c' g] gs IH]; [done|]. cbn [List.filter fst].
  destruct (decide (c' ∈ done)) as [Hd|Hd].
  - rewrite (bool_decide_true (c' ∈ done)) by done. rewrite (bool_decide_true (c' ∈ done ++ [c])) by set_solver.
    rewrite (bool_decide_false (c' = c)) by (intros ->; done). cbn [map concat snd]. rewrite IH. by rewrite app_assoc.
  - rewrite (bool_decide_false (c' ∈ done)) by done. destruct (decide (c' = c)) as [->|Hc].
    + rewrite (bool_decide_true (c ∈ done ++ [c])) by set_solver. rewrite (bool_decide_true (c = c)) by done.
      cbn [map concat snd]. rewrite IH. rewrite !app_assoc. f_equiv. apply Permutation_app_comm.
    + rewrite (bool_decide_false (c' ∈ done ++ [c])) by set_solver. rewrite (bool_decide_false (c' = c)) by done. exact IH.
Qed.
Lemma from_keys_all done gs : outputs_in (from_keys done gs) ⊆+ outputs_in gs.
Proof.
  unfold from_keys, outputs_in. induction gs as [|[c g] gs IH]; [done|]. cbn [List.filter fst]. case_bool_decide; cbn [map concat snd].
  - by apply submseteq_skips_l.
  - by apply submseteq_inserts_l.
Qed.
Lemma concat_submseteq {A B} (f : A -> list B) l k : l ⊆+ k -> concat (map f l) ⊆+ concat (map f k).
Proof.
  intros H. apply submseteq_Permutation in H as [k' H]. rewrite H at 1. rewrite map_app, concat_app. by apply submseteq_inserts_r.
Qed.
End Groups.

(** * Sizes *)

Lemma compact_mono a b : a <= b -> compact_len a <= compact_len b.
Proof.
  intros H. unfold compact_len. generalize (2 ^ 14) (2 ^ 30). intros x y.
  destruct (a <? 64) eqn:E1, (b <? 64) eqn:E2, (a <? x) eqn:E3, (b <? x) eqn:E4, (a <? y) eqn:E5, (b <? y) eqn:E6; lia.
Qed.
Lemma compact_pos a : 1 <= compact_len a.
Proof. unfold compact_len. repeat destruct (_ <? _); lia. Qed.
Lemma frame_size_ok empty no ni f : frame_size empty no ni = Ok f -> f = empty + (compact_len no - 1) + 2 * (compact_len ni - 1).
Proof.
  unfold frame_size. intros H. apply rbind_ok in H as (? & _ & H). apply rbind_ok in H as (? & _ & [= <-]).
  change (compact_len 0) with 1. lia.
Qed.
Lemma frame_mono empty no ni no' ni' : no <= no' -> ni <= ni' ->
  empty + (compact_len no - 1) + 2 * (compact_len ni - 1) <= empty + (compact_len no' - 1) + 2 * (compact_len ni' - 1).
Proof. intros H1 H2. pose proof (compact_mono _ _ H1). pose proof (compact_mono _ _ H2). lia. Qed.
Lemma count_concat {B} (f : B -> list (tx_input * tx_output)) (l : list B) :
  foldr (fun r acc => N.of_nat (length (f r)) + acc) 0 l = N.of_nat (length (concat (map f l))).
Proof. induction l as [|x l IH]; [done|]. cbn [foldr map concat]. rewrite IH, app_length. lia. Qed.
Lemma outputs_size_app osz o1 o2 : outputs_size osz (o1 ++ o2) = outputs_size osz o1 + outputs_size osz o2.
Proof. unfold outputs_size. induction o1 as [|o o1 IH]; cbn [app foldr]; lia. Qed.

