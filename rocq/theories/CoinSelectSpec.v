(** What a user of the wallet's coin selection relies on, stated over the groups offered and the selection returned. *)
From Coq Require Import ZArith NArith.
From Verif Require Import Base CoinSelectModel.

Section Spec.
Context {O : Type}.

(** sums over a list of groups *)
Definition total (f : group O -> N) (gs : list (group O)) : N := foldr (fun g acc => f g + acc)%N 0%N gs.

(** What a group contributes: its value, less the fee for spending it where the fee is paid in this currency. *)
Definition contribution (pf : pay_fee) (g : group O) : N :=
  match pf with
  | PayFeeWithThisCurrency => g_value g - g_fee g
  | DoNotPayFeeWithThisCurrency => g_value g
  end.

(** No group costs more to spend than it is worth (asked only where the fee is paid in this currency). *)
Definition worth_spending (pf : pay_fee) (pool : list (group O)) : Prop :=
  pf = PayFeeWithThisCurrency -> Forall (fun g => g_fee g <= g_value g)%N pool.

(** What the standard library and the generator of random numbers promise: shuffles rearrange, [pop] takes out a largest
    element. *)
Definition pops_largest (pf : pay_fee) (pop : list (group O) -> option (group O * list (group O))) : Prop :=
  forall heap, match pop heap with
               | None => heap = []
               | Some (g, rest) => heap ≡ₚ g :: rest /\ Forall (fun h => contribution pf h <= contribution pf g)%N rest
               end.
Definition fair (pf : pay_fee) (o : oracle O) : Prop :=
  (forall l, or_draw o l ≡ₚ l) /\ (forall l, or_shuffle o l ≡ₚ l) /\ pops_largest pf (or_pop o).

(** The selection [r] is made of the groups [chosen]: their outputs in order, their weight, their fees. *)
Definition made_of (chosen : list (group O)) (r : selection O) : Prop :=
  s_outputs r = concat (map g_outputs chosen) /\
  s_weight r = total g_weight chosen /\
  s_fees r = total g_fee chosen.

(** Fees that the groups chosen take from this currency. *)
Definition fees_taken (pf : pay_fee) (chosen : list (group O)) : N :=
  match pf with PayFeeWithThisCurrency => total g_fee chosen | DoNotPayFeeWithThisCurrency => 0 end.
Definition change_fee_taken (pf : pay_fee) (cost_of_change : N) : N :=
  match pf with PayFeeWithThisCurrency => cost_of_change | DoNotPayFeeWithThisCurrency => 0 end.

(** The books of a selection: all that the chosen groups are worth is the target, the fees for spending them and either
    the change together with the fee for making it, or a rest too small to be returned. *)
Definition books_balance (pf : pay_fee) (target cost_of_change : N) (chosen : list (group O)) (change : N) : Prop :=
  (exists rest,
     total g_value chosen = target + fees_taken pf chosen + rest /\
     ((0 < change /\ cost_of_change <= change /\ rest = change_fee_taken pf cost_of_change + change) \/
      (change = 0 /\ (rest <= change_fee_taken pf cost_of_change \/ rest < change_fee_taken pf cost_of_change + cost_of_change))))%N.

(** Amounts far enough from the limits of the machine integers. *)
Definition moderate (pool : list (group O)) (target cost_of_change : N) : Prop :=
  (Z.of_N (total g_value pool + total g_fee pool + total g_long_term_fee pool + target + cost_of_change) <= I128_MAX)%Z.

End Spec.
Global Arguments total {O} f gs : simpl never.
