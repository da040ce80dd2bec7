(** Further operations of [Amount] and [SignedAmount]. *)
From Verif Require Import Base AmountModel.
Local Open Scope N_scope.

(** common/src/primitives/amount/mod.rs 89-95 *)
Definition amount_abs_diff (a b : amount) : res unit amount :=
  if b <? a then expect (amount_sub a b) else expect (amount_sub b a).
(** amount/mod.rs 145-151 *)
Definition amount_rem (a : amount) (k : N) : option amount := if k =? 0 then None else Some (a mod k).
(** signed.rs 102-108 [Sub] *)
Definition samount_sub (a b : samount) : option samount :=
  if ((I128_MIN <=? a - b) && (a - b <=? I128_MAX))%Z then Some (a - b)%Z else None.
(** signed.rs 134-141 [Sum] *)
Fixpoint samount_sum_from (acc : samount) (l : list samount) : option samount :=
  match l with
  | [] => Some acc
  | a :: l' => match samount_add acc a with Some s => samount_sum_from s l' | None => None end
  end.
Definition samount_sum (l : list samount) : option samount := samount_sum_from 0%Z l.
