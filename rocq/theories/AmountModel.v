(** Model of [Amount] / [SignedAmount] checked arithmetic.
    common/src/primitives/amount/mod.rs 38-226, common/src/primitives/amount/signed.rs 28-149. *)
From Verif Require Import Base.

(** [Amount { val: u128 }] — an [N]; the u128 bound is enforced by every operation below. *)
Notation amount := N (only parsing).
(** [SignedAmount { val: i128 }] — a [Z]. *)
Notation samount := Z (only parsing).

(** amount/mod.rs 105-121: [Add], [Sub] with [checked_add], [checked_sub]. *)
Definition amount_add (a b : amount) : option amount := checked_add U128_MAX a b.
Definition amount_sub (a b : amount) : option amount := checked_sub a b.
(** amount/mod.rs 123-143: [Mul<u128>], [Div<u128>]. *)
Definition amount_mul (a : amount) (k : N) : option amount := checked_mul U128_MAX a k.
Definition amount_div (a : amount) (k : N) : option amount := checked_div a k.
(** amount/mod.rs 219-226: [Sum] for [Option<Amount>], a [try_fold] of checked additions. *)
Fixpoint amount_sum_from (acc : amount) (l : list amount) : option amount :=
  match l with
  | [] => Some acc
  | a :: l' => match amount_add acc a with Some s => amount_sum_from s l' | None => None end
  end.
Definition amount_sum (l : list amount) : option amount := amount_sum_from 0%N l.

(** signed.rs 47-51 [SignedAmount::from_unsigned]; amount/mod.rs 76-78 [into_signed]. *)
Definition into_signed (a : amount) : option samount :=
  if (Z.of_N a <=? I128_MAX)%Z then Some (Z.of_N a) else None.
(** signed.rs 53-57 [into_unsigned]. *)
Definition into_unsigned (z : samount) : option amount :=
  if (0 <=? z)%Z then Some (Z.to_N z) else None.
(** signed.rs 94-100 [Add]. *)
Definition samount_add (a b : samount) : option samount :=
  if ((I128_MIN <=? a + b) && (a + b <=? I128_MAX))%Z then Some (a + b)%Z else None.
(** signed.rs 143-149 [Neg]. *)
Definition samount_neg (a : samount) : option samount :=
  if (a =? I128_MIN)%Z then None else Some (- a)%Z.
