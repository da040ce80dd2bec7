(** What the consensus arithmetic should compute, on plain numbers. *)
From Verif Require Import Base UintSpec.
Local Open Scope N_scope.

(** ** Effective balance. A pool counts for at most a thousandth of the supply. *)
Definition saturation (supply : N) : N := supply / 1000.
Definition capped (x supply : N) : N := N.min x (saturation supply).
(** The pledge influence is a = 0.075375728. With sigma the capped balance, s the capped pledge and z the saturation level, the
    documented formula is sigma - a/(a+1) * (sigma z^2 - s (z sigma - s (z - sigma))) / z^2. *)
Definition influence_n : N := 75375728.
Definition influence_d : N := 1000000000.
Definition shortfall (sigma s z : N) : N := sigma * (z * z) - s * (z * sigma - s * (z - sigma)).
Definition documented_balance (pledge balance supply : N) : N :=
  let z := saturation supply in
  let sigma := capped balance supply in
  let s := capped pledge supply in
  sigma - (influence_n * shortfall sigma s z) / ((influence_n + influence_d) * (z * z)).

(** ** Targets *)
Definition clamp (x lo hi : N) : N := N.max lo (N.min x hi).
(** The loss of writing a target in compact form: [w] is at most [v] and less than one part in 2^15 below. *)
Definition rounded (v w : N) : Prop := w <= v /\ (v - w) * 2 ^ 15 <= w.
