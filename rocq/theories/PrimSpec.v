(** What time locks, rationals, compact targets and per-thousand texts mean. *)
From Coq Require Import Ascii QArith.
From Verif Require Import Base TextModel TextSpec UintModel UintSpec PrimModel.
Local Open Scope N_scope.

(** Height [h] and time [t] are late enough for an output created at [source_height], [source_time] under [lock]. *)
Definition unlocked (source_height source_time : N) (lock : timelock) (h t : N) : Prop :=
  match lock with
  | UntilHeight k => k <= h
  | UntilTime k => k <= t
  | ForBlockCount n => source_height + n <= h
  | ForSeconds dt => source_time + dt <= t
  end.

(** The rational number of a fraction of 256-bit integers. *)
Definition fraction (x : rational) : Prop := words 4 (numer x) /\ words 4 (denom x) /\ uval (denom x) <> 0.
Definition ratio (x : rational) : Q := Z.of_N (uval (numer x)) # Z.to_pos (Z.of_N (uval (denom x))).

(** The text [s] is a decimal numeral of admissible length whose value is exactly [a] units of 10^-d. *)
Definition reads_as (s : text) (d : nat) (a : N) : Prop :=
  exists i f, numeral s i f /\ (length s <= 257)%nat /\ (length f <= 255)%nat /\ value (i ++ f) <= U128_MAX /\
    a * 10 ^ N.of_nat (length f) = value (i ++ f) * 10 ^ N.of_nat d.
Definition percents (n : nat) : text := repeat "%"%char n.
