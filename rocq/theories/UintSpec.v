(** The number a list of 64-bit words, or of bytes, stands for. *)
From Verif Require Import Base.
Local Open Scope N_scope.

(** Positional value in the given base, least significant digit first. *)
Fixpoint number (base : N) (l : list N) : N :=
  match l with [] => 0 | d :: l' => d + base * number base l' end.
Definition uval (a : list N) : N := number (2 ^ 64) a.
Definition byte_value (l : list N) : N := number 256 l.
(** An integer of [n] words of 64 bits each. *)
Definition words (n : nat) (a : list N) : Prop := length a = n /\ Forall (fun w => w < 2 ^ 64) a.
(** The first integer too large for [n] words. *)
Definition capacity (n : nat) : N := 2 ^ (64 * N.of_nat n).
