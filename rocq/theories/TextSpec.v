(** What decimal text means. *)
From Coq Require Import Ascii.
From Verif Require Import Base TextModel.
Local Open Scope N_scope.

Definition spaces (n : nat) : text := repeat " "%char n.
Definition all_digits (s : text) : Prop := forall c, c ∈ s -> exists n, n < 10 /\ N_of_ascii c = 48 + n.
(** [numeral s i f]: up to surrounding spaces and underscores anywhere between them, [s] is the digits [i], optionally
    followed by a dot and the digits [f] ; there is at least one digit. *)
Definition numeral (s i f : text) : Prop :=
  all_digits i /\ all_digits f /\ i ++ f <> [] /\
  exists a b t, s = spaces a ++ t ++ spaces b /\
    (filter (fun c => c <> "_"%char) t = i ++ "."%char :: f \/ filter (fun c => c <> "_"%char) t = i /\ f = []).
(** The number written by a list of digits. *)
Definition value (s : text) : N := foldl (fun acc c => 10 * acc + (N_of_ascii c - 48)) 0 s.
