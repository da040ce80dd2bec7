(** Shared vocabulary of the whole model: results with panics, checked machine integers, early-exit loops. *)
From Coq Require Export ZArith NArith Lia ZifyBool ZifyNat ZifyN.
From stdpp Require Export prelude gmap.

Global Set Default Goal Selector "!".

(** [Result<A,E>] of Rust with a third outcome for panics ([expect], [unwrap], [assert!], overflow aborts). *)
Inductive res (E A : Type) : Type :=
| Ok (a : A)
| Err (e : E)
| Panic.
Arguments Ok {E A} a.
Arguments Err {E A} e.
Arguments Panic {E A}.

Definition rbind {E A B} (m : res E A) (k : A -> res E B) : res E B :=
  match m with Ok a => k a | Err e => Err e | Panic => Panic end.
(** [map_err] *)
Definition rmap_err {E F A} (f : E -> F) (m : res E A) : res F A :=
  match m with Ok a => Ok a | Err e => Err (f e) | Panic => Panic end.
Definition rmap {E A B} (f : A -> B) (m : res E A) : res E B :=
  match m with Ok a => Ok (f a) | Err e => Err e | Panic => Panic end.
(** [Option::ok_or] *)
Definition ok_or {E A} (o : option A) (e : E) : res E A :=
  match o with Some a => Ok a | None => Err e end.
(** [Option::expect] *)
Definition expect {E A} (o : option A) : res E A :=
  match o with Some a => Ok a | None => Panic end.
(** [utils::ensure!] *)
Definition ensure {E} (b : bool) (e : E) : res E unit := if b then Ok tt else Err e.

Notation "'let?' x ':=' m 'in' k" := (rbind m (fun x => k))
  (at level 200, x pattern, m at level 100, k at level 200, right associativity).
Notation "m ';?' k" := (rbind m (fun _ => k)) (at level 100, right associativity).

Definition is_ok {E A} (m : res E A) : Prop := exists a, m = Ok a.
Definition is_err {E A} (m : res E A) : Prop := exists e, m = Err e.

(** Machine integer bounds. *)
Definition U64_MAX : N := 18446744073709551615.
Definition I64_MAX : Z := 9223372036854775807.
Definition I64_MIN : Z := -9223372036854775808.
Definition U128_MAX : N := 340282366920938463463374607431768211455.
Definition I128_MAX : Z := 170141183460469231731687303715884105727.
Definition I128_MIN : Z := -170141183460469231731687303715884105728.

(** Checked unsigned operations: the natural-number result when it fits. *)
Definition checked_add (mx a b : N) : option N := if (a + b <=? mx)%N then Some (a + b)%N else None.
Definition checked_sub (a b : N) : option N := if (b <=? a)%N then Some (a - b)%N else None.
Definition checked_mul (mx a b : N) : option N := if (a * b <=? mx)%N then Some (a * b)%N else None.
Definition checked_div (a b : N) : option N := if (b =? 0)%N then None else Some (a / b)%N.

(** [try_for_each] over a mutable state: runs the steps in order, stops at the first failure and keeps the state
    reached so far (as a Rust loop over [&mut self] with [?] does). *)
Fixpoint try_fold {S X E} (f : S -> X -> S * res E unit) (l : list X) (s : S) : S * res E unit :=
  match l with
  | [] => (s, Ok tt)
  | x :: l' => match f s x with
               | (s', Ok _) => try_fold f l' s'
               | (s', Err e) => (s', Err e)
               | (s', Panic) => (s', Panic)
               end
  end.

(** Early-exit fold without a retained state. *)
Fixpoint rfold {A X E} (f : A -> X -> res E A) (l : list X) (a : A) : res E A :=
  match l with
  | [] => Ok a
  | x :: l' => match f a x with Ok a' => rfold f l' a' | Err e => Err e | Panic => Panic end
  end.

(** [iter().map(f).collect::<Result<Vec<_>,_>>()] *)
Fixpoint rmapM {E A B} (f : A -> res E B) (l : list A) : res E (list B) :=
  match l with
  | [] => Ok []
  | x :: l' => match f x with
               | Ok y => match rmapM f l' with Ok ys => Ok (y :: ys) | Err e => Err e | Panic => Panic end
               | Err e => Err e
               | Panic => Panic
               end
  end.

(** Steps of a method on [&mut self]: a read-only check on state [s], then a continuation; and sequencing of two
    mutations. On failure the state reached so far is kept. *)
Definition on_ok {S E A B} (s : S) (m : res E A) (k : A -> S * res E B) : S * res E B :=
  match m with Ok a => k a | Err e => (s, Err e) | Panic => (s, Panic) end.
Definition sbind {S E A B} (m : S * res E A) (k : S -> A -> S * res E B) : S * res E B :=
  match m with
  | (s, Ok a) => k s a
  | (s, Err e) => (s, Err e)
  | (s, Panic) => (s, Panic)
  end.
