(** What is said about orphan transactions and the work on them. *)
From Verif Require Import Base TxOrphanModel.
Local Open Scope N_scope.

Section Spec.
  Context {T P D : Type} `{Countable T} `{Countable P} `{Countable D} (less : T -> T -> bool).
  Notation entry := (entry T D).
  Notation mempool := (mempool T P D).
  Notation event := (event T P D).
  Notation answer := (answer T P D).

  (** The orphans in the pool *)
  Definition kept (s : mempool) : list (entry P) := txs (orphans s).
  (** It spends an output of the transaction, or needs something else that it provides *)
  Definition child_of {O} (e : entry O) (c : entry P) : Prop := (∃ i, TxOutput (eid e) i ∈ needs c) ∨ (∃ d, Other d ∈ needs c ∧ d ∈ provides e).
  (** The transactions to be looked at again for a peer *)
  Definition queued (s : mempool) (o : P) (id : T) : Prop := ∃ l, work (todo s) !! o = Some l ∧ id ∈ l.
  (** It came too long before *)
  Definition expired {O} (now : N) (e : entry O) : Prop := created e < now - EXPIRY.

  (** Shuffling does nothing but shuffle *)
  Definition shuffles (r : chance P) : Prop := ∀ l, order r l ≡ₚ l.
  (** The peers that left *)
  Definition gone (tr : list (event * answer)) (o : P) : Prop := ∃ a, (Disconnect o, a) ∈ tr.
  (** Nothing comes from a peer that has left *)
  Definition proper (tr : list (event * answer)) (ev : event) : Prop :=
    match ev with
    | Submit r _ e _ => shuffles r ∧ ∀ o, origin e = Some o -> ¬ gone tr o
    | Work r _ _ => shuffles r
    | Disconnect o => True
    end.
  (** What may happen after what has happened, with the answers *)
  Inductive run (s0 : mempool) (tr0 : list (event * answer)) : list (event * answer) -> mempool -> Prop :=
  | run_nil : run s0 tr0 [] s0
  | run_step tr s ev s' a : run s0 tr0 tr s -> proper (tr0 ++ tr) ev -> step less ev s = Ok (s', a) -> run s0 tr0 (tr ++ [(ev, a)]) s'.
  Definition history (tr : list (event * answer)) (s : mempool) : Prop := run start [] tr s.

  (** How often a peer was served *)
  Definition serves (o : P) (x : event * answer) : bool := match x.2 with Served (Some (p, _)) => bool_decide (p = o) | _ => false end.
  Definition times_served (o : P) (tr : list (event * answer)) : nat := length (filter (fun x => serves o x = true) tr).
End Spec.
