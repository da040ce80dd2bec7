(** What is said about the wallet's unspent outputs. *)
From Verif Require Import Base OutputCacheModel.
Local Open Scope N_scope.

(** Transactions that are, or may yet be, on the chain *)
Definition live (s : txstate) : Prop := match s with Confirmed _ _ _ | InMempool _ | Inactive _ => True | Conflicted _ | Abandoned => False end.
Definition is_confirmed (s : txstate) : Prop := match s with Confirmed _ _ _ => True | _ => False end.
(** Only such transactions are looked at *)
Definition live_only (which : states) : Prop := which KConflicted = false ∧ which KAbandoned = false.
Definition confirmed_only : states := fun k => match k with KConfirmed => true | _ => false end.

Section Spec.
  Context {T Out : Type} `{Countable T} (body : T -> tx T Out).
  Notation cache := (cache T Out).
  Notation event := (event T Out).

  Definition known (c : cache) (id : T) (t : tx T Out) (s : txstate) : Prop := txs c !! id = Some (t, s).
  (** The output is spent by a transaction in one of these states *)
  Definition spent (which : states) (c : cache) (o : T * N) : Prop := ∃ id t s, known c id t s ∧ which (kind_of s) = true ∧ o ∈ ins t.

  (** No transaction that is added spends an output that a live one of the wallet spends too; what the wallet is opened with is what it
      stored, the confirmed transactions first, and no two of them spend the same output *)
  Definition no_live_double_spend (c : cache) (id : T) : Prop :=
    ∀ id' t' s' o, known c id' t' s' -> live s' -> id' ≠ id -> o ∈ ins (body id) -> o ∉ ins t'.
  Definition stored_order (c : cache) (l : list (T * (tx T Out * txstate))) : Prop :=
    l ≡ₚ map_to_list (txs c) ∧ ∃ l1 l2, l = l1 ++ l2 ∧ (∀ p, p ∈ l1 -> is_confirmed (snd (snd p))) ∧ (∀ p, p ∈ l2 -> ¬ is_confirmed (snd (snd p))).
  Definition no_double_spend (c : cache) : Prop :=
    ∀ id t s id' t' s' o, known c id t s -> known c id' t' s' -> id' ≠ id -> o ∈ ins t -> o ∉ ins t'.
  Definition careful (c : cache) (e : event) : Prop :=
    match e with
    | Add id st => live st ∧ no_live_double_spend c id
    | Reopen l => stored_order c l ∧ no_double_spend c
    | _ => True
    end.
  (** Moreover, a transaction is added before those that spend its outputs *)
  Definition spends (t : tx T Out) (parent : T) : Prop := ∃ o, o ∈ ins t ∧ fst o = parent.
  Definition orderly (c : cache) (e : event) : Prop :=
    careful c e ∧
    match e with
    | Add id st => (∀ t s, known c id t s -> ¬ live s) -> ∀ id' t' s', known c id' t' s' -> live s' -> ¬ spends t' id
    | Reopen l => ∀ l1 x l2 y, l = l1 ++ x :: l2 -> y ∈ l1 -> live (snd (snd y)) -> ¬ spends (fst (snd y)) (fst x)
    | _ => True
    end.

  (** The histories that meet such a condition and in which nothing fails *)
  Inductive reach (cond : cache -> event -> Prop) : list event -> cache -> Prop :=
  | reach_start : reach cond [] empty
  | reach_step es c e c' : reach cond es c -> cond c e -> step body e c = (c', Ok tt) -> reach cond (es ++ [e]) c'.

  (** The transactions on the chain: added as confirmed and not removed again *)
  Definition on_chain (es : list event) : gmap T txstate :=
    foldl (fun m e => match e with
                      | Add id (Confirmed h t i) => match m !! id with None => <[id := Confirmed h t i]> m | Some _ => m end
                      | Remove id => delete id m
                      | _ => m
                      end) ∅ es.

  (** Descending from a transaction *)
  Definition descends (id x : T) : Prop := rtc (fun a b => spends (body b) a) id x.
  Definition descends_live (c : cache) (id x : T) : Prop := rtc (fun a b => ∃ t s, known c b t s ∧ live s ∧ spends t a) id x.
End Spec.
