(** What is said about the synchronisation of a wallet: chains of blocks, and what an account has on record of a chain. *)
From Verif Require Import Base WalletSyncModel.

Section Spec.
  Context {B : Type} (bid prev : B -> N) (genesis : N) (concerns : nat -> list (nat * B) -> B -> bool) (max_index : nat).
  Notation chain := (list B).

  (** Different blocks have different identifiers, and none has that of genesis *)
  Definition no_collisions : Prop := (∀ a b, bid a = bid b -> a = b) ∧ ∀ b, bid b ≠ genesis.
  (** Every block is the child of the one before; the first is a child of genesis *)
  Fixpoint linked_from (id : N) (c : chain) : Prop := match c with [] => True | b :: c' => prev b = id ∧ linked_from (bid b) c' end.
  Definition linked (c : chain) : Prop := linked_from genesis c.

  (** What account [i] must have on record of a chain: with its height, every block that concerns it *)
  Fixpoint concerning (i : nat) (h : nat) (r : list (nat * B)) (c : chain) : list (nat * B) :=
    match c with
    | [] => r
    | b :: c' => concerning i (S h) (if concerns i r b then r ++ [(h, b)] else r) c'
    end.
  Definition all_concerning (i : nat) (c : chain) : list (nat * B) := concerning i 1 [] c.

  (** The account is at the end of the chain, and has nothing on record that is not on the chain *)
  Definition stands_on (a : @account B) (c : chain) : Prop :=
    linked c ∧ best a = (tip bid genesis c, length c) ∧ ∀ h b, (h, b) ∈ records a -> ∃ k, h = S k ∧ c !! k = Some b.
  (** Moreover it has on record all that concerns it *)
  Definition follows (i : nat) (a : @account B) (c : chain) : Prop := stands_on a c ∧ records a = all_concerning i c.

  (** Every account stands on some chain *)
  Definition sound (w : @wallet B) : Prop := accounts w ≠ [] ∧ ∀ a, a ∈ accounts w ∨ a = unused w -> ∃ c, stands_on a c.
  (** Every account follows some chain, and the unused account is not used there *)
  Definition complete (w : @wallet B) : Prop :=
    accounts w ≠ [] ∧ (∀ i a, accounts w !! i = Some a -> ∃ c, follows i a c) ∧ ∃ c, follows (length (accounts w)) (unused w) c ∧ records (unused w) = [].
  (** All accounts have the same best block *)
  Definition level (w : @wallet B) : Prop := ∀ a b, a ∈ best_blocks w -> b ∈ best_blocks w -> a = b.

  (** A node knows only chains *)
  Definition good_node (n : @node B) : Prop := linked (main n) ∧ ∀ c, c ∈ others n -> linked c.
  Definition good_world (W : @world B) : Prop := ∀ t n, seen W t = Some n -> good_node n.
  (** From a time on the main chain of the node only grows *)
  Definition growing_from (t : nat) (W : @world B) : Prop :=
    ∀ t1 t2 n1 n2, (t <= t1 <= t2)%nat -> seen W t1 = Some n1 -> seen W t2 = Some n2 -> main n1 `prefix_of` main n2.
  (** The node does not change and always answers, and the wallet is unlocked and can be stored *)
  Definition calm_from (t : nat) (n : @node B) (W : @world B) : Prop :=
    ∀ t', (t <= t')%nat -> seen W t' = Some n ∧ stored W t' = true ∧ unlocked W t' = true.

  (** No account is used before the one before it is: on no chain, and none beyond the greatest index *)
  Definition no_gaps : Prop :=
    (∀ i c, linked c -> all_concerning i c = [] -> all_concerning (S i) c = []) ∧
    (∀ i c, linked c -> (max_index <= i)%nat -> all_concerning i c = []).
End Spec.
