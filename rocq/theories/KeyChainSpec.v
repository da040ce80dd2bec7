(** What is said about the keys of an account. *)
From Verif Require Import Base KeyChainModel.
Local Open Scope N_scope.

Section KeyChain.
  Context {K H : Type} `{Countable K, Countable H} (key : purpose -> N -> K) (hash : K -> H).

  (** No two keys of the account have the same address *)
  Definition distinct_addresses : Prop :=
    ∀ p i q j, i < 2 ^ 31 -> j < 2 ^ 31 -> hash (key p i) = hash (key q j) -> p = q ∧ i = j.

  (** The two ways of paying to a key of the account *)
  Definition pays (d : dest (K := K) (H := H)) (p : purpose) (i : N) : Prop := d = PublicKeyHash (hash (key p i)) ∨ d = PublicKey (key p i).

  (** In this history, the account handed out the key with this index *)
  Definition handed_out (answers : list (event (K := K) (H := H) * answer (K := K))) (p : purpose) (i : N) (k : K) : Prop := ∃ e, (e, Address p i k) ∈ answers.
  (** In this history, the account took note of an output that pays to its key with this index and to no other of its keys *)
  Definition noted (answers : list (event (K := K) (H := H) * answer (K := K))) (p : purpose) (i : N) : Prop :=
    ∃ l, (Seen l, Found true) ∈ answers ∧ ∀ d q j, d ∈ l -> j < 2 ^ 31 -> pays d q j -> q = p ∧ j = i.
  (** The outputs the account was shown, in order *)
  Definition shown (answers : list (event (K := K) (H := H) * answer (K := K))) : list (list (dest (K := K) (H := H))) :=
    omap (fun '(e, _) => match e with Seen l => Some l | _ => None end) answers.
  (** What it said about each of them *)
  Definition said (answers : list (event (K := K) (H := H) * answer (K := K))) : list (list (dest (K := K) (H := H)) * answer (K := K)) :=
    omap (fun '(e, r) => match e with Seen l => Some (l, r) | _ => None end) answers.
End KeyChain.
