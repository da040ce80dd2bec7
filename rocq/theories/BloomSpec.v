(** What a filter has been given. *)
From Verif Require Import Base BloomModel.

Section BloomSpec.
  Context {T Seed : Type} (positions : Seed -> T -> list nat).
  (** A new filter for [size] items into which the items are inserted one after the other *)
  Definition filled (size : nat) (s0 s1 s2 : Seed) (items : list (T * Seed)) : res unit (rolling Seed) :=
    let? r := rolling_new size s0 s1 s2 in rfold (fun r xs => rolling_insert positions r xs.1 xs.2) items r.
  (** The last [n] items of a list *)
  Definition last_items (n : nat) (items : list (T * Seed)) : list T := map fst (drop (length items - n) items).
End BloomSpec.
