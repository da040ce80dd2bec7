(** Vocabulary for the statements about accounting deltas, independent of the merge code. *)
From Verif Require Import Base AmountModel DeltaModel.
Local Open Scope Z_scope.

(** A signed 128-bit integer. *)
Definition fits_i128 (z : Z) : Prop := - 2 ^ 127 <= z < 2 ^ 127.

(** The change a collection of balance deltas makes to key [k]; an absent key means no change. *)
Definition change_at {K} `{Countable K} (d : gmap K Z) (k : K) : Z := match d !! k with Some z => z | None => 0 end.

(** Collections the code can produce: changes are i128 and "no change" is never stored explicitly. *)
Definition canonical {K} `{Countable K} (d : gmap K Z) : Prop :=
  forall k z, d !! k = Some z -> z <> 0 /\ fits_i128 z.

(** Applying a whole collection of balance deltas to a table of balances, key by key. *)
Definition applies_to {K} `{Countable K} (d : gmap K Z) (before after : K -> N) : Prop :=
  forall k, combine_amount_delta (before k) (d !! k) = Ok (after k).

(** Applying a whole collection of data deltas to a table of records, key by key. *)
Definition data_applies_to {K} `{Countable K} {T} `{EqDecision T} (d : gmap K (data_delta T))
  (before after : K -> option T) : Prop :=
  forall k, combine_data_with_delta (before k) (d !! k) = Ok (after k).
