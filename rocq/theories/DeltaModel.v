(** Model of the [accounting] crate: deltas over balances and over data.
    accounting/src/delta/*.rs, accounting/src/error.rs. *)
From Verif Require Import Base AmountModel.

(** accounting/src/error.rs 16-46 (only the variants the code below returns). *)
Inductive acc_err :=
| ToSignedFailed | DeltaAdditionFailed | SumToUnsignedFailed
| DataCreatedMultipleTimes | ModifyNonexistingData | RemoveNonexistingData
| DeltaUndoNegationError | DeltaDataMismatch.

Section delta.
Context {K : Type} {EqK : EqDecision K} {CntK : Countable K}.

(** ** Amount deltas: delta_amount_collection.rs.
    [BTreeMap<K, SignedAmount>] is a [gmap]. Loops over a map visit it in [map_to_list] order, not ascending key
    order; the proofs show that outcome (success or not, and the resulting map on success) does not depend on it. *)

(** delta_amount_collection.rs 72-83 *)
Definition combine_signed_amount_delta (lhs : option samount) (rhs : samount) : res acc_err samount :=
  match lhs with
  | None => Ok rhs
  | Some v1 => ok_or (samount_add v1 rhs) DeltaAdditionFailed
  end.

(** delta_amount_collection.rs 56-70 *)
Definition merge_delta_amount_element (m : gmap K samount) (k : K) (z : samount) : gmap K samount * res acc_err unit :=
  match combine_signed_amount_delta (m !! k) z with
  | Ok s => if (s =? 0)%Z then (delete k m, Ok tt) else (<[k := s]> m, Ok tt)
  | Err e => (m, Err e)
  | Panic => (m, Panic)
  end.

(** delta_amount_collection.rs 36-42 *)
Definition merge_delta_amounts (m d : gmap K samount) : gmap K samount * res acc_err unit :=
  try_fold (fun m kz => merge_delta_amount_element m kz.1 kz.2) (map_to_list d) m.

(** delta_amount_collection.rs 45-54 *)
Definition undo_merge_delta_amounts (m d : gmap K samount) : gmap K samount * res acc_err unit :=
  try_fold (fun m kz => match samount_neg kz.2 with
                        | Some nz => merge_delta_amount_element m kz.1 nz
                        | None => (m, Err DeltaUndoNegationError)
                        end) (map_to_list d) m.

(** delta_amount_collection.rs 85-89 *)
Definition add_unsigned (m : gmap K samount) (k : K) (a : amount) : gmap K samount * res acc_err unit :=
  match into_signed a with
  | Some z => merge_delta_amount_element m k z
  | None => (m, Err ToSignedFailed)
  end.

(** delta_amount_collection.rs 91-98 *)
Definition sub_unsigned (m : gmap K samount) (k : K) (a : amount) : gmap K samount * res acc_err unit :=
  match into_signed a with
  | Some z => match samount_neg z with
              | Some nz => merge_delta_amount_element m k nz
              | None => (m, Err ToSignedFailed)
              end
  | None => (m, Err ToSignedFailed)
  end.

(** combine.rs 52-62 *)
Definition combine_amount_delta (lhs : amount) (rhs : option samount) : res acc_err amount :=
  match rhs with
  | None => Ok lhs
  | Some v2 =>
      let? v1 := ok_or (into_signed lhs) ToSignedFailed in
      let? s := ok_or (samount_add v1 v2) DeltaAdditionFailed in
      ok_or (into_unsigned s) SumToUnsignedFailed
  end.

(** ** Data deltas: delta_data_collection/mod.rs *)
Context {T : Type} {EqT : EqDecision T}.

(** mod.rs 39-43. [DataDeltaUndo] (undo.rs) is a newtype around the same pair. *)
Record data_delta := DataDelta { d_old : option T; d_new : option T }.
(** mod.rs 52-54 *)
Definition invert (d : data_delta) : data_delta := DataDelta (d_new d) (d_old d).


(** mod.rs 64-68, 92-100 *)
Inductive get_data_result := Present (t : T) | Deleted | Missing.
Definition get_data (m : gmap K data_delta) (k : K) : get_data_result :=
  match m !! k with
  | Some d => match d_new d with None => Deleted | Some t => Present t end
  | None => Missing
  end.

(** mod.rs 162-168 *)
Definition combine_delta_data (lhs rhs : data_delta) : res acc_err data_delta :=
  if decide (d_new lhs = d_old rhs) then Ok (DataDelta (d_old lhs) (d_new rhs)) else Err DeltaDataMismatch.

(** mod.rs 117-132. On a mismatch the entry has already been removed from the map ([e.remove()]). *)
Definition merge_delta_data_element (m : gmap K data_delta) (k : K) (d : data_delta)
  : gmap K data_delta * res acc_err data_delta :=
  match m !! k with
  | Some e => match combine_delta_data e d with
              | Ok el => (<[k := el]> m, Ok (invert d))
              | Err err => (delete k m, Err err)
              | Panic => (delete k m, Panic)
              end
  | None => (<[k := d]> m, Ok (invert d))
  end.

(** mod.rs 102-115: returns the collection of undos, one per key. *)
Fixpoint merge_delta_data_list (m : gmap K data_delta) (l : list (K * data_delta)) (undo : gmap K data_delta)
  : gmap K data_delta * res acc_err (gmap K data_delta) :=
  match l with
  | [] => (m, Ok undo)
  | (k, d) :: l' => match merge_delta_data_element m k d with
                    | (m', Ok u) => merge_delta_data_list m' l' (<[k := u]> undo)
                    | (m', Err e) => (m', Err e)
                    | (m', Panic) => (m', Panic)
                    end
  end.
Definition merge_delta_data (m d : gmap K data_delta) : gmap K data_delta * res acc_err (gmap K data_delta) :=
  merge_delta_data_list m (map_to_list d) ∅.

(** mod.rs 144-150 *)
Definition undo_merge_delta_data_element (m : gmap K data_delta) (k : K) (u : data_delta) : gmap K data_delta * res acc_err unit :=
  match merge_delta_data_element m k u with
  | (m', r) => (m', rmap (fun _ => tt) r)
  end.

(** mod.rs 134-142 *)
Definition undo_merge_delta_data (m u : gmap K data_delta) : gmap K data_delta * res acc_err unit :=
  try_fold (fun m kd => undo_merge_delta_data_element m kd.1 kd.2) (map_to_list u) m.

(** combine.rs 22-48 *)
Definition combine_data_with_delta (lhs : option T) (rhs : option data_delta) : res acc_err (option T) :=
  match lhs, rhs with
  | lhs, None => Ok lhs
  | None, Some d => match d_old d, d_new d with
                    | None, next => Ok next
                    | Some _, None => Err RemoveNonexistingData
                    | Some _, Some _ => Err ModifyNonexistingData
                    end
  | Some data, Some d => match d_old d, d_new d with
                         | None, None => Err DeltaDataMismatch
                         | None, Some _ => Err DataCreatedMultipleTimes
                         | Some old, new => if decide (data = old) then Ok new else Err DeltaDataMismatch
                         end
  end.
End delta.

Arguments data_delta T : clear implicits.
Arguments DataDelta {T} d_old d_new.
Arguments get_data_result T : clear implicits.
Arguments Present {T} t.
Arguments Deleted {T}.
Arguments Missing {T}.

Notation amount_coll K := (gmap K samount) (only parsing).
Notation data_coll K T := (gmap K (data_delta T)) (only parsing).
