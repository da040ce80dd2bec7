(** Writing deltas into a database: the loops that tokens-accounting/src/storage/db.rs 42-96,
    orders-accounting/src/storage/db.rs 46-126 and pos-accounting/src/pool/storage/mod.rs 140-220 all repeat.
    A database table is a [gmap]; storage read/write failures are not modelled. *)
From Verif Require Import Base AmountModel DeltaModel.

Section db.
Context {K : Type} {EqK : EqDecision K} {CntK : Countable K}.

(** [.map(..).collect::<Result<BTreeMap<_,_>,_>>()] over a mutable store. *)
Fixpoint collect_fold {S X U E} (f : S -> K -> X -> S * res E U) (l : list (K * X)) (s : S) (undo : gmap K U)
  : S * res E (gmap K U) :=
  match l with
  | [] => (s, Ok undo)
  | (k, x) :: l' => match f s k x with
                    | (s', Ok u) => collect_fold f l' s' (<[k := u]> undo)
                    | (s', Err e) => (s', Err e)
                    | (s', Panic) => (s', Panic)
                    end
  end.

(** One balance: pos storage/mod.rs 155-165, tokens db.rs 71-89, orders db.rs 75-93, 100-118. *)
Definition db_merge_balance (db : gmap K amount) (k : K) (delta : samount) : gmap K amount * res acc_err samount :=
  let balance := default 0%N (db !! k) in
  match combine_amount_delta balance (Some delta) with
  | Ok r => let db' := if (0 <? r)%N then <[k := r]> db else delete k db in
            match samount_neg delta with
            | Some n => (db', Ok n)
            | None => (db', Panic) (* [.expect("amount negation some")] *)
            end
  | Err e => (db, Err e)
  | Panic => (db, Panic)
  end.
Definition db_merge_balances (db : gmap K amount) (d : gmap K samount) : gmap K amount * res acc_err (gmap K samount) :=
  collect_fold db_merge_balance (map_to_list d) db ∅.

Context {T : Type} {EqT : EqDecision T}.
(** One record: pos storage/mod.rs 183-195, tokens db.rs 50-64, orders db.rs 54-68. *)
Definition db_merge_datum (db : gmap K T) (k : K) (delta : data_delta T) : gmap K T * res acc_err (data_delta T) :=
  match combine_data_with_delta (db !! k) (Some delta) with
  | Ok (Some r) => (<[k := r]> db, Ok (invert delta))
  | Ok None => (delete k db, Ok (invert delta))
  | Err e => (db, Err e)
  | Panic => (db, Panic)
  end.
Definition db_merge_data (db : gmap K T) (d : gmap K (data_delta T)) : gmap K T * res acc_err (gmap K (data_delta T)) :=
  collect_fold db_merge_datum (map_to_list d) db ∅.
End db.
