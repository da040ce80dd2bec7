(** Model of the [orders-accounting] crate: order records, price calculation, the cache and its operations, flushing
    and the database. orders-accounting/src/{data,cache,price_calculation,operations,error,lib}.rs, storage/db.rs.
    Ids and destinations are numbers; error payloads and logging are dropped. *)
From Verif Require Import Base AmountModel DeltaModel DeltaDbModel LayeredModel.

Notation order_id := N (only parsing).

(** common/src/chain/transaction/output/output_value.rs: the payload of the obsolete [TokenV0] is dropped. *)
Inductive output_value := OvCoin (a : amount) | OvTokenV0 | OvToken (id : N) (a : amount).

(** data.rs 25-31 *)
Record order_data := OrderData { od_key : N; od_ask : output_value; od_give : output_value; od_frozen : bool }.
Global Instance output_value_eq : EqDecision output_value. Proof. solve_decision. Defined.
Global Instance order_data_eq : EqDecision order_data. Proof. solve_decision. Defined.

(** error.rs 18-72 *)
Inductive ord_err :=
| OrdAccounting (e : acc_err) | OrderAlreadyExists | OrderDataNotFound | OrderWithZeroValue
| OrderDataNotFoundForUndo | OrderAskBalanceChangedForUndo | OrderGiveBalanceChangedForUndo
| OrderDataExistForConcludeUndo | OrderDataNotExistForFreezeUndo
| OrderAskBalanceExistForConcludeUndo | OrderGiveBalanceExistForConcludeUndo
| OrderOverflow | OrderOverbid | OrderUnderbid
| AttemptedConcludeNonexistingOrder | AttemptedFreezeNonexistingOrder | AttemptedFreezeAlreadyFrozenOrder
| AttemptedFillFrozenOrder | UnsupportedTokenVersion | OrdViewFail | OrdStorageWrite.

(** lib.rs 42-47 *)
Definition output_value_amount (v : output_value) : res ord_err amount :=
  match v with
  | OvCoin a | OvToken _ a => Ok a
  | OvTokenV0 => Err UnsupportedTokenVersion
  end.

(** data.rs 73-84 *)
Definition try_freeze_order (d : order_data) : option order_data :=
  if od_frozen d then None else Some (OrderData (od_key d) (od_ask d) (od_give d) true).

(** view.rs 21-29 *)
Record ord_view := OrdView {
  ov_data : order_id -> res ord_err (option order_data);
  ov_ask : order_id -> res ord_err amount;
  ov_give : order_id -> res ord_err amount;
  ov_ids : res ord_err (gset order_id) }.

(** data.rs 112-116 *)
Record ord_delta := OrdDelta {
  ordd_data : gmap order_id (data_delta order_data);
  ordd_ask : gmap order_id samount;
  ordd_give : gmap order_id samount }.
Definition ord_delta_new : ord_delta := OrdDelta ∅ ∅ ∅.

(** cache.rs 123-131 *)
Definition ord_get_data (P : ord_view) (c : ord_delta) (id : order_id) : res ord_err (option order_data) :=
  match get_data (ordd_data c) id with
  | Present d => Ok (Some d)
  | Deleted => Ok None
  | Missing => rmap_err (fun _ => OrdViewFail) (ov_data P id)
  end.
(** cache.rs 133-137 *)
Definition ord_get_ask (P : ord_view) (c : ord_delta) (id : order_id) : res ord_err amount :=
  let? parent := rmap_err (fun _ => OrdViewFail) (ov_ask P id) in
  rmap_err OrdAccounting (combine_amount_delta parent (ordd_ask c !! id)).
(** cache.rs 139-143 *)
Definition ord_get_give (P : ord_view) (c : ord_delta) (id : order_id) : res ord_err amount :=
  let? parent := rmap_err (fun _ => OrdViewFail) (ov_give P id) in
  rmap_err OrdAccounting (combine_amount_delta parent (ordd_give c !! id)).
(** cache.rs 145-178 *)
Definition is_missing {T} (r : get_data_result T) : bool := match r with Missing => true | _ => false end.
Definition is_present {T} (r : get_data_result T) : bool := match r with Present _ => true | _ => false end.
Definition ord_get_ids (P : ord_view) (c : ord_delta) : res ord_err (gset order_id) :=
  let? parent := rmap_err (fun _ => OrdViewFail) (ov_ids P) in
  Ok (filter (fun id => is_missing (get_data (ordd_data c) id) = true) parent ∪
      filter (fun id => is_present (get_data (ordd_data c) id) = true) (dom (ordd_data c))).
Definition ord_cache_view (P : ord_view) (c : ord_delta) : ord_view :=
  OrdView (ord_get_data P c) (ord_get_ask P c) (ord_get_give P c) (ord_get_ids P c).

(** price_calculation.rs 94-109: [give * fill] is computed in 256 bits and cannot overflow there; division by zero and
    a result above 2^128-1 give [None]. *)
Definition calculate_filled_amount (ask give fill : amount) : option amount :=
  match checked_div (give * fill) ask with
  | Some r => if (r <=? U128_MAX)%N then Some r else None
  | None => None
  end.

Inductive orders_version := OrdersV0 | OrdersV1.

(** price_calculation.rs 45-63 *)
Definition fill_remaining (v : ord_view) (id : order_id) (fill : amount) : res ord_err amount :=
  let? ask := rmap_err (fun _ => OrdViewFail) (ov_ask v id) in
  let? give := rmap_err (fun _ => OrdViewFail) (ov_give v id) in
  ensure (fill <=? ask)%N OrderOverbid ;?
  ok_or (calculate_filled_amount ask give fill) OrderOverflow.
(** price_calculation.rs 65-92 *)
Definition fill_original (v : ord_view) (id : order_id) (fill : amount) : res ord_err amount :=
  let? o := rmap_err (fun _ => OrdViewFail) (ov_data v id) in
  let? d := ok_or o OrderDataNotFound in
  let? ask0 := output_value_amount (od_ask d) in
  let? give0 := output_value_amount (od_give d) in
  let? ask := rmap_err (fun _ => OrdViewFail) (ov_ask v id) in
  ensure (fill <=? ask)%N OrderOverbid ;?
  let? r := ok_or (calculate_filled_amount ask0 give0 fill) OrderOverflow in
  ensure (0 <? r)%N OrderUnderbid ;?
  Ok r.
(** price_calculation.rs 25-43 *)
Definition calculate_fill_order (v : ord_view) (id : order_id) (fill : amount) (ver : orders_version) : res ord_err amount :=
  match ver with OrdersV0 => fill_remaining v id fill | OrdersV1 => fill_original v id fill end.

(** operations.rs 27-62 *)
Inductive ord_undo :=
| UndoCreate (id : order_id) (u : data_delta order_data) (ask give : amount)
| UndoConclude (id : order_id) (u : data_delta order_data) (ask give : amount)
| UndoFill (id : order_id) (ask give : amount)
| UndoFreezeOrder (id : order_id) (u : data_delta order_data).

Definition ord_merge_data (c : ord_delta) (id : order_id) (d : data_delta order_data) : ord_delta * res ord_err (data_delta order_data) :=
  let (m, r) := merge_delta_data_element (ordd_data c) id d in (OrdDelta m (ordd_ask c) (ordd_give c), rmap_err OrdAccounting r).
Definition ord_undo_merge_data (c : ord_delta) (id : order_id) (d : data_delta order_data) : ord_delta * res ord_err unit :=
  let (m, r) := undo_merge_delta_data_element (ordd_data c) id d in (OrdDelta m (ordd_ask c) (ordd_give c), rmap_err OrdAccounting r).
Definition ord_add_ask (c : ord_delta) (id : order_id) (a : amount) : ord_delta * res ord_err unit :=
  let (m, r) := add_unsigned (ordd_ask c) id a in (OrdDelta (ordd_data c) m (ordd_give c), rmap_err OrdAccounting r).
Definition ord_sub_ask (c : ord_delta) (id : order_id) (a : amount) : ord_delta * res ord_err unit :=
  let (m, r) := sub_unsigned (ordd_ask c) id a in (OrdDelta (ordd_data c) m (ordd_give c), rmap_err OrdAccounting r).
Definition ord_add_give (c : ord_delta) (id : order_id) (a : amount) : ord_delta * res ord_err unit :=
  let (m, r) := add_unsigned (ordd_give c) id a in (OrdDelta (ordd_data c) (ordd_ask c) m, rmap_err OrdAccounting r).
Definition ord_sub_give (c : ord_delta) (id : order_id) (a : amount) : ord_delta * res ord_err unit :=
  let (m, r) := sub_unsigned (ordd_give c) id a in (OrdDelta (ordd_data c) (ordd_ask c) m, rmap_err OrdAccounting r).

Definition is_none {A} (o : option A) : bool := match o with None => true | Some _ => false end.

(** cache.rs 182-217 *)
Definition create_order (P : ord_view) (c : ord_delta) (id : order_id) (data : order_data) : ord_delta * res ord_err ord_undo :=
  on_ok c (
    let? o := ord_get_data P c id in
    ensure (is_none o) OrderAlreadyExists ;?
    let? ask := ord_get_ask P c id in
    ensure (ask =? 0)%N OrderAlreadyExists ;?
    let? ask_amount := output_value_amount (od_ask data) in
    let? give_amount := output_value_amount (od_give data) in
    ensure ((0 <? ask_amount)%N && (0 <? give_amount)%N) OrderWithZeroValue ;?
    Ok (ask_amount, give_amount)) (fun '(ask_amount, give_amount) =>
  sbind (ord_merge_data c id (DataDelta None (Some data))) (fun c u =>
  sbind (ord_add_ask c id ask_amount) (fun c _ =>
  sbind (ord_add_give c id give_amount) (fun c _ =>
  (c, Ok (UndoCreate id u ask_amount give_amount)))))).

(** cache.rs 219-242 *)
Definition conclude_order (P : ord_view) (c : ord_delta) (id : order_id) : ord_delta * res ord_err ord_undo :=
  on_ok c (
    let? o := ord_get_data P c id in
    let? d := ok_or o AttemptedConcludeNonexistingOrder in
    let? ask := ord_get_ask P c id in
    let? give := ord_get_give P c id in
    Ok (d, ask, give)) (fun '(d, ask, give) =>
  sbind (ord_merge_data c id (DataDelta (Some d) None)) (fun c u =>
  sbind (ord_sub_ask c id ask) (fun c _ =>
  sbind (ord_sub_give c id give) (fun c _ =>
  (c, Ok (UndoConclude id u ask give)))))).

(** cache.rs 244-270 *)
Definition fill_order (P : ord_view) (c : ord_delta) (id : order_id) (fill : amount) (ver : orders_version)
  : ord_delta * res ord_err ord_undo :=
  on_ok c (
    let? o := ord_get_data P c id in
    let? d := ok_or o OrderDataNotFound in
    ensure (negb (od_frozen d)) AttemptedFillFrozenOrder ;?
    calculate_fill_order (ord_cache_view P c) id fill ver) (fun filled =>
  sbind (ord_sub_give c id filled) (fun c _ =>
  sbind (ord_sub_ask c id fill) (fun c _ =>
  (c, Ok (UndoFill id fill filled))))).

(** cache.rs 282-303 *)
Definition freeze_order (P : ord_view) (c : ord_delta) (id : order_id) : ord_delta * res ord_err ord_undo :=
  on_ok c (
    let? o := ord_get_data P c id in
    let? d := ok_or o AttemptedFreezeNonexistingOrder in
    let? new := ok_or (try_freeze_order d) AttemptedFreezeAlreadyFrozenOrder in
    Ok (DataDelta (Some d) (Some new))) (fun dd =>
  sbind (ord_merge_data c id dd) (fun c u => (c, Ok (UndoFreezeOrder id u)))).

(** cache.rs 58-117, 272-280 *)
Definition undo_order_op (P : ord_view) (c : ord_delta) (u : ord_undo) : ord_delta * res ord_err unit :=
  match u with
  | UndoCreate id u ask give =>
      on_ok c (let? a := ord_get_ask P c id in ensure (a =? ask)%N OrderAskBalanceChangedForUndo) (fun _ =>
      sbind (ord_sub_ask c id ask) (fun c _ =>
      on_ok c (let? g := ord_get_give P c id in ensure (g =? give)%N OrderGiveBalanceChangedForUndo) (fun _ =>
      sbind (ord_sub_give c id give) (fun c _ =>
      on_ok c (let? o := ord_get_data P c id in ensure (negb (is_none o)) OrderDataNotFoundForUndo) (fun _ =>
      ord_undo_merge_data c id u)))))
  | UndoConclude id u ask give =>
      on_ok c (let? o := ord_get_data P c id in ensure (is_none o) OrderDataExistForConcludeUndo) (fun _ =>
      sbind (ord_undo_merge_data c id u) (fun c _ =>
      on_ok c (let? a := ord_get_ask P c id in ensure (a =? 0)%N OrderAskBalanceExistForConcludeUndo) (fun _ =>
      sbind (ord_add_ask c id ask) (fun c _ =>
      on_ok c (let? g := ord_get_give P c id in ensure (g =? 0)%N OrderGiveBalanceExistForConcludeUndo) (fun _ =>
      ord_add_give c id give)))))
  | UndoFill id ask give =>
      sbind (ord_add_ask c id ask) (fun c _ => ord_add_give c id give)
  | UndoFreezeOrder id u =>
      on_ok c (let? o := ord_get_data P c id in ensure (negb (is_none o)) OrderDataNotExistForFreezeUndo) (fun _ =>
      ord_undo_merge_data c id u)
  end.

(** The trait [OrdersAccountingOperations] (operations.rs 64-76), as data. *)
Inductive ord_op :=
| CreateOrder (id : order_id) (data : order_data)
| ConcludeOrder (id : order_id)
| FillOrder (id : order_id) (fill : amount) (ver : orders_version)
| FreezeOrder (id : order_id).

Definition ord_run (P : ord_view) (c : ord_delta) (o : ord_op) : ord_delta * res ord_err ord_undo :=
  match o with
  | CreateOrder id d => create_order P c id d
  | ConcludeOrder id => conclude_order P c id
  | FillOrder id f v => fill_order P c id f v
  | FreezeOrder id => freeze_order P c id
  end.

(** data.rs 119-136 through cache.rs 306-315. *)
Definition ord_merge (c d : ord_delta) : ord_delta * res ord_err (gmap order_id (data_delta order_data)) :=
  let (m, r) := merge_delta_data (ordd_data c) (ordd_data d) in
  sbind (OrdDelta m (ordd_ask c) (ordd_give c), rmap_err OrdAccounting r) (fun c u =>
  let (m, r) := merge_delta_amounts (ordd_ask c) (ordd_ask d) in
  sbind (OrdDelta (ordd_data c) m (ordd_give c), rmap_err OrdAccounting r) (fun c _ =>
  let (m, r) := merge_delta_amounts (ordd_give c) (ordd_give d) in
  (OrdDelta (ordd_data c) (ordd_ask c) m, rmap (fun _ => u) (rmap_err OrdAccounting r)))).

(** The tables behind [OrdersAccountingStorageRead/Write]; ids are the keys of the data table
    (storage/in_memory.rs 81-83, chainstate/storage). *)
Record ord_db := OrdDb {
  odb_data : gmap order_id order_data; odb_ask : gmap order_id amount; odb_give : gmap order_id amount }.

(** storage/db.rs 128-147 *)
Definition ord_db_view (db : ord_db) : ord_view :=
  OrdView (fun id => Ok (odb_data db !! id)) (fun id => Ok (default 0%N (odb_ask db !! id)))
          (fun id => Ok (default 0%N (odb_give db !! id))) (Ok (dom (odb_data db))).

(** storage/db.rs 46-126, 194-203 *)
Definition ord_db_merge (db : ord_db) (d : ord_delta) : ord_db * res ord_err (gmap order_id (data_delta order_data)) :=
  let (m, r) := db_merge_data (odb_data db) (ordd_data d) in
  sbind (OrdDb m (odb_ask db) (odb_give db), rmap_err (fun _ => OrdStorageWrite) r) (fun db u =>
  let (m, r) := db_merge_balances (odb_ask db) (ordd_ask d) in
  sbind (OrdDb (odb_data db) m (odb_give db), rmap_err (fun _ => OrdStorageWrite) r) (fun db _ =>
  let (m, r) := db_merge_balances (odb_give db) (ordd_give d) in
  (OrdDb (odb_data db) (odb_ask db) m, rmap (fun _ => u) (rmap_err (fun _ => OrdStorageWrite) r)))).

(** A stack of order caches over a database, as [LayeredModel] describes. *)
Definition ord_exec := exec ord_cache_view ord_db_view ord_delta_new ord_run undo_order_op ord_merge ord_db_merge.
Definition ord_exec_all := exec_all ord_cache_view ord_db_view ord_delta_new ord_run undo_order_op ord_merge ord_db_merge.
Definition ord_machine_view := @machine_view ord_view ord_delta ord_db ord_undo ord_cache_view ord_db_view.
