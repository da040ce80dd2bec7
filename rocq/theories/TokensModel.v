(** Model of the [tokens-accounting] crate: token records, the cache and its operations, flushing and the database.
    tokens-accounting/src/{data,cache,operations,error}.rs and storage/db.rs.
    Token ids and destinations are numbers, byte strings are lists of numbers. [TokenData] has the single variant
    [FungibleToken] and is identified with its payload. Error payloads (ids, amounts) are dropped. Logging is dropped. *)
From Verif Require Import Base AmountModel DeltaModel DeltaDbModel LayeredModel.

Notation token_id := N (only parsing).
Notation destination := N (only parsing).
Notation bytes := (list N) (only parsing).

(** common/src/chain/tokens/issuance.rs: TokenTotalSupply, IsTokenFreezable, IsTokenUnfreezable, IsTokenFrozen;
    the two yes/no enums are booleans. *)
Inductive total_supply := Fixed (limit : amount) | Lockable | Unlimited.
Inductive frozen_state := NotFrozen (freezable : bool) | Frozen (unfreezable : bool).

(** data.rs 98-108 *)
Record token_data := TokenData {
  tk_ticker : bytes; tk_decimals : N; tk_uri : bytes; tk_supply : total_supply;
  tk_locked : bool; tk_frozen : frozen_state; tk_authority : destination }.

Global Instance total_supply_eq : EqDecision total_supply. Proof. solve_decision. Defined.
Global Instance frozen_state_eq : EqDecision frozen_state. Proof. solve_decision. Defined.
Global Instance token_data_eq : EqDecision token_data. Proof. solve_decision. Defined.

(** data.rs 174-179 *)
Definition is_frozen (t : token_data) : bool := match tk_frozen t with NotFrozen _ => false | Frozen _ => true end.
(** data.rs 181-189 *)
Definition can_be_frozen (t : token_data) : bool := match tk_frozen t with NotFrozen f => f | Frozen _ => false end.
(** data.rs 191-199 *)
Definition can_be_unfrozen (t : token_data) : bool := match tk_frozen t with NotFrozen _ => false | Frozen u => u end.
(** data.rs 155-168 *)
Definition try_lock (t : token_data) : option token_data :=
  match tk_supply t with
  | Fixed _ | Unlimited => None
  | Lockable => Some (TokenData (tk_ticker t) (tk_decimals t) (tk_uri t) (tk_supply t) true (tk_frozen t) (tk_authority t))
  end.
(** data.rs 201-215 *)
Definition try_freeze (t : token_data) (u : bool) : option token_data :=
  if can_be_frozen t
  then Some (TokenData (tk_ticker t) (tk_decimals t) (tk_uri t) (tk_supply t) (tk_locked t) (Frozen u) (tk_authority t))
  else None.
(** data.rs 217-231 *)
Definition try_unfreeze (t : token_data) : option token_data :=
  if can_be_unfrozen t
  then Some (TokenData (tk_ticker t) (tk_decimals t) (tk_uri t) (tk_supply t) (tk_locked t) (NotFrozen true) (tk_authority t))
  else None.
(** data.rs 233-243 *)
Definition change_authority_data (t : token_data) (a : destination) : token_data :=
  TokenData (tk_ticker t) (tk_decimals t) (tk_uri t) (tk_supply t) (tk_locked t) (tk_frozen t) a.
(** data.rs 245-255 *)
Definition change_uri_data (t : token_data) (uri : bytes) : token_data :=
  TokenData (tk_ticker t) (tk_decimals t) uri (tk_supply t) (tk_locked t) (tk_frozen t) (tk_authority t).
(** data.rs 258-272: the record of a newly issued token ([TokenIssuance::V1]). *)
Definition from_issuance (ticker : bytes) (decimals : N) (uri : bytes) (supply : total_supply) (freezable : bool)
  (authority : destination) : token_data :=
  TokenData ticker decimals uri supply false (NotFrozen freezable) authority.

(** error.rs 18-84 *)
Inductive tok_err :=
| TokAccounting (e : acc_err) | TokenAlreadyExists | TokenDataNotFound | TokenDataNotFoundOnReversal
| MintExceedsSupplyLimit | TokAmountOverflow | CannotMintFromLockedSupply | CannotMintFrozenToken
| CannotUnmintFromLockedSupply | CannotUnmintFrozenToken | NotEnoughCirculatingSupplyToUnmint
| SupplyIsAlreadyLocked | CannotLockNotLockableSupply | CannotLockFrozenToken | CannotUnlockNotLockedSupplyOnReversal
| CannotUndoMintForLockedSupplyOnReversal | CannotUndoUnmintForLockedSupplyOnReversal
| TokenIsAlreadyFrozen | CannotFreezeNotFreezableToken | CannotUnfreezeNotUnfreezableToken
| CannotUnfreezeTokenThatIsNotFrozen | CannotUndoFreezeTokenThatIsNotFrozen | CannotUndoUnfreezeTokenThatIsFrozen
| CannotChangeAuthorityForFrozenToken | CannotUndoChangeAuthorityForFrozenToken
| CannotChangeMetadataUriForFrozenToken | CannotUndoChangeMetadataUriForFrozenToken
| TokViewFail | TokStorageWrite.

(** view.rs: the read interface [TokensAccountingView]. *)
Record tok_view := TokView {
  tv_data : token_id -> res tok_err (option token_data);
  tv_supply : token_id -> res tok_err amount }.

(** data.rs 48-52: [TokensAccountingDeltaData]. *)
Record tok_delta := TokDelta {
  td_data : gmap token_id (data_delta token_data);
  td_supply : gmap token_id samount }.
(** data.rs 54-60 *)
Definition tok_delta_new : tok_delta := TokDelta ∅ ∅.

(** cache.rs 63-71 *)
Definition tok_get_data (P : tok_view) (c : tok_delta) (id : token_id) : res tok_err (option token_data) :=
  match get_data (td_data c) id with
  | Present d => Ok (Some d)
  | Deleted => Ok None
  | Missing => rmap_err (fun _ => TokViewFail) (tv_data P id)
  end.
(** cache.rs 73-77 *)
Definition tok_get_supply (P : tok_view) (c : tok_delta) (id : token_id) : res tok_err amount :=
  let? parent_supply := rmap_err (fun _ => TokViewFail) (tv_supply P id) in
  rmap_err TokAccounting (combine_amount_delta parent_supply (td_supply c !! id)).
(** cache.rs 60-78: a cache is again a view. *)
Definition tok_cache_view (P : tok_view) (c : tok_delta) : tok_view := TokView (tok_get_data P c) (tok_get_supply P c).

(** operations.rs 31-102 *)
Inductive tok_undo :=
| UndoIssue (id : token_id) (u : data_delta token_data)
| UndoMint (id : token_id) (a : amount)
| UndoUnmint (id : token_id) (a : amount)
| UndoLock (id : token_id) (u : data_delta token_data)
| UndoFreeze (id : token_id) (u : data_delta token_data)
| UndoUnfreeze (id : token_id) (u : data_delta token_data)
| UndoChangeAuthority (id : token_id) (u : data_delta token_data)
| UndoChangeUri (id : token_id) (u : data_delta token_data).

(** [self.data.token_data.merge_delta_data_element(..)?] *)
Definition tok_merge_data (c : tok_delta) (id : token_id) (d : data_delta token_data) : tok_delta * res tok_err (data_delta token_data) :=
  let (m, r) := merge_delta_data_element (td_data c) id d in (TokDelta m (td_supply c), rmap_err TokAccounting r).
(** [self.data.token_data.undo_merge_delta_data_element(..)?] *)
Definition tok_undo_merge_data (c : tok_delta) (id : token_id) (d : data_delta token_data) : tok_delta * res tok_err unit :=
  let (m, r) := undo_merge_delta_data_element (td_data c) id d in (TokDelta m (td_supply c), rmap_err TokAccounting r).
Definition tok_add_supply (c : tok_delta) (id : token_id) (a : amount) : tok_delta * res tok_err unit :=
  let (m, r) := add_unsigned (td_supply c) id a in (TokDelta (td_data c) m, rmap_err TokAccounting r).
Definition tok_sub_supply (c : tok_delta) (id : token_id) (a : amount) : tok_delta * res tok_err unit :=
  let (m, r) := sub_unsigned (td_supply c) id a in (TokDelta (td_data c) m, rmap_err TokAccounting r).

Definition ret_undo {S E A B} (f : A -> B) (m : S * res E A) : S * res E B := (m.1, rmap f m.2).

(** cache.rs 92-112 *)
Definition issue_token (P : tok_view) (c : tok_delta) (id : token_id) (data : token_data) : tok_delta * res tok_err tok_undo :=
  on_ok c (tok_get_data P c id) (fun o =>
  match o with
  | Some _ => (c, Err TokenAlreadyExists)
  | None =>
      on_ok c (tok_get_supply P c id) (fun s =>
      if (0 <? s)%N then (c, Err TokenAlreadyExists)
      else ret_undo (UndoIssue id) (tok_merge_data c id (DataDelta None (Some data))))
  end).

(** cache.rs 114-154 *)
Definition mint_tokens (P : tok_view) (c : tok_delta) (id : token_id) (a : amount) : tok_delta * res tok_err tok_undo :=
  on_ok c (
    let? o := tok_get_data P c id in
    let? data := ok_or o TokenDataNotFound in
    if is_frozen data then Err CannotMintFrozenToken
    else match tk_supply data with
         | Fixed limit =>
             let? supply := tok_get_supply P c id in
             let? expected := ok_or (amount_add supply a) TokAmountOverflow in
             if (limit <? expected)%N then Err MintExceedsSupplyLimit else Ok tt
         | Lockable => if tk_locked data then Err CannotMintFromLockedSupply else Ok tt
         | Unlimited => Ok tt
         end) (fun _ =>
  ret_undo (fun _ => UndoMint id a) (tok_add_supply c id a)).

(** cache.rs 156-189 *)
Definition unmint_tokens (P : tok_view) (c : tok_delta) (id : token_id) (a : amount) : tok_delta * res tok_err tok_undo :=
  on_ok c (
    let? o := tok_get_data P c id in
    let? data := ok_or o TokenDataNotFound in
    if tk_locked data then Err CannotUnmintFromLockedSupply
    else if is_frozen data then Err CannotUnmintFrozenToken
    else let? supply := tok_get_supply P c id in
         if (supply <? a)%N then Err NotEnoughCirculatingSupplyToUnmint else Ok tt) (fun _ =>
  ret_undo (fun _ => UndoUnmint id a) (tok_sub_supply c id a)).

(** cache.rs 191-221 *)
Definition lock_circulating_supply (P : tok_view) (c : tok_delta) (id : token_id) : tok_delta * res tok_err tok_undo :=
  on_ok c (
    let? o := tok_get_data P c id in
    let? data := ok_or o TokenDataNotFound in
    if tk_locked data then Err SupplyIsAlreadyLocked
    else if is_frozen data then Err CannotLockFrozenToken
    else let? new := ok_or (try_lock data) CannotLockNotLockableSupply in Ok (DataDelta (Some data) (Some new))) (fun d =>
  ret_undo (UndoLock id) (tok_merge_data c id d)).

(** cache.rs 223-253 *)
Definition freeze_token (P : tok_view) (c : tok_delta) (id : token_id) (unfreezable : bool) : tok_delta * res tok_err tok_undo :=
  on_ok c (
    let? o := tok_get_data P c id in
    let? data := ok_or o TokenDataNotFound in
    if is_frozen data then Err TokenIsAlreadyFrozen
    else let? new := ok_or (try_freeze data unfreezable) CannotFreezeNotFreezableToken in
         Ok (DataDelta (Some data) (Some new))) (fun d =>
  ret_undo (UndoFreeze id) (tok_merge_data c id d)).

(** cache.rs 255-281 *)
Definition unfreeze_token (P : tok_view) (c : tok_delta) (id : token_id) : tok_delta * res tok_err tok_undo :=
  on_ok c (
    let? o := tok_get_data P c id in
    let? data := ok_or o TokenDataNotFound in
    if negb (is_frozen data) then Err CannotUnfreezeTokenThatIsNotFrozen
    else let? new := ok_or (try_unfreeze data) CannotUnfreezeNotUnfreezableToken in
         Ok (DataDelta (Some data) (Some new))) (fun d =>
  ret_undo (UndoUnfreeze id) (tok_merge_data c id d)).

(** cache.rs 283-310 *)
Definition change_authority (P : tok_view) (c : tok_delta) (id : token_id) (a : destination) : tok_delta * res tok_err tok_undo :=
  on_ok c (
    let? o := tok_get_data P c id in
    let? data := ok_or o TokenDataNotFound in
    if is_frozen data then Err CannotChangeAuthorityForFrozenToken
    else Ok (DataDelta (Some data) (Some (change_authority_data data a)))) (fun d =>
  ret_undo (UndoChangeAuthority id) (tok_merge_data c id d)).

(** cache.rs 312-339 *)
Definition change_metadata_uri (P : tok_view) (c : tok_delta) (id : token_id) (uri : bytes) : tok_delta * res tok_err tok_undo :=
  on_ok c (
    let? o := tok_get_data P c id in
    let? data := ok_or o TokenDataNotFound in
    if is_frozen data then Err CannotChangeMetadataUriForFrozenToken
    else Ok (DataDelta (Some data) (Some (change_uri_data data uri)))) (fun d =>
  ret_undo (UndoChangeUri id) (tok_merge_data c id d)).

(** The part every branch of [undo] shares (cache.rs 344-346 and repeats): the token must exist, then a check on it. *)
Definition undo_check (P : tok_view) (c : tok_delta) (id : token_id) (check : token_data -> res tok_err unit) : res tok_err unit :=
  let? o := tok_get_data P c id in
  let? data := ok_or o TokenDataNotFoundOnReversal in
  check data.

(** cache.rs 341-456 *)
Definition undo_token_op (P : tok_view) (c : tok_delta) (u : tok_undo) : tok_delta * res tok_err unit :=
  match u with
  | UndoIssue id u => on_ok c (undo_check P c id (fun _ => Ok tt)) (fun _ => tok_undo_merge_data c id u)
  | UndoMint id a =>
      on_ok c (undo_check P c id (fun d => if tk_locked d then Err CannotUndoMintForLockedSupplyOnReversal else Ok tt))
        (fun _ => tok_sub_supply c id a)
  | UndoUnmint id a =>
      on_ok c (undo_check P c id (fun d => if tk_locked d then Err CannotUndoUnmintForLockedSupplyOnReversal else Ok tt))
        (fun _ => tok_add_supply c id a)
  | UndoLock id u =>
      on_ok c (undo_check P c id (fun d => if negb (tk_locked d) then Err CannotUnlockNotLockedSupplyOnReversal else Ok tt))
        (fun _ => tok_undo_merge_data c id u)
  | UndoFreeze id u =>
      on_ok c (undo_check P c id (fun d => if negb (is_frozen d) then Err CannotUndoFreezeTokenThatIsNotFrozen else Ok tt))
        (fun _ => tok_undo_merge_data c id u)
  | UndoUnfreeze id u =>
      on_ok c (undo_check P c id (fun d => if is_frozen d then Err CannotUndoUnfreezeTokenThatIsFrozen else Ok tt))
        (fun _ => tok_undo_merge_data c id u)
  | UndoChangeAuthority id u =>
      on_ok c (undo_check P c id (fun d => if is_frozen d then Err CannotUndoChangeAuthorityForFrozenToken else Ok tt))
        (fun _ => tok_undo_merge_data c id u)
  | UndoChangeUri id u =>
      on_ok c (undo_check P c id (fun d => if is_frozen d then Err CannotUndoChangeMetadataUriForFrozenToken else Ok tt))
        (fun _ => tok_undo_merge_data c id u)
  end.

(** The operations of the trait [TokensAccountingOperations] (operations.rs 113-141), as data. *)
Inductive tok_op :=
| IssueToken (id : token_id) (data : token_data)
| MintTokens (id : token_id) (a : amount)
| UnmintTokens (id : token_id) (a : amount)
| LockSupply (id : token_id)
| FreezeToken (id : token_id) (unfreezable : bool)
| UnfreezeToken (id : token_id)
| ChangeAuthority (id : token_id) (a : destination)
| ChangeMetadataUri (id : token_id) (uri : bytes).

Definition tok_run (P : tok_view) (c : tok_delta) (o : tok_op) : tok_delta * res tok_err tok_undo :=
  match o with
  | IssueToken id d => issue_token P c id d
  | MintTokens id a => mint_tokens P c id a
  | UnmintTokens id a => unmint_tokens P c id a
  | LockSupply id => lock_circulating_supply P c id
  | FreezeToken id u => freeze_token P c id u
  | UnfreezeToken id => unfreeze_token P c id
  | ChangeAuthority id a => change_authority P c id a
  | ChangeMetadataUri id uri => change_metadata_uri P c id uri
  end.

(** data.rs 62-75 through cache.rs 80-89: flushing a cache into the cache below it. Returns the undo collections. *)
Definition tok_merge (c d : tok_delta) : tok_delta * res tok_err (gmap token_id (data_delta token_data) * gmap token_id samount) :=
  let (m, r) := merge_delta_data (td_data c) (td_data d) in
  sbind (TokDelta m (td_supply c), rmap_err TokAccounting r) (fun c' u =>
    let (m', r') := merge_delta_amounts (td_supply c') (td_supply d) in
    (TokDelta (td_data c') m', rmap (fun _ => (u, td_supply d)) (rmap_err TokAccounting r'))).

(** The database tables behind [TokensAccountingStorageRead/Write]. *)
Record tok_db := TokDb { tdb_data : gmap token_id token_data; tdb_supply : gmap token_id amount }.

(** storage/db.rs 99-109 *)
Definition tok_db_view (db : tok_db) : tok_view :=
  TokView (fun id => Ok (tdb_data db !! id)) (fun id => Ok (default 0%N (tdb_supply db !! id))).

(** storage/db.rs 42-96, 145-154 (any error becomes [StorageWrite]). *)
Definition tok_db_merge (db : tok_db) (d : tok_delta) : tok_db * res tok_err (gmap token_id (data_delta token_data) * gmap token_id samount) :=
  let (m, r) := db_merge_data (tdb_data db) (td_data d) in
  sbind (TokDb m (tdb_supply db), rmap_err (fun _ => TokStorageWrite) r) (fun db' u =>
    let (m', r') := db_merge_balances (tdb_supply db') (td_supply d) in
    (TokDb (tdb_data db') m', rmap (fun su => (u, su)) (rmap_err (fun _ => TokStorageWrite) r'))).

(** A stack of token caches over a database, as [LayeredModel] describes. *)
Definition tok_exec := exec tok_cache_view tok_db_view tok_delta_new tok_run undo_token_op tok_merge tok_db_merge.
Definition tok_exec_all := exec_all tok_cache_view tok_db_view tok_delta_new tok_run undo_token_op tok_merge tok_db_merge.
Definition tok_machine_view := @machine_view tok_view tok_delta tok_db tok_undo tok_cache_view tok_db_view.
