(** Model of the [pos-accounting] crate: staking pools, delegations, the delta and its operations, flushing and the
    database. pos-accounting/src/pool/{pool_data,delegation,operations,view}.rs, pool/delta/*.rs, pool/storage/*.rs,
    error.rs. Ids, keys and destinations are numbers; error payloads and logging are dropped. *)
From Verif Require Import Base AmountModel DeltaModel DeltaDbModel LayeredModel.

Notation pool_id := N (only parsing).
Notation delegation_id := N (only parsing).

(** pool_data.rs 25-33 *)
Record pool_data := PoolData {
  pd_dest : N; pd_pledge : amount; pd_rewards : amount; pd_vrf : N; pd_margin : N; pd_cost : amount }.
(** delegation.rs 20-24 *)
Record deleg_data := DelegData { dd_dest : N; dd_pool : pool_id }.
Global Instance pool_data_eq : EqDecision pool_data. Proof. solve_decision. Defined.
Global Instance deleg_data_eq : EqDecision deleg_data. Proof. solve_decision. Defined.

(** error.rs 18-105 (the variants the code below returns) *)
Inductive pos_err :=
| PosAccounting (e : acc_err) | PosToUnsignedFailed | PosSumToSignedFailed
| PoolBalanceAlreadyExists | PoolDataAlreadyExists | DecommissionNonexistingPool
| DelegationPoolDoesNotExist | DelegationIdAlreadyExists
| DelegationIdDoesNotExist | DelegationBalanceNonZero | DelegationShareNonZero | DelegationPoolStillExists
| DelegateToNonexistingId | SpendingShareOfNonexistingDelegation
| CreationUndoDataNotFound | CreationUndoAmountChanged | DecommissionUndoBalanceExists | DecommissionUndoDataExists
| DelegationIdUndoNotFound | DelegationUndoDataNotFound
| IncreaseRewardsOfNonexistingPool | StakerBalanceOverflow | PosViewFail.

(** pool_data.rs 66-68 *)
Definition staker_balance (d : pool_data) : res pos_err amount :=
  ok_or (amount_add (pd_pledge d) (pd_rewards d)) StakerBalanceOverflow.
(** pool_data.rs 88-91 *)
Definition increase_rewards (d : pool_data) (a : amount) : res pos_err pool_data :=
  let? r := ok_or (amount_add (pd_rewards d) a) StakerBalanceOverflow in
  Ok (PoolData (pd_dest d) (pd_pledge d) r (pd_vrf d) (pd_margin d) (pd_cost d)).

(** view.rs 27-53 *)
Record pos_view := PosView {
  pv_pool : pool_id -> res pos_err (option pool_data);
  pv_pool_balance : pool_id -> res pos_err amount;
  pv_shares : pool_id -> res pos_err (option (gmap delegation_id amount));
  pv_deleg : delegation_id -> res pos_err (option deleg_data);
  pv_deleg_balance : delegation_id -> res pos_err amount;
  pv_share : pool_id -> delegation_id -> res pos_err amount }.

(** delta/data.rs 26-33 *)
Record pos_delta := PosDelta {
  psd_pool : gmap pool_id (data_delta pool_data);
  psd_pool_balance : gmap pool_id samount;
  psd_share : gmap (pool_id * delegation_id) samount;
  psd_deleg_balance : gmap delegation_id samount;
  psd_deleg : gmap delegation_id (data_delta deleg_data) }.
Definition pos_delta_new : pos_delta := PosDelta ∅ ∅ ∅ ∅ ∅.

(** delta/mod.rs 82-95, storage/in_memory.rs 147-160: the range of keys starting with the pool; none if empty.
    [gmap_curry] holds exactly the non-empty ranges. *)
Definition shares_range {A} (m : gmap (pool_id * delegation_id) A) (p : pool_id) : option (gmap delegation_id A) :=
  gmap_curry m !! p.

(** delta/view_impl.rs 37-42 and its use at 103-107 *)
Definition shares_to_unsigned (m : gmap delegation_id samount) : res pos_err (gmap delegation_id amount) :=
  match try_fold (fun acc kz => match into_unsigned kz.2 with
                                | Some a => (<[kz.1 := a]> acc, Ok tt)
                                | None => (acc, Err PosToUnsignedFailed)
                                end) (map_to_list m) ∅ with
  | (r, Ok _) => Ok r
  | (_, Err e) => Err e
  | (_, Panic) => Panic
  end.
(** delta/view_impl.rs 44-65 *)
Definition sum_maps (m1 : gmap delegation_id amount) (m2 : gmap delegation_id samount) : res pos_err (gmap delegation_id amount) :=
  match try_fold (fun acc kz =>
      match (let? b := ok_or (into_signed (default 0%N (acc !! kz.1))) PosToUnsignedFailed in
             let? s := ok_or (samount_add b kz.2) PosSumToSignedFailed in
             ok_or (into_unsigned s) PosToUnsignedFailed) with
      | Ok a => (<[kz.1 := a]> acc, Ok tt)
      | Err e => (acc, Err e)
      | Panic => (acc, Panic)
      end) (map_to_list m2) m1 with
  | (r, Ok _) => Ok r
  | (_, Err e) => Err e
  | (_, Panic) => Panic
  end.

Definition pos_fail {A} (r : res pos_err A) : res pos_err A := rmap_err (fun _ => PosViewFail) r.

(** delta/view_impl.rs 81-89 *)
Definition pos_get_pool (P : pos_view) (c : pos_delta) (p : pool_id) : res pos_err (option pool_data) :=
  match get_data (psd_pool c) p with
  | Present d => Ok (Some d)
  | Deleted => Ok None
  | Missing => pos_fail (pv_pool P p)
  end.
(** delta/view_impl.rs 70-72 *)
Definition pos_pool_exists (P : pos_view) (c : pos_delta) (p : pool_id) : res pos_err bool :=
  rmap (fun o => match o with Some _ => true | None => false end) (pos_get_pool P c p).
(** delta/view_impl.rs 74-79 *)
Definition pos_get_pool_balance (P : pos_view) (c : pos_delta) (p : pool_id) : res pos_err amount :=
  let? parent := pos_fail (pv_pool_balance P p) in
  rmap_err PosAccounting (combine_amount_delta parent (psd_pool_balance c !! p)).
(** delta/view_impl.rs 91-112 *)
Definition pos_get_shares (P : pos_view) (c : pos_delta) (p : pool_id) : res pos_err (option (gmap delegation_id amount)) :=
  let? parent := pos_fail (pv_shares P p) in
  match parent, shares_range (psd_share c) p with
  | None, None => Ok None
  | None, Some m => rmap Some (shares_to_unsigned m)
  | Some m, None => Ok (Some m)
  | Some m1, Some m2 => rmap Some (sum_maps m1 m2)
  end.
(** delta/view_impl.rs 124-137 *)
Definition pos_get_deleg (P : pos_view) (c : pos_delta) (d : delegation_id) : res pos_err (option deleg_data) :=
  match get_data (psd_deleg c) d with
  | Present x => Ok (Some x)
  | Deleted => Ok None
  | Missing => pos_fail (pv_deleg P d)
  end.
(** delta/view_impl.rs 114-122 *)
Definition pos_get_deleg_balance (P : pos_view) (c : pos_delta) (d : delegation_id) : res pos_err amount :=
  let? parent := pos_fail (pv_deleg_balance P d) in
  rmap_err PosAccounting (combine_amount_delta parent (psd_deleg_balance c !! d)).
(** delta/view_impl.rs 139-152 *)
Definition pos_get_share (P : pos_view) (c : pos_delta) (p : pool_id) (d : delegation_id) : res pos_err amount :=
  let? parent := pos_fail (pv_share P p d) in
  rmap_err PosAccounting (combine_amount_delta parent (psd_share c !! (p, d))).

Definition pos_cache_view (P : pos_view) (c : pos_delta) : pos_view :=
  PosView (pos_get_pool P c) (pos_get_pool_balance P c) (pos_get_shares P c)
          (pos_get_deleg P c) (pos_get_deleg_balance P c) (pos_get_share P c).

(** Updates of one table of the delta (delta/mod.rs 108-181 and the direct uses in operator_impls.rs). *)
Definition pos_merge_pool (c : pos_delta) (p : pool_id) (d : data_delta pool_data) : pos_delta * res pos_err (data_delta pool_data) :=
  let (m, r) := merge_delta_data_element (psd_pool c) p d in
  (PosDelta m (psd_pool_balance c) (psd_share c) (psd_deleg_balance c) (psd_deleg c), rmap_err PosAccounting r).
Definition pos_undo_merge_pool (c : pos_delta) (p : pool_id) (d : data_delta pool_data) : pos_delta * res pos_err unit :=
  let (m, r) := undo_merge_delta_data_element (psd_pool c) p d in
  (PosDelta m (psd_pool_balance c) (psd_share c) (psd_deleg_balance c) (psd_deleg c), rmap_err PosAccounting r).
Definition pos_merge_deleg (c : pos_delta) (p : delegation_id) (d : data_delta deleg_data) : pos_delta * res pos_err (data_delta deleg_data) :=
  let (m, r) := merge_delta_data_element (psd_deleg c) p d in
  (PosDelta (psd_pool c) (psd_pool_balance c) (psd_share c) (psd_deleg_balance c) m, rmap_err PosAccounting r).
Definition pos_undo_merge_deleg (c : pos_delta) (p : delegation_id) (d : data_delta deleg_data) : pos_delta * res pos_err unit :=
  let (m, r) := undo_merge_delta_data_element (psd_deleg c) p d in
  (PosDelta (psd_pool c) (psd_pool_balance c) (psd_share c) (psd_deleg_balance c) m, rmap_err PosAccounting r).
(** delta/mod.rs 132-149 *)
Definition pos_add_pool_balance (c : pos_delta) (p : pool_id) (a : amount) : pos_delta * res pos_err unit :=
  let (m, r) := add_unsigned (psd_pool_balance c) p a in
  (PosDelta (psd_pool c) m (psd_share c) (psd_deleg_balance c) (psd_deleg c), rmap_err PosAccounting r).
Definition pos_sub_pool_balance (c : pos_delta) (p : pool_id) (a : amount) : pos_delta * res pos_err unit :=
  let (m, r) := sub_unsigned (psd_pool_balance c) p a in
  (PosDelta (psd_pool c) m (psd_share c) (psd_deleg_balance c) (psd_deleg c), rmap_err PosAccounting r).
(** delta/mod.rs 108-130 *)
Definition pos_add_deleg_balance (c : pos_delta) (d : delegation_id) (a : amount) : pos_delta * res pos_err unit :=
  let (m, r) := add_unsigned (psd_deleg_balance c) d a in
  (PosDelta (psd_pool c) (psd_pool_balance c) (psd_share c) m (psd_deleg c), rmap_err PosAccounting r).
Definition pos_sub_deleg_balance (c : pos_delta) (d : delegation_id) (a : amount) : pos_delta * res pos_err unit :=
  let (m, r) := sub_unsigned (psd_deleg_balance c) d a in
  (PosDelta (psd_pool c) (psd_pool_balance c) (psd_share c) m (psd_deleg c), rmap_err PosAccounting r).
(** delta/mod.rs 151-181 *)
Definition pos_add_share (c : pos_delta) (p : pool_id) (d : delegation_id) (a : amount) : pos_delta * res pos_err unit :=
  let (m, r) := add_unsigned (psd_share c) (p, d) a in
  (PosDelta (psd_pool c) (psd_pool_balance c) m (psd_deleg_balance c) (psd_deleg c), rmap_err PosAccounting r).
Definition pos_sub_share (c : pos_delta) (p : pool_id) (d : delegation_id) (a : amount) : pos_delta * res pos_err unit :=
  let (m, r) := sub_unsigned (psd_share c) (p, d) a in
  (PosDelta (psd_pool c) (psd_pool_balance c) m (psd_deleg_balance c) (psd_deleg c), rmap_err PosAccounting r).

(** operations.rs 26-89 *)
Inductive pos_undo :=
| PUndoCreatePool (p : pool_id) (pledge : amount) (u : data_delta pool_data)
| PUndoDecommission (p : pool_id) (balance : amount) (u : data_delta pool_data)
| PUndoCreateDeleg (d : delegation_id) (u : data_delta deleg_data)
| PUndoDeleteDeleg (d : delegation_id) (u : data_delta deleg_data)
| PUndoDelegate (d : delegation_id) (a : amount)
| PUndoSpend (d : delegation_id) (a : amount)
| PUndoRewards (p : pool_id) (a : amount) (u : data_delta pool_data).

Definition absent {A} (o : option A) : bool := match o with None => true | Some _ => false end.

(** operator_impls.rs 40-69 *)
Definition create_pool (P : pos_view) (c : pos_delta) (p : pool_id) (data : pool_data) : pos_delta * res pos_err pos_undo :=
  on_ok c (
    let? o := pos_get_pool P c p in
    ensure (absent o) PoolDataAlreadyExists ;?
    let? b := pos_fail (pos_get_pool_balance P c p) in
    ensure (negb (0 <? b)%N) PoolBalanceAlreadyExists) (fun _ =>
  sbind (pos_add_pool_balance c p (pd_pledge data)) (fun c _ =>
  sbind (pos_merge_pool c p (DataDelta None (Some data))) (fun c u =>
  (c, Ok (PUndoCreatePool p (pd_pledge data) u))))).
(** operator_impls.rs 71-89 *)
Definition decommission_pool (P : pos_view) (c : pos_delta) (p : pool_id) : pos_delta * res pos_err pos_undo :=
  on_ok c (
    let? o := pos_get_pool P c p in
    let? last := ok_or o DecommissionNonexistingPool in
    let? b := pos_get_pool_balance P c p in
    Ok (last, b)) (fun '(last, b) =>
  sbind (pos_sub_pool_balance c p b) (fun c _ =>
  sbind (pos_merge_pool c p (DataDelta (Some last) None)) (fun c u =>
  (c, Ok (PUndoDecommission p b u))))).
(** operator_impls.rs 91-115 *)
Definition increase_staker_rewards (P : pos_view) (c : pos_delta) (p : pool_id) (a : amount) : pos_delta * res pos_err pos_undo :=
  on_ok c (
    let? o := pos_get_pool P c p in
    ok_or o IncreaseRewardsOfNonexistingPool) (fun data =>
  sbind (pos_add_pool_balance c p a) (fun c _ =>
  on_ok c (increase_rewards data a) (fun new =>
  sbind (pos_merge_pool c p (DataDelta (Some data) (Some new))) (fun c u =>
  (c, Ok (PUndoRewards p a u)))))).
(** operator_impls.rs 117-145 *)
Definition create_delegation_id (P : pos_view) (c : pos_delta) (p : pool_id) (d : delegation_id) (key : N) : pos_delta * res pos_err pos_undo :=
  on_ok c (
    let? ex := pos_pool_exists P c p in
    ensure ex DelegationPoolDoesNotExist ;?
    let? o := pos_get_deleg P c d in
    ensure (absent o) DelegationIdAlreadyExists) (fun _ =>
  sbind (pos_merge_deleg c d (DataDelta None (Some (DelegData key p)))) (fun c u =>
  (c, Ok (PUndoCreateDeleg d u)))).
(** operator_impls.rs 147-180 *)
Definition delete_delegation_id (P : pos_view) (c : pos_delta) (d : delegation_id) : pos_delta * res pos_err pos_undo :=
  on_ok c (
    let? o := pos_get_deleg P c d in
    let? data := ok_or o DelegationIdDoesNotExist in
    let? b := pos_get_deleg_balance P c d in
    ensure (negb (0 <? b)%N) DelegationBalanceNonZero ;?
    let? s := pos_get_share P c (dd_pool data) d in
    ensure (negb (0 <? s)%N) DelegationShareNonZero ;?
    let? ex := pos_pool_exists P c (dd_pool data) in
    ensure (negb ex) DelegationPoolStillExists ;?
    Ok data) (fun data =>
  sbind (pos_merge_deleg c d (DataDelta (Some data) None)) (fun c u =>
  (c, Ok (PUndoDeleteDeleg d u)))).
(** operator_impls.rs 182-202 *)
Definition delegate_staking (P : pos_view) (c : pos_delta) (d : delegation_id) (a : amount) : pos_delta * res pos_err pos_undo :=
  on_ok c (
    let? o := pos_get_deleg P c d in
    ok_or o DelegateToNonexistingId) (fun data =>
  sbind (pos_add_deleg_balance c d a) (fun c _ =>
  sbind (pos_add_pool_balance c (dd_pool data) a) (fun c _ =>
  sbind (pos_add_share c (dd_pool data) d a) (fun c _ =>
  (c, Ok (PUndoDelegate d a)))))).
(** operator_impls.rs 204-227 *)
Definition spend_share (P : pos_view) (c : pos_delta) (d : delegation_id) (a : amount) : pos_delta * res pos_err pos_undo :=
  on_ok c (
    let? o := pos_get_deleg P c d in
    ok_or o SpendingShareOfNonexistingDelegation) (fun data =>
  sbind (pos_sub_share c (dd_pool data) d a) (fun c _ =>
  on_ok c (pos_pool_exists P c (dd_pool data)) (fun ex =>
  sbind (if ex then pos_sub_pool_balance c (dd_pool data) a else (c, Ok tt)) (fun c _ =>
  sbind (pos_sub_deleg_balance c d a) (fun c _ =>
  (c, Ok (PUndoSpend d a))))))).

(** operator_impls.rs 229-361 *)
Definition undo_pos_op (P : pos_view) (c : pos_delta) (u : pos_undo) : pos_delta * res pos_err unit :=
  match u with
  | PUndoCreatePool p pledge u =>
      on_ok c (let? b := pos_get_pool_balance P c p in ensure (b =? pledge)%N CreationUndoAmountChanged) (fun _ =>
      sbind (pos_sub_pool_balance c p pledge) (fun c _ =>
      on_ok c (let? o := pos_get_pool P c p in ok_or o CreationUndoDataNotFound) (fun _ =>
      pos_undo_merge_pool c p u)))
  | PUndoDecommission p balance u =>
      on_ok c (let? o := pos_get_pool P c p in
               ensure (absent o) DecommissionUndoDataExists ;?
               let? b := pos_get_pool_balance P c p in
               ensure (negb (0 <? b)%N) DecommissionUndoBalanceExists) (fun _ =>
      sbind (pos_add_pool_balance c p balance) (fun c _ =>
      pos_undo_merge_pool c p u))
  | PUndoCreateDeleg d u =>
      on_ok c (let? o := pos_get_deleg P c d in ok_or o DelegationIdUndoNotFound) (fun _ =>
      pos_undo_merge_deleg c d u)
  | PUndoDeleteDeleg d u =>
      on_ok c (let? b := pos_get_deleg_balance P c d in ensure (negb (0 <? b)%N) DelegationBalanceNonZero) (fun _ =>
      pos_undo_merge_deleg c d u)
  | PUndoDelegate d a =>
      on_ok c (let? o := pos_get_deleg P c d in ok_or o DelegationUndoDataNotFound) (fun data =>
      sbind (pos_sub_share c (dd_pool data) d a) (fun c _ =>
      sbind (pos_sub_pool_balance c (dd_pool data) a) (fun c _ =>
      pos_sub_deleg_balance c d a)))
  | PUndoSpend d a =>
      on_ok c (let? o := pos_get_deleg P c d in ok_or o DelegationPoolDoesNotExist) (fun data =>
      sbind (pos_add_deleg_balance c d a) (fun c _ =>
      on_ok c (pos_pool_exists P c (dd_pool data)) (fun ex =>
      sbind (if ex then pos_add_pool_balance c (dd_pool data) a else (c, Ok tt)) (fun c _ =>
      pos_add_share c (dd_pool data) d a))))
  | PUndoRewards p a u =>
      sbind (pos_undo_merge_pool c p u) (fun c _ => pos_sub_pool_balance c p a)
  end.

(** The trait [PoSAccountingOperations] (operations.rs 93-126), as data. *)
Inductive pos_op :=
| CreatePool (p : pool_id) (data : pool_data)
| DecommissionPool (p : pool_id)
| IncreaseRewards (p : pool_id) (a : amount)
| CreateDelegation (p : pool_id) (d : delegation_id) (key : N)
| DeleteDelegation (d : delegation_id)
| Delegate (d : delegation_id) (a : amount)
| SpendShare (d : delegation_id) (a : amount).

Definition pos_run (P : pos_view) (c : pos_delta) (o : pos_op) : pos_delta * res pos_err pos_undo :=
  match o with
  | CreatePool p data => create_pool P c p data
  | DecommissionPool p => decommission_pool P c p
  | IncreaseRewards p a => increase_staker_rewards P c p a
  | CreateDelegation p d key => create_delegation_id P c p d key
  | DeleteDelegation d => delete_delegation_id P c d
  | Delegate d a => delegate_staking P c d a
  | SpendShare d a => spend_share P c d a
  end.

(** delta/data.rs 46-69; the returned [DeltaMergeUndo] keeps the two data undo collections (its balance parts are copies
    of the merged delta). *)
Definition pos_merge (c d : pos_delta)
  : pos_delta * res pos_err (gmap pool_id (data_delta pool_data) * gmap delegation_id (data_delta deleg_data)) :=
  let (m, r) := merge_delta_amounts (psd_pool_balance c) (psd_pool_balance d) in
  sbind (PosDelta (psd_pool c) m (psd_share c) (psd_deleg_balance c) (psd_deleg c), rmap_err PosAccounting r) (fun c _ =>
  let (m, r) := merge_delta_amounts (psd_share c) (psd_share d) in
  sbind (PosDelta (psd_pool c) (psd_pool_balance c) m (psd_deleg_balance c) (psd_deleg c), rmap_err PosAccounting r) (fun c _ =>
  let (m, r) := merge_delta_amounts (psd_deleg_balance c) (psd_deleg_balance d) in
  sbind (PosDelta (psd_pool c) (psd_pool_balance c) (psd_share c) m (psd_deleg c), rmap_err PosAccounting r) (fun c _ =>
  let (m, r) := merge_delta_data (psd_pool c) (psd_pool d) in
  sbind (PosDelta m (psd_pool_balance c) (psd_share c) (psd_deleg_balance c) (psd_deleg c), rmap_err PosAccounting r) (fun c u1 =>
  let (m, r) := merge_delta_data (psd_deleg c) (psd_deleg d) in
  (PosDelta (psd_pool c) (psd_pool_balance c) (psd_share c) (psd_deleg_balance c) m,
   rmap (fun u2 => (u1, u2)) (rmap_err PosAccounting r)))))).

(** The tables behind [PoSAccountingStorageRead/Write]. *)
Record pos_db := PosDb {
  pdb_pool : gmap pool_id pool_data;
  pdb_pool_balance : gmap pool_id amount;
  pdb_share : gmap (pool_id * delegation_id) amount;
  pdb_deleg_balance : gmap delegation_id amount;
  pdb_deleg : gmap delegation_id deleg_data }.

(** storage/view_impls.rs 34-78 over storage/in_memory.rs 142-188; the share listing of the chainstate storage is the same
    function of the table (chainstate/storage/src/internal/store_tx/read_impls.rs 308-315). *)
Definition pos_db_view (db : pos_db) : pos_view :=
  PosView (fun p => Ok (pdb_pool db !! p)) (fun p => Ok (default 0%N (pdb_pool_balance db !! p)))
          (fun p => Ok (shares_range (pdb_share db) p))
          (fun d => Ok (pdb_deleg db !! d)) (fun d => Ok (default 0%N (pdb_deleg_balance db !! d)))
          (fun p d => Ok (default 0%N (pdb_share db !! (p, d)))).

(** storage/mod.rs 49-97 *)
Definition pos_db_merge (db : pos_db) (d : pos_delta) : pos_db * res pos_err unit :=
  let (m, r) := db_merge_data (pdb_pool db) (psd_pool d) in
  sbind (PosDb m (pdb_pool_balance db) (pdb_share db) (pdb_deleg_balance db) (pdb_deleg db), rmap_err PosAccounting r) (fun db _ =>
  let (m, r) := db_merge_data (pdb_deleg db) (psd_deleg d) in
  sbind (PosDb (pdb_pool db) (pdb_pool_balance db) (pdb_share db) (pdb_deleg_balance db) m, rmap_err PosAccounting r) (fun db _ =>
  let (m, r) := db_merge_balances (pdb_pool_balance db) (psd_pool_balance d) in
  sbind (PosDb (pdb_pool db) m (pdb_share db) (pdb_deleg_balance db) (pdb_deleg db), rmap_err PosAccounting r) (fun db _ =>
  let (m, r) := db_merge_balances (pdb_deleg_balance db) (psd_deleg_balance d) in
  sbind (PosDb (pdb_pool db) (pdb_pool_balance db) (pdb_share db) m (pdb_deleg db), rmap_err PosAccounting r) (fun db _ =>
  let (m, r) := db_merge_balances (pdb_share db) (psd_share d) in
  (PosDb (pdb_pool db) (pdb_pool_balance db) m (pdb_deleg_balance db) (pdb_deleg db),
   rmap (fun _ => tt) (rmap_err PosAccounting r)))))).

(** A stack of staking deltas over a database, as [LayeredModel] describes. *)
Definition pos_exec := exec pos_cache_view pos_db_view pos_delta_new pos_run undo_pos_op pos_merge pos_db_merge.
Definition pos_exec_all := exec_all pos_cache_view pos_db_view pos_delta_new pos_run undo_pos_op pos_merge pos_db_merge.
Definition pos_machine_view := @machine_view pos_view pos_delta pos_db pos_undo pos_cache_view pos_db_view.
