(** Model of the [utxo] crate: cache entries, the cache, connecting and disconnecting transactions and block rewards,
    flushing into another cache or into the database.
    utxo/src/{utxo,utxo_entry,cache,view,undo}.rs, storage/view_impls.rs.
    Reading the parent never fails here (storage failures are not modelled). [memory_usage] (unused in the code) is dropped. *)
From Verif Require Import Base AmountModel LayeredModel OrdersModel PrimModel ChainModel.
Local Open Scope N_scope.

(** utxo.rs 23-27, 47-51 *)
Inductive utxo_source := InChain (height : N) | InMempool.
Record utxo := Utxo { u_output : tx_output; u_source : utxo_source }.
Global Instance utxo_source_eq : EqDecision utxo_source. Proof. solve_decision. Defined.
Global Instance utxo_eq : EqDecision utxo. Proof. solve_decision. Defined.

(** error.rs (the variants the code below returns; payloads dropped) *)
Inductive utxo_err :=
| OverwritingUtxo | FreshUtxoAlreadyExists | UtxoAlreadySpent | NoUtxoFound
| TxInputAndUndoMismatch | InvalidBlockRewardOutputType | MissingBlockRewardUndo.

(** utxo_entry.rs 57-61; [None] stands for [UtxoStatus::Spent]. *)
Record entry := Entry { e_utxo : option utxo; e_fresh : bool; e_dirty : bool }.
(** utxo_entry.rs 63-86: the constructor with its two assertions *)
Definition entry_new (u : option utxo) (fresh dirty : bool) : res utxo_err entry :=
  if match u with Some _ => negb fresh || dirty | None => xorb fresh dirty end then Ok (Entry u fresh dirty) else Panic.
(** utxo_entry.rs 102-104 *)
Definition e_spent (e : entry) : bool := match e_utxo e with None => true | Some _ => false end.

(** view.rs 24-39 *)
Record utxo_view := UtxoView { vw_utxo : outpoint -> option utxo; vw_best : N }.

(** cache.rs 34-48. [c_best = None] means that the best block is still the one copied from the parent when the cache was
    created (cache.rs 74-82); the parent cannot change while the cache borrows it. *)
Record cache := Cache { c_utxos : gmap outpoint entry; c_best : option N }.
Definition cache_new : cache := Cache ∅ None.
Definition put (c : cache) (k : outpoint) (e : entry) : cache := Cache (<[k := e]> (c_utxos c)) (c_best c).
Definition drop_key (c : cache) (k : outpoint) : cache := Cache (delete k (c_utxos c)) (c_best c).

(** cache.rs 414-438 *)
Definition cache_view (P : utxo_view) (c : cache) : utxo_view :=
  UtxoView (fun k => match c_utxos c !! k with Some e => e_utxo e | None => vw_utxo P k end)
           (default (vw_best P) (c_best c)).

(** cache.rs 54-72 *)
Definition fetch_utxo_entry (P : utxo_view) (c : cache) (k : outpoint) : cache * res utxo_err (option entry) :=
  match c_utxos c !! k with
  | Some e => (c, Ok (Some e))
  | None => match vw_utxo P k with
            | None => (c, Ok None)
            | Some u => on_ok c (entry_new (Some u) false false) (fun e => (put c k e, Ok (Some e)))
            end
  end.

(** cache.rs 284-332 *)
Definition add_utxo (c : cache) (k : outpoint) (u : utxo) (possible_overwrite : bool) : cache * res utxo_err unit :=
  on_ok c (match c_utxos c !! k with
           | None => Ok (negb possible_overwrite)
           | Some cur => if negb possible_overwrite
                         then if negb (e_spent cur) then Err OverwritingUtxo
                              else Ok (negb (e_dirty cur) || e_fresh cur)
                         else Ok (e_fresh cur)
           end) (fun is_fresh =>
  on_ok c (entry_new (Some u) is_fresh true) (fun e => (put c k e, Ok tt))).

(** cache.rs 336-352 *)
Definition spend_utxo (P : utxo_view) (c : cache) (k : outpoint) : cache * res utxo_err utxo :=
  sbind (fetch_utxo_entry P c k) (fun c o =>
  on_ok c (ok_or o NoUtxoFound) (fun e =>
  sbind (if e_fresh e then (drop_key c k, Ok tt)
         else on_ok c (entry_new None false true) (fun e' => (put c k e', Ok tt))) (fun c _ =>
  (c, ok_or (e_utxo e) UtxoAlreadySpent)))).

(** cache.rs 383-394 *)
Definition uncache (c : cache) (k : outpoint) : cache * res utxo_err unit :=
  match c_utxos c !! k with
  | Some e => if negb (e_fresh e) && negb (e_dirty e) then (drop_key c k, Ok tt) else (c, Err NoUtxoFound)
  | None => (c, Err NoUtxoFound)
  end.

(** cache.rs 93-95 *)
Definition set_best_block (c : cache) (b : N) : cache := Cache (c_utxos c) (Some b).

(** cache.rs 505-520 *)
Definition should_include_in_utxo_set (o : tx_output) : bool :=
  match o with
  | OTransfer _ _ | OLockThenTransfer _ _ _ | OCreateStakePool _ _ | OProduceBlockFromStake _ _ | OIssueNft _ _ _
  | OHtlc _ _ => true
  | OCreateDelegationId _ _ | ODelegateStaking _ _ | OBurn _ | OIssueFungibleToken _ | ODataDeposit _ | OCreateOrder _ => false
  end.

(** [iter().enumerate()]; the index is a [u32] in the code, transactions are far smaller. *)
Fixpoint enumerate_from {A} (i : N) (l : list A) : list (N * A) :=
  match l with [] => [] | x :: l' => (i, x) :: enumerate_from (i + 1) l' end.
Definition enumerate {A} (l : list A) : list (N * A) := enumerate_from 0 l.

(** [iter().map(f).collect::<Result<Vec<_>,_>>()] with [f] mutating the state *)
Fixpoint try_map {S X Y E} (f : S -> X -> S * res E Y) (l : list X) (s : S) : S * res E (list Y) :=
  match l with
  | [] => (s, Ok [])
  | x :: l' => sbind (f s x) (fun s y => sbind (try_map f l' s) (fun s ys => (s, Ok (y :: ys))))
  end.

Definition has_utxo (P : utxo_view) (c : cache) (k : outpoint) : bool :=
  match vw_utxo (cache_view P c) k with Some _ => true | None => false end.

(** cache.rs 98-118 *)
Definition add_utxos_from_block_reward (P : utxo_view) (c : cache) (outs : list tx_output) (src : utxo_source)
  (block : N) (check_for_overwrite : bool) : cache * res utxo_err unit :=
  try_fold (fun c io =>
    let k := (FromReward block, io.1) in
    add_utxo c k (Utxo io.2 src) (if check_for_overwrite then has_utxo P c k else true)) (enumerate outs) c.

(** cache.rs 121-143 *)
Definition add_utxos_from_tx (P : utxo_view) (c : cache) (tx : transaction) (src : utxo_source)
  (check_for_overwrite : bool) : cache * res utxo_err unit :=
  try_fold (fun c io =>
    let k := (FromTx (tx_id tx), io.1) in
    add_utxo c k (Utxo io.2 src) (check_for_overwrite && has_utxo P c k))
    (filter (fun io => Is_true (should_include_in_utxo_set io.2)) (enumerate (tx_outputs tx))) c.

(** cache.rs 147-177: returns the spent outputs, one per input, and the sources of the spent outputs *)
Definition connect_transaction (P : utxo_view) (c : cache) (tx : transaction) (src : utxo_source)
  : cache * res utxo_err (list (option utxo) * list source_id) :=
  let sources := omap (fun i => match i with InUtxo k => Some k.1 | _ => None end) (tx_inputs tx) in
  sbind (try_map (fun c i => match i with
                             | InUtxo k => let (c, r) := spend_utxo P c k in (c, rmap Some r)
                             | _ => (c, Ok None)
                             end) (tx_inputs tx) c) (fun c utxos =>
  sbind (add_utxos_from_tx P c tx src false) (fun c _ => (c, Ok (utxos, sources)))).

(** cache.rs 180-212 *)
Definition disconnect_transaction (P : utxo_view) (c : cache) (tx : transaction) (undo : list (option utxo))
  : cache * res utxo_err unit :=
  sbind (try_fold (fun c io => if should_include_in_utxo_set io.2
                               then let (c, r) := spend_utxo P c (FromTx (tx_id tx), io.1) in (c, rmap (fun _ => tt) r)
                               else (c, Ok tt)) (enumerate (tx_outputs tx)) c) (fun c _ =>
  if negb (length (tx_inputs tx) =? length undo)%nat then (c, Panic)
  else try_fold (fun c iu => match iu with
                             | (_, None) => (c, Ok tt)
                             | (InUtxo k, Some u) => add_utxo c k u false
                             | (_, Some _) => (c, Err TxInputAndUndoMismatch)
                             end) (zip (tx_inputs tx) undo) c).

(** common/src/chain/block/block_reward.rs: [BlockRewardTransactable] (witness dropped) *)
Record reward_tx := RewardTx { rt_inputs : option (list tx_input); rt_outputs : option (list tx_output) }.

(** cache.rs 217-251 *)
Definition connect_block_transactable (P : utxo_view) (c : cache) (rt : reward_tx) (block height : N)
  : cache * res utxo_err (option (list utxo)) :=
  sbind (match rt_inputs rt with
         | Some ins => sbind (try_map (spend_utxo P) (omap (fun i => match i with InUtxo k => Some k | _ => None end) ins) c)
                             (fun c us => (c, Ok (match us with [] => None | _ => Some us end)))
         | None => (c, Ok None)
         end) (fun c undo =>
  sbind (match rt_outputs rt with
         | Some outs => try_fold (fun c io => if negb (should_include_in_utxo_set io.2) then (c, Err InvalidBlockRewardOutputType)
                                              else add_utxo c (FromReward block, io.1) (Utxo io.2 (InChain height)) false)
                                 (enumerate outs) c
         | None => (c, Ok tt)
         end) (fun c _ => (c, Ok undo))).

(** cache.rs 254-281 *)
Definition disconnect_block_transactable (P : utxo_view) (c : cache) (rt : reward_tx) (block : N)
  (undo : option (list utxo)) : cache * res utxo_err unit :=
  sbind (match rt_outputs rt with
         | Some outs => try_fold (fun c io => let (c, r) := spend_utxo P c (FromReward block, io.1) in (c, rmap (fun _ => tt) r))
                                 (enumerate outs) c
         | None => (c, Ok tt)
         end) (fun c _ =>
  match rt_inputs rt with
  | Some ins => on_ok c (ok_or undo MissingBlockRewardUndo) (fun us =>
      try_fold (fun c iu => match iu with (InUtxo k, u) => add_utxo c k u false | _ => (c, Ok tt) end) (zip ins us) c)
  | None => (c, Ok tt)
  end).

(** cache.rs 443-501, one entry of the child cache *)
Definition write_entry (c : cache) (ke : outpoint * entry) : cache * res utxo_err unit :=
  let (k, e) := ke in
  if e_dirty e then
    match c_utxos c !! k with
    | None => if negb (e_fresh e && e_spent e)
              then on_ok c (entry_new (e_utxo e) (e_fresh e) true) (fun e' => (put c k e', Ok tt))
              else (c, Ok tt)
    | Some pe => if e_fresh e && negb (e_spent pe) then (c, Err FreshUtxoAlreadyExists)
                 else if e_fresh pe && e_spent e then (drop_key c k, Ok tt)
                 else on_ok c (entry_new (e_utxo e) (e_fresh pe) true) (fun e' => (put c k e', Ok tt))
    end
  else (c, Ok tt).
(** cache.rs 443-501, view.rs 51-57 *)
Definition batch_write (c child : cache) : cache * res utxo_err unit :=
  sbind (try_fold write_entry (map_to_list (c_utxos child)) c) (fun c _ =>
  (match c_best child with Some b => set_best_block c b | None => c end, Ok tt)).

(** storage: the utxo table and the best block. storage/in_memory.rs, chainstate storage (same interface) *)
Record utxo_db := UtxoDb { udb_map : gmap outpoint utxo; udb_best : N }.
(** storage/view_impls.rs 23-41 *)
Definition db_view (db : utxo_db) : utxo_view := UtxoView (fun k => udb_map db !! k) (udb_best db).
(** storage/view_impls.rs 46-63 *)
Definition db_batch_write (db : utxo_db) (child : cache) : utxo_db * res utxo_err unit :=
  sbind (try_fold (fun db ke => let '(k, e) := ke in
                     if e_dirty e then
                       match e_utxo e with
                       | Some u => (UtxoDb (<[k := u]> (udb_map db)) (udb_best db), Ok tt)
                       | None => (UtxoDb (delete k (udb_map db)) (udb_best db), Ok tt)
                       end
                     else (db, Ok tt)) (map_to_list (c_utxos child)) db) (fun db _ =>
  (UtxoDb (udb_map db) (default (udb_best db) (c_best child)), Ok tt)).

(** *** The operations of the cache as seen by its users, for [LayeredModel] *)
Inductive utxo_op :=
| OpAdd (k : outpoint) (u : utxo) (possible_overwrite : bool)
| OpSpend (k : outpoint)
| OpUncache (k : outpoint)
| OpSetBest (b : N)
| OpConnectTx (tx : transaction) (src : utxo_source)
| OpConnectReward (rt : reward_tx) (block height : N)
| OpAddTxOutputs (tx : transaction) (src : utxo_source) (check_for_overwrite : bool)
| OpAddRewardOutputs (outs : list tx_output) (src : utxo_source) (block : N) (check_for_overwrite : bool).

(** What is needed to take an operation back: for transactions and rewards what the code returns; for the others the
    caller remembers what was there. *)
Inductive utxo_undo :=
| UnTx (tx : transaction) (undo : list (option utxo))
| UnReward (rt : reward_tx) (block : N) (undo : option (list utxo))
| UnRestore (l : list (outpoint * option utxo))
| UnBest (b : N).

(** Whether an absent output was never there or is marked as spent in this very cache is not something a plain table can
    tell: both errors count as [NotThere]. *)
Inductive refusal := NotThere | Other (e : utxo_err).
Definition coarse (e : utxo_err) : refusal :=
  match e with NoUtxoFound | UtxoAlreadySpent => NotThere | e => Other e end.

(** After a failed composite operation the callers drop the cache they were working on
    (chainstateref/mod.rs connect_transactions, mempool); the model restores the cache from before. *)
Definition or_restore {A} (c : cache) (m : cache * res utxo_err A) : cache * res utxo_err A :=
  match m with (_, Err e) => (c, Err e) | m => m end.
Definition lift {A B} (f : A -> B) (m : cache * res utxo_err A) : cache * res refusal B :=
  let (c, r) := m in (c, rmap f (rmap_err coarse r)).

Definition run_op (P : utxo_view) (c : cache) (o : utxo_op) : cache * res refusal utxo_undo :=
  let old k := (k, vw_utxo (cache_view P c) k) in
  match o with
  | OpAdd k u ow => lift (fun _ => UnRestore [old k]) (add_utxo c k u ow)
  | OpSpend k => lift (fun u => UnRestore [(k, Some u)]) (spend_utxo P c k)
  | OpUncache k => ((uncache c k).1, Ok (UnRestore []))
  | OpSetBest b => (set_best_block c b, Ok (UnBest (vw_best (cache_view P c))))
  | OpConnectTx tx src => lift (fun us => UnTx tx us.1) (or_restore c (connect_transaction P c tx src))
  | OpConnectReward rt b h => lift (fun us => UnReward rt b us) (or_restore c (connect_block_transactable P c rt b h))
  | OpAddTxOutputs tx src chk =>
      lift (fun _ => UnRestore (map (fun io => old (FromTx (tx_id tx), io.1))
                 (filter (fun io => Is_true (should_include_in_utxo_set io.2)) (enumerate (tx_outputs tx)))))
           (or_restore c (add_utxos_from_tx P c tx src chk))
  | OpAddRewardOutputs outs src b chk =>
      lift (fun _ => UnRestore (map (fun io => old (FromReward b, io.1)) (enumerate outs)))
           (or_restore c (add_utxos_from_block_reward P c outs src b chk))
  end.

Definition run_undo (P : utxo_view) (c : cache) (u : utxo_undo) : cache * res refusal unit :=
  match u with
  | UnTx tx us => lift id (disconnect_transaction P c tx us)
  | UnReward rt b us => lift id (disconnect_block_transactable P c rt b us)
  | UnRestore l => lift id (try_fold (fun c ko => match ko with
                                       | (k, Some u) => add_utxo c k u true
                                       | (k, None) => let (c, r) := spend_utxo P c k in (c, rmap (fun _ => tt) r)
                                       end) l c)
  | UnBest b => (set_best_block c b, Ok tt)
  end.

Definition utxo_merge (c child : cache) : cache * res refusal unit := lift id (batch_write c child).
Definition utxo_db_merge (db : utxo_db) (child : cache) : utxo_db * res refusal unit :=
  let (db, r) := db_batch_write db child in (db, rmap_err coarse r).

Definition utxo_exec := exec cache_view db_view cache_new run_op run_undo utxo_merge utxo_db_merge.
Definition utxo_exec_all := exec_all cache_view db_view cache_new run_op run_undo utxo_merge utxo_db_merge.
Definition utxo_machine_view := machine_view (Undo := utxo_undo) cache_view db_view.
