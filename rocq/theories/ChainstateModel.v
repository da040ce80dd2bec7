(** Model of block processing, reorganisation, invalidation and reset of failure flags.
    chainstate/src/detail/{mod.rs, chainstateref/mod.rs, block_invalidation/mod.rs, error_classification.rs,
    chainstateref/consistency_checker.rs}, common/src/chain/config/checkpoints.rs.
    The database is the block tree, the stored blocks and the ledger tables. The contents of the ledger tables, and what
    connecting, disconnecting and checking the contents of a block do to them, are parameters: every theorem holds for all
    of them. A block is reduced to its id, parent, timestamp, number of transactions and proof ([new_block]); the rest of
    it is determined by its id. Storage errors are not modelled: a database transaction either commits, when its body
    returns without error, or leaves everything unchanged. A crash can happen between the commits of an API call. *)
From Verif Require Import Base StatusModel StatusSpec BlockTreeModel.
Local Open Scope N_scope.

(** chainstate/types/src/error.rs / error_classification.rs 24-50: [BlockProcessingErrorClass] *)
Inductive err_class := BadBlock | TemporarilyBadBlock | General.
Global Instance err_class_eq : EqDecision err_class.
Proof. solve_decision. Defined.

(** chainstate/src/detail/error.rs: [BlockError], [CheckBlockError]; errors of the parts that are parameters carry their class *)
Inductive block_err :=
| LocalOrphan | BlockAlreadyProcessed | InvalidBlockAlreadyProcessed | BlockProofFailed
| ParentBlockMissing | InvalidParent | CheckpointMismatch | BeforeReorgLimit | BlockTimeOrderInvalid | OtherCheckFailed (c : err_class)
| ConnectFailed (c : err_class) | DisconnectFailed (c : err_class)
| AttemptToConnectInvalidBlock | BlockDataMissing | InvalidTip | BlockIndexAlreadyExists | BlockAlreadyExists
| NoChainPath | QueryFailed (e : terr) | BlockTooDeepToInvalidate.
(** error_classification.rs 93-230 *)
Definition classify (e : block_err) : err_class :=
  match e with
  | LocalOrphan => TemporarilyBadBlock
  | InvalidBlockAlreadyProcessed | BlockProofFailed => BadBlock
  | ParentBlockMissing | InvalidParent | CheckpointMismatch | BeforeReorgLimit | BlockTimeOrderInvalid => BadBlock
  | OtherCheckFailed c | ConnectFailed c | DisconnectFailed c => c
  | BlockAlreadyProcessed | AttemptToConnectInvalidBlock | BlockDataMissing | InvalidTip | BlockIndexAlreadyExists | BlockAlreadyExists
  | NoChainPath | QueryFailed _ | BlockTooDeepToInvalidate => General
  end.
(** error_classification.rs 52-60: [block_should_be_invalidated] *)
Definition should_invalidate (e : block_err) : bool := if decide (classify e = BadBlock) then true else false.
(** chainstateref/mod.rs 1557-1563 *)
Inductive reorg_err := ConnectTipFailed (id : N) (e : block_err) | OtherReorg (e : block_err).
(** mod.rs: [BlockIntegrationError] *)
Inductive integration_err :=
| BlockCheckError (e : block_err) (v : view) | ConnectBlockErrorDuringReorg (e : block_err) (v : view) (id : N)
| OtherReorgError (e : block_err) (v : view) | OtherNonValidationError (e : block_err).

Section Chainstate.
  Context {L : Type}.

  (** The database *)
  Record db := Db { d_tree : tree; d_blocks : gmap N new_block; d_ledger : L }.

  (** Chain configuration and the parameters: [cc_check_header] and [cc_check_body] are the checks of a block that are not
      modelled (sizes, consensus, future time; reward kinds, merkle roots, transactions); [cc_connect] is
      [connect_transactions] with [post_connect_tip], [cc_disconnect] is [disconnect_transactions] with
      [post_disconnect_tip]. *)
  Record chain_cfg := ChainCfg {
    cc_tree : tree_cfg;
    cc_depth : N; (* max_depth_for_reorg *)
    cc_checkpoints : gmap N N; (* with genesis at height 0: checkpoints.rs 30-57 *)
    cc_mismatch_allowed : bool;
    cc_check_header : db -> new_block -> option err_class;
    cc_check_body : db -> new_block -> option err_class;
    cc_connect : L -> new_block -> res err_class L;
    cc_disconnect : L -> new_block -> res err_class L }.
  Context (cf : chain_cfg).
  Notation tc := (cc_tree cf).

  Definition idx (s : db) : index_map := t_idx (d_tree s).
  Definition q {A} (m : res terr A) : res block_err A := rmap_err QueryFailed m.
  Definition set_index (s : db) (b : bindex) : db :=
    Db (Tree (<[bi_id b := b]> (idx s)) (t_main (d_tree s)) (t_best (d_tree s)) (t_min (d_tree s))) (d_blocks s) (d_ledger s).
  Definition with_status (b : bindex) (v : view) : bindex :=
    BIndex (bi_id b) (bi_prev b) (bi_skip b) (bi_height b) (bi_time b) (bi_time_max b) (bi_trust b) (bi_txs b) v (bi_persisted b).
  Definition make_persisted (b : bindex) : bindex :=
    BIndex (bi_id b) (bi_prev b) (bi_skip b) (bi_height b) (bi_time b) (bi_time_max b) (bi_trust b) (bi_txs b) (bi_status b) true.
  (** block_status.rs through the view (C40) *)
  Definition v_new : view := View Unchecked false false false.
  Definition v_set_failed (v : view) : view := View (v_stage v) true (v_invalid_parent v) (v_explicit v).
  Definition v_set_invalid_parent (v : view) : view := View (v_stage v) (v_failed v) true (v_explicit v).
  Definition v_set_explicit (v : view) : view := View (v_stage v) (v_failed v) (v_invalid_parent v) true.
  Definition v_clear (v : view) : view := View (v_stage v) false false false.
  Definition v_advance {E} (v : view) (st : stage) : res E view :=
    if decide (stage_next (v_stage v) = Some st) then Ok (View st (v_failed v) (v_invalid_parent v) (v_explicit v)) else Panic.

  (** *** Checks of a new block *)
  (** checkpoints.rs 81-89: the checkpoint at the greatest height not above [h]. The map is walked in any order. *)
  Definition parent_checkpoint (h : N) : option (N * N) :=
    map_fold (fun k id acc => if k <=? h then match acc with Some (k', _) => if k' <? k then Some (k, id) else acc | None => Some (k, id) end else acc)
             None (cc_checkpoints cf).
  (** chainstateref/mod.rs 471-496 *)
  Definition enforce_checkpoint_impl (expected given : N) : res block_err unit :=
    if given =? expected then Ok tt else if cc_mismatch_allowed cf then Ok tt else Err CheckpointMismatch.
  (** chainstateref/mod.rs 517-545 *)
  Definition enforce_checkpoints (s : db) (b : new_block) : res block_err unit :=
    let? prev := q (ok_or (get_gen tc (idx s) (nb_prev b)) PrevBlockIndexNotFound) in
    let? height := q (next_height (gen_height prev)) in
    match cc_checkpoints cf !! height with
    | Some expected => enforce_checkpoint_impl expected (nb_id b)
    | None =>
        let? (h, expected) := expect (parent_checkpoint height) in
        let? a := q (get_ancestor tc (idx s) prev h) in
        enforce_checkpoint_impl expected (gen_id tc a)
    end.
  (** chainstateref/mod.rs 585-605 *)
  Definition check_reorg_depth (s : db) (b : new_block) : res block_err unit :=
    let? prev := q (ok_or (get_gen tc (idx s) (nb_prev b)) PrevBlockIndexNotFound) in
    let? lca := q (lca_in_main_chain tc (d_tree s) prev) in
    ensure (t_min (d_tree s) <=? gen_height lca) BeforeReorgLimit.
  (** chainstateref/mod.rs 609-630 *)
  Definition check_block_parent (s : db) (b : new_block) : res block_err gindex :=
    let? p := ok_or (get_gen tc (idx s) (nb_prev b)) ParentBlockMissing in
    ensure (gen_ok p) InvalidParent ;? Ok p.
  (** chainstateref/mod.rs 639-655 *)
  Definition skip_check (s : db) (id : N) : res block_err bool :=
    match idx s !! id with
    | Some b => if v_ok (bi_status b) then Ok (negb (bool_decide (v_stage (bi_status b) = Unchecked))) else Err InvalidBlockAlreadyProcessed
    | None => Ok false
    end.
  Definition other_check (o : option err_class) : res block_err unit := match o with Some c => Err (OtherCheckFailed c) | None => Ok tt end.
  (** chainstateref/mod.rs 667-738; the size, consensus and future-time checks are [cc_check_header] *)
  Definition check_header (s : db) (b : new_block) : res block_err unit :=
    check_block_parent s b ;?
    enforce_checkpoints s b ;?
    check_reorg_depth s b ;?
    other_check (cc_check_header cf s b) ;?
    let? median := q (median_time_past tc (idx s) (nb_prev b)) in
    ensure (median <=? nb_time b) BlockTimeOrderInvalid.
  (** chainstateref/mod.rs 893-940 *)
  Definition check_block (s : db) (b : new_block) : res block_err unit :=
    let? skip := skip_check s (nb_id b) in
    if skip then Ok tt else check_header s b ;? other_check (cc_check_body cf s b).

  (** *** Connecting and disconnecting *)
  (** chainstateref/mod.rs 1308-1361 *)
  Definition connect_tip (s : db) (b : bindex) : res block_err db :=
    ensure (v_ok (bi_status b)) AttemptToConnectInvalidBlock ;?
    let? blk := ok_or (d_blocks s !! bi_id b) BlockDataMissing in
    let? v := if decide (v_stage (bi_status b) = Unchecked) then check_block s blk ;? v_advance (bi_status b) CheckBlockOk
              else Ok (bi_status b) in
    ensure (t_best (d_tree s) =? bi_prev b) InvalidTip ;?
    let? l := rmap_err ConnectFailed (cc_connect cf (d_ledger s) blk) in
    let? idx' := if decide (v_stage (bi_status b) = FullyChecked) then Ok (idx s)
                 else let? v' := v_advance v FullyChecked in Ok (<[bi_id b := with_status b v']> (idx s)) in
    Ok (Db (Tree idx' (<[bi_height b := bi_id b]> (t_main (d_tree s))) (bi_id b) (t_min (d_tree s))) (d_blocks s) l).
  (** chainstateref/mod.rs 1367-1400; the debug assertion on the expected tip is a panic here *)
  Definition disconnect_tip (s : db) (expected : N) : res block_err (gindex * db) :=
    let id := t_best (d_tree s) in
    if (id =? genesis_id tc) || negb (id =? expected) then Panic
    else
      let? b := expect (idx s !! id) in
      let? blk := expect (d_blocks s !! id) in
      let? l := rmap_err DisconnectFailed (cc_disconnect cf (d_ledger s) blk) in
      let? p := expect (get_gen tc (idx s) (bi_prev b)) in
      Ok (p, Db (Tree (idx s) (delete (bi_height b) (t_main (d_tree s))) (bi_prev b) (t_min (d_tree s))) (d_blocks s) l).
  (** chainstateref/mod.rs 1206-1223. The loop goes down one height at a time; the fuel is the height of the tip. *)
  Fixpoint disconnect_until (fuel : nat) (s : db) (cur last : N) : res block_err db :=
    if cur =? last then Ok s
    else match fuel with
         | O => Panic (* "Attempt to disconnect genesis" *)
         | S fuel' => let? (p, s') := disconnect_tip s cur in disconnect_until fuel' s' (gen_id tc p) last
         end.
  Definition tip_fuel (s : db) : nat := match get_gen tc (idx s) (t_best (d_tree s)) with Some g => N.to_nat (gen_height g) | None => O end.
  (** chainstateref/mod.rs 1255-1261 *)
  Fixpoint connect_all (s : db) (l : list bindex) : res reorg_err db :=
    match l with
    | [] => Ok s
    | b :: l' => let? s' := rmap_err (ConnectTipFailed (bi_id b)) (connect_tip s b) in connect_all s' l'
    end.
  (** chainstateref/mod.rs 1226-1263 *)
  Definition reorganize (s : db) (b : bindex) : res reorg_err db :=
    let? chain := rmap_err (fun _ => OtherReorg NoChainPath) (get_new_chain tc (d_tree s) b) in
    let? first := expect (head chain) in
    let best := t_best (d_tree s) in
    let? s' := if best =? genesis_id tc then Ok s else rmap_err OtherReorg (disconnect_until (tip_fuel s) s best (bi_prev first)) in
    connect_all s' chain.
  (** chainstateref/mod.rs 1405-1419 *)
  Definition activate_best_chain (s : db) (b : bindex) : res reorg_err (bool * db) :=
    let? best := rmap_err (fun e => OtherReorg (QueryFailed e)) (best_index tc (d_tree s)) in
    if gen_trust best <? bi_trust b then let? s' := reorganize s b in Ok (true, s') else Ok (false, s).
  (** chainstateref/mod.rs 1423-1443 *)
  Definition persist_block (s : db) (b : new_block) : res block_err db :=
    match d_blocks s !! nb_id b with
    | Some _ => Err BlockAlreadyExists
    | None => Ok (Db (d_tree s) (<[nb_id b := b]> (d_blocks s)) (d_ledger s))
    end.
  Definition set_new_block_index (s : db) (b : bindex) : res block_err db :=
    match idx s !! bi_id b with Some _ => Err BlockIndexAlreadyExists | None => Ok (set_index s b) end.
  (** chainstateref/mod.rs 1480-1493 and 1549-1555 *)
  Definition update_min_height (s : db) : res block_err db :=
    let? best := q (best_index tc (d_tree s)) in
    let t := d_tree s in
    Ok (Db (Tree (t_idx t) (t_main t) (t_best t) (N.max (t_min t) (gen_height best - cc_depth cf))) (d_blocks s) (d_ledger s)).

  (** *** Processing a block *)
  (** mod.rs 360-407. When activation fails the transaction is dropped, so only the successful path updates the height. *)
  Definition integrate_block (s : db) (blk : new_block) (b : bindex) : res integration_err (bool * db) :=
    rmap_err (fun e => BlockCheckError e v_new) (check_block s blk) ;?
    let? v := v_advance v_new CheckBlockOk in
    let b' := make_persisted (with_status b v) in
    let? s1 := rmap_err (fun e => BlockCheckError e v) (let? s1 := set_new_block_index s b' in persist_block s1 blk) in
    let? (r, s2) := rmap_err (fun e => match e with
                                       | ConnectTipFailed id e => ConnectBlockErrorDuringReorg e v id
                                       | OtherReorg e => OtherReorgError e v
                                       end) (activate_best_chain s1 b') in
    let? s3 := rmap_err OtherNonValidationError (update_min_height s2) in
    Ok (r, s3).

  (** Computations that commit transactions on the way: the databases after each commit, oldest first, and the result *)
  Definition com (E A : Type) : Type := db -> list db * res E A.
  Definition last_db (s : db) (l : list db) : db := default s (last l).
  Definition cret {E A} (r : res E A) : com E A := fun _ => ([], r).
  Definition cbind {E A B} (m : com E A) (k : A -> com E B) : com E B := fun s =>
    match m s with
    | (l, Ok a) => let (l', r) := k a (last_db s l) in (l ++ l', r)
    | (l, Err e) => (l, Err e)
    | (l, Panic) => (l, Panic)
    end.
  Definition cget {E} : com E db := fun s => ([], Ok s).
  (** mod.rs 303-355 without storage errors *)
  Definition tx {E A} (f : db -> res E (A * db)) : com E A := fun s =>
    match f s with Ok (a, s') => ([s'], Ok a) | Err e => ([], Err e) | Panic => ([], Panic) end.
  (** Going on after an ignored failure (a panic is not a failure) *)
  Definition ctry {E A} (m : com E A) : com E unit := fun s =>
    match m s with (l, Panic) => (l, Panic) | (l, _) => (l, Ok tt) end.

  (** block_invalidation/mod.rs 58-73 *)
  Definition collect_stale (root : N) : com block_err (list bindex) := fun s =>
    if in_main_chain tc (d_tree s) root then ([], Panic) else ([], q (collect_branch tc (idx s) root)).
  (** block_invalidation/mod.rs 78-118 *)
  Definition mark_all (explicit : bool) (l : list bindex) (s : db) : db :=
    match l with
    | [] => s
    | root :: rest =>
        foldl (fun s b => set_index s (with_status b (v_set_invalid_parent (bi_status b))))
              (set_index s (with_status root (if explicit then v_set_explicit (bi_status root) else v_set_failed (bi_status root)))) rest
    end.
  Definition invalidate_stale_block (id : N) (explicit : bool) : com block_err (list bindex) :=
    cbind (collect_stale id) (fun l => cbind (tx (fun s => Ok (tt, mark_all explicit l s))) (fun _ => cret (Ok l))).
  (** block_invalidation/mod.rs 186-268: the loop. Fuel stands for the termination argument (running out is a panic). *)
  Fixpoint activate_loop (fuel : nat) (min_trust : N) (cands : list (N * N)) : com block_err bool := fun s =>
    match best_item cands with
    | None => ([], Ok false)
    | Some (trust, id) =>
        match fuel with
        | O => ([], Panic)
        | S fuel' =>
            if trust <? min_trust then ([], Panic)
            else
              let attempt := (* one transaction *)
                let? b := rmap_err (fun e => OtherReorg (QueryFailed e)) (get_existing (idx s) id) in
                let? (occurred, s') := activate_best_chain s b in
                if (occurred : bool) then Ok (tt, s') else Panic in
              match attempt with
              | Ok (_, s') => ([s'], Ok true)
              | Panic => ([], Panic)
              | Err (OtherReorg e) => ([], Err e)
              | Err (ConnectTipFailed bad e) =>
                  cbind (if should_invalidate e then invalidate_stale_block bad false else collect_stale bad) (fun l =>
                  cbind cget (fun s =>
                  match l with
                  | [] => cret Panic
                  | root :: rest =>
                      cbind (cret (q (remove_tree_add_parent tc (idx s) cands root rest min_trust))) (fun cands' =>
                      activate_loop fuel' min_trust cands')
                  end)) s
              end
        end
    end.
  Definition find_and_activate_best_chain : com block_err bool :=
    cbind cget (fun s =>
    cbind (cret (q (best_index tc (d_tree s)))) (fun best =>
    cbind (cret (expect (checked_add U256_MAX (gen_trust best) 1))) (fun min_trust =>
    cbind (cret (q (candidates_new tc (d_tree s) min_trust))) (fun cands =>
    activate_loop (S (size (idx s))) min_trust cands)))).
  (** block_invalidation/mod.rs 124-180 *)
  Definition invalidate_block (id : N) (explicit : bool) : com block_err unit :=
    cbind cget (fun s =>
    if negb (in_main_chain tc (d_tree s) id) then cbind (invalidate_stale_block id explicit) (fun _ => cret (Ok tt))
    else
      cbind (cret (q (get_existing (idx s) id))) (fun b =>
      cbind (cret (if t_best (d_tree s) =? genesis_id tc then Panic else Ok tt)) (fun _ =>
      cbind (cret (ensure (t_min (d_tree s) <? bi_height b) BlockTooDeepToInvalidate)) (fun _ =>
      cbind (tx (fun s => let? s' := disconnect_until (tip_fuel s) s (t_best (d_tree s)) (bi_prev b) in Ok (tt, s'))) (fun _ =>
      cbind (invalidate_stale_block id explicit) (fun _ =>
      cbind find_and_activate_best_chain (fun _ => cret (Ok tt)))))))).
  (** block_invalidation/mod.rs 273-324; deleting the index of a persisted block is a debug assertion, not reached *)
  Definition clear_one (s : db) (b : bindex) : db :=
    if bi_persisted b then set_index s (with_status b (v_clear (bi_status b)))
    else Db (Tree (delete (bi_id b) (idx s)) (t_main (d_tree s)) (t_best (d_tree s)) (t_min (d_tree s))) (d_blocks s) (d_ledger s).
  Definition reset_block_failure_flags (id : N) : com block_err unit :=
    cbind cget (fun s =>
    cbind (cret (q (collect_branch tc (idx s) id))) (fun l =>
    cbind (tx (fun s => Ok (tt, foldl clear_one s l))) (fun _ =>
    cbind find_and_activate_best_chain (fun _ => cret (Ok tt))))).

  (** mod.rs 412-539 (with check_legitimate_orphan 864-885 for a block whose parent is unknown: such a block goes to the
      orphan pool and is submitted again when its parent arrives, which is another call of this function) *)
  Definition process_block (blk : new_block) : com block_err (option bindex) :=
    cbind cget (fun s =>
    cbind (cret (match get_gen tc (idx s) (nb_prev blk) with Some _ => Ok tt | None => Err LocalOrphan end)) (fun _ =>
    cbind (cret (match idx s !! nb_id blk with
                 | Some b => if v_ok (bi_status b) then Err BlockAlreadyProcessed else Err InvalidBlockAlreadyProcessed
                 | None => Ok tt
                 end)) (fun _ =>
    cbind (cret (rmap_err (fun e => match e with BlockProofCalculationError => BlockProofFailed | e => QueryFailed e end)
                          (create_block_index tc (idx s) blk v_new))) (fun b s =>
    match integrate_block s blk b with
    | Panic => ([], Panic)
    | Ok (reorg, s') =>
        ([s'], let? saved := q (get_existing (idx s') (nb_id blk)) in
               if v_ok (bi_status saved) then Ok (if (reorg : bool) then Some saved else None) else Panic)
    | Err (OtherNonValidationError e) => ([], Err e)
    | Err (OtherReorgError e _) => ([], Err e)
    | Err (ConnectBlockErrorDuringReorg e v bad) =>
        if in_main_chain tc (d_tree s) bad then ([], Panic)
        else if should_invalidate e then
          cbind (ctry (tx (fun s => let? s' := set_new_block_index s (with_status b v) in Ok (tt, s')))) (fun _ =>
          cbind (ctry (invalidate_block bad false)) (fun _ => cret (Err e))) s
        else ([], Err e)
    | Err (BlockCheckError e v) =>
        if should_invalidate e then
          cbind (ctry (tx (fun s => let? s' := set_new_block_index s (with_status b (v_set_failed v)) in Ok (tt, s')))) (fun _ => cret (Err e)) s
        else ([], Err e)
    end)))).

  (** The calls that change the database *)
  Inductive api := ProcessBlock (b : new_block) | InvalidateBlock (id : N) | ResetFailureFlags (id : N).
  Definition run (c : api) : com block_err unit :=
    match c with
    | ProcessBlock b => cbind (process_block b) (fun _ => cret (Ok tt))
    | InvalidateBlock id => invalidate_block id true
    | ResetFailureFlags id => reset_block_failure_flags id
    end.
  (** State after a call that was not interrupted *)
  Definition after (s : db) (c : api) : db := last_db s (fst (run c s)).

  (** mod.rs 676-710 [process_genesis] *)
  Definition initial_db (l : L) : db := Db (Tree ∅ {[0 := genesis_id tc]} (genesis_id tc) 0) ∅ l.
End Chainstate.
Arguments db : clear implicits.
Arguments chain_cfg : clear implicits.
