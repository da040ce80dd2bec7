(** Model of the per-block undo records of the transaction verifier and of their caches:
    chainstate/tx-verifier/src/transaction_verifier/{cached_operation,flush,hierarchy}.rs,
    chainstate/tx-verifier/src/transaction_verifier/accounting_undo_cache/{cached_block_undo,mod}.rs,
    chainstate/tx-verifier/src/transaction_verifier/utxos_undo_cache/{cached_utxo_block_undo,mod}.rs,
    accounting/src/block_undo.rs, utxo/src/undo.rs, and the ends of the hierarchy in
    chainstate/src/detail/chainstateref/tx_verifier_storage.rs and
    mempool/src/pool/tx_pool/tx_verifier/chainstate_handle.rs. *)
From Verif Require Import Base ChainModel RewardModel.

Notation txid := N (only parsing).

(** cached_operation.rs 18-23 *)
Inductive cop (T : Type) := OpWrite (v : T) | OpRead (v : T) | OpErase.
Arguments OpWrite {T} v.
Arguments OpRead {T} v.
Arguments OpErase {T}.
Global Instance cop_eq {T} `{EqDecision T} : EqDecision (cop T). Proof. solve_decision. Defined.

(** cached_operation.rs 26-38: [get] and [take] *)
Definition op_get {T} (o : cop T) : option T :=
  match o with OpWrite v | OpRead v => Some v | OpErase => None end.

(** accounting/src/block_undo.rs 22-30, utxo/src/undo.rs 25-34 and the two undo errors of ConnectTransactionError.
    Simplification: one error type for all of them. *)
Inductive undo_err :=
| UndoAlreadyExists (t : txid)
| MissingTxUndo (t : txid)
| UndoAlreadyExistsForReward
| TxUndoWithDependency (t : txid)
| MissingBlockUndo (s : tx_source).

(** cached_operation.rs 41-86, with the second argument present (as it is in every call) *)
Definition combine_op {T} `{EqDecision T} (left : option (cop T)) (right : cop T) : res undo_err (cop T) :=
  match left, right with
  | None, v => Ok v
  | Some (OpWrite l), OpWrite r => if bool_decide (l = r) then Ok (OpWrite r) else Panic
  | Some (OpWrite _), OpRead _ => Panic
  | Some (OpWrite _), OpErase => Ok OpErase
  | Some (OpRead _), OpWrite r => Ok (OpWrite r)
  | Some (OpRead _), OpRead r => Ok (OpRead r)
  | Some (OpRead _), OpErase => Ok OpErase
  | Some OpErase, OpWrite r => Ok (OpWrite r)
  | Some OpErase, OpRead _ => Panic
  | Some OpErase, OpErase => Ok OpErase
  end.

(** The loops [for (k, v) in child { ... parent.insert(k, f(parent.get(k), v)?) }]: every key of the second map is
    folded into the first. Simplification: the keys come in no particular order (each step touches its own key), and
    a failing step gives no updated map at all. *)
Definition fold_into {K A B E} `{Countable K} (f : option B -> A -> res E B) (m : gmap K B) (d : gmap K A) : res E (gmap K B) :=
  map_fold (fun k a acc => let? m' := acc in let? b := f (m' !! k) a in Ok (<[k := b]> m')) (Ok m) d.

(** cached_block_undo.rs 150-155, cached_utxo_block_undo.rs 230-249 *)
Definition combine_maps {K T} `{Countable K} `{EqDecision T} (l r : gmap K (cop T)) : res undo_err (gmap K (cop T)) :=
  fold_into combine_op l r.

(** What a cache of per-block undo records needs to know about the records ([accounting_undo_cache/mod.rs] and
    [utxos_undo_cache/mod.rs] are the same code over two kinds of record). [B]: the record of a block or of the mempool;
    [I]: what is put in for a transaction; [O]: what is taken out; [R]: the same for the block reward; [D]: the record
    as stored in the database. *)
Record block_kind (B I O R D : Type) := BlockKind {
  bk_default : B;
  bk_insert : B -> txid -> I -> res undo_err B;
  bk_set_reward : B -> R -> res undo_err B;
  bk_take : B -> txid -> res undo_err (B * option O);
  bk_take_reward : B -> B * option R;
  bk_is_empty : B -> bool;
  bk_combine : B -> B -> res undo_err B;
  bk_load : D -> B;
  bk_save : B -> D;
  (** is it an error to ask for a record that is not there? *)
  bk_strict : bool;
}.
Arguments bk_default {B I O R D}.
Arguments bk_insert {B I O R D}.
Arguments bk_set_reward {B I O R D}.
Arguments bk_take {B I O R D}.
Arguments bk_take_reward {B I O R D}.
Arguments bk_is_empty {B I O R D}.
Arguments bk_combine {B I O R D}.
Arguments bk_load {B I O R D}.
Arguments bk_save {B I O R D}.
Arguments bk_strict {B I O R D}.

(** * Accounting records *)

(** cached_block_undo.rs 25-28: also the first two fields of [CachedUtxosBlockUndo] (cached_utxo_block_undo.rs 29-31) *)
Record cblock (R T : Type) := CBlock { cb_reward : option (cop R); cb_txs : gmap txid (cop T) }.
Arguments CBlock {R T} _ _.
Arguments cb_reward {R T} _.
Arguments cb_txs {R T} _.

(** accounting/src/block_undo.rs 69-72: what is stored in the database *)
Record bundo (R T : Type) := BUndo { bu_reward : option R; bu_txs : gmap txid T }.
Arguments BUndo {R T} _ _.
Arguments bu_reward {R T} _.
Arguments bu_txs {R T} _.

Section CBlock.
Context {R T : Type} `{EqDecision R} `{EqDecision T}.
Implicit Types (b : cblock R T).

(** cached_block_undo.rs 35-38, [Default] *)
Definition cb_default : cblock R T := CBlock None ∅.
(** cached_block_undo.rs 50-64 *)
Definition cb_load (u : bundo R T) : cblock R T := CBlock (OpRead <$> bu_reward u) (OpRead <$> bu_txs u).
(** cached_block_undo.rs 67-77 *)
Definition cb_save b : bundo R T := BUndo (cb_reward b ≫= op_get) (omap op_get (cb_txs b)).
(** cached_block_undo.rs 80-83, cached_utxo_block_undo.rs 122-125 *)
Definition cb_is_empty b : bool :=
  match cb_reward b ≫= op_get with None => true | Some _ => false end
  && bool_decide (map_Forall (fun _ o => op_get o = None) (cb_txs b)).
(** cached_block_undo.rs 90-92, cached_utxo_block_undo.rs 173-175: the field is left at [None], not at [Erase] *)
Definition cb_take_reward b : cblock R T * option R := (CBlock None (cb_txs b), cb_reward b ≫= op_get).
(** cached_block_undo.rs 95-105, cached_utxo_block_undo.rs 200-210 *)
Definition cb_set_reward b (r : R) : res undo_err (cblock R T) :=
  match cb_reward b with
  | Some _ => Err UndoAlreadyExistsForReward
  | None => Ok (CBlock (Some (OpWrite r)) (cb_txs b))
  end.
(** cached_block_undo.rs 108-120, cached_utxo_block_undo.rs 135-138 *)
Definition cb_insert b (t : txid) (u : T) : res undo_err (cblock R T) :=
  match cb_txs b !! t with
  | Some _ => Err (UndoAlreadyExists t)
  | None => Ok (CBlock (cb_reward b) (<[t := OpWrite u]> (cb_txs b)))
  end.
(** cached_block_undo.rs 123-134 *)
Definition cb_take b (t : txid) : res undo_err (cblock R T * option T) :=
  match cb_txs b !! t with
  | Some o => match op_get o with
              | Some u => Ok (CBlock (cb_reward b) (<[t := OpErase]> (cb_txs b)), Some u)
              | None => Err (MissingTxUndo t)
              end
  | None => Ok (b, None)
  end.
(** cached_block_undo.rs 140-148, cached_utxo_block_undo.rs 216-227: [self] first, [other] second *)
Definition combine_reward (l r : option (cop R)) : res undo_err (option (cop R)) :=
  match l, r with
  | _, None => Ok l
  | None, Some _ => Ok r
  | Some x, Some y => if bool_decide (x = y) then Ok l else Err UndoAlreadyExistsForReward
  end.
(** cached_block_undo.rs 138-158 *)
Definition cb_combine b b2 : res undo_err (cblock R T) :=
  let? r := combine_reward (cb_reward b) (cb_reward b2) in
  let? m := combine_maps (cb_txs b) (cb_txs b2) in
  Ok (CBlock r m).

(** accounting_undo_cache/mod.rs: the cache of accounting records *)
Definition accounting_kind : block_kind (cblock R T) T T R (bundo R T) := {|
  bk_default := cb_default;
  bk_insert := cb_insert;
  bk_set_reward := cb_set_reward;
  bk_take := cb_take;
  bk_take_reward := cb_take_reward;
  bk_is_empty := cb_is_empty;
  bk_combine := cb_combine;
  bk_load := cb_load;
  bk_save := cb_save;
  bk_strict := false;
|}.
End CBlock.

(** * UTXO records *)

(** The transactions among the sources of a transaction's inputs (cached_utxo_block_undo.rs 142-145) *)
Definition source_txs (l : list source_id) : list txid :=
  omap (fun s => match s with FromTx i => Some i | FromReward _ => None end) l.

(** cached_utxo_block_undo.rs 29-39 *)
Record ublock (R T : Type) := UBlock {
  ub_core : cblock R T;
  ub_child_parent : gmap (txid * txid) (cop unit);
  ub_parent_child : gmap (txid * txid) (cop unit);
}.
Arguments UBlock {R T} _ _ _.
Arguments ub_core {R T} _.
Arguments ub_child_parent {R T} _.
Arguments ub_parent_child {R T} _.

(** utxo/src/undo.rs 105-115; a [BTreeSet] is a map to [()] *)
Record udisk (R T : Type) := UDisk {
  ud_core : bundo R T;
  ud_child_parent : gmap (txid * txid) unit;
  ud_parent_child : gmap (txid * txid) unit;
}.
Arguments UDisk {R T} _ _ _.
Arguments ud_core {R T} _.
Arguments ud_child_parent {R T} _.
Arguments ud_parent_child {R T} _.

Section UBlock.
Context {R T : Type} `{EqDecision R} `{EqDecision T}.
Implicit Types (b : ublock R T).

Definition ub_default : ublock R T := UBlock cb_default ∅ ∅.
(** cached_utxo_block_undo.rs 58-89 *)
Definition ub_load (u : udisk R T) : ublock R T :=
  UBlock (cb_load (ud_core u)) (OpRead <$> ud_child_parent u) (OpRead <$> ud_parent_child u).
(** cached_utxo_block_undo.rs 92-119. Simplification: the two [debug_assert!] of utxo/src/undo.rs 140-145 are not
    modelled (that they hold is proved). *)
Definition ub_save b : udisk R T :=
  UDisk (cb_save (ub_core b)) (omap op_get (ub_child_parent b)) (omap op_get (ub_parent_child b)).
Definition ub_is_empty b : bool := cb_is_empty (ub_core b).
(** cached_utxo_block_undo.rs 128-154 *)
Definition ub_insert b (t : txid) (u : T * list source_id) : res undo_err (ublock R T) :=
  let? c := cb_insert (ub_core b) t (fst u) in
  Ok (UBlock c
        (foldl (fun m p => <[(t, p) := OpWrite tt]> m) (ub_child_parent b) (source_txs (snd u)))
        (foldl (fun m p => <[(p, t) := OpWrite tt]> m) (ub_parent_child b) (source_txs (snd u)))).
(** cached_utxo_block_undo.rs 157-162 *)
Definition has_children_of b (t : txid) : bool :=
  existsb (fun k => (fst (fst k) =? t)%N && match op_get (snd k) with Some _ => true | None => false end)
    (map_to_list (ub_parent_child b)).
(** cached_utxo_block_undo.rs 164-170 *)
Definition get_parents_of b (t : txid) : list (txid * txid) :=
  fst <$> filter (fun k => fst (fst k) = t /\ op_get (snd k) <> None) (map_to_list (ub_child_parent b)).
(** cached_utxo_block_undo.rs 178-197 *)
Definition ub_take b (t : txid) : res undo_err (ublock R T * option T) :=
  if has_children_of b t then Err (TxUndoWithDependency t)
  else
    let to_remove := get_parents_of b t in
    Ok (UBlock (CBlock (cb_reward (ub_core b)) (<[t := OpErase]> (cb_txs (ub_core b))))
          (foldl (fun m k => <[k := OpErase]> m) (ub_child_parent b) to_remove)
          (foldl (fun m k => <[(snd k, fst k) := OpErase]> m) (ub_parent_child b) to_remove),
        cb_txs (ub_core b) !! t ≫= op_get).
Definition ub_take_reward b : ublock R T * option R :=
  let '(c, r) := cb_take_reward (ub_core b) in (UBlock c (ub_child_parent b) (ub_parent_child b), r).
Definition ub_set_reward b (r : R) : res undo_err (ublock R T) :=
  let? c := cb_set_reward (ub_core b) r in Ok (UBlock c (ub_child_parent b) (ub_parent_child b)).
(** cached_utxo_block_undo.rs 214-252 *)
Definition ub_combine b b2 : res undo_err (ublock R T) :=
  let? c := cb_combine (ub_core b) (ub_core b2) in
  let? cp := combine_maps (ub_child_parent b) (ub_child_parent b2) in
  let? pc := combine_maps (ub_parent_child b) (ub_parent_child b2) in
  Ok (UBlock c cp pc).

(** utxos_undo_cache/mod.rs: the cache of utxo records *)
Definition utxo_kind : block_kind (ublock R T) (T * list source_id) T R (udisk R T) := {|
  bk_default := ub_default;
  bk_insert := ub_insert;
  bk_set_reward := ub_set_reward;
  bk_take := ub_take;
  bk_take_reward := ub_take_reward;
  bk_is_empty := ub_is_empty;
  bk_combine := ub_combine;
  bk_load := ub_load;
  bk_save := ub_save;
  bk_strict := true;
|}.
End UBlock.

(** * The caches and the hierarchy *)

(** What a verifier outside of any other verifier stands on: the chainstate database, holding records of blocks, or
    (in the mempool) a handle through which no undo record can be read or written. *)
Inductive undo_base (D : Type) := ChainDb (m : gmap N D) | MempoolBase.
Arguments ChainDb {D} m.
Arguments MempoolBase {D}.

(** accounting_undo_cache/mod.rs 29-31, utxos_undo_cache/mod.rs 38-40 *)
Notation undo_cache B := (gmap tx_source (cop B)).

(** A hierarchy of verifiers, as far as one kind of undo record goes: the caches, innermost (derived last) first, over
    the base. With no cache, no verifier exists at the moment. *)
Record undo_stack (B D : Type) := UndoStack { us_caches : list (undo_cache B); us_base : undo_base D }.
Arguments UndoStack {B D} _ _.
Arguments us_caches {B D} _.
Arguments us_base {B D} _.

Inductive undo_call (I R : Type) :=
| UAdd (s : tx_source) (t : txid) (u : I)     (* add_tx_undo *)
| UAddReward (s : tx_source) (r : R)           (* add_reward_undo *)
| UTake (s : tx_source) (t : txid)            (* take_tx_undo *)
| UTakeReward (s : tx_source)                  (* take_block_reward_undo *)
| UDerive                                      (* a new verifier on top: TransactionVerifier::new / derive_child *)
| UFlush                                       (* consume, then flush_to_storage into what is below *)
| UDrop.                                       (* the verifier is dropped without flushing *)
Arguments UAdd {I R} _ _ _.
Arguments UAddReward {I R} _ _.
Arguments UTake {I R} _ _.
Arguments UTakeReward {I R} _.
Arguments UDerive {I R}.
Arguments UFlush {I R}.
Arguments UDrop {I R}.

Inductive undo_out (O R : Type) := UDone | UTook (o : option O) | UTookReward (r : option R).
Arguments UDone {O R}.
Arguments UTook {O R} _.
Arguments UTookReward {O R} _.

Section Cache.
Context {B I O R D : Type} (K : block_kind B I O R D).
Implicit Types (c : undo_cache B) (cs : list (undo_cache B)) (base : undo_base D).

(** tx_verifier_storage.rs 74-88, 101-115, 118-134, 147-164; chainstate_handle.rs 241-246, 278-283 *)
Definition base_fetch base (s : tx_source) : res undo_err (option B) :=
  match base, s with
  | ChainDb m, SrcChain b => Ok (bk_load K <$> m !! b)
  | ChainDb _, SrcMempool => Panic
  | MempoolBase, _ => if bk_strict K then Panic else Ok None
  end.

(** hierarchy.rs 84-92, 107-118, 120-131, 147-158: a verifier answers from its own cache, or asks what is below *)
Fixpoint fetch cs base (s : tx_source) : res undo_err (option B) :=
  match cs with
  | [] => base_fetch base s
  | c :: cs' => match c !! s with Some o => Ok (op_get o) | None => fetch cs' base s end
  end.

(** accounting_undo_cache/mod.rs 87-114, utxos_undo_cache/mod.rs 89-116: nothing is fetched from below *)
Definition add_tx_undo c (s : tx_source) (t : txid) (u : I) : res undo_err (undo_cache B) :=
  let b := match c !! s with Some o => default (bk_default K) (op_get o) | None => bk_default K end in
  let? b' := bk_insert K b t u in Ok (<[s := OpWrite b']> c).

(** accounting_undo_cache/mod.rs 58-82, utxos_undo_cache/mod.rs 121-145 *)
Definition add_reward_undo c (s : tx_source) (r : R) : res undo_err (undo_cache B) :=
  let b := match c !! s with Some o => default (bk_default K) (op_get o) | None => bk_default K end in
  let? b' := bk_set_reward K b r in Ok (<[s := OpWrite b']> c).

(** The record is put back without what was taken, or erased if nothing is left *)
Definition put_back c (s : tx_source) (b : B) : undo_cache B :=
  <[s := if bk_is_empty K b then OpErase else OpWrite b]> c.

(** accounting_undo_cache/mod.rs 119-152 (not strict), utxos_undo_cache/mod.rs 150-183 (strict) *)
Definition take_tx_undo c cs base (s : tx_source) (t : txid) : res undo_err (undo_cache B * option O) :=
  if bk_strict K then
    let? b := match c !! s with
              | None => let? o := fetch cs base s in ok_or o (MissingBlockUndo s)
              | Some o => expect (op_get o)
              end in
    let? (b', r) := bk_take K b t in
    let? r := ok_or r (MissingTxUndo t) in
    Ok (put_back c s b', Some r)
  else
    let? o := match c !! s with None => fetch cs base s | Some o => Ok (op_get o) end in
    match o with
    | None => Ok (c, None)
    | Some b => let? (b', r) := bk_take K b t in
                match r with Some u => Ok (put_back c s b', Some u) | None => Ok (c, None) end
    end.

(** accounting_undo_cache/mod.rs 157-189, utxos_undo_cache/mod.rs 188-220 *)
Definition take_reward_undo c cs base (s : tx_source) : res undo_err (undo_cache B * option R) :=
  let? o := match c !! s with None => fetch cs base s | Some o => Ok (op_get o) end in
  match o with
  | None => Ok (c, None)
  | Some b => let '(b', r) := bk_take_reward K b in
              match r with Some x => Ok (put_back c s b', Some x) | None => Ok (c, None) end
  end.

(** accounting_undo_cache/mod.rs 194-218, utxos_undo_cache/mod.rs 225-252 [set_undo_data] and [del_undo_data], for one
    source: what a parent holds after one entry of the child is flushed into it. Entries are never [Read]. *)
Definition merge_entry (p : option (cop B)) (o : cop B) : res undo_err (cop B) :=
  match o with
  | OpErase => Ok OpErase
  | OpWrite b | OpRead b =>
      match p with
      | None | Some OpErase => Ok (OpWrite b)
      | Some (OpWrite pb) => let? b' := bk_combine K pb b in Ok (OpWrite b')
      | Some (OpRead pb) => let? b' := bk_combine K pb b in Ok (OpRead b')
      end
  end.

(** tx_verifier_storage.rs 258-290, 292-330 and the same for tokens and orders: writing the record of a block replaces
    the stored one *)
Definition save_entry (m : gmap N D) (s : tx_source) (o : cop B) : res undo_err (gmap N D) :=
  match s with
  | SrcMempool => Panic
  | SrcChain b => Ok match o with
                     | OpWrite u => <[b := bk_save K u]> m
                     | OpRead _ => m
                     | OpErase => delete b m
                     end
  end.

(** flush.rs 80-86, 100-108, 113-121, 135-143: [Read] entries are skipped *)
Definition not_read (o : cop B) : bool := match o with OpRead _ => false | _ => true end.

Definition flush_stack (c : undo_cache B) cs base : res undo_err (undo_stack B D) :=
  let c := filter (fun kv => not_read (snd kv) = true) c in
  match cs with
  | p :: cs' => let? p' := fold_into merge_entry p c in Ok (UndoStack (p' :: cs') base)
  | [] => match base with
          | MempoolBase => Panic
          | ChainDb m => let? m' := map_fold (fun s o acc => let? m' := acc in save_entry m' s o) (Ok m) c in
                         Ok (UndoStack [] (ChainDb m'))
          end
  end.

(** One call on the innermost verifier. A failing call changes nothing. *)
Definition undo_run (st : undo_stack B D) (k : undo_call I R) : res undo_err (undo_stack B D * undo_out O R) :=
  let base := us_base st in
  match k, us_caches st with
  | UDerive, cs => Ok (UndoStack (∅ :: cs) base, UDone)
  | _, [] => Panic
  | UAdd s t u, c :: cs => let? c' := add_tx_undo c s t u in Ok (UndoStack (c' :: cs) base, UDone)
  | UAddReward s r, c :: cs => let? c' := add_reward_undo c s r in Ok (UndoStack (c' :: cs) base, UDone)
  | UTake s t, c :: cs => let? (c', o) := take_tx_undo c cs base s t in Ok (UndoStack (c' :: cs) base, UTook o)
  | UTakeReward s, c :: cs => let? (c', o) := take_reward_undo c cs base s in Ok (UndoStack (c' :: cs) base, UTookReward o)
  | UFlush, c :: cs => let? st' := flush_stack c cs base in Ok (st', UDone)
  | UDrop, c :: cs => Ok (UndoStack cs base, UDone)
  end.

(** utxos_undo_cache/mod.rs 65-84 *)
Definition can_disconnect (has_children : B -> txid -> bool) (st : undo_stack B D) (s : tx_source) (t : txid) : res undo_err bool :=
  let? o := fetch (us_caches st) (us_base st) s in
  Ok match o with Some b => negb (has_children b t) | None => false end.
End Cache.
