(** What the undo records are supposed to be: a plain table from transactions to what was recorded for them, and a
    saved copy of it for every verifier that is still open. Nothing here depends on how the caches work. *)
From Verif Require Import Base ChainModel RewardModel UndoCacheModel.

(** What is on record: for transactions by block (or mempool) and transaction, for rewards by block. *)
Record undo_table (I R : Type) := UTable { ut_tx : gmap (tx_source * txid) I; ut_reward : gmap tx_source R }.
Arguments UTable {I R} _ _.
Arguments ut_tx {I R} _.
Arguments ut_reward {I R} _.

(** Nothing is on record for the block *)
Definition ut_none {I R} (t : undo_table I R) (s : tx_source) : Prop :=
  ut_reward t !! s = None /\ forall x, ut_tx t !! (s, x) = None.

Definition ut_empty {I R} : undo_table I R := UTable ∅ ∅.
Definition ut_add {I R} (t : undo_table I R) s x i := UTable (<[(s, x) := i]> (ut_tx t)) (ut_reward t).
Definition ut_del {I R} (t : undo_table I R) s x := UTable (delete (s, x) (ut_tx t)) (ut_reward t).
Definition ut_addr {I R} (t : undo_table I R) s r := UTable (ut_tx t) (<[s := r]> (ut_reward t)).
Definition ut_delr {I R} (t : undo_table I R) s := UTable (ut_tx t) (delete s (ut_reward t)).

(** An open verifier: what is on record as seen from it, the blocks it has recorded something for, or handed something
    back for, and the transactions it has handed back, since it was opened (verifiers opened on it and flushed into it
    included). *)
Record undo_layer (I R : Type) := ULayer {
  ul_table : undo_table I R; ul_added : gset tx_source; ul_taken : gset tx_source; ul_gone : gset (tx_source * txid) }.
Arguments ULayer {I R} _ _ _ _.
Arguments ul_table {I R} _.
Arguments ul_added {I R} _.
Arguments ul_taken {I R} _.
Arguments ul_gone {I R} _.

(** The open verifiers, innermost first; what is stored beneath them; whether that is the mempool's handle (which
    stores nothing). *)
Record undo_spec (I R : Type) := USpec {
  sp_layers : list (undo_layer I R); sp_base : undo_table I R; sp_mempool : bool }.
Arguments USpec {I R} _ _ _.
Arguments sp_layers {I R} _.
Arguments sp_base {I R} _.
Arguments sp_mempool {I R} _.

Definition below {I R} (ls : list (undo_layer I R)) (base : undo_table I R) : undo_table I R :=
  match ls with l :: _ => ul_table l | [] => base end.
Definition sp_now {I R} (st : undo_spec I R) : undo_table I R := below (sp_layers st) (sp_base st).

(** What a call does to the table. [released]: the part of a record that is handed back; [blocked t s x]: the record
    of [x] may not be taken yet. *)
Definition spec_call {I O R} (released : I -> O) (blocked : undo_table I R -> tx_source -> txid -> bool)
    (st : undo_spec I R) (k : undo_call I R) : undo_spec I R * res undo_err (undo_out O R) :=
  let '(USpec ls base mem) := st in
  let now := below ls base in
  match k, ls with
  | UDerive, _ => (USpec (ULayer now ∅ ∅ ∅ :: ls) base mem, Ok UDone)
  | _, [] => (st, Panic)
  | UAdd s x i, l :: ls' =>
      (USpec (ULayer (ut_add now s x i) ({[s]} ∪ ul_added l) (ul_taken l) (ul_gone l) :: ls') base mem, Ok UDone)
  | UAddReward s r, l :: ls' =>
      (USpec (ULayer (ut_addr now s r) ({[s]} ∪ ul_added l) (ul_taken l) (ul_gone l) :: ls') base mem, Ok UDone)
  | UTake s x, l :: ls' =>
      match ut_tx now !! (s, x) with
      | None => (st, Ok (UTook None))
      | Some i =>
          if blocked now s x then (st, Err (TxUndoWithDependency x))
          else (USpec (ULayer (ut_del now s x) (ul_added l) ({[s]} ∪ ul_taken l) ({[(s, x)]} ∪ ul_gone l) :: ls') base mem,
                Ok (UTook (Some (released i))))
      end
  | UTakeReward s, l :: ls' =>
      match ut_reward now !! s with
      | None => (st, Ok (UTookReward None))
      | Some r => (USpec (ULayer (ut_delr now s) (ul_added l) ({[s]} ∪ ul_taken l) (ul_gone l) :: ls') base mem,
                   Ok (UTookReward (Some r)))
      end
  | UFlush, [l] => (USpec [] (ul_table l) mem, Ok UDone)
  | UFlush, l :: p :: ls' =>
      (USpec (ULayer (ul_table l) (ul_added l ∪ ul_added p) (ul_taken l ∪ ul_taken p) (ul_gone l ∪ ul_gone p) :: ls') base mem,
       Ok UDone)
  | UDrop, l :: ls' => (USpec ls' base mem, Ok UDone)
  end.

(** [P] holds of every open verifier together with what was on record when it was opened *)
Fixpoint all_layers {I R} (P : undo_table I R -> undo_layer I R -> Prop) (ls : list (undo_layer I R)) (base : undo_table I R) : Prop :=
  match ls with
  | [] => True
  | l :: ls' => P (below ls' base) l /\ all_layers P ls' base
  end.

(** How the records are used. Transactions of the mempool are recorded above the mempool's handle and blocks above the
    database; what is recorded is not on record already, and nothing is recorded for a block that has records in the
    database; no verifier both records and hands back for a block that had records when the verifier was opened; the
    reward of a block is the last to be handed back unless there is only one verifier. [strict]: records are only asked
    for when they exist. *)
Definition source_fits {I R} (st : undo_spec I R) (s : tx_source) : Prop :=
  match s with SrcMempool => sp_mempool st = true | SrcChain _ => sp_mempool st = false end.
Definition may_add {I R} (st : undo_spec I R) (s : tx_source) : Prop :=
  source_fits st s /\ ut_none (sp_base st) s
  /\ all_layers (fun old l => ut_none old s \/ s ∉ ul_taken l) (sp_layers st) (sp_base st).
Definition may_take {I R} (st : undo_spec I R) (s : tx_source) : Prop :=
  source_fits st s /\ all_layers (fun old l => ut_none old s \/ s ∉ ul_added l) (sp_layers st) (sp_base st).

Definition undo_use {I R} (strict : bool) (st : undo_spec I R) (k : undo_call I R) : Prop :=
  match k with
  | UDerive => True
  | UAdd s x _ => sp_layers st <> [] /\ may_add st s /\ ut_tx (sp_now st) !! (s, x) = None
  | UAddReward s _ => sp_layers st <> [] /\ may_add st s /\ ut_reward (sp_now st) !! s = None
  | UTake s x => sp_layers st <> [] /\ may_take st s /\ (strict = true -> ut_tx (sp_now st) !! (s, x) <> None)
  | UTakeReward s => sp_layers st <> [] /\ may_take st s /\ s <> SrcMempool
      /\ (length (sp_layers st) = 1 \/ forall x, ut_tx (sp_now st) !! (s, x) = None)
  | UFlush => sp_layers st <> [] /\ (length (sp_layers st) = 1 -> sp_mempool st = false)
  | UDrop => sp_layers st <> []
  end.

(** The states that histories of such calls lead to, beside the tables they stand for. Calls that are refused change
    nothing. *)
Inductive undo_reach {B I O R D} (K : block_kind B I O R D) (released : I -> O)
    (blocked : undo_table I R -> tx_source -> txid -> bool) : undo_stack B D -> undo_spec I R -> Prop :=
| reach_chainstate : undo_reach K released blocked (UndoStack [] (ChainDb ∅)) (USpec [] ut_empty false)
| reach_mempool : undo_reach K released blocked (UndoStack [] MempoolBase) (USpec [] ut_empty true)
| reach_call m st k m' o :
    undo_reach K released blocked m st -> undo_use (bk_strict K) st k -> undo_run K m k = Ok (m', o) ->
    undo_reach K released blocked m' (spec_call released blocked st k).1.

(** What a call may answer when the table says [r]: the same; or, while other records of the block remain, a refusal to
    put a record back, or to look for one, that an open verifier has handed back before. *)
Definition handed_back {I R} (st : undo_spec I R) (s : tx_source) (x : txid) : Prop :=
  Exists (fun l => (s, x) ∈ ul_gone l) (sp_layers st).
Definition answer_fits {O I R} (st : undo_spec I R) (k : undo_call I R) (r : res undo_err (undo_out O R))
    (answer : res undo_err (undo_out O R)) : Prop :=
  answer = r
  \/ match k with
     | UAdd s x _ => answer = Err (UndoAlreadyExists x) /\ handed_back st s x /\ ~ ut_none (sp_now st) s
     | UTake s x => answer = Err (MissingTxUndo x) /\ handed_back st s x /\ ~ ut_none (sp_now st) s
                    /\ ut_tx (sp_now st) !! (s, x) = None
     | _ => False
     end.

(** ** Dependencies between the transactions of a block *)

(** A transaction on record spends an output of [x] *)
Definition has_child {T R} (t : undo_table (T * list source_id) R) (s : tx_source) (x : txid) : Prop :=
  exists c u ss, ut_tx t !! (s, c) = Some (u, ss) /\ FromTx x ∈ ss.
Global Instance has_child_dec {T R} (t : undo_table (T * list source_id) R) s x : Decision (has_child t s x).
Proof.
  destruct (decide (Exists (fun kv => kv.1.1 = s /\ FromTx x ∈ kv.2.2) (map_to_list (ut_tx t)))) as [H|H].
  - left. apply Exists_exists in H as [[[s' c] [u ss]] [Hin [E Hx]]]. apply elem_of_map_to_list in Hin. cbn in *. subst s'.
    by exists c, u, ss.
  - right. intros (c & u & ss & Hl & Hx). apply H, Exists_exists. exists ((s, c), (u, ss)).
    split; [by apply elem_of_map_to_list|done].
Defined.
