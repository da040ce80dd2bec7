(** What a set of unspent outputs is supposed to be: a table from outpoints to outputs. *)
From Verif Require Import Base AmountModel OrdersModel PrimModel ChainModel UtxoModel.
Local Open Scope N_scope.

Record utxo_state := UtxoState { us_map : outpoint -> option utxo; us_best : N }.

Definition upd (m : outpoint -> option utxo) (k : outpoint) (o : option utxo) : outpoint -> option utxo :=
  fun k' => if decide (k = k') then o else m k'.
Definition set_map (s : utxo_state) (m : outpoint -> option utxo) : utxo_state := UtxoState m (us_best s).

(** Outputs that can be spent later by referring to them. *)
Definition spendable (o : tx_output) : bool :=
  match o with
  | OBurn _ | OCreateDelegationId _ _ | ODelegateStaking _ _ | OIssueFungibleToken _ | ODataDeposit _ | OCreateOrder _ => false
  | _ => true
  end.

(** The outpoints an input list refers to. *)
Fixpoint spent_by (ins : list tx_input) : list outpoint :=
  match ins with [] => [] | InUtxo k :: ins' => k :: spent_by ins' | _ :: ins' => spent_by ins' end.
(** The outpoints created by a list of outputs: the position is counted over all outputs. *)
Fixpoint created_from (src : source_id) (i : N) (outs : list tx_output) : list (outpoint * tx_output) :=
  match outs with
  | [] => []
  | o :: outs' => if spendable o then ((src, i), o) :: created_from src (i + 1) outs' else created_from src (i + 1) outs'
  end.
Definition created (src : source_id) (outs : list tx_output) : list (outpoint * tx_output) := created_from src 0 outs.

(** Remove each outpoint in turn; every one must be there at its turn. *)
Fixpoint take_all (m : outpoint -> option utxo) (ks : list outpoint) : option (outpoint -> option utxo) :=
  match ks with
  | [] => Some m
  | k :: ks' => match m k with Some _ => take_all (upd m k None) ks' | None => None end
  end.
Fixpoint put_all (m : outpoint -> option utxo) (src : utxo_source) (l : list (outpoint * tx_output))
  : outpoint -> option utxo :=
  match l with [] => m | (k, o) :: l' => put_all (upd m k (Some (Utxo o src))) src l' end.

Definition option_list {A} (o : option (list A)) : list A := match o with Some l => l | None => [] end.

Definition utxo_step (s : utxo_state) (o : utxo_op) : res refusal utxo_state :=
  match o with
  | OpAdd k u _ => Ok (set_map s (upd (us_map s) k (Some u)))
  | OpSpend k => match us_map s k with Some _ => Ok (set_map s (upd (us_map s) k None)) | None => Err NotThere end
  | OpUncache _ => Ok s
  | OpSetBest b => Ok (UtxoState (us_map s) b)
  | OpConnectTx tx src =>
      match take_all (us_map s) (spent_by (tx_inputs tx)) with
      | None => Err NotThere
      | Some m => Ok (set_map s (put_all m src (created (FromTx (tx_id tx)) (tx_outputs tx))))
      end
  | OpConnectReward rt b h =>
      match take_all (us_map s) (spent_by (option_list (rt_inputs rt))) with
      | None => Err NotThere
      | Some m => if forallb spendable (option_list (rt_outputs rt))
                  then Ok (set_map s (put_all m (InChain h) (created (FromReward b) (option_list (rt_outputs rt)))))
                  else Err (Other InvalidBlockRewardOutputType)
      end
  | OpAddTxOutputs tx src _ => Ok (set_map s (put_all (us_map s) src (created (FromTx (tx_id tx)) (tx_outputs tx))))
  | OpAddRewardOutputs outs src b _ =>
      Ok (set_map s (put_all (us_map s) src (map (fun io => ((FromReward b, io.1), io.2)) (enumerate outs))))
  end.

(** The caller's obligations: an output added without permission to overwrite must be new (transaction and block ids are
    hashes, so this is what unique ids give); the inputs of a block reward, if any, all refer to outputs. *)
Definition absent (m : outpoint -> option utxo) (l : list (outpoint * tx_output)) : Prop :=
  forall k o, (k, o) ∈ l -> m k = None.
Definition utxo_fits (s : utxo_state) (o : utxo_op) : Prop :=
  match o with
  | OpAdd k _ ow => ow = false -> us_map s k = None
  | OpConnectTx tx _ => absent (us_map s) (created (FromTx (tx_id tx)) (tx_outputs tx))
  | OpAddTxOutputs tx _ chk => chk = false -> absent (us_map s) (created (FromTx (tx_id tx)) (tx_outputs tx))
  | OpConnectReward rt b _ =>
      absent (us_map s) (created (FromReward b) (option_list (rt_outputs rt))) /\
      (forall ins, rt_inputs rt = Some ins -> ins <> [] /\ Forall (fun i => exists k, i = InUtxo k) ins)
  | _ => True
  end.

Definition utxo_reads (v : utxo_view) (s : utxo_state) : Prop :=
  (forall k, vw_utxo v k = us_map s k) /\ vw_best v = us_best s.
Definition utxo_db_is (db : utxo_db) (s : utxo_state) : Prop := utxo_reads (db_view db) s.

(** The operation may make the outpoint available (again). *)
Definition creates (k : outpoint) (o : utxo_op) : Prop :=
  match o with
  | OpAdd k' _ _ => k = k'
  | OpConnectTx tx _ | OpAddTxOutputs tx _ _ => k.1 = FromTx (tx_id tx)
  | OpConnectReward _ b _ | OpAddRewardOutputs _ _ b _ => k.1 = FromReward b
  | _ => False
  end.
(** The operation needs the outpoint to be available. *)
Definition consumes (k : outpoint) (o : utxo_op) : Prop :=
  match o with
  | OpSpend k' => k = k'
  | OpConnectTx tx _ => k ∈ spent_by (tx_inputs tx)
  | OpConnectReward rt _ _ => k ∈ spent_by (option_list (rt_inputs rt))
  | _ => False
  end.
