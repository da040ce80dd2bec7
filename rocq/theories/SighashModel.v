(** Model of what is hashed and signed when an input is signed, from common/src/chain/transaction/signature/sighash and
    common/src/chain/transaction/signature/inputsig/arbitrary_message. The hash function gets its input in pieces; the model
    gives the bytes it gets altogether ([sighash_stream]), since a hash of pieces is the hash of their concatenation. *)
From Coq Require Import Strings.Byte.
From Verif Require Import Base CodecModel WireModel.
Local Open Scope N_scope.

(** common/src/chain/transaction/signature/sighash/input_commitments/mod.rs 57-115: [SighashInputCommitment] *)
Inductive commitment :=
| MNone
| MUtxo (o : tx_output)
| MStake (o : tx_output) (staker_balance : N)
| MFill (asked given : output_value)
| MConclude (asked given : output_value) (ask_balance give_balance : N).
Definition enc_commitment (c : commitment) : bytes :=
  match c with
  | MNone => [x00]
  | MUtxo o => x01 :: enc_output o
  | MStake o b => x02 :: enc_output o ++ enc_amount b
  | MFill a g => x03 :: enc_value a ++ enc_value g
  | MConclude a g ab gb => x04 :: enc_value a ++ enc_value g ++ enc_amount ab ++ enc_amount gb
  end.

(** common/src/chain/transaction/signature/mod.rs 110-115: [Signable]; for a transaction (transaction/mod.rs 70-86) all four
    are there, for a block reward (block/block_reward.rs 72-88) there is neither a version nor flags *)
Record signable := Signable {
  sg_version : option byte; sg_flags : option N; sg_inputs : option (list tx_input); sg_outputs : option (list tx_output) }.
Definition of_transaction (t : transaction) : signable :=
  Signable (Some x01) (Some (t_flags t)) (Some (t_inputs t)) (Some (t_outputs t)).
Definition of_reward (inputs : option (list tx_input)) (outputs : option (list tx_output)) : signable :=
  Signable None None inputs outputs.

(** common/src/chain/transaction/signature/sighash/sighashtype.rs 40-62, 77-106 *)
Inductive inputs_mode := CommitWhoPays | AnyoneCanPay.
Inductive outputs_mode := OutAll | OutNone | OutSingle.
Definition inputs_of (m : byte) : inputs_mode := if N.land (Byte.to_N m) 128 =? 128 then AnyoneCanPay else CommitWhoPays.
Definition outputs_of (m : byte) : outputs_mode :=
  let o := N.land (Byte.to_N m) 127 in
  if o =? 2 then OutNone else if o =? 3 then OutSingle else OutAll.

(** common/src/chain/transaction/signature/mod.rs 41-58, the cases made here *)
Inductive sig_error :=
| ENoInputs | EIndex (i n : nat) | ECommitments (c n : nat).

(** sighash/hashable.rs 37-60: the outputs; an absent list counts as empty (sighash/mod.rs 59) *)
Definition stream_outputs (outs : list tx_output) (m : byte) (i : nat) : res sig_error bytes :=
  match outputs_of m with
  | OutAll => Ok (enc_vec enc_output outs)
  | OutNone => Ok []
  | OutSingle => let? o := ok_or (outs !! i) (EIndex i (length outs)) in Ok (enc_output o)
  end.
(** sighash/hashable.rs 69-125: [SignatureHashableInputs]; the number of inputs is cut to 32 bits *)
Definition stream_inputs (ins : list tx_input) (cs : list commitment) (m : byte) (target : tx_input) (i : nat) : res sig_error bytes :=
  ensure (length cs =? length ins)%nat (ECommitments (length cs) (length ins)) ;?
  ensure (i <? length ins)%nat (EIndex i (length ins)) ;?
  match inputs_of m with
  | CommitWhoPays =>
      Ok (enc_u32 (N.of_nat (length ins)) ++ concat (map enc_input ins) ++
          enc_u32 (N.of_nat (length cs)) ++ concat (map enc_commitment cs))
  | AnyoneCanPay => let? c := expect (cs !! i) in Ok (enc_input target ++ enc_commitment c)
  end.
(** sighash/mod.rs 34-64: [stream_signature_hash] *)
Definition sighash_stream (tx : signable) (cs : list commitment) (m : byte) (i : nat) : res sig_error bytes :=
  let? ins := ok_or (sg_inputs tx) ENoInputs in
  let? target := ok_or (ins !! i) (EIndex i (length ins)) in
  let? bi := stream_inputs ins cs m target i in
  let? bo := stream_outputs (match sg_outputs tx with Some o => o | None => [] end) m i in
  Ok (enc_byte m ++ (match sg_version tx with Some v => enc_byte v | None => [] end) ++
      (match sg_flags tx with Some f => enc_uint 16 f | None => [] end) ++ bi ++ bo).
(** sighash/mod.rs 66-78: [signature_hash] *)
Definition signature_hash (hash : bytes -> bytes) (m : byte) (tx : signable) (cs : list commitment) (i : nat) : res sig_error bytes :=
  rmap hash (sighash_stream tx cs m i).

(** ** What the inputs are committed to *)
(** sighash/input_commitments/info_providers.rs 23-34 *)
Record order_info := OrderInfo { oi_asked : output_value; oi_given : output_value; oi_ask_balance : N; oi_give_balance : N }.
Inductive commit_error := EUtxoNotFound (i : nat) | EPoolNotFound (i : nat) | EOrderNotFound (i : nat) | ENonUtxo (i : nat).
Inductive commitment_version := CV0 | CV1.

Section Commitments.
  (** The providers, which look up an output spent, a pool's staker balance and an order; their own errors are not modelled *)
  Context (utxo : nat -> outpoint -> option tx_output) (pool : bytes -> option N) (order : bytes -> option order_info).

  (** input_commitments/mod.rs 326-414: [make_sighash_input_commitment_v1_for_one_transaction_input] *)
  Definition commitment_v1 (input : tx_input) (i : nat) : res commit_error commitment :=
    match input with
    | IUtxo p =>
        let? o := ok_or (utxo i p) (EUtxoNotFound i) in
        match o with
        | OProduceBlock _ id => let? b := ok_or (pool id) (EPoolNotFound i) in Ok (MStake o b)
        | _ => Ok (MUtxo o)
        end
    | IDelegation _ _ _ => Ok MNone
    | ICommand _ (AConcludeOrder id) | IOrder (CConclude id) =>
        let? d := ok_or (order id) (EOrderNotFound i) in
        Ok (MConclude (oi_asked d) (oi_given d) (oi_ask_balance d) (oi_give_balance d))
    | ICommand _ (AFillOrder id _ _) | IOrder (CFill id _) =>
        let? d := ok_or (order id) (EOrderNotFound i) in Ok (MFill (oi_asked d) (oi_given d))
    | ICommand _ _ | IOrder (CFreeze _) => Ok MNone
    end.
  (** input_commitments/mod.rs 273-299 *)
  Definition commitment_v0 (input : tx_input) (i : nat) : res commit_error commitment :=
    commitment_v1 input i ;?
    match input with
    | IUtxo p => let? o := ok_or (utxo i p) (EUtxoNotFound i) in Ok (MUtxo o)
    | _ => Ok MNone
    end.
  (** [iter().enumerate().map(f).collect()] *)
  Fixpoint commit_from (f : tx_input -> nat -> res commit_error commitment) (i : nat) (ins : list tx_input) : res commit_error (list commitment) :=
    match ins with
    | [] => Ok []
    | a :: ins => let? c := f a i in let? cs := commit_from f (S i) ins in Ok (c :: cs)
    end.
  (** input_commitments/mod.rs 235-324: [make_sighash_input_commitments_for_transaction_inputs] *)
  Definition make_commitments (v : commitment_version) (ins : list tx_input) : res commit_error (list commitment) :=
    commit_from (match v with CV0 => commitment_v0 | CV1 => commitment_v1 end) 0 ins.
  (** input_commitments/mod.rs 151-197: [make_sighash_input_commitments_for_kernel_inputs] *)
  Definition make_kernel_commitments (ins : list tx_input) : res commit_error (list commitment) :=
    commit_from (fun input i =>
      match input with
      | IUtxo p => let? o := ok_or (utxo i p) (EUtxoNotFound i) in Ok (MUtxo o)
      | _ => Err (ENonUtxo i)
      end) 0 ins.
End Commitments.

(** ** Messages *)
(** arbitrary_message/mod.rs 16-17: "===MINTLAYER MESSAGE BEGIN===\n" and "\n===MINTLAYER MESSAGE END===" *)
Definition message_prefix : bytes :=
  [x3d;x3d;x3d;x4d;x49;x4e;x54;x4c;x41;x59;x45;x52;x20;x4d;x45;x53;x53;x41;x47;x45;x20;x42;x45;x47;x49;x4e;x3d;x3d;x3d;x0a].
Definition message_suffix : bytes :=
  [x0a;x3d;x3d;x3d;x4d;x49;x4e;x54;x4c;x41;x59;x45;x52;x20;x4d;x45;x53;x53;x41;x47;x45;x20;x45;x4e;x44;x3d;x3d;x3d].
(** arbitrary_message/mod.rs 61-68: [produce_message_challenge] *)
Definition message_stream (msg : bytes) : bytes := message_prefix ++ msg ++ message_suffix.
Definition message_challenge (hash : bytes -> bytes) (msg : bytes) : bytes := hash (message_stream msg).
