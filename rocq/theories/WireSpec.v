(** The possible values of the chain's types: numbers within their integer types, hashes and keys of their lengths, points on
    their curves, vectors short enough to be encoded. *)
From Coq Require Import Strings.Byte.
From Verif Require Import Base CodecModel CodecSpec WireModel.
Local Open Scope N_scope.

Definition is_u8 (v : N) : Prop := v < 2 ^ 8.
Definition is_u32 (v : N) : Prop := v < 2 ^ 32.
Definition is_u64 (v : N) : Prop := v < 2 ^ 64.
Definition is_u128 (v : N) : Prop := v < 2 ^ 128.
Definition is_bytes (n : nat) (b : bytes) : Prop := length b = n.
Definition is_blob (b : bytes) : Prop := N.of_nat (length b) < 2 ^ 32.
(** [DataOrNoVec] made from an empty vector is nothing *)
Definition is_data_or_none (o : option bytes) : Prop := match o with None => True | Some b => b <> [] /\ is_blob b end.

Definition valid_timelock (l : timelock) : Prop :=
  match l with LUntilHeight n | LUntilTime n | LForBlocks n | LForSeconds n => is_u64 n end.
Definition valid_supply (s : total_supply) : Prop := match s with SFixed a => is_u128 a | _ => True end.
Definition valid_source (s : source_id) : Prop := match s with SrcTx id | SrcReward id => is_bytes 32 id end.
Definition valid_outpoint (o : outpoint) : Prop := valid_source (op_source o) /\ is_u32 (op_index o).
Definition valid_order_command (c : order_command) : Prop :=
  match c with CFill id a => is_bytes 32 id /\ is_u128 a | CFreeze id | CConclude id => is_bytes 32 id end.
Definition valid_witness (w : witness) : Prop :=
  match w with WNone d => valid_option is_blob d | WStandard s raw => sighash_byte s = true /\ is_blob raw end.

Section Values.
  Context (good_key good_vrf good_preout good_proof : bytes -> bool).

  Definition valid_key (k : bytes) : Prop := length k = 33%nat /\ good_key k = true.
  Definition valid_vrf_key (k : bytes) : Prop := length k = 32%nat /\ good_vrf k = true.
  Definition valid_vrf_return (v : vrf_return) : Prop :=
    (length (vr_preout v) = 32%nat /\ good_preout (vr_preout v) = true) /\
    (length (vr_proof v) = 64%nat /\ good_proof (vr_proof v) = true).

  Definition valid_destination (d : destination) : Prop :=
    match d with
    | DAnyone => True
    | DKeyHash h | DMultisig h => is_bytes 20 h
    | DKey k => valid_key k
    | DScriptHash h => is_bytes 32 h
    end.
  Definition valid_metadata (m : metadata) : Prop :=
    valid_option valid_key (md_creator m) /\ is_blob (md_name m) /\ is_blob (md_description m) /\ is_blob (md_ticker m) /\
    is_data_or_none (md_icon_uri m) /\ is_data_or_none (md_additional_metadata_uri m) /\ is_data_or_none (md_media_uri m) /\
    is_blob (md_media_hash m).
  Definition valid_token_data (t : token_data) : Prop :=
    match t with
    | TDTransfer id a => is_bytes 32 id /\ is_u128 a
    | TDIssuance k a d u => is_blob k /\ is_u128 a /\ is_u8 d /\ is_blob u
    | TDNft m => valid_metadata m
    end.
  Definition valid_value (v : output_value) : Prop :=
    match v with
    | VCoin a => is_u128 a
    | VTokenV0 t => valid_token_data t
    | VTokenV1 id a => is_bytes 32 id /\ is_u128 a
    end.
  Definition valid_pool_data (p : pool_data) : Prop :=
    is_u128 (pd_pledge p) /\ valid_destination (pd_staker p) /\ valid_vrf_key (pd_vrf_key p) /\
    valid_destination (pd_decommission p) /\ pd_margin p <= 1000 /\ is_u128 (pd_cost p).
  Definition valid_token_issuance (t : token_issuance) : Prop :=
    is_blob (ti_ticker t) /\ is_u8 (ti_decimals t) /\ is_blob (ti_uri t) /\ valid_supply (ti_supply t) /\
    valid_destination (ti_authority t).
  Definition valid_htlc (h : htlc) : Prop :=
    is_bytes 20 (ht_secret h) /\ valid_destination (ht_spend h) /\ valid_timelock (ht_timelock h) /\
    valid_destination (ht_refund h).
  Definition valid_order_data (o : order_data) : Prop :=
    valid_destination (od_conclude o) /\ valid_value (od_ask o) /\ valid_value (od_give o).
  Definition valid_output (o : tx_output) : Prop :=
    match o with
    | OTransfer v d => valid_value v /\ valid_destination d
    | OLockThenTransfer v d l => valid_value v /\ valid_destination d /\ valid_timelock l
    | OBurn v => valid_value v
    | OCreateStakePool id p => is_bytes 32 id /\ valid_pool_data p
    | OProduceBlock d id | OCreateDelegation d id => valid_destination d /\ is_bytes 32 id
    | ODelegate a id => is_u128 a /\ is_bytes 32 id
    | OIssueToken t => valid_token_issuance t
    | OIssueNft id m d => is_bytes 32 id /\ valid_metadata m /\ valid_destination d
    | ODataDeposit b => is_blob b
    | OHtlc v h => valid_value v /\ valid_htlc h
    | OCreateOrder o => valid_order_data o
    end.
  Definition valid_command (c : account_command) : Prop :=
    match c with
    | AMint id a => is_bytes 32 id /\ is_u128 a
    | AUnmint id | ALockSupply id | AFreeze id _ | AUnfreeze id | AConcludeOrder id => is_bytes 32 id
    | AChangeAuthority id d => is_bytes 32 id /\ valid_destination d
    | AFillOrder id a d => is_bytes 32 id /\ is_u128 a /\ valid_destination d
    | AChangeUri id u => is_bytes 32 id /\ is_blob u
    end.
  Definition valid_input (i : tx_input) : Prop :=
    match i with
    | IUtxo o => valid_outpoint o
    | IDelegation n id a => is_u64 n /\ is_bytes 32 id /\ is_u128 a
    | ICommand n c => is_u64 n /\ valid_command c
    | IOrder c => valid_order_command c
    end.
  Definition valid_transaction (t : transaction) : Prop :=
    is_u128 (t_flags t) /\ valid_vec valid_input (t_inputs t) /\ valid_vec valid_output (t_outputs t).
  (** [SignedTransaction::new] (common/src/chain/transaction/signed_transaction.rs 37-49) makes no other *)
  Definition valid_signed (s : signed_transaction) : Prop :=
    valid_transaction (st_tx s) /\ valid_vec valid_witness (st_witnesses s) /\
    length (st_witnesses s) = length (t_inputs (st_tx s)).
  Definition valid_consensus (c : consensus_data) : Prop :=
    match c with
    | KNone => True
    | KPow b n => is_u32 b /\ is_u128 n
    | KPos i w p v t => valid_vec valid_input i /\ valid_vec valid_witness w /\ is_bytes 32 p /\ valid_vrf_return v /\ is_u32 t
    end.
  Definition valid_header (h : header) : Prop :=
    is_bytes 32 (h_prev h) /\ is_bytes 32 (h_tx_root h) /\ is_bytes 32 (h_witness_root h) /\ is_u64 (h_time h) /\
    valid_consensus (h_consensus h).
  Definition valid_signed_header (s : signed_header) : Prop :=
    valid_header (sh_header s) /\ valid_option (is_bytes 64) (sh_signature s).
  Definition valid_block (b : block) : Prop :=
    valid_signed_header (b_header b) /\ valid_vec valid_output (b_reward b) /\ valid_vec valid_signed (b_txs b).
End Values.

(** These two byte strings are a collision of the hash function: they differ and have the same hash. Some pair always does, so
    a statement must name the pair, which anybody could then write down *)
Definition collide (hash : bytes -> bytes) (x y : bytes) : Prop := x <> y /\ hash x = hash y.
