(** Model of the byte encoding of transactions, headers and blocks: what is hashed into their ids, what is sent over the
    network and what is stored. Every type is modelled with all its variants. Hashes, public keys, signatures and VRF data
    are modelled as the bytes they are encoded to; whether 33 bytes are a point of the curve, and the same questions about
    VRF keys, VRF outputs and VRF proofs, are parameters of the model ([good_key] and so on), since the curves are in
    external crates. An encoder is total; a decoder gives the value and the rest of the input or fails. The derives
    [Encode] and [Decode] of the codec crate write the index of an enum's variant as one byte and then its fields, and the
    fields of a struct one after the other. *)
From Coq Require Import Strings.Byte.
From Verif Require Import Base CodecModel.
Local Open Scope N_scope.

(** ** Numbers, hashes and keys *)
(** common/src/primitives/amount/mod.rs 54-58: [Amount] is a compact u128 *)
Definition enc_amount (a : N) : bytes := enc_compact a.
Definition dec_amount : decoder N := dec_compact 16.
(** common/src/primitives/height.rs, common/src/chain/block/timestamp.rs 37-40 and
    common/src/chain/transaction/account_nonce.rs 20-34: [BlockHeight], [BlockTimestamp] and [AccountNonce] are compact u64 *)
Definition enc_u64c (a : N) : bytes := enc_compact a.
Definition dec_u64c : decoder N := dec_compact 8.
(** common/src/primitives/id/mod.rs: [Id<T>] is a [H256], 32 bytes *)
Definition enc_id (h : bytes) : bytes := enc_array h.
Definition dec_id : decoder bytes := dec_array 32.
(** common/src/address/pubkeyhash.rs 36-39: [PublicKeyHash]; common/src/chain/transaction/output/htlc.rs 98-100: [HtlcSecretHash] *)
Definition enc_hash20 (h : bytes) : bytes := enc_array h.
Definition dec_hash20 : decoder bytes := dec_array 20.
(** [u8] fields *)
Definition enc_u8 (v : N) : bytes := enc_uint 1 v.
Definition dec_u8 : decoder N := dec_uint 1.
(** [u32] fields, [Compact] (common/src/primitives/compact.rs) *)
Definition enc_u32 (v : N) : bytes := enc_uint 4 v.
Definition dec_u32 : decoder N := dec_uint 4.
(** [Vec<u8>] *)
Definition enc_blob (b : bytes) : bytes := enc_vec enc_byte b.
Definition dec_blob : decoder bytes := dec_vec dec_byte.
(** common/src/primitives/per_thousand.rs 28-29, 116-124: [PerThousand] *)
Definition enc_per_thousand (v : N) : bytes := enc_uint 2 v.
Definition dec_per_thousand : decoder N := let! v := dec_uint 2 in dguard (v <=? 1000) ;! dret v.
(** serialization/src/extras/non_empty_vec.rs 39-83: [DataOrNoVec]: nothing is encoded as an empty vector, which is decoded as nothing *)
Definition enc_data_or_none (o : option bytes) : bytes := match o with None => enc_blob [] | Some b => enc_blob b end.
Definition dec_data_or_none : decoder (option bytes) :=
  let! b := dec_blob in dret (match b with [] => None | _ => Some b end).

(** crypto/src/key/mod.rs, crypto/src/key/secp256k1/mod.rs 116-120: [PublicKey]: the index of the key kind and 33 bytes *)
Definition enc_key (k : bytes) : bytes := x00 :: enc_array k.
(** crypto/src/vrf/mod.rs 69-106, crypto/src/vrf/schnorrkel/mod.rs 92-101: [VRFPublicKey] *)
Definition enc_vrf_key (k : bytes) : bytes := x00 :: enc_array k.
(** crypto/src/key/signature/mod.rs 40-74: [Signature]: the kind and 64 bytes; [from_slice] only checks the length *)
Definition enc_signature (s : bytes) : bytes := x00 :: enc_array s.
Definition dec_signature : decoder bytes := let! t := dec_byte in match t with x00 => dec_array 64 | _ => dfail end.
(** crypto/src/vrf/primitives.rs, crypto/src/vrf/schnorrkel/data.rs 31-82: [VRFReturn]: the kind, the output and the proof *)
Record vrf_return := VrfReturn { vr_preout : bytes; vr_proof : bytes }.
Definition enc_vrf_return (v : vrf_return) : bytes := x00 :: enc_array (vr_preout v) ++ enc_array (vr_proof v).

(** ** The parts of outputs and inputs *)
(** common/src/chain/transaction/output/mod.rs 52-64: [Destination] *)
Inductive destination :=
  DAnyone | DKeyHash (h : bytes) | DKey (k : bytes) | DScriptHash (h : bytes) | DMultisig (h : bytes).
Definition enc_destination (d : destination) : bytes :=
  match d with
  | DAnyone => [x00]
  | DKeyHash h => x01 :: enc_hash20 h
  | DKey k => x02 :: enc_key k
  | DScriptHash h => x03 :: enc_id h
  | DMultisig h => x04 :: enc_hash20 h
  end.

(** common/src/chain/transaction/output/timelock.rs 37-46: [OutputTimeLock] *)
Inductive timelock := LUntilHeight (h : N) | LUntilTime (t : N) | LForBlocks (n : N) | LForSeconds (n : N).
Definition enc_timelock (l : timelock) : bytes :=
  match l with
  | LUntilHeight h => x00 :: enc_u64c h
  | LUntilTime t => x01 :: enc_u64c t
  | LForBlocks n => x02 :: enc_u64c n
  | LForSeconds n => x03 :: enc_u64c n
  end.
Definition dec_timelock : decoder timelock :=
  let! t := dec_byte in
  match t with
  | x00 => let! a := dec_u64c in dret (LUntilHeight a)
  | x01 => let! a := dec_u64c in dret (LUntilTime a)
  | x02 => let! a := dec_u64c in dret (LForBlocks a)
  | x03 => let! a := dec_u64c in dret (LForSeconds a)
  | _ => dfail
  end.

(** common/src/chain/tokens/nft.rs 72-103: [Metadata] with its [TokenCreator]; [NftIssuanceV0] (48-52) has no other field *)
Record metadata := Metadata {
  md_creator : option bytes; md_name : bytes; md_description : bytes; md_ticker : bytes;
  md_icon_uri : option bytes; md_additional_metadata_uri : option bytes; md_media_uri : option bytes; md_media_hash : bytes }.
Definition enc_metadata (m : metadata) : bytes :=
  enc_option enc_key (md_creator m) ++ enc_blob (md_name m) ++ enc_blob (md_description m) ++ enc_blob (md_ticker m) ++
  enc_data_or_none (md_icon_uri m) ++ enc_data_or_none (md_additional_metadata_uri m) ++ enc_data_or_none (md_media_uri m) ++
  enc_blob (md_media_hash m).

(** common/src/chain/tokens/mod.rs 73-120: [TokenData] with [TokenTransfer] and [TokenIssuanceV0]; the indices start at 1 *)
Inductive token_data :=
| TDTransfer (id : bytes) (amount : N)
| TDIssuance (ticker : bytes) (amount : N) (decimals : N) (uri : bytes)
| TDNft (m : metadata).
Definition enc_token_data (t : token_data) : bytes :=
  match t with
  | TDTransfer id a => x01 :: enc_id id ++ enc_amount a
  | TDIssuance tk a d u => x02 :: enc_blob tk ++ enc_amount a ++ enc_u8 d ++ enc_blob u
  | TDNft m => x03 :: enc_metadata m
  end.

(** common/src/chain/transaction/output/output_value.rs 40-47: [OutputValue] *)
Inductive output_value := VCoin (a : N) | VTokenV0 (t : token_data) | VTokenV1 (id : bytes) (a : N).
Definition enc_value (v : output_value) : bytes :=
  match v with
  | VCoin a => x00 :: enc_amount a
  | VTokenV0 t => x01 :: enc_token_data t
  | VTokenV1 id a => x02 :: enc_id id ++ enc_amount a
  end.

(** common/src/chain/transaction/output/stakelock.rs 35-48: [StakePoolData] *)
Record pool_data := PoolData {
  pd_pledge : N; pd_staker : destination; pd_vrf_key : bytes; pd_decommission : destination; pd_margin : N; pd_cost : N }.
Definition enc_pool_data (p : pool_data) : bytes :=
  enc_amount (pd_pledge p) ++ enc_destination (pd_staker p) ++ enc_vrf_key (pd_vrf_key p) ++
  enc_destination (pd_decommission p) ++ enc_per_thousand (pd_margin p) ++ enc_amount (pd_cost p).

(** common/src/chain/tokens/issuance.rs 35-43: [TokenTotalSupply] *)
Inductive total_supply := SFixed (a : N) | SLockable | SUnlimited.
Definition enc_supply (s : total_supply) : bytes :=
  match s with SFixed a => x00 :: enc_amount a | SLockable => [x01] | SUnlimited => [x02] end.
Definition dec_supply : decoder total_supply :=
  let! t := dec_byte in
  match t with
  | x00 => let! a := dec_amount in dret (SFixed a)
  | x01 => dret SLockable
  | x02 => dret SUnlimited
  | _ => dfail
  end.
(** common/src/chain/tokens/issuance.rs 59-64, 90-95: [IsTokenFreezable], [IsTokenUnfreezable] *)
Definition enc_yes_no (b : bool) : bytes := [if b then x01 else x00].
Definition dec_yes_no : decoder bool :=
  let! t := dec_byte in match t with x00 => dret false | x01 => dret true | _ => dfail end.

(** common/src/chain/tokens/issuance.rs 143-168: [TokenIssuance]; its only variant has index 1 *)
Record token_issuance := TokenIssuance {
  ti_ticker : bytes; ti_decimals : N; ti_uri : bytes; ti_supply : total_supply; ti_authority : destination; ti_freezable : bool }.
Definition enc_token_issuance (t : token_issuance) : bytes :=
  x01 :: enc_blob (ti_ticker t) ++ enc_u8 (ti_decimals t) ++ enc_blob (ti_uri t) ++ enc_supply (ti_supply t) ++
  enc_destination (ti_authority t) ++ enc_yes_no (ti_freezable t).

(** common/src/chain/transaction/output/htlc.rs 28-37: [HashedTimelockContract] *)
Record htlc := Htlc { ht_secret : bytes; ht_spend : destination; ht_timelock : timelock; ht_refund : destination }.
Definition enc_htlc (h : htlc) : bytes :=
  enc_hash20 (ht_secret h) ++ enc_destination (ht_spend h) ++ enc_timelock (ht_timelock h) ++ enc_destination (ht_refund h).

(** common/src/chain/order/mod.rs 30-41: [OrderData] *)
Record order_data := OrderData { od_conclude : destination; od_ask : output_value; od_give : output_value }.
Definition enc_order_data (o : order_data) : bytes :=
  enc_destination (od_conclude o) ++ enc_value (od_ask o) ++ enc_value (od_give o).

(** common/src/chain/transaction/output/mod.rs 121-179: [TxOutput] *)
Inductive tx_output :=
| OTransfer (v : output_value) (d : destination)
| OLockThenTransfer (v : output_value) (d : destination) (l : timelock)
| OBurn (v : output_value)
| OCreateStakePool (id : bytes) (p : pool_data)
| OProduceBlock (d : destination) (id : bytes)
| OCreateDelegation (d : destination) (id : bytes)
| ODelegate (a : N) (id : bytes)
| OIssueToken (t : token_issuance)
| OIssueNft (id : bytes) (m : metadata) (d : destination)
| ODataDeposit (b : bytes)
| OHtlc (v : output_value) (h : htlc)
| OCreateOrder (o : order_data).
(** common/src/chain/tokens/nft.rs 31-34: [NftIssuance] has one variant, with index 0 *)
Definition enc_output (o : tx_output) : bytes :=
  match o with
  | OTransfer v d => x00 :: enc_value v ++ enc_destination d
  | OLockThenTransfer v d l => x01 :: enc_value v ++ enc_destination d ++ enc_timelock l
  | OBurn v => x02 :: enc_value v
  | OCreateStakePool id p => x03 :: enc_id id ++ enc_pool_data p
  | OProduceBlock d id => x04 :: enc_destination d ++ enc_id id
  | OCreateDelegation d id => x05 :: enc_destination d ++ enc_id id
  | ODelegate a id => x06 :: enc_amount a ++ enc_id id
  | OIssueToken t => x07 :: enc_token_issuance t
  | OIssueNft id m d => x08 :: enc_id id ++ (x00 :: enc_metadata m) ++ enc_destination d
  | ODataDeposit b => x09 :: enc_blob b
  | OHtlc v h => x0a :: enc_value v ++ enc_htlc h
  | OCreateOrder o => x0b :: enc_order_data o
  end.

(** common/src/chain/transaction/utxo_outpoint.rs 34-39, 86-89: [OutPointSourceId] and [UtxoOutPoint] *)
Inductive source_id := SrcTx (id : bytes) | SrcReward (id : bytes).
Record outpoint := Outpoint { op_source : source_id; op_index : N }.
Definition enc_source (s : source_id) : bytes :=
  match s with SrcTx id => x00 :: enc_id id | SrcReward id => x01 :: enc_id id end.
Definition dec_source : decoder source_id :=
  let! t := dec_byte in
  match t with
  | x00 => let! id := dec_id in dret (SrcTx id)
  | x01 => let! id := dec_id in dret (SrcReward id)
  | _ => dfail
  end.
Definition enc_outpoint (o : outpoint) : bytes := enc_source (op_source o) ++ enc_u32 (op_index o).
Definition dec_outpoint : decoder outpoint :=
  let! s := dec_source in let! i := dec_u32 in dret (Outpoint s i).

(** common/src/chain/transaction/account_outpoint.rs 118-154: [AccountCommand] *)
Inductive account_command :=
| AMint (id : bytes) (a : N) | AUnmint (id : bytes) | ALockSupply (id : bytes) | AFreeze (id : bytes) (unfreezable : bool)
| AUnfreeze (id : bytes) | AChangeAuthority (id : bytes) (d : destination) | AConcludeOrder (id : bytes)
| AFillOrder (id : bytes) (a : N) (d : destination) | AChangeUri (id : bytes) (uri : bytes).
Definition enc_command (c : account_command) : bytes :=
  match c with
  | AMint id a => x00 :: enc_id id ++ enc_amount a
  | AUnmint id => x01 :: enc_id id
  | ALockSupply id => x02 :: enc_id id
  | AFreeze id u => x03 :: enc_id id ++ enc_yes_no u
  | AUnfreeze id => x04 :: enc_id id
  | AChangeAuthority id d => x05 :: enc_id id ++ enc_destination d
  | AConcludeOrder id => x06 :: enc_id id
  | AFillOrder id a d => x07 :: enc_id id ++ enc_amount a ++ enc_destination d
  | AChangeUri id u => x08 :: enc_id id ++ enc_blob u
  end.
(** common/src/chain/transaction/account_outpoint.rs 219-234: [OrderAccountCommand] *)
Inductive order_command := CFill (id : bytes) (a : N) | CFreeze (id : bytes) | CConclude (id : bytes).
Definition enc_order_command (c : order_command) : bytes :=
  match c with
  | CFill id a => x00 :: enc_id id ++ enc_amount a
  | CFreeze id => x01 :: enc_id id
  | CConclude id => x02 :: enc_id id
  end.
Definition dec_order_command : decoder order_command :=
  let! t := dec_byte in
  match t with
  | x00 => let! id := dec_id in let! a := dec_amount in dret (CFill id a)
  | x01 => let! id := dec_id in dret (CFreeze id)
  | x02 => let! id := dec_id in dret (CConclude id)
  | _ => dfail
  end.

(** common/src/chain/transaction/input.rs 39-48: [TxInput]; account_outpoint.rs 97-101, 186-192: [AccountSpending] has one
    variant, with index 0, and [AccountOutPoint] is the nonce and the spending *)
Inductive tx_input :=
| IUtxo (o : outpoint)
| IDelegation (nonce : N) (id : bytes) (a : N)
| ICommand (nonce : N) (c : account_command)
| IOrder (c : order_command).
Definition enc_input (i : tx_input) : bytes :=
  match i with
  | IUtxo o => x00 :: enc_outpoint o
  | IDelegation n id a => x01 :: enc_u64c n ++ (x00 :: enc_id id ++ enc_amount a)
  | ICommand n c => x02 :: enc_u64c n ++ enc_command c
  | IOrder c => x03 :: enc_order_command c
  end.

(** ** Transactions *)
(** common/src/chain/transaction/transaction_v1.rs 25-32 and mod.rs 64-68: [Transaction] is encoded as [TransactionV1]
    (direct encoding: the version tag is the index) *)
Record transaction := Transaction { t_flags : N; t_inputs : list tx_input; t_outputs : list tx_output }.
Definition enc_transaction (t : transaction) : bytes :=
  enc_tag x01 ++ enc_compact (t_flags t) ++ enc_vec enc_input (t_inputs t) ++ enc_vec enc_output (t_outputs t).

(** common/src/chain/transaction/signature/sighash/sighashtype.rs 64-75: the bytes [SigHashType::try_from] accepts *)
Definition sighash_byte (b : byte) : bool :=
  match b with x01 | x02 | x03 | x81 | x82 | x83 => true | _ => false end.
(** common/src/chain/transaction/signature/inputsig/mod.rs 44-50, standard_signature.rs 51-55, 186-225: [InputWitness] *)
Inductive witness := WNone (data : option bytes) | WStandard (sighash : byte) (raw : bytes).
Definition enc_witness (w : witness) : bytes :=
  match w with
  | WNone d => x00 :: enc_option enc_blob d
  | WStandard s raw => x01 :: enc_byte s ++ enc_blob raw
  end.
Definition dec_witness : decoder witness :=
  let! t := dec_byte in
  match t with
  | x00 => let! d := dec_option dec_blob in dret (WNone d)
  | x01 => let! s := dec_byte in dguard (sighash_byte s) ;! let! raw := dec_blob in dret (WStandard s raw)
  | _ => dfail
  end.

(** common/src/chain/transaction/signed_transaction.rs 30-34, 125-141: [SignedTransaction] *)
Record signed_transaction := SignedTransaction { st_tx : transaction; st_witnesses : list witness }.
Definition enc_signed (s : signed_transaction) : bytes := enc_transaction (st_tx s) ++ enc_vec enc_witness (st_witnesses s).

(** ** Blocks *)
(** common/src/chain/block/consensus_data.rs 27-35, 62-80, 120-124: [ConsensusData] *)
Inductive consensus_data :=
| KNone
| KPow (bits : N) (nonce : N)
| KPos (inputs : list tx_input) (witnesses : list witness) (pool : bytes) (vrf : vrf_return) (target : N).
Definition enc_consensus (c : consensus_data) : bytes :=
  match c with
  | KNone => [x00]
  | KPow b n => x01 :: enc_u32 b ++ enc_uint 16 n
  | KPos i w p v t => x02 :: enc_vec enc_input i ++ enc_vec enc_witness w ++ enc_id p ++ enc_vrf_return v ++ enc_u32 t
  end.
(** common/src/chain/block/block_header.rs 25-33: [BlockHeader] *)
Record header := Header { h_prev : bytes; h_tx_root : bytes; h_witness_root : bytes; h_time : N; h_consensus : consensus_data }.
Definition enc_header (h : header) : bytes :=
  enc_tag x01 ++ enc_id (h_prev h) ++ enc_id (h_tx_root h) ++ enc_id (h_witness_root h) ++ enc_u64c (h_time h) ++
  enc_consensus (h_consensus h).
(** common/src/chain/block/signed_block_header.rs 46-58: [SignedBlockHeader] *)
Record signed_header := SignedHeader { sh_header : header; sh_signature : option bytes }.
Definition enc_signed_header (s : signed_header) : bytes :=
  enc_header (sh_header s) ++ match sh_signature s with None => [x00] | Some g => x01 :: enc_signature g end.
(** common/src/chain/block/mod.rs 70-74, block_v1.rs 31-35, block_body/mod.rs 41-45, block_reward.rs 27-30: [Block] *)
Record block := Block { b_header : signed_header; b_reward : list tx_output; b_txs : list signed_transaction }.
Definition enc_block (b : block) : bytes :=
  enc_signed_header (b_header b) ++ enc_vec enc_output (b_reward b) ++ enc_vec enc_signed (b_txs b).

(** ** Decoders that read curve points *)
Section Decoders.
  Context (good_key good_vrf good_preout good_proof : bytes -> bool).

  (** crypto/src/key/secp256k1/mod.rs 122-129 *)
  Definition dec_key : decoder bytes :=
    let! t := dec_byte in
    match t with x00 => let! k := dec_array 33 in dguard (good_key k) ;! dret k | _ => dfail end.
  (** crypto/src/vrf/schnorrkel/mod.rs 103-116 *)
  Definition dec_vrf_key : decoder bytes :=
    let! t := dec_byte in
    match t with x00 => let! k := dec_array 32 in dguard (good_vrf k) ;! dret k | _ => dfail end.
  (** crypto/src/vrf/schnorrkel/data.rs 64-82 *)
  Definition dec_vrf_return : decoder vrf_return :=
    let! t := dec_byte in
    match t with
    | x00 => let! a := dec_array 32 in dguard (good_preout a) ;!
             let! p := dec_array 64 in dguard (good_proof p) ;! dret (VrfReturn a p)
    | _ => dfail
    end.

  Definition dec_destination : decoder destination :=
    let! t := dec_byte in
    match t with
    | x00 => dret DAnyone
    | x01 => let! h := dec_hash20 in dret (DKeyHash h)
    | x02 => let! k := dec_key in dret (DKey k)
    | x03 => let! h := dec_id in dret (DScriptHash h)
    | x04 => let! h := dec_hash20 in dret (DMultisig h)
    | _ => dfail
    end.
  Definition dec_metadata : decoder metadata :=
    let! c := dec_option dec_key in let! n := dec_blob in let! d := dec_blob in let! t := dec_blob in
    let! i := dec_data_or_none in let! a := dec_data_or_none in let! m := dec_data_or_none in let! h := dec_blob in
    dret (Metadata c n d t i a m h).
  Definition dec_token_data : decoder token_data :=
    let! t := dec_byte in
    match t with
    | x01 => let! id := dec_id in let! a := dec_amount in dret (TDTransfer id a)
    | x02 => let! k := dec_blob in let! a := dec_amount in let! d := dec_u8 in let! u := dec_blob in dret (TDIssuance k a d u)
    | x03 => let! m := dec_metadata in dret (TDNft m)
    | _ => dfail
    end.
  Definition dec_value : decoder output_value :=
    let! t := dec_byte in
    match t with
    | x00 => let! a := dec_amount in dret (VCoin a)
    | x01 => let! d := dec_token_data in dret (VTokenV0 d)
    | x02 => let! id := dec_id in let! a := dec_amount in dret (VTokenV1 id a)
    | _ => dfail
    end.
  Definition dec_pool_data : decoder pool_data :=
    let! p := dec_amount in let! s := dec_destination in let! v := dec_vrf_key in let! d := dec_destination in
    let! m := dec_per_thousand in let! c := dec_amount in dret (PoolData p s v d m c).
  Definition dec_token_issuance : decoder token_issuance :=
    let! t := dec_byte in
    match t with
    | x01 => let! k := dec_blob in let! d := dec_u8 in let! u := dec_blob in let! s := dec_supply in
             let! a := dec_destination in let! f := dec_yes_no in dret (TokenIssuance k d u s a f)
    | _ => dfail
    end.
  Definition dec_htlc : decoder htlc :=
    let! s := dec_hash20 in let! d := dec_destination in let! l := dec_timelock in let! r := dec_destination in
    dret (Htlc s d l r).
  Definition dec_order_data : decoder order_data :=
    let! c := dec_destination in let! a := dec_value in let! g := dec_value in dret (OrderData c a g).
  Definition dec_output : decoder tx_output :=
    let! t := dec_byte in
    match t with
    | x00 => let! v := dec_value in let! d := dec_destination in dret (OTransfer v d)
    | x01 => let! v := dec_value in let! d := dec_destination in let! l := dec_timelock in dret (OLockThenTransfer v d l)
    | x02 => let! v := dec_value in dret (OBurn v)
    | x03 => let! id := dec_id in let! p := dec_pool_data in dret (OCreateStakePool id p)
    | x04 => let! d := dec_destination in let! id := dec_id in dret (OProduceBlock d id)
    | x05 => let! d := dec_destination in let! id := dec_id in dret (OCreateDelegation d id)
    | x06 => let! a := dec_amount in let! id := dec_id in dret (ODelegate a id)
    | x07 => let! t := dec_token_issuance in dret (OIssueToken t)
    | x08 => let! id := dec_id in dec_tag x00 ;! let! m := dec_metadata in let! d := dec_destination in dret (OIssueNft id m d)
    | x09 => let! b := dec_blob in dret (ODataDeposit b)
    | x0a => let! v := dec_value in let! h := dec_htlc in dret (OHtlc v h)
    | x0b => let! o := dec_order_data in dret (OCreateOrder o)
    | _ => dfail
    end.
  Definition dec_command : decoder account_command :=
    let! t := dec_byte in
    match t with
    | x00 => let! id := dec_id in let! a := dec_amount in dret (AMint id a)
    | x01 => let! id := dec_id in dret (AUnmint id)
    | x02 => let! id := dec_id in dret (ALockSupply id)
    | x03 => let! id := dec_id in let! u := dec_yes_no in dret (AFreeze id u)
    | x04 => let! id := dec_id in dret (AUnfreeze id)
    | x05 => let! id := dec_id in let! d := dec_destination in dret (AChangeAuthority id d)
    | x06 => let! id := dec_id in dret (AConcludeOrder id)
    | x07 => let! id := dec_id in let! a := dec_amount in let! d := dec_destination in dret (AFillOrder id a d)
    | x08 => let! id := dec_id in let! u := dec_blob in dret (AChangeUri id u)
    | _ => dfail
    end.
  Definition dec_input : decoder tx_input :=
    let! t := dec_byte in
    match t with
    | x00 => let! o := dec_outpoint in dret (IUtxo o)
    | x01 => let! n := dec_u64c in dec_tag x00 ;! let! id := dec_id in let! a := dec_amount in dret (IDelegation n id a)
    | x02 => let! n := dec_u64c in let! c := dec_command in dret (ICommand n c)
    | x03 => let! c := dec_order_command in dret (IOrder c)
    | _ => dfail
    end.
  Definition dec_transaction : decoder transaction :=
    dec_tag x01 ;! let! f := dec_compact 16 in let! i := dec_vec dec_input in let! o := dec_vec dec_output in
    dret (Transaction f i o).
  Definition dec_signed : decoder signed_transaction :=
    let! t := dec_transaction in let! w := dec_vec dec_witness in
    dguard (length w =? length (t_inputs t))%nat ;! dret (SignedTransaction t w).
  Definition dec_consensus : decoder consensus_data :=
    let! t := dec_byte in
    match t with
    | x00 => dret KNone
    | x01 => let! b := dec_u32 in let! n := dec_uint 16 in dret (KPow b n)
    | x02 => let! i := dec_vec dec_input in let! w := dec_vec dec_witness in let! p := dec_id in
             let! v := dec_vrf_return in let! t := dec_u32 in dret (KPos i w p v t)
    | _ => dfail
    end.
  Definition dec_header : decoder header :=
    dec_tag x01 ;! let! p := dec_id in let! t := dec_id in let! w := dec_id in let! m := dec_u64c in
    let! c := dec_consensus in dret (Header p t w m c).
  Definition dec_signed_header : decoder signed_header :=
    let! h := dec_header in
    let! t := dec_byte in
    match t with
    | x00 => dret (SignedHeader h None)
    | x01 => let! g := dec_signature in dret (SignedHeader h (Some g))
    | _ => dfail
    end.
  Definition dec_block : decoder block :=
    let! h := dec_signed_header in let! r := dec_vec dec_output in let! t := dec_vec dec_signed in dret (Block h r t).
End Decoders.

(** ** Ids *)
Section Ids.
  (** common/src/primitives/id/mod.rs 290-294: [hash_encoded]: the hash (Blake2b, 256 bits) of the encoding *)
  Context (hash : bytes -> bytes).
  (** common/src/chain/transaction/transaction_v1.rs 70-75 *)
  Definition transaction_id (t : transaction) : bytes := hash (enc_transaction t).
  (** common/src/chain/transaction/signed_transaction.rs 96-98: [serialized_hash] *)
  Definition serialized_hash (t : signed_transaction) : bytes := hash (enc_signed t).
  (** common/src/chain/block/block_header.rs 86-91, block_v1.rs 37-42: a block's id is its header's *)
  Definition header_id (h : header) : bytes := hash (enc_header h).
  Definition block_id (b : block) : bytes := header_id (sh_header (b_header b)).
End Ids.
