(** The transaction vocabulary shared by the rest of the model: outpoints, outputs, inputs, transactions.
    common/src/chain/transaction/{output/mod,output/stakelock,output/htlc,output/timelock,input,utxo_outpoint,
    account_outpoint}.rs. Hashes (ids), destinations and public keys are numbers; a transaction carries its id as a
    field (in the code the id is the hash of the contents). Signatures are not part of this file. *)
From Verif Require Import Base AmountModel DeltaModel LayeredModel OrdersModel TokensModel PosModel PrimModel.
Local Open Scope N_scope.

(** utxo_outpoint.rs 34-39: [OutPointSourceId] *)
Inductive source_id := FromTx (id : N) | FromReward (block : N).
Global Instance source_id_eq : EqDecision source_id. Proof. solve_decision. Defined.
Global Instance source_id_countable : Countable source_id.
Proof.
  refine (inj_countable' (fun s => match s with FromTx i => inl i | FromReward i => inr i end)
                         (fun s => match s with inl i => FromTx i | inr i => FromReward i end) _).
  intros []; reflexivity.
Defined.
(** utxo_outpoint.rs 86-89: [UtxoOutPoint { id, index }] *)
Notation outpoint := (source_id * N)%type (only parsing).

(** output/htlc.rs: [HashedTimelockContract] *)
Record htlc_data := HtlcData { hl_secret_hash : N; hl_spend_key : N; hl_refund_lock : timelock; hl_refund_key : N }.
(** output/stakelock.rs 35-42: [StakePoolData] *)
Record stake_pool := StakePool {
  sp_pledge : amount; sp_staker : N; sp_vrf : N; sp_decommission : N; sp_margin : N; sp_cost : amount }.
(** common/src/chain/tokens/issuance.rs: [TokenIssuance::V1], the only variant *)
Record issuance := Issuance {
  is_ticker : bytes; is_decimals : N; is_uri : bytes; is_supply : total_supply; is_authority : N; is_freezable : bool }.

(** output/mod.rs 121-186: [TxOutput]. The payload of an NFT is an opaque number. *)
Inductive tx_output :=
| OTransfer (v : output_value) (d : N)
| OLockThenTransfer (v : output_value) (d : N) (t : timelock)
| OBurn (v : output_value)
| OCreateStakePool (p : N) (data : stake_pool)
| OProduceBlockFromStake (d p : N)
| OCreateDelegationId (d p : N)
| ODelegateStaking (a : amount) (del : N)
| OIssueFungibleToken (i : issuance)
| OIssueNft (id data d : N)
| ODataDeposit (data : bytes)
| OHtlc (v : output_value) (h : htlc_data)
| OCreateOrder (d : order_data).

(** account_outpoint.rs 118-171: [AccountCommand] *)
Inductive account_command :=
| CmdMint (id : N) (a : amount)
| CmdUnmint (id : N)
| CmdLockSupply (id : N)
| CmdFreeze (id : N) (unfreezable : bool)
| CmdUnfreeze (id : N)
| CmdChangeAuthority (id d : N)
| CmdConcludeOrder (id : N)
| CmdFillOrder (id : N) (a : amount) (d : N)
| CmdChangeUri (id : N) (uri : bytes).
(** account_outpoint.rs 219-236: [OrderAccountCommand] *)
Inductive order_command := OcFill (id : N) (a : amount) | OcFreeze (id : N) | OcConclude (id : N).

(** input.rs 39-48: [TxInput]; [AccountSpending] has the single variant [DelegationBalance]. *)
Inductive tx_input :=
| InUtxo (o : outpoint)
| InAccount (nonce del : N) (a : amount)
| InCommand (nonce : N) (c : account_command)
| InOrder (c : order_command).

(** account_outpoint.rs 28-37: [AccountType] *)
Inductive account_type := AccDelegation (id : N) | AccToken (id : N) | AccOrder (id : N).
Global Instance account_type_eq : EqDecision account_type. Proof. solve_decision. Defined.
Global Instance account_type_countable : Countable account_type.
Proof.
  refine (inj_countable' (fun s => match s with AccDelegation i => inl i | AccToken i => inr (inl i) | AccOrder i => inr (inr i) end)
                         (fun s => match s with inl i => AccDelegation i | inr (inl i) => AccToken i | inr (inr i) => AccOrder i end) _).
  intros []; reflexivity.
Defined.
(** account_outpoint.rs 47-62 *)
Definition command_account (c : account_command) : account_type :=
  match c with
  | CmdMint id _ | CmdUnmint id | CmdLockSupply id | CmdFreeze id _ | CmdUnfreeze id | CmdChangeAuthority id _
  | CmdChangeUri id _ => AccToken id
  | CmdConcludeOrder id | CmdFillOrder id _ _ => AccOrder id
  end.

Record transaction := Transaction { tx_id : N; tx_inputs : list tx_input; tx_outputs : list tx_output }.

Global Instance timelock_eq : EqDecision timelock. Proof. solve_decision. Defined.
Global Instance htlc_data_eq : EqDecision htlc_data. Proof. solve_decision. Defined.
Global Instance stake_pool_eq : EqDecision stake_pool. Proof. solve_decision. Defined.
Global Instance issuance_eq : EqDecision issuance. Proof. solve_decision. Defined.
Global Instance tx_output_eq : EqDecision tx_output. Proof. solve_decision. Defined.
