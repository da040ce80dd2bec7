(** Model of spending conditions: scripts, their verification, and the translation of inputs to scripts.
    mintscript/src/{script/mod.rs, script/verify.rs, checker/*.rs, translate.rs},
    chainstate/tx-verifier/src/transaction_verifier/input_check/{mod.rs, signature_only_check.rs}.
    Destinations and hashes are numbers. Checking one signature, hashing, decoding the witness of a hashed time-lock contract,
    building the commitments of the signed message and looking up the block at a height are parameters. *)
From Verif Require Import Base AmountModel PrimModel OrdersModel TokensModel PosModel ChainModel UtxoModel.
Local Open Scope N_scope.

(** ** Scripts *)
(** script/mod.rs 121-128 *)
Inductive hash_challenge := HcRipemd160 (h : N) | HcSha1 (h : N) | HcSha256 (h : N) | HcHash160 (h : N) | HcHash256 (h : N).
(** common/src/chain/transaction/signature/inputsig/mod.rs [InputWitness] and signature/mod.rs [EvaluatedInputWitness], which have
    the same two cases *)
Inductive witness := NoSignature (data : option bytes) | Standard (sighash_type : N) (raw : bytes).
(** script/mod.rs 203-218; there is one dissatisfied script *)
Inductive condition (S : Type) := Satisfied (s : S) | Dissatisfied.
Arguments Satisfied {S} s.
Arguments Dissatisfied {S}.
(** script/mod.rs 30-34, 130-140 *)
Inductive script :=
| Threshold (required : N) (conditions : list (condition script))
| Signature (d : N) (w : witness)
| Timelock (t : timelock)
| HashLock (c : hash_challenge) (preimage : bytes).
(** 36-43 *)
Inductive threshold_err := Insufficient | Excessive.
(** 24-28 *)
Inductive construction_err := InvalidThreshold (required available : N).
Definition len {A} (l : list A) : N := N.of_nat (length l).
(** 57-69, 170-176 *)
Definition threshold (required : N) (conds : list (condition script)) : res construction_err script :=
  ensure (required <=? len conds) (InvalidThreshold required (len conds)) ;? Ok (Threshold required conds).
(** 163-167 *)
Definition threshold_unchecked {E} (required : N) (conds : list (condition script)) : res E script :=
  if required <=? len conds then Ok (Threshold required conds) else Panic.
(** 178-192 *)
Definition disjunction (conds : list (condition script)) : res construction_err script := threshold 1 conds.
Definition conjunction {E} (conds : list (condition script)) : res E script := threshold_unchecked (len conds) conds.
Definition satisfied_conjunction {E} (l : list script) : res E script := conjunction (Satisfied <$> l).
(** 46-47, 143-144 *)
Definition TRUE : script := Threshold 0 [].
(** 98-119: the loop *)
Fixpoint collect_loop (conds : list (condition script)) (left_sat left_dissat : N) (satisfied : list script) : res threshold_err (list script) :=
  match conds with
  | [] => if (left_dissat =? 0) && (left_sat =? 0) then Ok satisfied else Panic
  | Satisfied s :: rest => let? l := ok_or (checked_sub left_sat 1) Excessive in collect_loop rest l left_dissat (satisfied ++ [s])
  | Dissatisfied :: rest => let? l := ok_or (checked_sub left_dissat 1) Insufficient in collect_loop rest left_sat l satisfied
  end.
(** 82-119 *)
Definition collect_satisfied (required : N) (conds : list (condition script)) : res threshold_err (list script) :=
  let? required_dissat := expect (checked_sub (len conds) required) in
  collect_loop conds required required_dissat [].

(** ** Verification *)
(** verify.rs 33-56: a visitor may keep state *)
Record visitor (St SE TE HE : Type) := Visitor {
  visit_signature : N -> witness -> St -> St * res SE unit;
  visit_timelock : timelock -> St -> St * res TE unit;
  visit_hashlock : hash_challenge -> bytes -> St -> St * res HE unit }.
Arguments Visitor {St SE TE HE}.
Arguments visit_signature {St SE TE HE}.
Arguments visit_timelock {St SE TE HE}.
Arguments visit_hashlock {St SE TE HE}.
(** verify.rs 58-72 *)
Inductive script_err (SE TE HE : Type) := SignatureErr (e : SE) | TimelockErr (e : TE) | HashlockErr (e : HE) | ThresholdErr (e : threshold_err).
Arguments SignatureErr {SE TE HE}.
Arguments TimelockErr {SE TE HE}.
Arguments HashlockErr {SE TE HE}.
Arguments ThresholdErr {SE TE HE}.
(** Size of a script, only used as fuel *)
Fixpoint script_size (s : script) : nat :=
  match s with
  | Threshold _ conds => S (foldr (fun c n => (match c with Satisfied s => script_size s | Dissatisfied => 0 end + n)%nat) 0%nat conds)
  | _ => 1%nat
  end.
(** verify.rs 95-119; the stack is listed from its top, so that extending it by the reversed list puts the list in front *)
Fixpoint verify_loop {St SE TE HE} (v : visitor St SE TE HE) (fuel : nat) (stack : list script) (st : St) : St * res (script_err SE TE HE) unit :=
  match stack with
  | [] => (st, Ok tt)
  | expr :: stack =>
      match fuel with
      | O => (st, Panic)
      | S fuel =>
          let next (p : St * res (script_err SE TE HE) unit) := sbind p (fun st _ => verify_loop v fuel stack st) in
          match expr with
          | Signature d w => next (let (st, r) := visit_signature v d w st in (st, rmap_err SignatureErr r))
          | Timelock t => next (let (st, r) := visit_timelock v t st in (st, rmap_err TimelockErr r))
          | Threshold required conds =>
              match collect_satisfied required conds with
              | Ok l => verify_loop v fuel (l ++ stack) st
              | Err e => (st, Err (ThresholdErr e))
              | Panic => (st, Panic)
              end
          | HashLock c preimage => next (let (st, r) := visit_hashlock v c preimage st in (st, rmap_err HashlockErr r))
          end
      end
  end.
Definition verify {St SE TE HE} (v : visitor St SE TE HE) (s : script) (st : St) : St * res (script_err SE TE HE) unit :=
  verify_loop v (script_size s) [s] st.

(** ** Checkers *)
(** checker/timelock.rs 35-49: what the context provides; [E] is its error *)
Record lock_ctx (E : Type) := LockCtx { spending_height : N; spending_time : N; source_height : res E N; source_time : res E N }.
Arguments LockCtx {E}.
Arguments spending_height {E}.
Arguments spending_time {E}.
Arguments source_height {E}.
Arguments source_time {E}.
Inductive lock_err (E : Type) := LockContext (e : E) | LockError (e : timelock_err).
Arguments LockContext {E}.
Arguments LockError {E}.
(** checker/timelock.rs 72-93 *)
Definition standard_timelock {E} (c : lock_ctx E) (lock : timelock) : res (lock_err E) unit :=
  match lock with
  | UntilHeight required => rmap_err LockError (check_at_least (spending_height c) required HeightLocked)
  | UntilTime required => rmap_err LockError (check_at_least (spending_time c) required TimestampLocked)
  | ForBlockCount d =>
      let? distance := ok_or (i64_of_u64 d) (LockError HeightArith) in
      let? source := rmap_err LockContext (source_height c) in
      let? required := rmap_err (fun _ => LockError HeightArith) (height_add source distance) in
      rmap_err LockError (check_at_least (spending_height c) required HeightLocked)
  | ForSeconds dt =>
      let? source := rmap_err LockContext (source_time c) in
      let? required := ok_or (add_int_seconds source dt) (LockError TimestampArith) in
      rmap_err LockError (check_at_least (spending_time c) required TimestampLocked)
  end.
(** checker/hashlock.rs 60-88; the other kinds are [unimplemented!()] *)
Inductive hash_lock_err := HashMismatch.
Definition standard_hashlock (hash160 : bytes -> N) (c : hash_challenge) (preimage : bytes) : res hash_lock_err unit :=
  match c with
  | HcHash160 expected => ensure (hash160 preimage =? expected) HashMismatch
  | HcRipemd160 _ | HcSha1 _ | HcSha256 _ | HcHash256 _ => Panic
  end.
Definition stateless {A E} (f : A -> res E unit) : A -> unit -> unit * res E unit := fun a u => (u, f a).
(** checker/mod.rs 53-86: the three checkers; [sig] is the standard signature checker with its context *)
Section Checkers.
  Context {SE CE : Type} (sig : N -> witness -> res SE unit) (hash160 : bytes -> N) (c : lock_ctx CE).
  Definition full_checker : visitor unit SE (lock_err CE) hash_lock_err :=
    Visitor (fun d w u => (u, sig d w)) (fun t u => (u, standard_timelock c t)) (fun h p u => (u, standard_hashlock hash160 h p)).
  Definition timelock_only : visitor unit SE (lock_err CE) hash_lock_err :=
    Visitor (fun _ _ u => (u, Ok tt)) (fun t u => (u, standard_timelock c t)) (fun _ _ u => (u, Ok tt)).
  Definition signature_only : visitor unit SE (lock_err CE) hash_lock_err :=
    Visitor (fun d w u => (u, sig d w)) (fun _ u => (u, Ok tt)) (fun _ _ u => (u, Ok tt)).
End Checkers.
(** [verify] with a checker that has no state *)
Definition check {SE TE HE} (v : visitor unit SE TE HE) (s : script) : res (script_err SE TE HE) unit := snd (verify v s tt).

(** ** Translation of inputs to scripts *)
(** translate.rs 70-86; the outpoint of a utxo is not used by any translation *)
Inductive input_info := InfoUtxo (o : tx_output) (source : option utxo_source) | InfoAccount (del : N) (a : amount) | InfoCommand (c : account_command) | InfoOrder (c : order_command).
(** common/src/chain/transaction/signature/inputsig/authorize_hashed_timelock_contract_spend.rs 24-29 *)
Inductive htlc_spend := HtlcSpend (secret raw : bytes) | HtlcRefund (raw : bytes).
(** translate.rs 34-68; errors of the accounting views are [LookupFailed] *)
Inductive translation_err := Unspendable | IllegalAccountSpend | IllegalOutputSpend | LookupFailed | SignatureNotFound | InvalidSignatureEncoding
                           | PoolNotFound (id : N) | DelegationNotFound (id : N) | TokenNotFound (id : N) | OrderNotFound (id : N).
(** translate.rs 93-118 *)
Record lookups := Lookups {
  pool_decommission : N -> res unit (option N); delegation_spend : N -> res unit (option N);
  token_authority : N -> res unit (option N); order_conclude : N -> res unit (option N) }.
Section Translate.
  (** [Destination::AnyoneCanSpend] and the decoding of an HTLC witness *)
  Context (anyone : N) (from_data : bytes -> option htlc_spend).
  Notation tr := (res translation_err script).
  (** translate.rs 501-511 *)
  Definition to_signature (w : witness) (d : N) : script := Signature d w.
  Definition look (f : N -> res unit (option N)) (id : N) (e : N -> translation_err) : res translation_err N :=
    let? o := rmap_err (fun _ => LookupFailed) (f id) in ok_or o (e id).
  (** The witness of an HTLC input *)
  Definition htlc_of (w : witness) : res translation_err (N * htlc_spend) :=
    match w with
    | NoSignature _ => Err SignatureNotFound
    | Standard ty raw => let? s := ok_or (from_data raw) InvalidSignatureEncoding in Ok (ty, s)
    end.
  (** translate.rs 125-256, for transactions *)
  Definition translate_tx (lk : lookups) (info : input_info) (w : witness) : tr :=
    match info with
    | InfoUtxo o _ =>
        match o with
        | OTransfer _ d => Ok (to_signature w d)
        | OLockThenTransfer _ d t => satisfied_conjunction [Timelock t; to_signature w d]
        | OCreateStakePool _ data => Ok (to_signature w (sp_decommission data))
        | OProduceBlockFromStake _ p => let? d := look (pool_decommission lk) p PoolNotFound in Ok (to_signature w d)
        | OHtlc _ h =>
            let? (ty, s) := htlc_of w in
            match s with
            | HtlcSpend secret raw => satisfied_conjunction [HashLock (HcHash160 (hl_secret_hash h)) secret; Signature (hl_spend_key h) (Standard ty raw)]
            | HtlcRefund raw => satisfied_conjunction [Timelock (hl_refund_lock h); Signature (hl_refund_key h) (Standard ty raw)]
            end
        | OIssueNft _ _ d => Ok (to_signature w d)
        | ODelegateStaking _ _ | OCreateDelegationId _ _ | OIssueFungibleToken _ | OBurn _ | ODataDeposit _ | OCreateOrder _ => Err Unspendable
        end
    | InfoAccount del _ => let? d := look (delegation_spend lk) del DelegationNotFound in Ok (to_signature w d)
    | InfoCommand c =>
        match c with
        | CmdMint id _ | CmdUnmint id | CmdLockSupply id | CmdFreeze id _ | CmdUnfreeze id | CmdChangeUri id _ | CmdChangeAuthority id _ =>
            let? d := look (token_authority lk) id TokenNotFound in Ok (to_signature w d)
        | CmdConcludeOrder id => let? d := look (order_conclude lk) id OrderNotFound in Ok (to_signature w d)
        | CmdFillOrder _ _ _ => Ok TRUE
        end
    | InfoOrder c =>
        match c with
        | OcFill _ _ => Ok (to_signature w anyone)
        | OcFreeze id | OcConclude id => let? d := look (order_conclude lk) id OrderNotFound in Ok (to_signature w d)
        end
    end.
  (** translate.rs 258-299, for block rewards *)
  Definition translate_reward (lk : lookups) (info : input_info) (w : witness) : tr :=
    match info with
    | InfoUtxo o _ =>
        match o with
        | OTransfer _ _ | OLockThenTransfer _ _ _ | OIssueNft _ _ _ | OHtlc _ _ => Err IllegalOutputSpend
        | OCreateDelegationId _ _ | OBurn _ | ODataDeposit _ | ODelegateStaking _ _ | OIssueFungibleToken _ | OCreateOrder _ => Err Unspendable
        | OProduceBlockFromStake d _ => Ok (to_signature w d)
        | OCreateStakePool _ data => Ok (to_signature w (sp_staker data))
        end
    | InfoAccount _ _ | InfoCommand _ | InfoOrder _ => Err IllegalAccountSpend
    end.
  (** translate.rs 303-364 *)
  Definition translate_timelock (info : input_info) (w : witness) : tr :=
    match info with
    | InfoUtxo o _ =>
        match o with
        | OLockThenTransfer _ _ t => Ok (Timelock t)
        | OHtlc _ h =>
            let? (ty, s) := htlc_of w in
            match s with HtlcSpend _ _ => Ok TRUE | HtlcRefund _ => Ok (Timelock (hl_refund_lock h)) end
        | OTransfer _ _ | OCreateStakePool _ _ | OProduceBlockFromStake _ _ | OIssueNft _ _ _ => Ok TRUE
        | OCreateDelegationId _ _ | OIssueFungibleToken _ | ODelegateStaking _ _ | OBurn _ | ODataDeposit _ | OCreateOrder _ => Err Unspendable
        end
    | InfoAccount _ _ | InfoCommand _ | InfoOrder _ => Ok TRUE
    end.
  (** translate.rs 368-486 *)
  Definition translate_signature (lk : lookups) (info : input_info) (w : witness) : tr :=
    match info with
    | InfoUtxo o _ =>
        match o with
        | OTransfer _ d | OLockThenTransfer _ d _ => Ok (to_signature w d)
        | OCreateStakePool _ data => Ok (to_signature w (sp_decommission data))
        | OProduceBlockFromStake _ p => let? d := look (pool_decommission lk) p PoolNotFound in Ok (to_signature w d)
        | OHtlc _ h =>
            let? (ty, s) := htlc_of w in
            match s with
            | HtlcSpend _ raw => Ok (Signature (hl_spend_key h) (Standard ty raw))
            | HtlcRefund raw => Ok (Signature (hl_refund_key h) (Standard ty raw))
            end
        | OIssueNft _ _ d => Ok (to_signature w d)
        | ODelegateStaking _ _ | OCreateDelegationId _ _ | OIssueFungibleToken _ | OBurn _ | ODataDeposit _ | OCreateOrder _ => Err Unspendable
        end
    | InfoAccount del _ => let? d := look (delegation_spend lk) del DelegationNotFound in Ok (to_signature w d)
    | InfoCommand c =>
        match c with
        | CmdMint id _ | CmdUnmint id | CmdLockSupply id | CmdFreeze id _ | CmdUnfreeze id | CmdChangeUri id _ | CmdChangeAuthority id _ =>
            let? d := look (token_authority lk) id TokenNotFound in Ok (to_signature w d)
        | CmdConcludeOrder id => let? d := look (order_conclude lk) id OrderNotFound in Ok (to_signature w d)
        | CmdFillOrder _ _ _ => Ok TRUE
        end
    | InfoOrder c =>
        match c with
        | OcFill _ _ => Ok (to_signature w anyone)
        | OcFreeze id | OcConclude id => let? d := look (order_conclude lk) id OrderNotFound in Ok (to_signature w d)
        end
    end.

  (** ** Checking the inputs of a transaction *)
  (** input_check/mod.rs 186-196 *)
  Inductive lock_ctx_err := TimelockedAccount | MissingUtxoSource | HeaderLoad (height : N).
  Context {SE K : Type}.
  Inductive input_err :=
  | MissingUtxo | NoWitness | Commitments | Translation (e : translation_err) | Verification (e : script_err SE (lock_err lock_ctx_err) hash_lock_err).
  (** An error of a transaction comes with the number of the input *)
  Notation tx_err := (N * input_err)%type.
  (** The chain around the spending: the height and time of the spending block, and the times of the blocks below it *)
  Record chain_ctx := ChainCtx { cx_height : N; cx_time : N; cx_time_at : N -> option N }.
  (** input_check/mod.rs 474-539: the context of one input; times of ancestors are looked up from the tip *)
  Definition lock_ctx_of (cx : chain_ctx) (info : input_info) : lock_ctx lock_ctx_err :=
    LockCtx (cx_height cx) (cx_time cx)
      (match info with
       | InfoUtxo _ src => let? s := ok_or src MissingUtxoSource in match s with InChain h => Ok h | InMempool => Ok (cx_height cx) end
       | _ => Err TimelockedAccount
       end)
      (match info with
       | InfoUtxo _ src =>
           let? s := ok_or src MissingUtxoSource in
           match s with InChain h => ok_or (cx_time_at cx h) (HeaderLoad h) | InMempool => Ok (cx_time cx) end
       | _ => Err TimelockedAccount
       end).
  (** input_check/mod.rs 208-236 *)
  Definition info_of (utxos : outpoint -> option utxo) (i : tx_input) : res input_err input_info :=
    match i with
    | InUtxo o => let? u := ok_or (utxos o) MissingUtxo in Ok (InfoUtxo (u_output u) (Some (u_source u)))
    | InAccount _ del a => Ok (InfoAccount del a)
    | InCommand _ c => Ok (InfoCommand c)
    | InOrder c => Ok (InfoOrder c)
    end.
  (** One input and its witness; the witness is looked at first *)
  Definition per_input (utxos : outpoint -> option utxo) (n : N) (p : tx_input * option witness) : res tx_err (N * input_info * witness) :=
    rmap_err (fun e => (n, e)) (let? w := ok_or (snd p) NoWitness in let? info := info_of utxos (fst p) in Ok (n, info, w)).
  Fixpoint number {A} (from : N) (l : list A) : list (N * A) := match l with [] => [] | a :: l => (from, a) :: number (from + 1) l end.
  (** input_check/mod.rs 346-376 [CoreContext::new]; the number of witnesses is the number of inputs *)
  Definition core_context (utxos : outpoint -> option utxo) (inputs : list tx_input) (sigs : list (option witness)) : res tx_err (list (N * input_info * witness)) :=
    if negb (Nat.eqb (length inputs) (length sigs)) then Panic
    else rmapM (fun p => per_input utxos (fst p) (snd p)) (number 0 (zip inputs sigs)).
  Definition for_all {A} (f : A -> res tx_err unit) (l : list A) : res tx_err unit := rfold (fun _ a => f a) l tt.
  Context (hash160 : bytes -> N).
  (** Commitments of the signed message, from the inputs and the accounting views; checking a signature against them *)
  Context (commitments : list (N * input_info * witness) -> res tx_err K) (sig : K -> N -> N -> witness -> res SE unit).
  (** input_check/mod.rs 616-676 [verify_full]; [translate] is [translate_tx] or [translate_reward] *)
  Definition verify_full_input (translate : input_info -> witness -> tr) (k : K) (cx : chain_ctx) (p : N * input_info * witness) : res tx_err unit :=
    let '(n, info, w) := p in
    rmap_err (fun e => (n, e))
      (let? s := rmap_err Translation (translate info w) in
       rmap_err Verification (check (full_checker (sig k n) hash160 (lock_ctx_of cx info)) s)).
  Definition verify_full (translate : input_info -> witness -> tr) (cx : chain_ctx) (utxos : outpoint -> option utxo) (inputs : list tx_input) (sigs : list (option witness)) : res tx_err unit :=
    let? l := core_context utxos inputs sigs in
    let? k := commitments l in
    for_all (verify_full_input translate k cx) l.
  (** input_check/mod.rs 690-735 [verify_timelocks] *)
  Definition verify_timelocks_input (cx : chain_ctx) (p : N * input_info * witness) : res tx_err unit :=
    let '(n, info, w) := p in
    rmap_err (fun e => (n, e))
      (let? s := rmap_err Translation (translate_timelock info w) in
       rmap_err Verification (check (timelock_only (lock_ctx_of cx info)) s)).
  Definition verify_timelocks (cx : chain_ctx) (utxos : outpoint -> option utxo) (inputs : list tx_input) (sigs : list (option witness)) : res tx_err unit :=
    let? l := core_context utxos inputs sigs in
    for_all (verify_timelocks_input cx) l.
  (** signature_only_check.rs 46-90 *)
  Definition single_lookup (d : N) : lookups := Lookups (fun _ => Ok (Some d)) (fun _ => Ok (Some d)) (fun _ => Ok (Some d)) (fun _ => Ok (Some d)).
  (** signature_only_check.rs 106-173 [verify_tx_signature] for the input [n]; the range checks of the index and of the number of
      commitments are left out. The locks are not checked, so their context does not matter. *)
  Definition verify_tx_signature (k : K) (d : N) (n : N) (i : tx_input) (u : option tx_output) (sig_n : option witness) : res tx_err unit :=
    rmap_err (fun e => (n, e))
      (let? info := match i with
                    | InUtxo _ => let? o := ok_or u MissingUtxo in Ok (InfoUtxo o None)
                    | InAccount _ del a => Ok (InfoAccount del a)
                    | InCommand _ c => Ok (InfoCommand c)
                    | InOrder c => Ok (InfoOrder c)
                    end in
       let? w := ok_or sig_n NoWitness in
       let? s := rmap_err Translation (translate_signature (single_lookup d) info w) in
       rmap_err Verification (check (signature_only (CE := lock_ctx_err) (sig k n)) s)).
End Translate.
