(** Model of the transaction verifier and of connecting and disconnecting whole blocks:
    chainstate/tx-verifier/src/transaction_verifier/{mod,check_transaction,token_issuance_cache,flush,storage}.rs,
    chainstate/tx-verifier/src/transaction_verifier/input_output_policy/{mod,purposes_check}.rs,
    chainstate/src/detail/tx_verification_strategy/default_strategy.rs,
    chainstate/src/detail/chainstateref/{mod,tx_verifier_storage}.rs, common/src/chain/make_id.rs.
    Simplifications: a verifier that refused something is dropped by every caller, so a failing function gives no verifier
    back; payloads of errors are mostly dropped; checks of a transaction that look at the transaction alone (its size, its
    witnesses, the texts of tokens, deposits and contracts, the burnt fee of the obsolete token kind) and the checks of
    signatures and locks (which only read) are two arbitrary predicates of the configuration, so what is proved holds
    whatever they accept; the per-block staking deltas kept for the sealed epoch state are not stored. *)
From Verif Require Import Base AmountModel DeltaModel LayeredModel TokensModel OrdersModel PosModel PrimModel ChainModel
  UtxoModel ConstraintsModel RewardModel UndoCacheModel NonceModel.
Local Open Scope N_scope.

Global Instance data_delta_eq {T} `{EqDecision T} : EqDecision (data_delta T). Proof. solve_decision. Defined.
Global Instance pos_undo_eq : EqDecision pos_undo. Proof. solve_decision. Defined.
Global Instance tok_undo_eq : EqDecision tok_undo. Proof. solve_decision. Defined.
Global Instance ord_undo_eq : EqDecision ord_undo. Proof. solve_decision. Defined.
Global Instance order_command_eq : EqDecision order_command. Proof. solve_decision. Defined.
Global Instance account_command_eq : EqDecision account_command. Proof. solve_decision. Defined.
Global Instance tx_input_eq : EqDecision tx_input. Proof. solve_decision. Defined.

(** mod.rs / error.rs: [ConnectTransactionError], by the part that refuses *)
Inductive verr :=
| VTxCheck | VPolicy | VMissingOutput | VValues (e : acv_err) | VScripts | VUtxo (e : utxo_err) | VPos (e : pos_err)
| VTok (e : tok_err) | VOrd (e : ord_err) | VNonce (e : nonce_err) | VUndo (e : undo_err) | VReward (e : reward_err)
| VNoInputForId | VUnexpectedId | VNotEnoughPledge | VBurnSum | VFrozenToken | VIssuanceDuplicate | VIssuanceMissing
| VFeesSum | VRewardSum | VStake | VNotBest | VUtxoFlush (r : refusal).

(** * Configuration *)

(** What [ChainConfig] answers for one height. common/src/chain/config/, chainstate upgrades. *)
Record rules := Rules {
  ru_values : config;              (** fees, maturity, version of the order rules *)
  ru_min_pledge : amount;          (** [min_stake_pool_pledge] *)
  ru_frozen_checks : bool;         (** [FrozenTokensValidationVersion::V1] *)
  ru_staker_fixed : bool;          (** [StakerDestinationUpdateForbidden::Yes] *)
  ru_no_zero_tokens : bool;        (** [ZeroTokenTransferForbidden::Yes] *)
  ru_orders_active : bool;         (** [OrdersActivated::Yes] *)
  ru_token_id_any_input : bool;    (** [TokenIdGenerationVersion::V0] *)
  ru_subsidy : amount;             (** [block_subsidy_at_height] *)
  ru_reward : reward_version }.

Record chain_config := ChainConfig {
  cc_rules : N -> rules;
  (** make_id.rs 105-150: ids are hashes of the spent outpoint or of the first input *)
  cc_pool_id : outpoint -> N; cc_delegation_id : outpoint -> N; cc_order_id : outpoint -> N; cc_token_id : tx_input -> N;
  (** check_transaction.rs 78-93 without the duplicates, the number of issuances and the orders; input_output_policy/mod.rs 165-171 *)
  cc_tx_ok : N -> transaction -> bool;
  (** mod.rs 1216-1242 [verify_inputs] / input_check: height, median time, views, what is checked *)
  cc_tx_scripts : N -> N -> utxo_view -> views -> transaction -> bool;
  cc_reward_scripts : N -> N -> utxo_view -> views -> reward_tx -> bool }.

(** * State *)

(** common/src/chain/tokens/ [TokenAuxiliaryData]: the issuing transaction and its block *)
Notation aux_data := (transaction * N)%type (only parsing).

Notation utxo_undo_stack := (undo_stack (ublock (list utxo) (list (option utxo))) (udisk (list utxo) (list (option utxo)))) (only parsing).
Notation acc_undo_stack U := (undo_stack (cblock (list U) (list U)) (bundo (list U) (list U))) (only parsing).
Notation utxo_records := (utxo_kind (R := list utxo) (T := list (option utxo))) (only parsing).
Notation pos_records := (accounting_kind (R := list pos_undo) (T := list pos_undo)) (only parsing).
Notation tok_records := (accounting_kind (R := list tok_undo) (T := list tok_undo)) (only parsing).
Notation ord_records := (accounting_kind (R := list ord_undo) (T := list ord_undo)) (only parsing).

(** mod.rs 104-150: [TransactionVerifier]. The four undo caches come with what is beneath them. *)
Record verifier := Verifier {
  v_utxo : cache; v_pos : pos_adapter; v_tok : tok_delta; v_ord : ord_delta; v_nonce : nonce_cache;
  v_aux : gmap N (cop aux_data); v_index : gmap N (cop N);
  v_uundo : utxo_undo_stack; v_pundo : acc_undo_stack pos_undo; v_tundo : acc_undo_stack tok_undo; v_oundo : acc_undo_stack ord_undo }.

Definition set_utxo v x := Verifier x (v_pos v) (v_tok v) (v_ord v) (v_nonce v) (v_aux v) (v_index v) (v_uundo v) (v_pundo v) (v_tundo v) (v_oundo v).
Definition set_pos v x := Verifier (v_utxo v) x (v_tok v) (v_ord v) (v_nonce v) (v_aux v) (v_index v) (v_uundo v) (v_pundo v) (v_tundo v) (v_oundo v).
Definition set_tok v x := Verifier (v_utxo v) (v_pos v) x (v_ord v) (v_nonce v) (v_aux v) (v_index v) (v_uundo v) (v_pundo v) (v_tundo v) (v_oundo v).
Definition set_ord v x := Verifier (v_utxo v) (v_pos v) (v_tok v) x (v_nonce v) (v_aux v) (v_index v) (v_uundo v) (v_pundo v) (v_tundo v) (v_oundo v).
Definition set_nonce v x := Verifier (v_utxo v) (v_pos v) (v_tok v) (v_ord v) x (v_aux v) (v_index v) (v_uundo v) (v_pundo v) (v_tundo v) (v_oundo v).
Definition set_issuance v x y := Verifier (v_utxo v) (v_pos v) (v_tok v) (v_ord v) (v_nonce v) x y (v_uundo v) (v_pundo v) (v_tundo v) (v_oundo v).
Definition set_uundo v x := Verifier (v_utxo v) (v_pos v) (v_tok v) (v_ord v) (v_nonce v) (v_aux v) (v_index v) x (v_pundo v) (v_tundo v) (v_oundo v).
Definition set_pundo v x := Verifier (v_utxo v) (v_pos v) (v_tok v) (v_ord v) (v_nonce v) (v_aux v) (v_index v) (v_uundo v) x (v_tundo v) (v_oundo v).
Definition set_tundo v x := Verifier (v_utxo v) (v_pos v) (v_tok v) (v_ord v) (v_nonce v) (v_aux v) (v_index v) (v_uundo v) (v_pundo v) x (v_oundo v).
Definition set_oundo v x := Verifier (v_utxo v) (v_pos v) (v_tok v) (v_ord v) (v_nonce v) (v_aux v) (v_index v) (v_uundo v) (v_pundo v) (v_tundo v) x.

(** The database of the chainstate, as far as the verifier goes. *)
Record chain_db := ChainDB {
  db_utxo : utxo_db; db_pos : pos_db; db_tok : tok_db; db_ord : ord_db; db_nonce : gmap account_type N;
  db_aux : gmap N aux_data; db_index : gmap N N;
  db_uundo : gmap N (udisk (list utxo) (list (option utxo))); db_pundo : gmap N (bundo (list pos_undo) (list pos_undo));
  db_tundo : gmap N (bundo (list tok_undo) (list tok_undo)); db_oundo : gmap N (bundo (list ord_undo) (list ord_undo)) }.

(** What a verifier reads from beneath (storage.rs, tx_verifier_storage.rs 60-240); the undo records are read through the
    undo caches. *)
Record store := Store {
  st_utxo : utxo_view; st_pos : pos_view; st_tok : tok_view; st_ord : ord_view;
  st_nonce : account_type -> option N; st_aux : N -> option aux_data }.
Definition store_of (db : chain_db) : store :=
  Store (db_view (db_utxo db)) (pos_db_view (db_pos db)) (tok_db_view (db_tok db)) (ord_db_view (db_ord db))
        (fun a => db_nonce db !! a) (fun t => db_aux db !! t).

(** mod.rs 152-200: a new verifier *)
Definition verifier_on (db : chain_db) : verifier :=
  Verifier cache_new pos_adapter_new tok_delta_new ord_delta_new ∅ ∅ ∅
    (UndoStack [∅] (ChainDb (db_uundo db))) (UndoStack [∅] (ChainDb (db_pundo db)))
    (UndoStack [∅] (ChainDb (db_tundo db))) (UndoStack [∅] (ChainDb (db_oundo db))).

(** What the verifier answers now *)
Definition utxos_now (S : store) (v : verifier) : utxo_view := cache_view (st_utxo S) (v_utxo v).
Definition views_now (S : store) (v : verifier) : views :=
  Views (adapter_view (st_pos S) (v_pos v)) (tok_cache_view (st_tok S) (v_tok v)) (ord_cache_view (st_ord S) (v_ord v)).

(** * Calls into the parts *)

(** [operations(tx_source).<op>(..).map_err(PoSAccountingError)] *)
Definition do_pos (S : store) (src : tx_source) (v : verifier) (o : pos_op) : res verr (verifier * list pos_undo) :=
  match adapter_op (st_pos S) (v_pos v) src o with
  | (A, Ok u) => Ok (set_pos v A, [u]) | (_, Err e) => Err (VPos e) | (_, Panic) => Panic
  end.
Definition do_tok (S : store) (v : verifier) (o : tok_op) : res verr (verifier * list tok_undo) :=
  match tok_run (st_tok S) (v_tok v) o with
  | (d, Ok u) => Ok (set_tok v d, [u]) | (_, Err e) => Err (VTok e) | (_, Panic) => Panic
  end.
Definition do_ord (S : store) (v : verifier) (o : ord_op) : res verr (verifier * list ord_undo) :=
  match ord_run (st_ord S) (v_ord v) o with
  | (d, Ok u) => Ok (set_ord v d, [u]) | (_, Err e) => Err (VOrd e) | (_, Panic) => Panic
  end.
(** mod.rs 271-294 *)
Definition do_spend (S : store) (v : verifier) (nonce : N) (a : account_type) : res verr verifier :=
  let? c := rmap_err VNonce (spend_account (st_nonce S) (v_nonce v) nonce a) in Ok (set_nonce v c).
(** mod.rs 296-308 *)
Definition do_unspend (S : store) (v : verifier) (a : account_type) : res verr verifier :=
  let? c := rmap_err VNonce (unspend_account (st_nonce S) (v_nonce v) a) in Ok (set_nonce v c).

Definition add_uundo (v : verifier) (src : tx_source) (t : N) (u : list (option utxo) * list source_id) : res verr verifier :=
  let? (st, _) := rmap_err VUndo (undo_run utxo_records (v_uundo v) (UAdd src t u)) in Ok (set_uundo v st).
Definition add_pundo (v : verifier) (src : tx_source) (t : N) (us : list pos_undo) : res verr verifier :=
  match us with [] => Ok v | _ => let? (st, _) := rmap_err VUndo (undo_run pos_records (v_pundo v) (UAdd src t us)) in Ok (set_pundo v st) end.
Definition add_tundo (v : verifier) (src : tx_source) (t : N) (us : list tok_undo) : res verr verifier :=
  match us with [] => Ok v | _ => let? (st, _) := rmap_err VUndo (undo_run tok_records (v_tundo v) (UAdd src t us)) in Ok (set_tundo v st) end.
Definition add_oundo (v : verifier) (src : tx_source) (t : N) (us : list ord_undo) : res verr verifier :=
  match us with [] => Ok v | _ => let? (st, _) := rmap_err VUndo (undo_run ord_records (v_oundo v) (UAdd src t us)) in Ok (set_oundo v st) end.

(** [iter().filter_map(..).collect::<Result<Vec<_>, _>>()] over a mutable verifier *)
Fixpoint collect {X U} (f : verifier -> X -> res verr (verifier * list U)) (l : list X) (v : verifier) : res verr (verifier * list U) :=
  match l with
  | [] => Ok (v, [])
  | x :: l' => let? (v1, us) := f v x in let? (v2, us') := collect f l' v1 in Ok (v2, us ++ us')
  end.
(** [iter().try_for_each(..)] *)
Fixpoint each {X} (f : verifier -> X -> res verr verifier) (l : list X) (v : verifier) : res verr verifier :=
  match l with [] => Ok v | x :: l' => let? v1 := f v x in each f l' v1 end.

(** * Ids: make_id.rs 47-102 *)
Definition utxo_outpoint (i : tx_input) : option outpoint := match i with InUtxo k => Some k | _ => None end.
Fixpoint first_outpoint (ins : list tx_input) : option outpoint :=
  match ins with [] => None | i :: ins' => match utxo_outpoint i with Some k => Some k | None => first_outpoint ins' end end.
Definition make_pool_id (cc : chain_config) (ins : list tx_input) : res verr N := rmap (cc_pool_id cc) (ok_or (first_outpoint ins) VNoInputForId).
Definition make_delegation_id (cc : chain_config) (ins : list tx_input) : res verr N := rmap (cc_delegation_id cc) (ok_or (first_outpoint ins) VNoInputForId).
Definition make_order_id (cc : chain_config) (ins : list tx_input) : res verr N := rmap (cc_order_id cc) (ok_or (first_outpoint ins) VNoInputForId).
Definition make_token_id (cc : chain_config) (h : N) (ins : list tx_input) : res verr N :=
  if ru_token_id_any_input (cc_rules cc h) then rmap (cc_token_id cc) (ok_or (head ins) VNoInputForId)
  else rmap (fun k => cc_token_id cc (InUtxo k)) (ok_or (first_outpoint ins) VNoInputForId).

(** * Checks before anything is changed *)

(** check_transaction.rs 385-470, one input *)
Definition order_input_ok (ver : orders_version) (i : tx_input) : bool :=
  match i, ver with
  | InCommand _ (CmdFillOrder _ _ _), OrdersV1 | InCommand _ (CmdConcludeOrder _), OrdersV1 => false
  | InOrder _, OrdersV0 => false
  | InOrder (OcFill _ a), OrdersV1 => 0 <? a
  | _, _ => true
  end.
(** check_transaction.rs 434-466, one output. A side of the obsolete token kind has no currency. *)
Definition order_output_ok (r : rules) (o : tx_output) : bool :=
  match o with
  | OCreateOrder d => ru_orders_active r && negb (bool_decide (currency_of (od_ask d) = currency_of (od_give d)))
  | _ => true
  end.
Definition count {A} (f : A -> bool) (l : list A) : nat := length (List.filter f l).
(** common/src/chain/tokens/tokens_utils.rs 21-75; issuances of the obsolete kind are left to [cc_tx_ok] *)
Definition is_issuance (o : tx_output) : bool := match o with OIssueFungibleToken _ | OIssueNft _ _ _ => true | _ => false end.
(** check_transaction.rs 78-93, 124-143, 202-211, 385-470 *)
Definition check_transaction (cc : chain_config) (h : N) (tx : transaction) : res verr unit :=
  let r := cc_rules cc h in
  ensure (negb (bool_decide (tx_inputs tx = [])) && bool_decide (NoDup (tx_inputs tx))) VTxCheck ;?
  ensure (cc_tx_ok cc h tx) VTxCheck ;?
  ensure (count is_issuance (tx_outputs tx) <=? 1)%nat VTxCheck ;?
  ensure (forallb (order_input_ok (cf_orders (ru_values r))) (tx_inputs tx)) VTxCheck ;?
  ensure (forallb (order_output_ok r) (tx_outputs tx)) VTxCheck.

(** input_output_policy/mod.rs 174-190: the outputs spent by the inputs, missing ones are an error *)
Definition input_utxos (V : utxo_view) (ins : list tx_input) : res verr (list (option tx_output)) :=
  rmapM (fun i => match i with
                  | InUtxo k => match vw_utxo V k with Some u => Ok (Some (u_output u)) | None => Err VMissingOutput end
                  | _ => Ok None
                  end) ins.

(** purposes_check.rs 197-212 *)
Definition spendable_in_tx (o : tx_output) : bool :=
  match o with
  | OTransfer _ _ | OLockThenTransfer _ _ _ | OCreateStakePool _ _ | OProduceBlockFromStake _ _ | OIssueNft _ _ _ | OHtlc _ _ => true
  | OBurn _ | OCreateDelegationId _ _ | ODelegateStaking _ _ | OIssueFungibleToken _ | ODataDeposit _ | OCreateOrder _ => false
  end.
Definition is_command (i : tx_input) : bool := match i with InCommand _ _ | InOrder _ => true | _ => false end.
Definition is_produce (o : tx_output) : bool := match o with OProduceBlockFromStake _ _ => true | _ => false end.
Definition is_create_pool (o : tx_output) : bool := match o with OCreateStakePool _ _ => true | _ => false end.
Definition is_create_delegation (o : tx_output) : bool := match o with OCreateDelegationId _ _ => true | _ => false end.
Definition is_create_order (o : tx_output) : bool := match o with OCreateOrder _ => true | _ => false end.
(** purposes_check.rs 192-290 *)
Definition check_tx_purposes (ins : list tx_input) (utxos : list (option tx_output)) (outs : list tx_output) : res verr unit :=
  ensure (forallb (fun o => match o with Some o => spendable_in_tx o | None => true end) utxos) VPolicy ;?
  ensure (count is_command ins <=? 1)%nat VPolicy ;?
  ensure (count is_produce outs =? 0)%nat VPolicy ;?
  ensure (count is_create_pool outs <=? 1)%nat VPolicy ;?
  ensure (count is_create_delegation outs <=? 1)%nat VPolicy ;?
  ensure (count is_create_order outs <=? 1)%nat VPolicy.

(** input_output_policy/mod.rs 273-306 *)
Definition moves_no_tokens (o : tx_output) : bool :=
  match o with
  | OTransfer (OvToken _ 0) _ | OLockThenTransfer (OvToken _ 0) _ _ | OBurn (OvToken _ 0) | OHtlc (OvToken _ 0) _ => true
  | _ => false
  end.

(** input_output_policy/mod.rs 152-222 *)
Definition check_tx_policy (cc : chain_config) (h : N) (U : utxo_view) (V : views) (tx : transaction) : res verr accumulator :=
  let r := cc_rules cc h in
  let? utxos := input_utxos U (tx_inputs tx) in
  check_tx_purposes (tx_inputs tx) utxos (tx_outputs tx) ;?
  let? fee := rmap_err VValues (check_values (ru_values r) V (tx_inputs tx) utxos (tx_outputs tx)) in
  ensure (negb (ru_no_zero_tokens r) || negb (existsb moves_no_tokens (tx_outputs tx))) VPolicy ;?
  Ok fee.

(** * Token issuances: token_issuance_cache.rs *)

(** 240-255 *)
Fixpoint issued_nft (outs : list tx_output) : option N :=
  match outs with [] => None | OIssueNft id _ _ :: _ => Some id | _ :: outs' => issued_nft outs' end.
(** 173-195 *)
Definition precache_issuance (S : store) (v : verifier) (id : N) : res verr (gmap N (cop aux_data)) :=
  match v_aux v !! id with
  | Some _ => Err VIssuanceDuplicate
  | None => Ok match st_aux S id with Some x => <[id := OpRead x]> (v_aux v) | None => v_aux v end
  end.
(** 132-152 *)
Definition insert_aux (m : gmap N (cop aux_data)) (id : N) (o : cop aux_data) : res verr (gmap N (cop aux_data)) :=
  match m !! id with Some (OpWrite _) | Some (OpRead _) => Err VIssuanceDuplicate | _ => Ok (<[id := o]> m) end.
(** 69-100, 118-130 *)
Definition register_issuance (cc : chain_config) (h : N) (S : store) (src : tx_source) (v : verifier) (tx : transaction) : res verr verifier :=
  match issued_nft (tx_outputs tx) with
  | None => Ok v
  | Some id =>
      let? expected := make_token_id cc h (tx_inputs tx) in
      ensure (id =? expected) VUnexpectedId ;?
      let? m := precache_issuance S v id in
      let? m' := insert_aux m id (OpWrite (tx, match src with SrcChain b => b | SrcMempool => 0 end)) in
      Ok (set_issuance v m' (<[tx_id tx := OpWrite id]> (v_index v)))
  end.
(** 102-116, 154-171 *)
Definition unregister_issuance (S : store) (v : verifier) (tx : transaction) : res verr verifier :=
  match issued_nft (tx_outputs tx) with
  | None => Ok v
  | Some id =>
      let? m := precache_issuance S v id in
      match m !! id with
      | None => Err VIssuanceMissing
      | Some _ => Ok (set_issuance v (<[id := OpErase]> m) (<[tx_id tx := OpErase]> (v_index v)))
      end
  end.

(** * Staking: mod.rs 310-479 *)

(** pos-accounting/src/data/pool_data.rs [From<StakePoolData>] *)
Definition pool_of (x : stake_pool) : pool_data := PoolData (sp_decommission x) (sp_pledge x) 0 (sp_vrf x) (sp_margin x) (sp_cost x).

Definition pos_input (S : store) (src : tx_source) (v : verifier) (i : tx_input) : res verr (verifier * list pos_undo) :=
  match i with
  | InUtxo k =>
      match vw_utxo (utxos_now S v) k with
      | None => Err VMissingOutput
      | Some u => match u_output u with
                  | OCreateStakePool p _ | OProduceBlockFromStake _ p => do_pos S src v (DecommissionPool p)
                  | _ => Ok (v, [])
                  end
      end
  | InAccount nonce del a => let? v1 := do_spend S v nonce (AccDelegation del) in do_pos S src v1 (SpendShare del a)
  | InCommand _ _ | InOrder _ => Ok (v, [])
  end.
Definition pos_output (cc : chain_config) (h : N) (S : store) (src : tx_source) (ins : list tx_input) (v : verifier) (o : tx_output)
  : res verr (verifier * list pos_undo) :=
  match o with
  | OCreateStakePool p x =>
      let? expected := make_pool_id cc ins in
      ensure (expected =? p) VUnexpectedId ;?
      ensure (ru_min_pledge (cc_rules cc h) <=? sp_pledge x) VNotEnoughPledge ;?
      do_pos S src v (CreatePool p (pool_of x))
  | OCreateDelegationId d p => let? id := make_delegation_id cc ins in do_pos S src v (CreateDelegation p id d)
  | ODelegateStaking a del => do_pos S src v (Delegate del a)
  | _ => Ok (v, [])
  end.
(** mod.rs 457-465 *)
Definition check_balances (S : store) (v : verifier) (ins : list tx_input) : res verr (list unit) :=
  rmapM (fun i => match i with
                  | InAccount _ del _ => let? _ := rmap_err VPos (pv_deleg_balance (adapter_view (st_pos S) (v_pos v)) del) in Ok tt
                  | _ => Ok tt
                  end) ins.
Definition connect_pos (cc : chain_config) (h : N) (S : store) (src : tx_source) (v : verifier) (tx : transaction) : res verr verifier :=
  let? (v1, us1) := collect (pos_input S src) (tx_inputs tx) v in
  let? (v2, us2) := collect (pos_output cc h S src (tx_inputs tx)) (tx_outputs tx) v1 in
  let? _ := check_balances S v2 (tx_inputs tx) in
  add_pundo v2 src (tx_id tx) (us1 ++ us2).

(** * Tokens: mod.rs 533-791 *)

(** mod.rs 692-702: unknown ids (such as those of NFTs) pass *)
Definition not_frozen (V : tok_view) (id : N) : res verr unit :=
  let? o := rmap_err VTok (tv_data V id) in
  match o with Some t => ensure (negb (is_frozen t)) VFrozenToken | None => Ok tt end.
Definition value_not_frozen (V : tok_view) (x : output_value) : res verr unit :=
  match x with OvToken id _ => not_frozen V id | OvCoin _ | OvTokenV0 => Ok tt end.
Definition output_not_frozen (V : tok_view) (o : tx_output) : res verr unit :=
  match o with
  | OTransfer x _ | OLockThenTransfer x _ _ | OBurn x | OHtlc x _ => value_not_frozen V x
  | OCreateOrder d => value_not_frozen V (od_ask d) ;? value_not_frozen V (od_give d)
  | _ => Ok tt
  end.
Definition order_not_frozen (S : store) (v : verifier) (id : N) : res verr unit :=
  let V := tok_cache_view (st_tok S) (v_tok v) in
  let? o := rmap_err VOrd (ov_data (ord_cache_view (st_ord S) (v_ord v)) id) in
  let? d := ok_or o (VOrd OrderDataNotFound) in
  value_not_frozen V (od_ask d) ;? value_not_frozen V (od_give d).
(** mod.rs 704-778 *)
Definition input_not_frozen (cc : chain_config) (h : N) (S : store) (v : verifier) (i : tx_input) : res verr unit :=
  let V := tok_cache_view (st_tok S) (v_tok v) in
  match i with
  | InUtxo k => match vw_utxo (utxos_now S v) k with
                | None => Err VMissingOutput
                | Some u => if ru_frozen_checks (cc_rules cc h) then output_not_frozen V (u_output u) else Ok tt
                end
  | InAccount _ _ _ => Ok tt
  | InCommand _ c => match c with
                     | CmdMint id _ | CmdUnmint id | CmdLockSupply id | CmdFreeze id _ | CmdChangeAuthority id _
                     | CmdChangeUri id _ => not_frozen V id
                     | CmdUnfreeze _ => Ok tt
                     | CmdConcludeOrder id | CmdFillOrder id _ _ => order_not_frozen S v id
                     end
  | InOrder c => match c with OcFill id _ | OcConclude id => order_not_frozen S v id | OcFreeze _ => Ok tt end
  end.
(** mod.rs 680-791 *)
Definition check_frozen (cc : chain_config) (h : N) (S : store) (v : verifier) (tx : transaction) : res verr unit :=
  let? _ := rmapM (input_not_frozen cc h S v) (tx_inputs tx) in
  let? _ := rmapM (output_not_frozen (tok_cache_view (st_tok S) (v_tok v))) (tx_outputs tx) in
  Ok tt.

(** input_output_policy/mod.rs 62-87 *)
Definition tokens_burned (id : N) (outs : list tx_output) : res verr amount :=
  ok_or (amount_sum (omap (fun o => match o with OBurn (OvToken i a) => if i =? id then Some a else None | _ => None end) outs)) VBurnSum.

(** mod.rs 541-640 *)
Definition tok_input (S : store) (outs : list tx_output) (v : verifier) (i : tx_input) : res verr (verifier * list tok_undo) :=
  match i with
  | InCommand nonce c =>
      match c with
      | CmdMint id a => let? v1 := do_spend S v nonce (AccToken id) in do_tok S v1 (MintTokens id a)
      | CmdUnmint id =>
          let? v1 := do_spend S v nonce (AccToken id) in
          let? burned := tokens_burned id outs in
          if 0 <? burned then do_tok S v1 (UnmintTokens id burned) else Ok (v1, [])
      | CmdLockSupply id => let? v1 := do_spend S v nonce (AccToken id) in do_tok S v1 (LockSupply id)
      | CmdFreeze id u => let? v1 := do_spend S v nonce (AccToken id) in do_tok S v1 (FreezeToken id u)
      | CmdUnfreeze id => let? v1 := do_spend S v nonce (AccToken id) in do_tok S v1 (UnfreezeToken id)
      | CmdChangeAuthority id d => let? v1 := do_spend S v nonce (AccToken id) in do_tok S v1 (ChangeAuthority id d)
      | CmdChangeUri id uri => let? v1 := do_spend S v nonce (AccToken id) in do_tok S v1 (ChangeMetadataUri id uri)
      | CmdConcludeOrder _ | CmdFillOrder _ _ _ => Ok (v, [])
      end
  | InUtxo _ | InAccount _ _ _ | InOrder _ => Ok (v, [])
  end.
Definition token_of (x : issuance) : token_data :=
  from_issuance (is_ticker x) (is_decimals x) (is_uri x) (is_supply x) (is_freezable x) (is_authority x).
(** mod.rs 642-664 *)
Definition tok_output (cc : chain_config) (h : N) (S : store) (ins : list tx_input) (v : verifier) (o : tx_output)
  : res verr (verifier * list tok_undo) :=
  match o with
  | OIssueFungibleToken x => let? id := make_token_id cc h ins in do_tok S v (IssueToken id (token_of x))
  | _ => Ok (v, [])
  end.
Definition connect_tok (cc : chain_config) (h : N) (S : store) (src : tx_source) (v : verifier) (tx : transaction) : res verr verifier :=
  check_frozen cc h S v tx ;?
  let? (v1, us1) := collect (tok_input S (tx_outputs tx)) (tx_inputs tx) v in
  let? (v2, us2) := collect (tok_output cc h S (tx_inputs tx)) (tx_outputs tx) v1 in
  add_tundo v2 src (tx_id tx) (us1 ++ us2).

(** * Orders: mod.rs 820-924 *)
Definition ord_input (S : store) (v : verifier) (i : tx_input) : res verr (verifier * list ord_undo) :=
  match i with
  | InCommand nonce c =>
      match c with
      | CmdConcludeOrder id => let? v1 := do_spend S v nonce (AccOrder id) in do_ord S v1 (ConcludeOrder id)
      | CmdFillOrder id a _ => let? v1 := do_spend S v nonce (AccOrder id) in do_ord S v1 (FillOrder id a OrdersV0)
      | _ => Ok (v, [])
      end
  | InOrder c =>
      match c with
      | OcFill id a => do_ord S v (FillOrder id a OrdersV1)
      | OcFreeze id => do_ord S v (FreezeOrder id)
      | OcConclude id => do_ord S v (ConcludeOrder id)
      end
  | InUtxo _ | InAccount _ _ _ => Ok (v, [])
  end.
(** orders-accounting/src/data.rs [From<OrderData>]: a created order is not frozen *)
Definition new_order (d : order_data) : order_data := OrderData (od_key d) (od_ask d) (od_give d) false.
Definition ord_output (cc : chain_config) (S : store) (ins : list tx_input) (v : verifier) (o : tx_output)
  : res verr (verifier * list ord_undo) :=
  match o with
  | OCreateOrder d => let? id := make_order_id cc ins in do_ord S v (CreateOrder id (new_order d))
  | _ => Ok (v, [])
  end.
Definition connect_ord (cc : chain_config) (S : store) (src : tx_source) (v : verifier) (tx : transaction) : res verr verifier :=
  let? (v1, us1) := collect (ord_input S) (tx_inputs tx) v in
  let? (v2, us2) := collect (ord_output cc S (tx_inputs tx)) (tx_outputs tx) v1 in
  add_oundo v2 src (tx_id tx) (us1 ++ us2).

(** * Outputs *)
Definition place (src : tx_source) (h : N) : utxo_source := match src with SrcChain _ => InChain h | SrcMempool => InMempool end.
(** mod.rs 1002-1016 *)
Definition connect_utxo (h : N) (S : store) (src : tx_source) (v : verifier) (tx : transaction) : res verr verifier :=
  match UtxoModel.connect_transaction (st_utxo S) (v_utxo v) tx (place src h) with
  | (c, Ok u) => add_uundo (set_utxo v c) src (tx_id tx) u
  | (_, Err e) => Err (VUtxo e)
  | (_, Panic) => Panic
  end.

(** * A transaction: mod.rs 953-1018 *)
Definition connect_tx (cc : chain_config) (h mtp : N) (S : store) (src : tx_source) (v : verifier) (tx : transaction)
  : res verr (verifier * accumulator) :=
  check_transaction cc h tx ;?
  let? v1 := register_issuance cc h S src v tx in
  let? fee := check_tx_policy cc h (utxos_now S v1) (views_now S v1) tx in
  ensure (cc_tx_scripts cc h mtp (utxos_now S v1) (views_now S v1) tx) VScripts ;?
  let? v2 := connect_pos cc h S src v1 tx in
  let? v3 := connect_tok cc h S src v2 tx in
  let? v4 := connect_ord cc S src v3 tx in
  let? v5 := connect_utxo h S src v4 tx in
  Ok (v5, fee).

(** mod.rs 481-506: the nonces of an input are given back; order commands of the newer kind have none *)
Definition undo_input_nonce (S : store) (v : verifier) (i : tx_input) : res verr verifier :=
  match i with
  | InAccount _ del _ => do_unspend S v (AccDelegation del)
  | InCommand _ c => do_unspend S v (command_account c)
  | InUtxo _ | InOrder _ => Ok v
  end.
(** mod.rs 481-531: take the record of the transaction, if any, and undo its operations, last first *)
Definition undo_pos (S : store) (src : tx_source) (v : verifier) (t : N) : res verr verifier :=
  let? (st, o) := rmap_err VUndo (undo_run pos_records (v_pundo v) (UTake src t)) in
  let v1 := set_pundo v st in
  match o with
  | UTook (Some us) => each (fun v u => match adapter_undo (st_pos S) (v_pos v) src u with
                                        | (A, Ok _) => Ok (set_pos v A) | (_, Err e) => Err (VPos e) | (_, Panic) => Panic
                                        end) (rev us) v1
  | _ => Ok v1
  end.
Definition undo_tok (S : store) (src : tx_source) (v : verifier) (t : N) : res verr verifier :=
  let? (st, o) := rmap_err VUndo (undo_run tok_records (v_tundo v) (UTake src t)) in
  let v1 := set_tundo v st in
  match o with
  | UTook (Some us) => each (fun v u => match undo_token_op (st_tok S) (v_tok v) u with
                                        | (d, Ok _) => Ok (set_tok v d) | (_, Err e) => Err (VTok e) | (_, Panic) => Panic
                                        end) (rev us) v1
  | _ => Ok v1
  end.
Definition undo_ord (S : store) (src : tx_source) (v : verifier) (t : N) : res verr verifier :=
  let? (st, o) := rmap_err VUndo (undo_run ord_records (v_oundo v) (UTake src t)) in
  let v1 := set_oundo v st in
  match o with
  | UTook (Some us) => each (fun v u => match undo_order_op (st_ord S) (v_ord v) u with
                                        | (d, Ok _) => Ok (set_ord v d) | (_, Err e) => Err (VOrd e) | (_, Panic) => Panic
                                        end) (rev us) v1
  | _ => Ok v1
  end.
(** mod.rs 1139-1167 *)
Definition disconnect_tx (S : store) (src : tx_source) (v : verifier) (tx : transaction) : res verr verifier :=
  let? (st, o) := rmap_err VUndo (undo_run utxo_records (v_uundo v) (UTake src (tx_id tx))) in
  let v1 := set_uundo v st in
  let? us := ok_or (match o with UTook x => x | _ => None end) (VUndo (MissingTxUndo (tx_id tx))) in
  let? v2 := each (undo_input_nonce S) (tx_inputs tx) v1 in
  let? v3 := undo_pos S src v2 (tx_id tx) in
  let? v4 := undo_tok S src v3 (tx_id tx) in
  let? v5 := undo_ord S src v4 (tx_id tx) in
  match UtxoModel.disconnect_transaction (st_utxo S) (v_utxo v5) tx us with
  | (c, Ok _) => unregister_issuance S (set_utxo v5 c) tx
  | (_, Err e) => Err (VUtxo e)
  | (_, Panic) => Panic
  end.

(** * Blocks *)

(** common/src/chain/block/: what the verifier uses of a block and of its index. [b_pos]: the kernel inputs and the pool of
    a staking block. *)
Record block := Block {
  b_id : N; b_prev : N; b_height : N; b_mtp : N; b_txs : list transaction; b_reward : list tx_output;
  b_pos : option (list tx_input * N) }.
(** common/src/chain/block/mod.rs [block_reward_transactable] *)
Definition reward_of (b : block) : reward_tx := RewardTx (option_map fst (b_pos b)) (Some (b_reward b)).

Definition is_lock (o : tx_output) : bool := match o with OLockThenTransfer _ _ _ => true | _ => false end.
Definition pool_output (o : tx_output) : option (N * N) :=
  match o with OCreateStakePool p x => Some (p, sp_staker x) | OProduceBlockFromStake d p => Some (p, d) | _ => None end.
(** purposes_check.rs 33-190 *)
Definition check_reward_purposes (r : rules) (U : utxo_view) (rt : reward_tx) : res verr unit :=
  match rt_inputs rt with
  | Some ins =>
      let? ks := rmapM (fun i => match i with InUtxo k => Ok k | _ => Err VStake end) ins in
      let? us := rmapM (fun k => ok_or (vw_utxo U k) VMissingOutput) ks in
      match us with
      | [u] =>
          let? (p, d) := ok_or (pool_output (u_output u)) VStake in
          let? outs := ok_or (rt_outputs rt) VStake in
          match outs with
          | [OProduceBlockFromStake d' p'] =>
              ensure (p =? p') VStake ;?
              ensure (negb (ru_staker_fixed r) || (d =? d')) VStake
          | _ => Err VStake
          end
      | _ => Err VStake
      end
  | None =>
      let? outs := ok_or (rt_outputs rt) VStake in
      ensure (forallb is_lock outs) VStake
  end.
(** mod.rs 254-269, input_output_policy/mod.rs 89-147 *)
Definition check_block_reward (cc : chain_config) (U : utxo_view) (b : block) (fees : amount) : res verr unit :=
  let r := cc_rules cc (b_height b) in
  check_reward_purposes r U (reward_of b) ;?
  match b_pos b with
  | None => let? _ := rmap_err VValues (check_reward_values (ru_values r) fees (ru_subsidy r) (b_reward b)) in Ok tt
  | Some _ => ensure (length (b_reward b) =? 1)%nat VStake
  end.

(** mod.rs 1020-1090 *)
Definition connect_reward (cc : chain_config) (S : store) (v : verifier) (b : block) (fees : amount) : res verr verifier :=
  let r := cc_rules cc (b_height b) in
  let src := SrcChain (b_id b) in
  let rt := reward_of b in
  (match rt_inputs rt with
   | Some _ => ensure (cc_reward_scripts cc (b_height b) (b_mtp b) (utxos_now S v) (views_now S v) rt) VScripts
   | None => Ok tt
   end) ;?
  match connect_block_transactable (st_utxo S) (v_utxo v) rt (b_id b) (b_height b) with
  | (c, Ok ou) =>
      let v1 := set_utxo v c in
      let? v2 := match ou with
                 | Some us => let? (st, _) := rmap_err VUndo (undo_run utxo_records (v_uundo v1) (UAddReward src us)) in Ok (set_uundo v1 st)
                 | None => Ok v1
                 end in
      match b_pos b with
      | None => Ok v2
      | Some (_, pool) =>
          let? total := ok_or (amount_add (ru_subsidy r) fees) VRewardSum in
          match distribute_pos_reward (st_pos S) (v_pos v2) src pool total (ru_reward r) with
          | (A, Ok us) => let? (st, _) := rmap_err VUndo (undo_run pos_records (v_pundo v2) (UAddReward src us)) in
                          Ok (set_pundo (set_pos v2 A) st)
          | (_, Err e) => Err (VReward e)
          | (_, Panic) => Panic
          end
      end
  | (_, Err e) => Err (VUtxo e)
  | (_, Panic) => Panic
  end.

(** mod.rs 1169-1210 *)
Definition disconnect_reward (S : store) (v : verifier) (b : block) : res verr verifier :=
  let src := SrcChain (b_id b) in
  let? (st, o) := rmap_err VUndo (undo_run utxo_records (v_uundo v) (UTakeReward src)) in
  let v1 := set_uundo v st in
  match disconnect_block_transactable (st_utxo S) (v_utxo v1) (reward_of b) (b_id b) (match o with UTookReward x => x | _ => None end) with
  | (c, Ok _) =>
      let v2 := set_utxo v1 c in
      match b_pos b with
      | None => Ok v2
      | Some _ =>
          let? (st, o) := rmap_err VUndo (undo_run pos_records (v_pundo v2) (UTakeReward src)) in
          let v3 := set_pundo v2 st in
          match o with
          | UTookReward (Some us) => match undo_reward (st_pos S) (v_pos v3) src us with
                                     | (A, Ok _) => Ok (set_pos v3 A) | (_, Err e) => Err (VPos e) | (_, Panic) => Panic
                                     end
          | _ => Ok v3
          end
      end
  | (_, Err e) => Err (VUtxo e)
  | (_, Panic) => Panic
  end.

(** default_strategy.rs 66-84 *)
Fixpoint connect_txs (cc : chain_config) (S : store) (b : block) (txs : list transaction) (v : verifier) (total : accumulator)
  : res verr (verifier * accumulator) :=
  match txs with
  | [] => Ok (v, total)
  | tx :: txs' =>
      let? (v1, fee) := connect_tx cc (b_height b) (b_mtp b) S (SrcChain (b_id b)) v tx in
      let? total1 := rmap_err (fun _ => VFeesSum) (fee_combine total fee) in
      connect_txs cc S b txs' v1 total1
  end.
(** default_strategy.rs 46-113 *)
Definition verify_block (cc : chain_config) (S : store) (v : verifier) (b : block) : res verr verifier :=
  let? (v1, total) := connect_txs cc S b (b_txs b) v acc_new in
  let? fees := rmap_err VValues (map_into_block_fees (ru_values (cc_rules cc (b_height b))) total) in
  check_block_reward cc (utxos_now S v1) b fees ;?
  let? v2 := connect_reward cc S v1 b fees in
  Ok (set_utxo v2 (UtxoModel.set_best_block (v_utxo v2) (b_id b))).
(** default_strategy.rs 115-150 *)
Definition unverify_block (S : store) (v : verifier) (b : block) : res verr verifier :=
  let? v1 := disconnect_reward S v b in
  let? v2 := each (disconnect_tx S (SrcChain (b_id b))) (rev (b_txs b)) v1 in
  Ok (set_utxo v2 (UtxoModel.set_best_block (v_utxo v2) (b_prev b))).

(** flush.rs 31-62, 123-130: [Write] and [Erase] entries are applied *)
Definition store_ops {K V} `{Countable K} (child : gmap K (cop V)) (db : gmap K V) : gmap K V :=
  merge (fun o p => match o with Some (OpRead _) | None => p | Some (OpWrite n) => Some n | Some OpErase => None end) child db.
Definition stored {D} (b : undo_base D) : gmap N D := match b with ChainDb m => m | MempoolBase => ∅ end.
(** flush.rs 64-146 *)
Definition flush_verifier (db : chain_db) (v : verifier) : res verr chain_db :=
  match utxo_db_merge (db_utxo db) (v_utxo v) with
  | (u', Ok _) =>
      let? (uu, _) := rmap_err VUndo (undo_run utxo_records (v_uundo v) UFlush) in
      match pos_db_merge (db_pos db) (pa_delta (v_pos v)) with
      | (p', Ok _) =>
          let? (pu, _) := rmap_err VUndo (undo_run pos_records (v_pundo v) UFlush) in
          match tok_db_merge (db_tok db) (v_tok v) with
          | (t', Ok _) =>
              let? (tu, _) := rmap_err VUndo (undo_run tok_records (v_tundo v) UFlush) in
              match ord_db_merge (db_ord db) (v_ord v) with
              | (o', Ok _) =>
                  let? (ou, _) := rmap_err VUndo (undo_run ord_records (v_oundo v) UFlush) in
                  Ok (ChainDB u' p' t' o' (store_nonces (v_nonce v) (db_nonce db))
                        (store_ops (v_aux v) (db_aux db)) (store_ops (v_index v) (db_index db))
                        (stored (us_base uu)) (stored (us_base pu)) (stored (us_base tu)) (stored (us_base ou)))
              | (_, Err e) => Err (VOrd e) | (_, Panic) => Panic
              end
          | (_, Err e) => Err (VTok e) | (_, Panic) => Panic
          end
      | (_, Err e) => Err (VPos e) | (_, Panic) => Panic
      end
  | (_, Err e) => Err (VUtxoFlush e) | (_, Panic) => Panic
  end.

(** chainstateref/mod.rs 1266-1290 [connect_transactions] and 1308-1364 [connect_tip]: the block must extend the best
    block; its effects are flushed to the database. *)
Definition connect_block (cc : chain_config) (db : chain_db) (b : block) : res verr chain_db :=
  ensure (udb_best (db_utxo db) =? b_prev b) VNotBest ;?
  let? v := verify_block cc (store_of db) (verifier_on db) b in
  flush_verifier db v.
(** chainstateref/mod.rs 1293-1304 [disconnect_transactions] and 1367-1400 [disconnect_tip]: the block must be the best
    block. *)
Definition disconnect_block (db : chain_db) (b : block) : res verr chain_db :=
  ensure (udb_best (db_utxo db) =? b_id b) VNotBest ;?
  let? v := unverify_block (store_of db) (verifier_on db) b in
  flush_verifier db v.

(** * Genesis *)
(** common/src/chain/genesis: its id and its outputs *)
Record genesis := Genesis { g_id : N; g_outputs : list tx_output }.
(** utxo/src/storage/mod.rs 51-77: every output enters the set, whatever its kind; failures are unwrapped *)
Definition genesis_utxos (g : genesis) : res verr utxo_db :=
  match try_fold (fun c io => add_utxo c (FromReward (g_id g), io.1) (Utxo io.2 (InChain 0)) false) (enumerate (g_outputs g)) cache_new with
  | (c, Ok _) => match utxo_db_merge (UtxoDb ∅ (g_id g)) c with (u, Ok _) => Ok u | _ => Panic end
  | _ => Panic
  end.
(** chainstate/src/detail/mod.rs 775-805 *)
Definition genesis_pool (P : pos_view) (d : pos_delta) (o : tx_output) : pos_delta * res pos_err unit :=
  match o with
  | OCreateStakePool p x => let (d', r) := create_pool P d p (pool_of x) in (d', rmap (fun _ => tt) r)
  | _ => (d, Ok tt)
  end.
(** chainstate/src/detail/mod.rs 677-719: the tables for the tip; the sealed copy, the block index and the epoch data are not
    modelled here *)
Definition genesis_db (g : genesis) : res verr chain_db :=
  let? u := genesis_utxos g in
  let none := PosDb ∅ ∅ ∅ ∅ ∅ in
  match try_fold (genesis_pool (pos_db_view none)) (g_outputs g) pos_delta_new with
  | (d, Ok _) =>
      match pos_db_merge none d with
      | (p, Ok _) => Ok (ChainDB u p (TokDb ∅ ∅) (OrdDb ∅ ∅ ∅) ∅ ∅ ∅ ∅ ∅ ∅ ∅)
      | (_, Err e) => Err (VPos e) | (_, Panic) => Panic
      end
  | (_, Err e) => Err (VPos e) | (_, Panic) => Panic
  end.
