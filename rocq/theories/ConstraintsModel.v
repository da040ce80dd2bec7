(** Model of the [constraints-value-accumulator] crate: what the inputs of a transaction unlock, what its outputs consume,
    and the comparison of the two. chainstate/constraints-value-accumulator/src/{constraints_accumulator,
    accumulated_fee,lib,error}.rs. Error payloads are dropped. *)
From stdpp Require Import sorting.
From Verif Require Import Base AmountModel DeltaModel LayeredModel TokensModel OrdersModel PosModel PrimModel ChainModel.
Local Open Scope N_scope.

(** common/src/primitives/coin_or_token_id.rs 23-27: [CoinOrTokenId] *)
Inductive currency := Coin | Token (id : N).
Global Instance currency_eq : EqDecision currency. Proof. solve_decision. Defined.
Global Instance currency_countable : Countable currency.
Proof.
  refine (inj_countable' (fun c => match c with Coin => None | Token i => Some i end)
                         (fun o => match o with None => Coin | Some i => Token i end) _).
  intros []; reflexivity.
Defined.
(** coin_or_token_id.rs 29-37: [from_output_value] *)
Definition currency_of (v : output_value) : option currency :=
  match v with OvCoin _ => Some Coin | OvTokenV0 => None | OvToken id _ => Some (Token id) end.

(** What the code asks [ChainConfig] for, at the height of the block: the maturity period of staked coins, the fees of
    token commands and of some outputs, and the version of the order rules. *)
Record config := Config {
  cf_maturity : N;
  cf_supply_fee : amount; cf_freeze_fee : amount; cf_authority_fee : amount; cf_uri_fee : amount;
  cf_data_fee : amount; cf_issuance_fee : amount; cf_nft_fee : amount;
  cf_orders : orders_version }.

(** error.rs 25-57 (the variants returned) *)
Inductive acv_err :=
| AmountOverflow | CoinOrTokenOverflow | PrintMoneyOrViolateTimelock | ViolateFeeRequirements
| InputsUtxosLengthMismatch | MissingOutputOrSpent | AcvPos (e : pos_err) | AcvOrders (e : ord_err) | AcvTokens (e : tok_err)
| PledgeAmountNotFound | SpendingNonSpendableOutput | NegativeAccountBalance | AcvUnsupportedTokenVersion.

(** constraints_accumulator.rs 37-41. [NonZeroU64] keys are numbers; a zero key never gets in. *)
Record accumulator := Accu { ac_free : gmap currency amount; ac_locked : gmap N amount }.
(** constraints_accumulator.rs 44-49 *)
Definition acc_new : accumulator := Accu ∅ ∅.

(** lib.rs 24-33 *)
Definition insert_or_increase {K} `{Countable K} (m : gmap K amount) (k : K) (a : amount) : res acv_err (gmap K amount) :=
  let? v := ok_or (amount_add (default 0 (m !! k)) a) AmountOverflow in Ok (<[k := v]> m).

(** constraints_accumulator.rs 603-620 *)
Definition decrease_or (m : gmap currency amount) (k : currency) (a : amount) (e : acv_err) : res acv_err (gmap currency amount) :=
  if 0 <? a then
    match m !! k with
    | Some v => let? v' := ok_or (amount_sub v a) e in Ok (<[k := v']> m)
    | None => Err e
    end
  else Ok m.

Definition add_free (ac : accumulator) (k : currency) (a : amount) : res acv_err accumulator :=
  let? m := insert_or_increase (ac_free ac) k a in Ok (Accu m (ac_locked ac)).
(** constraints_accumulator.rs 186-214 and 240-258: coins that must stay locked for the maturity period (if it is not zero).
    The overflow error there is [CoinOrTokenOverflow]. *)
Definition add_maturing (cf : config) (ac : accumulator) (a : amount) : res acv_err accumulator :=
  if cf_maturity cf =? 0 then add_free ac Coin a
  else let? v := ok_or (amount_add (default 0 (ac_locked ac !! cf_maturity cf)) a) CoinOrTokenOverflow in
       Ok (Accu (ac_free ac) (<[cf_maturity cf := v]> (ac_locked ac))).

(** constraints_accumulator.rs 51-57 *)
Definition from_block_reward (total_fee subsidy : amount) : option accumulator :=
  match amount_add total_fee subsidy with Some a => Some (Accu {[ Coin := a ]} ∅) | None => None end.

(** The value part of an output: constraints_accumulator.rs 146-158, 443-452 *)
Definition add_value (ac : accumulator) (v : output_value) : res acv_err accumulator :=
  match v with
  | OvCoin a => add_free ac Coin a
  | OvTokenV0 => Ok ac
  | OvToken id a => add_free ac (Token id) a
  end.

(** constraints_accumulator.rs 140-216 *)
Definition process_input_utxo (cf : config) (P : pos_view) (ac : accumulator) (o : tx_output) : res acv_err accumulator :=
  match o with
  | OTransfer v _ | OLockThenTransfer v _ _ | OHtlc v _ => add_value ac v
  | OCreateDelegationId _ _ | OIssueFungibleToken _ | OBurn _ | ODataDeposit _ | OCreateOrder _ => Err SpendingNonSpendableOutput
  | OIssueNft id _ _ => add_free ac (Token id) 1
  | ODelegateStaking a _ => add_free ac Coin a
  | OCreateStakePool p _ | OProduceBlockFromStake _ p =>
      let? od := rmap_err (fun _ => AcvPos PosViewFail) (pv_pool P p) in
      let? d := ok_or od PledgeAmountNotFound in
      let? b := rmap_err AcvPos (staker_balance d) in
      add_maturing cf ac b
  end.

(** The temporary deltas of [from_inputs] (constraints_accumulator.rs 72-77) over the given views. *)
Record deltas := Deltas { dl_pos : pos_delta; dl_tok : tok_delta; dl_ord : ord_delta }.
Definition deltas_new : deltas := Deltas pos_delta_new tok_delta_new ord_delta_new.
Record views := Views { vs_pos : pos_view; vs_tok : tok_view; vs_ord : ord_view }.

(** Running an operation on a temporary delta that is dropped on failure. *)
Definition result {S E A} (m : S * res E A) : res E S := match m with (s, Ok _) => Ok s | (_, Err e) => Err e | (_, Panic) => Panic end.

(** constraints_accumulator.rs 218-262 *)
Definition process_input_account (cf : config) (V : views) (ac : accumulator) (ds : deltas) (del : N) (a : amount)
  : res acv_err (accumulator * deltas) :=
  let? d := rmap_err AcvPos (result (spend_share (vs_pos V) (dl_pos ds) del a)) in
  let? _ := rmap_err AcvPos (pos_get_deleg_balance (vs_pos V) d del) in
  let? ac := add_maturing cf ac a in
  Ok (ac, Deltas d (dl_tok ds) (dl_ord ds)).

(** constraints_accumulator.rs 622-627 *)
Definition acv_output_value_amount (v : output_value) : res acv_err amount :=
  match v with OvCoin a | OvToken _ a => Ok a | OvTokenV0 => Err AcvUnsupportedTokenVersion end.

(** constraints_accumulator.rs 347-386 *)
Definition process_conclude_order (V : views) (ac : accumulator) (ds : deltas) (id : N)
  : res acv_err (accumulator * deltas * (currency * amount)) :=
  let P := vs_ord V in
  let? od := rmap_err (fun _ => AcvOrders OrdViewFail) (ord_get_data P (dl_ord ds) id) in
  let? data := ok_or od (AcvOrders OrderDataNotFound) in
  let? ask := rmap_err (fun _ => AcvOrders OrdViewFail) (ord_get_ask P (dl_ord ds) id) in
  let? give := rmap_err (fun _ => AcvOrders OrdViewFail) (ord_get_give P (dl_ord ds) id) in
  let? d := rmap_err AcvOrders (result (conclude_order P (dl_ord ds) id)) in
  let? _ := rmap_err AcvOrders (ord_get_ask P d id) in
  let? _ := rmap_err AcvOrders (ord_get_give P d id) in
  let? initially_asked := acv_output_value_amount (od_ask data) in
  let? filled := ok_or (amount_sub initially_asked ask) NegativeAccountBalance in
  let? ask_currency := ok_or (currency_of (od_ask data)) AcvUnsupportedTokenVersion in
  let? ac := add_free ac ask_currency filled in
  let? give_currency := ok_or (currency_of (od_give data)) AcvUnsupportedTokenVersion in
  let? ac := add_free ac give_currency give in
  Ok (ac, Deltas (dl_pos ds) (dl_tok ds) d, (Coin, 0)).

(** constraints_accumulator.rs 388-434 *)
Definition process_fill_order (cf : config) (V : views) (ac : accumulator) (ds : deltas) (id : N) (fill : amount)
  : res acv_err (accumulator * deltas * (currency * amount)) :=
  let P := vs_ord V in
  let? od := rmap_err (fun _ => AcvOrders OrdViewFail) (ord_get_data P (dl_ord ds) id) in
  let? data := ok_or od (AcvOrders OrderDataNotFound) in
  let? filled := rmap_err AcvOrders (calculate_fill_order (ord_cache_view P (dl_ord ds)) id fill (cf_orders cf)) in
  let? d := rmap_err AcvOrders (result (fill_order P (dl_ord ds) id fill (cf_orders cf))) in
  let? _ := rmap_err AcvOrders (ord_get_ask P d id) in
  let? _ := rmap_err AcvOrders (ord_get_give P d id) in
  let? give_currency := ok_or (currency_of (od_give data)) AcvUnsupportedTokenVersion in
  let? ac := add_free ac give_currency filled in
  let? ask_currency := ok_or (currency_of (od_ask data)) AcvUnsupportedTokenVersion in
  Ok (ac, Deltas (dl_pos ds) (dl_tok ds) d, (ask_currency, fill)).

(** constraints_accumulator.rs 264-319 *)
Definition process_command (cf : config) (V : views) (ac : accumulator) (ds : deltas) (c : account_command)
  : res acv_err (accumulator * deltas * (currency * amount)) :=
  match c with
  | CmdMint id a =>
      let? d := rmap_err AcvTokens (result (mint_tokens (vs_tok V) (dl_tok ds) id a)) in
      let? _ := rmap_err AcvTokens (tok_get_supply (vs_tok V) d id) in
      let? ac := add_free ac (Token id) a in
      Ok (ac, Deltas (dl_pos ds) d (dl_ord ds), (Coin, cf_supply_fee cf))
  | CmdLockSupply _ | CmdUnmint _ => Ok (ac, ds, (Coin, cf_supply_fee cf))
  | CmdFreeze _ _ | CmdUnfreeze _ => Ok (ac, ds, (Coin, cf_freeze_fee cf))
  | CmdChangeAuthority _ _ => Ok (ac, ds, (Coin, cf_authority_fee cf))
  | CmdChangeUri _ _ => Ok (ac, ds, (Coin, cf_uri_fee cf))
  | CmdConcludeOrder id => process_conclude_order V ac ds id
  | CmdFillOrder id fill _ => process_fill_order cf V ac ds id fill
  end.

(** constraints_accumulator.rs 321-346 *)
Definition process_order_command (cf : config) (V : views) (ac : accumulator) (ds : deltas) (c : order_command)
  : res acv_err (accumulator * deltas * option (currency * amount)) :=
  match c with
  | OcFill id a => let? (x, y) := process_fill_order cf V ac ds id a in Ok (x, Some y)
  | OcConclude id => let? (x, y) := process_conclude_order V ac ds id in Ok (x, Some y)
  | OcFreeze _ => Ok (ac, ds, None)
  end.

(** One turn of the loop in constraints_accumulator.rs 79-122; [td] is [total_to_deduct]. *)
Definition process_input (cf : config) (V : views) (st : accumulator * deltas * gmap currency amount)
  (iu : tx_input * option tx_output) : res acv_err (accumulator * deltas * gmap currency amount) :=
  let '(ac, ds, td) := st in
  match iu with
  | (InUtxo _, ou) =>
      let? o := ok_or ou MissingOutputOrSpent in
      let? ac := process_input_utxo cf (pos_cache_view (vs_pos V) (dl_pos ds)) ac o in
      Ok (ac, ds, td)
  | (InAccount _ del a, _) =>
      let? (ac, ds) := process_input_account cf V ac ds del a in Ok (ac, ds, td)
  | (InCommand _ c, _) =>
      let? (x, (cur, amt)) := process_command cf V ac ds c in
      let? td := insert_or_increase td cur amt in
      Ok (x, td)
  | (InOrder c, _) =>
      let? (x, o) := process_order_command cf V ac ds c in
      match o with
      | Some (cur, amt) => let? td := insert_or_increase td cur amt in Ok (x, td)
      | None => Ok (x, td)
      end
  end.

(** constraints_accumulator.rs 59-136 *)
Definition from_inputs (cf : config) (V : views) (inputs : list tx_input) (utxos : list (option tx_output))
  : res acv_err accumulator :=
  ensure (length inputs =? length utxos)%nat InputsUtxosLengthMismatch ;?
  let? (ac, _, td) := rfold (process_input cf V) (zip inputs utxos) (acc_new, deltas_new, ∅) in
  let? free := rfold (fun m ka => decrease_or m ka.1 ka.2 ViolateFeeRequirements) (map_to_list td) (ac_free ac) in
  Ok (Accu free (ac_locked ac)).

(** constraints_accumulator.rs 514-545 *)
Definition process_output_timelock (ac : accumulator) (t : timelock) (a : amount) : res acv_err accumulator :=
  match t with
  | UntilHeight _ | UntilTime _ | ForSeconds _ => add_free ac Coin a
  | ForBlockCount n => if n =? 0 then add_free ac Coin a
                       else let? m := insert_or_increase (ac_locked ac) n a in Ok (Accu (ac_free ac) m)
  end.

(** constraints_accumulator.rs 436-512, one output *)
Definition process_output (cf : config) (ac : accumulator) (o : tx_output) : res acv_err accumulator :=
  match o with
  | OTransfer v _ | OBurn v | OHtlc v _ => add_value ac v
  | ODelegateStaking a _ => add_free ac Coin a
  | OCreateStakePool _ data => add_free ac Coin (sp_pledge data)
  | OProduceBlockFromStake _ _ | OCreateDelegationId _ _ => Ok ac
  | OLockThenTransfer v _ t => match v with
                               | OvCoin a => process_output_timelock ac t a
                               | OvTokenV0 => Ok ac
                               | OvToken id a => add_free ac (Token id) a
                               end
  | ODataDeposit _ => add_free ac Coin (cf_data_fee cf)
  | OIssueFungibleToken _ => add_free ac Coin (cf_issuance_fee cf)
  | OIssueNft _ _ _ => add_free ac Coin (cf_nft_fee cf)
  | OCreateOrder d =>
      let? id := ok_or (currency_of (od_give d)) AcvUnsupportedTokenVersion in
      let? a := acv_output_value_amount (od_give d) in
      add_free ac id a
  end.
Definition from_outputs (cf : config) (outs : list tx_output) : res acv_err accumulator := rfold (process_output cf) outs acc_new.

(** The keys of a [BTreeMap] in ascending order. *)
Definition sorted_keys (m : gmap N amount) : list N := merge_sort N.le (elements (dom m)).

(** constraints_accumulator.rs 559-590: use up [out] locked output coins on the constraints with the given keys (in that
    order) and then on the unconstrained coins. [Panic] stands for the two [expect]s. *)
Fixpoint use_coins (keys : list N) (out : amount) (ac : accumulator) : res acv_err accumulator :=
  if 0 <? out then
    match keys with
    | k :: keys' =>
        let v := default 0 (ac_locked ac !! k) in
        if v <? out then
          let? rest := expect (amount_sub out v) in
          use_coins keys' rest (Accu (ac_free ac) (<[k := 0]> (ac_locked ac)))
        else
          let? v' := expect (amount_sub v out) in
          Ok (Accu (ac_free ac) (<[k := v']> (ac_locked ac)))
    | [] =>
        match ac_free ac !! Coin with
        | None => Err PrintMoneyOrViolateTimelock
        | Some v => if v <? out then Err PrintMoneyOrViolateTimelock (* the next [peek_mut] finds nothing *)
                    else let? v' := expect (amount_sub v out) in Ok (Accu (<[Coin := v']> (ac_free ac)) (ac_locked ac))
        end
    end
  else Ok ac.

(** constraints_accumulator.rs 547-601. [range_mut(..=timelock)] chained after the unconstrained coins, reversed. *)
Definition satisfy_with (self other : accumulator) : res acv_err accumulator :=
  let? free := rfold (fun m ka => decrease_or m ka.1 ka.2 PrintMoneyOrViolateTimelock) (map_to_list (ac_free other)) (ac_free self) in
  rfold (fun ac lock =>
           use_coins (rev (filter (fun k => k <= lock) (sorted_keys (ac_locked ac)))) (default 0 (ac_locked other !! lock)) ac)
        (sorted_keys (ac_locked other)) (Accu free (ac_locked self)).

(** accumulated_fee.rs 49-59 with 91-100: [AccumulatedFee] has the same two maps *)
Definition merge_amount_maps {K} `{Countable K} (l r : gmap K amount) : res acv_err (gmap K amount) :=
  rfold (fun m ka => insert_or_increase m ka.1 ka.2) (map_to_list r) l.
Definition fee_combine (x y : accumulator) : res acv_err accumulator :=
  let? f := merge_amount_maps (ac_free x) (ac_free y) in
  let? l := merge_amount_maps (ac_locked x) (ac_locked y) in
  Ok (Accu f l).
(** accumulated_fee.rs 64-89 *)
Definition map_into_block_fees (cf : config) (x : accumulator) : res acv_err amount :=
  let? locked := ok_or (amount_sum (filter (fun ka => ka.1 <= cf_maturity cf) (map_to_list (ac_locked x))).*2) CoinOrTokenOverflow in
  ok_or (amount_add (default 0 (ac_free x !! Coin)) locked) CoinOrTokenOverflow.

(** tx-verifier/src/transaction_verifier/input_output_policy/mod.rs 192-214: the value check of a transaction whose inputs
    were looked up as [utxos]. *)
Definition check_values (cf : config) (V : views) (inputs : list tx_input) (utxos : list (option tx_output))
  (outs : list tx_output) : res acv_err accumulator :=
  let? i := from_inputs cf V inputs utxos in
  let? o := from_outputs cf outs in
  satisfy_with i o.
(** input_output_policy/mod.rs 106-127: the value check of a reward of a block without staking. *)
Definition check_reward_values (cf : config) (total_fees subsidy : amount) (outs : list tx_output) : res acv_err accumulator :=
  let? i := ok_or (from_block_reward total_fees subsidy) CoinOrTokenOverflow in
  let? o := from_outputs cf outs in
  satisfy_with i o.
(** chainstate/src/detail/tx_verification_strategy/default_strategy.rs 66-96: the fees of the transactions of
    a block are combined one by one and then turned into the coins the block may pay out. *)
Definition block_fees (cf : config) (fees : list accumulator) : res acv_err amount :=
  let? total := rfold fee_combine fees acc_new in map_into_block_fees cf total.
