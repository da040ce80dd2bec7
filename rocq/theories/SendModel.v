(** Model of how the wallet completes a request for a transaction: the sums over what the request already contains, the
    selection of coins for every currency, the change outputs and the fee.
    wallet/src/account/mod.rs, wallet/src/account/currency_grouper/mod.rs, wallet/src/send_request/mod.rs,
    common/src/size_estimation/mod.rs, mempool/src/pool/feerate.rs.
    Sizes are natural numbers ([usize] sums are not checked for overflow). Maps keyed by currency are association lists in the
    order in which the keys appear; the code's maps are ordered by id, which changes the order of the change outputs and of the
    inputs of different tokens and which error is returned first. *)
From Coq Require Import ZArith NArith.
From Verif Require Import Base AmountModel OrdersModel PrimModel ChainModel ConstraintsModel CoinSelectModel.
Local Open Scope N_scope.

(** The errors of [WalletError] and [UtxoSelectorError] that can be returned here. *)
Inductive send_error :=
| OutputAmountOverflow | FeeArithmetic | UnsupportedOutput | UnsupportedDestination
| OrderInfoMissing | NoUtxosToSweep | InsufficientUtxoAmount | FilledAmountFailed | TooManyElements | SelectionFailed (e : select_error).

(** * Maps keyed by currency *)

Fixpoint find_at {A} (c : currency) (l : list (currency * A)) : option A :=
  match l with
  | [] => None
  | (c', x) :: l' => if decide (c' = c) then Some x else find_at c l'
  end.
(** [entry(c)]: insert [new] if vacant, else replace the value by [f] of it *)
Fixpoint alter_or {E A} (c : currency) (new : A) (f : A -> res E A) (l : list (currency * A)) : res E (list (currency * A)) :=
  match l with
  | [] => Ok [(c, new)]
  | (c', x) :: l' =>
      if decide (c' = c) then let? y := f x in Ok ((c', y) :: l')
      else let? l'' := alter_or c new f l' in Ok ((c', x) :: l'')
  end.
Definition add_amount (a b : N) : res send_error N := ok_or (checked_add U128_MAX a b) OutputAmountOverflow.

(** * Fees and sizes *)

(** [FeeRate::compute_fee], feerate.rs 52-60; the rate is in atoms per 1000 bytes *)
Definition compute_fee (rate size : N) : res send_error N :=
  let? fee := ok_or (checked_mul U128_MAX rate size) FeeArithmetic in
  let? fee := ok_or (checked_add U128_MAX fee 999) FeeArithmetic in
  Ok (fee / 1000).

(** [Compact::<u32>::compact_len]: the length of the compact encoding of a number *)
Definition compact_len (n : N) : N :=
  if n <? 64 then 1 else if n <? 2 ^ 14 then 2 else if n <? 2 ^ 30 then 4 else 5.
Definition U32_LIMIT : N := 2 ^ 32.
(** [tx_size_with_num_inputs_and_outputs], size_estimation/mod.rs 246-280; [empty] is the size of a signed transaction
    without inputs and outputs *)
Definition frame_size (empty num_outputs num_inputs : N) : res send_error N :=
  (ensure (num_inputs <? U32_LIMIT) TooManyElements ;?
   ensure (num_outputs <? U32_LIMIT) TooManyElements ;?
   Ok (empty + (compact_len num_outputs - compact_len 0) + (compact_len num_inputs - compact_len 0) * 2)).

(** What the wallet is told about an order ([RpcOrderInfo]): the two sides as created, and what is left of them. *)
Record order_info := OrderInfo {
  oi_asked : currency * N; oi_given : currency * N; oi_ask_balance : N; oi_give_balance : N }.

Section Send.
(** The chain's fees at the current height; the sizes of an encoded input with its signature ([None]: the destination is not
    supported) and of an encoded output; the size of an empty transaction; the information on orders; the rates of fees; the
    change address for each currency; the source of randomness for each selection; the way of selecting. *)
Context (cf : config) (isz : tx_input -> option tx_output -> option N) (osz : tx_output -> N) (empty : N).
Context (infos : N -> option order_info) (rate consolidate_rate : N) (change_to : currency -> N).
Context (orc : currency -> oracle (tx_input * tx_output)) (algo : selection_algo) (max_tx_size : N).

(** * Inputs already in the request *)

(** [PreselectedInputs]: amount and burn requirement by currency, total size, total of the fees *)
Record preselected := Preselected { pr_amounts : list (currency * (N * N)); pr_sizes : N; pr_fees : N }.

(** [update_preselected_inputs], mod.rs 2785-2811 *)
Definition update_preselected (c : currency) (amount : N) (burn_currency : currency) (burn : N) (l : list (currency * (N * N)))
  : res send_error (list (currency * (N * N))) :=
  let? l := alter_or c (amount, 0) (fun x => let? a := add_amount x.1 amount in Ok (a, x.2)) l in
  alter_or burn_currency (0, burn) (fun x => let? b := add_amount x.2 burn in Ok (x.1, b)) l.

(** [output_spendable_value], currency_grouper/mod.rs 136-167, and the same table in mod.rs 2816-2845 *)
Definition spendable_value (o : tx_output) : res send_error (currency * N) :=
  match o with
  | OTransfer v _ | OLockThenTransfer v _ _ | OHtlc v _ =>
      match v with OvCoin a => Ok (Coin, a) | OvTokenV0 => Err UnsupportedOutput | OvToken id a => Ok (Token id, a) end
  | OIssueNft id _ _ => Ok (Token id, 1)
  | OCreateStakePool _ _ | OProduceBlockFromStake _ _ | OBurn _ | OCreateDelegationId _ _ | ODelegateStaking _ _
  | OIssueFungibleToken _ | ODataDeposit _ | OCreateOrder _ => Err UnsupportedOutput
  end.

(** [handle_fill_order_op], mod.rs 2947-2983 *)
Definition handle_fill (ver : orders_version) (id fill : N) (l : list (currency * (N * N))) : res send_error (list (currency * (N * N))) :=
  let? i := ok_or (infos id) OrderInfoMissing in
  let? filled := ok_or (match ver with
                        | OrdersV0 => calculate_filled_amount (oi_ask_balance i) (oi_give_balance i) fill
                        | OrdersV1 => calculate_filled_amount (oi_asked i).2 (oi_given i).2 fill
                        end) FilledAmountFailed in
  update_preselected (oi_given i).1 filled (oi_asked i).1 fill l.
(** [handle_conclude_order], mod.rs 2985-3009 *)
Definition handle_conclude (id : N) (l : list (currency * (N * N))) : res send_error (list (currency * (N * N))) :=
  let? i := ok_or (infos id) OrderInfoMissing in
  let? l := update_preselected (oi_given i).1 (oi_give_balance i) Coin 0 l in
  let? filled := ok_or (checked_sub (oi_asked i).2 (oi_ask_balance i)) OutputAmountOverflow in
  update_preselected (oi_asked i).1 filled Coin 0 l.

(** The effect of one input on the amounts, mod.rs 2813-2937 *)
Definition count_input (l : list (currency * (N * N))) (iu : tx_input * option tx_output)
  : res send_error (list (currency * (N * N))) :=
  match iu.1 with
  | InUtxo _ =>
      let? o := expect iu.2 in
      let? (c, a) := spendable_value o in
      update_preselected c a Coin 0 l
  | InAccount _ _ a => update_preselected Coin a Coin 0 l
  | InCommand _ c =>
      match c with
      | CmdMint id a => update_preselected (Token id) a Coin (cf_supply_fee cf) l
      | CmdLockSupply id | CmdUnmint id => update_preselected (Token id) 0 Coin (cf_supply_fee cf) l
      | CmdFreeze id _ | CmdUnfreeze id => update_preselected (Token id) 0 Coin (cf_freeze_fee cf) l
      | CmdChangeAuthority id _ => update_preselected (Token id) 0 Coin (cf_authority_fee cf) l
      | CmdChangeUri id _ => update_preselected (Token id) 0 Coin (cf_uri_fee cf) l
      | CmdConcludeOrder id => handle_conclude id l
      | CmdFillOrder id fill _ => handle_fill OrdersV0 id fill l
      end
  | InOrder c =>
      match c with
      | OcFill id fill => handle_fill OrdersV1 id fill l
      | OcConclude id => handle_conclude id l
      | OcFreeze _ => Ok l
      end
  end.
(** [group_preselected_inputs], mod.rs 2727-2945 *)
Definition preselect_step (p : preselected) (iu : tx_input * option tx_output) : res send_error preselected :=
  let? size := ok_or (isz iu.1 iu.2) UnsupportedDestination in
  let? fee := compute_fee rate size in
  let? fees := add_amount (pr_fees p) fee in
  let? amounts := count_input (pr_amounts p) iu in
  Ok (Preselected amounts (pr_sizes p + size) fees).
Definition group_preselected (ins : list (tx_input * option tx_output)) : res send_error preselected :=
  rfold preselect_step ins (Preselected [] 0 0).

(** * Outputs of the request *)

(** The value an output takes, currency_grouper/mod.rs 93-116; [None]: the output is passed over *)
Definition output_charge (o : tx_output) : res send_error (option output_value) :=
  match o with
  | OTransfer v _ | OLockThenTransfer v _ _ | OBurn v | OHtlc v _ => Ok (Some v)
  | OCreateStakePool _ data => Ok (Some (OvCoin (sp_pledge data)))
  | ODelegateStaking a _ => Ok (Some (OvCoin a))
  | OIssueFungibleToken _ => Ok (Some (OvCoin (cf_issuance_fee cf)))
  | OIssueNft _ _ _ => Ok (Some (OvCoin (cf_nft_fee cf)))
  | ODataDeposit _ => Ok (Some (OvCoin (cf_data_fee cf)))
  | OCreateDelegationId _ _ => Ok None
  | OProduceBlockFromStake _ _ => Err UnsupportedOutput
  | OCreateOrder d => Ok (Some (od_give d))
  end.
(** [group_outputs_with_issuance_fee] with the sum as combination, currency_grouper/mod.rs 79-134 and mod.rs 255-265. The
    coins are kept under their own key from the start; a first amount is stored without the addition to zero. *)
Definition group_output (l : list (currency * N)) (o : tx_output) : res send_error (list (currency * N)) :=
  let? ov := output_charge o in
  match ov with
  | Some (OvCoin a) => alter_or Coin a (fun x => add_amount x a) l
  | Some (OvToken id a) => alter_or (Token id) a (fun x => add_amount x a) l
  | Some OvTokenV0 | None => Ok l
  end.
Definition group_outputs (outs : list tx_output) : res send_error (list (currency * N)) :=
  rfold group_output outs [(Coin, 0)].
(** The burn requirements are added, mod.rs 267-278 *)
Definition add_burn (l : list (currency * N)) (x : currency * (N * N)) : res send_error (list (currency * N)) :=
  if 0 <? x.2.2 then alter_or x.1 x.2.2 (fun y => add_amount y x.2.2) l else Ok l.

(** * The outputs offered *)

(** [utxo_to_output_group] and [OutputGroup::new], mod.rs 523-544, output_group.rs 62-97 *)
Definition utxo_group (u : outpoint * tx_output) : res send_error (currency * group (tx_input * tx_output)) :=
  let? (c, a) := spendable_value u.2 in
  let? weight := ok_or (isz (InUtxo u.1) (Some u.2)) UnsupportedDestination in
  let? fee := compute_fee rate weight in
  let? consolidate_fee := compute_fee consolidate_rate weight in
  Ok (c, Group [(InUtxo u.1, u.2)] a fee consolidate_fee weight).
(** [utxo_output_groups_by_currency], mod.rs 517-573. Here one list of groups labelled with their currency. *)
Definition worth_keeping (x : currency * group (tx_input * tx_output)) : bool :=
  match x.1 with Coin => g_fee x.2 <? g_value x.2 | Token _ => true end.
Definition utxo_groups (utxos : list (outpoint * tx_output)) : res send_error (list (currency * group (tx_input * tx_output))) :=
  let? gs := rmapM utxo_group utxos in Ok (List.filter worth_keeping gs).
Definition groups_of (c : currency) (gs : list (currency * group (tx_input * tx_output))) : list (group (tx_input * tx_output)) :=
  map snd (List.filter (fun x => bool_decide (x.1 = c)) gs).

(** * Selection for every currency *)

(** [make_address_output], [make_address_output_token] *)
Definition change_output (c : currency) (a : N) : tx_output :=
  OTransfer (match c with Coin => OvCoin a | Token id => OvToken id a end) (change_to c).
(** [output_change_size_and_fees], mod.rs 3012-3042. The sample output of a token names the token zero there; all
    identifiers have the same size. *)
Definition change_size (c : currency) : N := osz (change_output c U128_MAX).

Definition lift_select {A} (m : res select_error A) : res send_error A := rmap_err SelectionFailed m.

(** The state of the loop over the tokens: the outputs of the request, the fees not yet paid, the size so far, the results *)
Record tokens_state := TokensState {
  ts_outputs : list tx_output; ts_fees : N; ts_size : N; ts_selected : list (selection (tx_input * tx_output)) }.
(** One turn of the loop in mod.rs 343-392 *)
Definition token_step (p : list (currency * (N * N))) (gs : list (currency * group (tx_input * tx_output)))
  (t : tokens_state) (x : currency * N) : res send_error tokens_state :=
  let '(c, output_amount) := x in
  let preselected_amount := from_option fst 0 (find_at c p) in
  let? cost_of_change := compute_fee rate (change_size c) in
  let? r := lift_select (select_coins (orc c) (groups_of c gs) (output_amount - preselected_amount)
                           DoNotPayFeeWithThisCurrency 0 algo max_tx_size) in
  let size := ts_size t + s_weight r in
  let? fees := add_amount (ts_fees t) (s_fees r) in
  let? r := lift_select (add_change r (preselected_amount - output_amount)) in
  if 0 <? s_change r then
    let? fees := add_amount fees cost_of_change in
    Ok (TokensState (ts_outputs t ++ [change_output c (s_change r)]) fees (size + change_size c) (ts_selected t ++ [r]))
  else Ok (TokensState (ts_outputs t) fees size (ts_selected t ++ [r])).

Definition outputs_size (outs : list tx_output) : N := foldr (fun o acc => osz o + acc) 0 outs.
Definition has_change (r : selection (tx_input * tx_output)) : bool := 0 <? s_change r.
Definition pick_input (u : tx_input * tx_output) : tx_input * option tx_output := (u.1, Some u.2).

(** The completed request: its inputs with the outputs they spend, its outputs, the fee shown to the user *)
Record completed := Completed { cp_inputs : list (tx_input * option tx_output); cp_outputs : list tx_output; cp_fee : N }.

(** [select_inputs_for_send_request], mod.rs 231-514, given the outputs offered. The inputs of the coin selection come before
    those of the tokens, as in the ordered map. *)
Definition send_request (ins : list (tx_input * option tx_output)) (outs : list tx_output) (utxos : list (outpoint * tx_output))
  : res send_error completed :=
  let? pre := group_preselected ins in
  let? amounts := group_outputs outs in
  let? amounts := rfold add_burn (pr_amounts pre) amounts in
  let? gs := utxo_groups utxos in
  let coins_to_pay := default 0 (find_at Coin amounts) in
  let tokens := List.filter (fun x => negb (bool_decide (x.1 = Coin))) amounts in
  let? t := rfold (token_step (pr_amounts pre) gs) tokens (TokensState outs 0 0 []) in
  let pool := groups_of Coin gs in
  let num_inputs := foldr (fun r acc => N.of_nat (length (s_outputs r)) + acc) 0 (ts_selected t) + N.of_nat (length ins) in
  let max_possible_num_inputs := num_inputs + foldr (fun g acc => N.of_nat (length (g_outputs g)) + acc) 0 pool in
  let num_change_outputs := N.of_nat (length (List.filter has_change (ts_selected t))) in
  let num_outputs := N.of_nat (length (ts_outputs t)) in
  let? frame := frame_size empty (num_outputs + num_change_outputs + 1) max_possible_num_inputs in
  let tx_outputs_size := frame + outputs_size (ts_outputs t) in
  let? tx_outputs_fee := compute_fee rate tx_outputs_size in
  let preselected_amount := from_option fst 0 (find_at Coin (pr_amounts pre)) in
  let size := ts_size t + (tx_outputs_size + pr_sizes pre) in
  let? fees := add_amount (ts_fees t) tx_outputs_fee in
  let? fees := add_amount fees (pr_fees pre) in
  let? to_pay := add_amount coins_to_pay fees in
  let size_of_change := change_size Coin in
  let? cost_of_change := compute_fee rate size_of_change in
  let? r := lift_select (select_coins (orc Coin) pool (to_pay - preselected_amount) PayFeeWithThisCurrency cost_of_change
                           algo max_tx_size) in
  let? r := lift_select (add_change r (preselected_amount - to_pay)) in
  let size := size + s_weight r in
  let? fees := add_amount fees (s_fees r) in
  let num_change_outputs := if 0 <? s_change r then num_change_outputs + 1 else num_change_outputs in
  let? new_frame := frame_size empty (num_outputs + num_change_outputs) (num_inputs + N.of_nat (length (s_outputs r))) in
  let size := size - tx_outputs_size + (new_frame + outputs_size (ts_outputs t)) in
  let picked := map pick_input (s_outputs r) ++ map pick_input (concat (map s_outputs (ts_selected t))) in
  if 0 <? s_change r then
    let? fees := add_amount fees cost_of_change in
    let? new_fees := compute_fee rate (size + size_of_change) in
    let? r := lift_select (add_change r (fees - new_fees)) in
    Ok (Completed (ins ++ picked) (ts_outputs t ++ [change_output Coin (s_change r)]) new_fees)
  else
    let? new_fees := compute_fee rate size in
    Ok (Completed (ins ++ picked) (ts_outputs t) new_fees).

(** [sweep_addresses], mod.rs 575-639: everything the inputs of the request are worth, less the fee, goes to one destination.
    A withdrawn output is built twice there, first with an estimate of the fee; both are built here. *)
Definition sweep_tokens (destination : N) (p : list (currency * (N * N))) : list tx_output :=
  flat_map (fun x => match x.1 with Coin => [] | Token id => [OTransfer (OvToken id x.2.1) destination] end) p.
Definition sweep (destination : N) (ins : list (tx_input * option tx_output)) : res send_error completed :=
  let? pre := group_preselected ins in
  let? input_fees := compute_fee rate (pr_sizes pre) in
  let? coins := ok_or (find_at Coin (pr_amounts pre)) NoUtxosToSweep in
  let outputs := sweep_tokens destination (pr_amounts pre) in
  let? first := ok_or (checked_sub coins.1 input_fees) InsufficientUtxoAmount in
  let sample := outputs ++ [OTransfer (OvCoin first) destination] in
  let? frame := frame_size empty (N.of_nat (length sample)) (N.of_nat (length ins)) in
  let? total_fee := compute_fee rate (frame + outputs_size sample + pr_sizes pre) in
  let? rest := ok_or (checked_sub coins.1 total_fee) InsufficientUtxoAmount in
  Ok (Completed ins (outputs ++ [OTransfer (OvCoin rest) destination]) total_fee).

End Send.
