(** What a transaction's inputs are worth and what its outputs and commands cost, over plain tables. A portion is an amount
    of one currency; coins may come with a lock (a number of blocks, 0 for none): on the input side they must be locked
    again for at least as long, on the output side they are locked that long. *)
From Verif Require Import Base AmountModel LayeredModel TokensModel OrdersModel PosModel PrimModel ChainModel ConstraintsModel.
From Verif Require Import TokensSpec OrdersSpec PosSpec.
Local Open Scope N_scope.

Record portion := Portion { po_currency : currency; po_lock : N; po_amount : amount }.

(** [a] units of the currency of [v]; nothing for the obsolete token kind. *)
Definition units (v : output_value) (a : amount) : list portion :=
  match v with OvCoin _ => [Portion Coin 0 a] | OvTokenV0 => [] | OvToken id _ => [Portion (Token id) 0 a] end.
Definition worth (v : output_value) : list portion := units v (default 0 (side_amount v)).

Record ledger := Ledger { lg_pos : pos_state; lg_tok : tok_state; lg_ord : ord_state }.

(** What spending an existing output yields. *)
Definition output_yields (cf : config) (L : ledger) (o : tx_output) : list portion :=
  match o with
  | OTransfer v _ | OLockThenTransfer v _ _ | OHtlc v _ => worth v
  | OIssueNft id _ _ => [Portion (Token id) 0 1]
  | ODelegateStaking a _ => [Portion Coin 0 a]
  | OCreateStakePool p _ | OProduceBlockFromStake _ p =>
      match ps_pool (lg_pos L) p with
      | Some d => [Portion Coin (cf_maturity cf) (pd_pledge d + pd_rewards d)]
      | None => []
      end
  | OCreateDelegationId _ _ | OIssueFungibleToken _ | OBurn _ | ODataDeposit _ | OCreateOrder _ => []
  end.
(** Closing an order returns what was paid into it and what is left of the offer. *)
Definition closing_yields (L : ledger) (id : N) : list portion :=
  match os_data (lg_ord L) id with
  | Some d => units (od_ask d) (default 0 (side_amount (od_ask d)) - os_ask (lg_ord L) id) ++ units (od_give d) (os_give (lg_ord L) id)
  | None => []
  end.
Definition filling_yields (cf : config) (L : ledger) (id : N) (fill : amount) : list portion :=
  match os_data (lg_ord L) id with
  | Some d => units (od_give d) (payout (cf_orders cf) (default 0 (side_amount (od_ask d))) (default 0 (side_amount (od_give d)))
                                        (os_ask (lg_ord L) id) (os_give (lg_ord L) id) fill)
  | None => []
  end.
Definition input_yields (cf : config) (L : ledger) (iu : tx_input * option tx_output) : list portion :=
  match iu with
  | (InUtxo _, Some o) => output_yields cf L o
  | (InUtxo _, None) => []
  | (InAccount _ _ a, _) => [Portion Coin (cf_maturity cf) a]
  | (InCommand _ (CmdMint id a), _) => [Portion (Token id) 0 a]
  | (InCommand _ (CmdConcludeOrder id), _) | (InOrder (OcConclude id), _) => closing_yields L id
  | (InCommand _ (CmdFillOrder id fill _), _) | (InOrder (OcFill id fill), _) => filling_yields cf L id fill
  | (InCommand _ _, _) | (InOrder (OcFreeze _), _) => []
  end.
(** What a command costs: the fee of a token command, the payment into an order. *)
Definition input_costs (cf : config) (L : ledger) (iu : tx_input * option tx_output) : list portion :=
  match iu.1 with
  | InUtxo _ | InAccount _ _ _ => []
  | InCommand _ c =>
      match c with
      | CmdMint _ _ | CmdUnmint _ | CmdLockSupply _ => [Portion Coin 0 (cf_supply_fee cf)]
      | CmdFreeze _ _ | CmdUnfreeze _ => [Portion Coin 0 (cf_freeze_fee cf)]
      | CmdChangeAuthority _ _ => [Portion Coin 0 (cf_authority_fee cf)]
      | CmdChangeUri _ _ => [Portion Coin 0 (cf_uri_fee cf)]
      | CmdConcludeOrder _ => []
      | CmdFillOrder id fill _ => match os_data (lg_ord L) id with Some d => units (od_ask d) fill | None => [] end
      end
  | InOrder (OcFill id fill) => match os_data (lg_ord L) id with Some d => units (od_ask d) fill | None => [] end
  | InOrder _ => []
  end.
(** The tables after an input (only what later inputs' worth depends on). *)
Definition with_pos (L : ledger) (r : res pos_err pos_state) : ledger :=
  match r with Ok s => Ledger s (lg_tok L) (lg_ord L) | _ => L end.
Definition with_tok (L : ledger) (r : res tok_err tok_state) : ledger :=
  match r with Ok s => Ledger (lg_pos L) s (lg_ord L) | _ => L end.
Definition with_ord (L : ledger) (r : res ord_err ord_state) : ledger :=
  match r with Ok s => Ledger (lg_pos L) (lg_tok L) s | _ => L end.
Definition after_input (cf : config) (L : ledger) (iu : tx_input * option tx_output) : ledger :=
  match iu.1 with
  | InAccount _ del a => with_pos L (pos_step (lg_pos L) (SpendShare del a))
  | InCommand _ (CmdMint id a) => with_tok L (tok_step (lg_tok L) (MintTokens id a))
  | InCommand _ (CmdConcludeOrder id) | InOrder (OcConclude id) => with_ord L (ord_step (lg_ord L) (ConcludeOrder id))
  | InCommand _ (CmdFillOrder id fill _) | InOrder (OcFill id fill) => with_ord L (ord_step (lg_ord L) (FillOrder id fill (cf_orders cf)))
  | _ => L
  end.
Fixpoint unlocked (cf : config) (L : ledger) (l : list (tx_input * option tx_output)) : list portion :=
  match l with [] => [] | i :: l' => input_yields cf L i ++ unlocked cf (after_input cf L i) l' end.
Fixpoint charged (cf : config) (L : ledger) (l : list (tx_input * option tx_output)) : list portion :=
  match l with [] => [] | i :: l' => input_costs cf L i ++ charged cf (after_input cf L i) l' end.

(** What an output costs to create. *)
Definition output_costs (cf : config) (o : tx_output) : list portion :=
  match o with
  | OTransfer v _ | OBurn v | OHtlc v _ => worth v
  | OLockThenTransfer (OvCoin a) _ (ForBlockCount n) => [Portion Coin n a]
  | OLockThenTransfer v _ _ => worth v
  | ODelegateStaking a _ => [Portion Coin 0 a]
  | OCreateStakePool _ data => [Portion Coin 0 (sp_pledge data)]
  | OProduceBlockFromStake _ _ | OCreateDelegationId _ _ => []
  | ODataDeposit _ => [Portion Coin 0 (cf_data_fee cf)]
  | OIssueFungibleToken _ => [Portion Coin 0 (cf_issuance_fee cf)]
  | OIssueNft _ _ _ => [Portion Coin 0 (cf_nft_fee cf)]
  | OCreateOrder d => worth (od_give d)
  end.
Definition needed (cf : config) (outs : list tx_output) : list portion := concat (map (output_costs cf) outs).

(** The sum of the amounts of the portions whose currency and lock are selected, and the same for a reported fee. *)
Definition value (S : currency -> N -> bool) (ps : list portion) : N :=
  sum_over (fun p => if S (po_currency p) (po_lock p) then po_amount p else 0) ps.
Definition fee_value (S : currency -> N -> bool) (f : accumulator) : N :=
  sum_over (fun ka => if S ka.1 0 then ka.2 else 0) (map_to_list (ac_free f)) +
  sum_over (fun ka => if S Coin ka.1 then ka.2 else 0) (map_to_list (ac_locked f)).
(** Selections: one currency; coins locked for [t] blocks or more; coins locked for [t] blocks or fewer (or not at all);
    one currency without lock. *)
Definition of_currency (c : currency) : currency -> N -> bool := fun c' _ => bool_decide (c' = c).
Definition locked_from (t : N) : currency -> N -> bool := fun _ k => t <=? k.
Definition locked_up_to (t : N) : currency -> N -> bool := fun c k => bool_decide (c = Coin) && (k <=? t).
Definition free_of (c : currency) : currency -> N -> bool := fun c' k => bool_decide (c' = c) && (k =? 0).

(** The views answer as the tables, and the tables are ones that can arise. *)
Definition tok_sound (s : tok_state) : Prop :=
  below_2_127 (ts_supply s) /\ (forall id t, ts_data s id = Some t -> tk_locked t = true -> tk_supply t = Lockable).
Definition ord_sound (s : ord_state) : Prop := below_2_127 (os_ask s) /\ below_2_127 (os_give s) /\ sound_book s.
Definition pos_sound (s : pos_state) : Prop :=
  below_2_127 (ps_pool_balance s) /\ below_2_127 (ps_deleg_balance s) /\ below_2_127 (ps_share s) /\ sound_stakes s.
Definition ledger_sound (L : ledger) : Prop := pos_sound (lg_pos L) /\ tok_sound (lg_tok L) /\ ord_sound (lg_ord L).
Definition views_read (V : views) (L : ledger) : Prop :=
  pos_reads (vs_pos V) (lg_pos L) /\ tok_reads (vs_tok V) (lg_tok L) /\ ord_reads (vs_ord V) (lg_ord L).
