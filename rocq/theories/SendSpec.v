(** What a user relies on when the wallet completes a transaction: stated with the tables of what inputs yield and outputs
    cost (ConstraintsSpec), which are those of the consensus rules. *)
From Coq Require Import ZArith NArith.
From Verif Require Import Base AmountModel OrdersModel PrimModel ChainModel ConstraintsModel CoinSelectModel SendModel.
From Verif Require Import OrdersSpec ConstraintsSpec CoinSelectSpec.
Local Open Scope N_scope.

(** A side of an order as currency and amount *)
Definition side_of (v : output_value) : option (currency * N) :=
  match v with OvCoin a => Some (Coin, a) | OvTokenV0 => None | OvToken id a => Some (Token id, a) end.
(** What the wallet was told about the order is what the ledger says. *)
Definition order_known (L : ledger) (infos : N -> option order_info) (id : N) : Prop :=
  exists d asked given, os_data (lg_ord L) id = Some d /\ side_of (od_ask d) = Some asked /\ side_of (od_give d) = Some given /\
    infos id = Some (OrderInfo asked given (os_ask (lg_ord L) id) (os_give (lg_ord L) id)).
(** Every order named by an input of the request is known as it stands when that input is processed, and orders are filled
    with the command of the rules in force. *)
Definition informed_input (cf : config) (L : ledger) (infos : N -> option order_info) (i : tx_input) : Prop :=
  match i with
  | InCommand _ (CmdConcludeOrder id) | InOrder (OcConclude id) => order_known L infos id
  | InCommand _ (CmdFillOrder id _ _) => order_known L infos id /\ cf_orders cf = OrdersV0
  | InOrder (OcFill id _) => order_known L infos id /\ cf_orders cf = OrdersV1
  | _ => True
  end.
Fixpoint informed (cf : config) (L : ledger) (infos : N -> option order_info) (l : list (tx_input * option tx_output)) : Prop :=
  match l with
  | [] => True
  | iu :: l' => informed_input cf L infos iu.1 /\ informed cf (after_input cf L iu) infos l'
  end.

(** The size of a signed transaction: its frame, its inputs with their signatures, its outputs. *)
Definition inputs_size (isz : tx_input -> option tx_output -> option N) (l : list (tx_input * option tx_output)) : N :=
  foldr (fun iu acc => default 0 (isz iu.1 iu.2) + acc) 0 l.
Definition transaction_size (isz : tx_input -> option tx_output -> option N) (osz : tx_output -> N) (empty : N)
  (ins : list (tx_input * option tx_output)) (outs : list tx_output) : N :=
  empty + (compact_len (N.of_nat (length outs)) - 1) + 2 * (compact_len (N.of_nat (length ins)) - 1) +
  inputs_size isz ins + outputs_size osz outs.
(** An output of a larger amount is not shorter. *)
Definition larger_is_not_shorter (osz : tx_output -> N) : Prop :=
  forall d a b, a <= b -> osz (OTransfer (OvCoin a) d) <= osz (OTransfer (OvCoin b) d).

(** A currency that the outputs or the commands of the request name. *)
Definition named (cf : config) (L : ledger) (ins : list (tx_input * option tx_output)) (outs : list tx_output) (c : currency) : Prop :=
  c ∈ map po_currency (needed cf outs) \/ value (of_currency c) (charged cf L ins) <> 0.

(** The fee is paid in coins: whether a currency pays it. The sources of randomness behave as [fair] asks. *)
Definition pays_fee (c : currency) : pay_fee :=
  match c with Coin => PayFeeWithThisCurrency | Token _ => DoNotPayFeeWithThisCurrency end.
Definition fair_sources (orc : currency -> oracle (tx_input * tx_output)) : Prop := forall c, fair (pays_fee c) (orc c).
(** The inputs that spend the outputs offered. *)
Definition offered (utxos : list (outpoint * tx_output)) : list (tx_input * option tx_output) :=
  map (fun u => (InUtxo u.1, Some u.2)) utxos.
(** Inputs whose worth is free of locks: none withdraws from a delegation. *)
Definition no_withdrawal (ins : list (tx_input * option tx_output)) : Prop :=
  Forall (fun iu => match iu.1 with InAccount _ _ _ => False | _ => True end) ins.
Definition spends_outputs (ins : list (tx_input * option tx_output)) : Prop :=
  Forall (fun iu => match iu.1 with InUtxo _ => True | _ => False end) ins.
