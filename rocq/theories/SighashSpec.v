(** What a signature is meant to vouch for, by its sighash type, independently of how it is hashed. *)
From Coq Require Import Strings.Byte.
From Verif Require Import Base CodecModel CodecSpec WireModel WireSpec SighashModel.
Local Open Scope N_scope.

(** The sighash types: 1 all outputs, 2 no outputs, 3 the output with the number of the input; with 0x80 only the signed input
    counts, without it all inputs do *)
Definition sighash_type (m : byte) : Prop := m ∈ [x01; x02; x03; x81; x82; x83].
Definition only_this_input (m : byte) : Prop := m ∈ [x81; x82; x83].
Definition no_outputs (m : byte) : Prop := m ∈ [x02; x82].
Definition only_this_output (m : byte) : Prop := m ∈ [x03; x83].
Definition all_outputs (m : byte) : Prop := m ∈ [x01; x81].

(** The signature of input [i] of one transaction and that of input [j] of another one vouch for the same things. The [cs] say
    what is known of each input: the output it spends, the balance of the pool, the order *)
Definition vouch_same_inputs (m : byte) (t : transaction) (cs : list commitment) (i : nat) (u : transaction) (ds : list commitment) (j : nat) : Prop :=
  (only_this_input m -> t_inputs t !! i = t_inputs u !! j /\ cs !! i = ds !! j) /\
  (~ only_this_input m -> t_inputs t = t_inputs u /\ cs = ds).
Definition vouch_same_outputs (m : byte) (t : transaction) (i : nat) (u : transaction) (j : nat) : Prop :=
  (all_outputs m -> t_outputs t = t_outputs u) /\
  (only_this_output m -> t_outputs t !! i = t_outputs u !! j).
Definition vouch_same (m : byte) (t : transaction) (cs : list commitment) (i : nat) (m' : byte) (u : transaction) (ds : list commitment) (j : nat) : Prop :=
  m = m' /\ t_flags t = t_flags u /\ vouch_same_inputs m t cs i u ds j /\ vouch_same_outputs m t i u j.

Section Values.
  Context (good_key good_vrf : bytes -> bool).
  Definition valid_commitment (c : commitment) : Prop :=
    match c with
    | MNone => True
    | MUtxo o => valid_output good_key good_vrf o
    | MStake o b => valid_output good_key good_vrf o /\ is_u128 b
    | MFill a g => valid_value good_key a /\ valid_value good_key g
    | MConclude a g ab gb => valid_value good_key a /\ valid_value good_key g /\ is_u128 ab /\ is_u128 gb
    end.
  (** Something to be signed: a possible transaction, with something known of each of its inputs, and an input of it; for the
      types that cover one output there must be one *)
  Definition signable_input (m : byte) (t : transaction) (cs : list commitment) (i : nat) : Prop :=
    sighash_type m /\ valid_transaction good_key good_vrf t /\ Forall valid_commitment cs /\
    length cs = length (t_inputs t) /\ (i < length (t_inputs t))%nat /\
    (only_this_output m -> (i < length (t_outputs t))%nat).

  (** A state of the chain as far as inputs refer to it, with possible values only *)
  Record view := View { v_utxo : outpoint -> option tx_output; v_pool : bytes -> option N; v_order : bytes -> option order_info }.
  Definition valid_view (v : view) : Prop :=
    (forall p o, v_utxo v p = Some o -> valid_output good_key good_vrf o) /\
    (forall id b, v_pool v id = Some b -> is_u128 b) /\
    (forall id d, v_order v id = Some d ->
      valid_value good_key (oi_asked d) /\ valid_value good_key (oi_given d) /\ is_u128 (oi_ask_balance d) /\ is_u128 (oi_give_balance d)).
End Values.

(** What an input takes from the state is the same in two states: the output it spends, with the balance of the pool if it is a
    staked one; for an order being filled what was asked and given at first, for one being concluded also what is left *)
Definition input_looks_same (v w : view) (input : tx_input) : Prop :=
  match input with
  | IUtxo p =>
      v_utxo v p = v_utxo w p /\
      (forall d id, v_utxo v p = Some (OProduceBlock d id) -> v_pool v id = v_pool w id)
  | ICommand _ (AConcludeOrder id) | IOrder (CConclude id) => v_order v id = v_order w id
  | ICommand _ (AFillOrder id _ _) | IOrder (CFill id _) =>
      (oi_asked <$> v_order v id) = (oi_asked <$> v_order w id) /\ (oi_given <$> v_order v id) = (oi_given <$> v_order w id)
  | _ => True
  end.
Definition commitments (cv : commitment_version) (v : view) (ins : list tx_input) : res commit_error (list commitment) :=
  make_commitments (fun _ p => v_utxo v p) (v_pool v) (v_order v) cv ins.
