(** The completed transactions of the wallet: C70 (balance, fee, acceptance by the node's value check) and C71 (sweeping). *)
From Coq Require Import ZArith NArith.
From Verif Require Import Base AmountModel OrdersModel PrimModel ChainModel ConstraintsModel CoinSelectModel SendModel.
From Verif Require Import PosSpec OrdersSpec ConstraintsSpec ConstraintsProofs CoinSelectSpec CoinSelectProofs SendSpec SendProofs SendLoop.
From Verif Require ConstraintsProperties CoinSelectProperties.
Local Open Scope N_scope.

Section Send.
Context (cf : config) (isz : tx_input -> option tx_output -> option N) (osz : tx_output -> N) (empty : N).
Context (infos : N -> option order_info) (rate consolidate_rate : N) (change_to : currency -> N).
Context (orc : currency -> oracle (tx_input * tx_output)) (algo : selection_algo) (max_tx_size : N).
Notation send := (send_request cf isz osz empty infos rate consolidate_rate change_to orc algo max_tx_size).

Lemma plain_tail_charged L ins picked : plain picked -> charged cf L (ins ++ picked) = charged cf L ins.
Proof. intros H. rewrite charged_app, (plain_charged cf _ H). apply app_nil_r. Qed.

(** C70. The completed transaction keeps the inputs and the outputs of the request, adds inputs that spend offered outputs,
    each at most once, and every token named by the request comes out as it goes in: what the inputs yield is what the
    commands cost and the outputs carry. *)
Theorem C70_tokens_balance L ins outs utxos r :
  fair_sources orc -> informed cf L infos ins -> larger_is_not_shorter osz -> send ins outs utxos = Ok r ->
  exists picked changes, cp_inputs r = ins ++ picked /\ picked ⊆+ offered utxos /\ cp_outputs r = outs ++ changes /\
    forall id, named cf L ins outs (Token id) ->
      value (of_currency (Token id)) (unlocked cf L (cp_inputs r)) =
      value (of_currency (Token id)) (charged cf L (cp_inputs r)) + value (of_currency (Token id)) (needed cf (cp_outputs r)).
Proof.
  intros Hf Hi Hl H. destruct (send_request_ok _ _ _ _ _ _ _ _ _ _ _ _ _ _ _ _ Hf Hi Hl H)
    as (picked & changes & E1 & E2 & E3 & E4 & E5 & _). exists picked, changes. split_and!; try done.
  intros id Hn. rewrite (E5 (Token id)) by done. rewrite E1, plain_tail_charged by done. done.
Qed.

(** C70. If the inputs of the request bring no more coins than its outputs and commands take, then the completed transaction
    leaves a fee that is at least the fee shown, and at least what the rate asks for the size of the transaction; and it is
    exactly the fee shown whenever coins are returned as change. *)
Theorem C70_fee_is_paid L ins outs utxos r :
  fair_sources orc -> informed cf L infos ins -> larger_is_not_shorter osz -> send ins outs utxos = Ok r ->
  value (of_currency Coin) (unlocked cf L ins) <= value (of_currency Coin) (charged cf L ins) + value (of_currency Coin) (needed cf outs) ->
  exists paid,
    value (of_currency Coin) (unlocked cf L (cp_inputs r)) =
    value (of_currency Coin) (charged cf L (cp_inputs r)) + value (of_currency Coin) (needed cf (cp_outputs r)) + paid /\
    cp_fee r <= paid /\
    rate * transaction_size isz osz empty (cp_inputs r) (cp_outputs r) <= 1000 * paid /\
    (value (of_currency Coin) (needed cf (cp_outputs r)) <> value (of_currency Coin) (needed cf outs) -> paid = cp_fee r).
Proof.
  intros Hf Hi Hl H Hle. destruct (send_request_ok _ _ _ _ _ _ _ _ _ _ _ _ _ _ _ _ Hf Hi Hl H)
    as (picked & changes & E1 & E2 & E3 & E4 & _ & _ & E7). destruct (E7 Hle) as (paid & Q1 & Q2 & Q3 & Q4). exists paid.
  split_and!; try done.
  - rewrite Q1, E1, plain_tail_charged by done. done.
  - intros Hch. apply Q4. intros Hz. apply Hch. rewrite E3, needed_app, value_app, Hz. lia.
Qed.

(** C70. The node's value check accepts the completed transaction (if the sums of its inputs and of its outputs can be formed
    at all and no input withdraws from a delegation), and the fee the node finds is at least the one shown. *)
Definition all_free (ps : list portion) : Prop := Forall (fun p => po_lock p = 0) ps.
Lemma all_free_value ps c : all_free ps -> value (free_of c) ps = value (of_currency c) ps.
Proof.
  induction 1 as [|[c' k a] ps Hp Hps IH]; [done|]. change (Portion c' k a :: ps) with ([Portion c' k a] ++ ps).
  rewrite !value_app, IH, !value_one.
  unfold free_of, of_currency. cbn in Hp. subst k. change (0 =? 0) with true. by rewrite andb_true_r.
Qed.
Lemma all_free_locked ps t : all_free ps -> value (locked_up_to t) ps = value (of_currency Coin) ps.
Proof.
  induction 1 as [|[c' k a] ps Hp Hps IH]; [done|]. change (Portion c' k a :: ps) with ([Portion c' k a] ++ ps).
  rewrite !value_app, IH, !value_one.
  unfold locked_up_to, of_currency. cbn in Hp. subst k. replace (0 <=? t) with true by (symmetry; lia). by rewrite andb_true_r.
Qed.
Lemma value_within (S T : currency -> N -> bool) ps : (forall c k, S c k = true -> T c k = true) -> value S ps <= value T ps.
Proof.
  intros H. unfold value. apply sum_over_le. intros p _. destruct (S _ _) eqn:E; [rewrite (H _ _ E)|]; lia.
Qed.
Lemma units_free v a : all_free (units v a).
Proof. destruct v; repeat constructor. Qed.
Lemma costs_free L iu : all_free (input_costs cf L iu).
Proof.
  unfold input_costs. destruct iu.1 as [o|n del a|n c|c]; [constructor..| |].
  - destruct c; try (repeat constructor); destruct (os_data _ _); try constructor; apply units_free.
  - destruct c; try constructor; destruct (os_data _ _); try constructor; apply units_free.
Qed.
Lemma charged_free l : forall L, all_free (charged cf L l).
Proof. induction l as [|i l IH]; intros L; [constructor|]. cbn [charged]. apply Forall_app. split; [apply costs_free|apply IH]. Qed.
Lemma spendable_free L o x : spendable_value o = Ok x -> all_free (output_yields cf L o).
Proof. destruct o; cbn [spendable_value output_yields]; try done; intros _; try apply units_free. repeat constructor. Qed.
Lemma counted_free L iu l l' : match iu.1 with InAccount _ _ _ => False | _ => True end -> count_input cf infos l iu = Ok l' ->
  all_free (input_yields cf L iu).
Proof.
  destruct iu as [i ou]. unfold count_input, input_yields. cbn [fst snd]. intros Hi H. destruct i as [o|n del a|n c|c]; [| done | |].
  - destruct ou as [o'|]; [|constructor]. cbn [expect rbind] in H. apply rbind_ok in H as (x & Hx & _). by eapply spendable_free.
  - destruct c; try (repeat constructor); unfold closing_yields, filling_yields; destruct (os_data _ _); try constructor; try apply units_free.
    apply Forall_app. split; apply units_free.
  - destruct c; try constructor; unfold closing_yields, filling_yields; destruct (os_data _ _); try constructor; try apply units_free.
    apply Forall_app. split; apply units_free.
Qed.
Lemma preselected_free ins : forall L p p', no_withdrawal ins -> rfold (preselect_step cf isz infos rate) ins p = Ok p' ->
  all_free (unlocked cf L ins).
Proof.
  induction ins as [|iu ins IH]; intros L p p' Hn H; [constructor|]. cbn [rfold] in H. apply rbind_ok in H as (p1 & H1 & H).
  apply Forall_cons in Hn as [Hn Hns]. cbn [unlocked]. apply Forall_app. split; [|by eapply IH].
  unfold preselect_step in H1. apply rbind_ok in H1 as (? & _ & H1). apply rbind_ok in H1 as (? & _ & H1).
  apply rbind_ok in H1 as (? & _ & H1). apply rbind_ok in H1 as (am & Ham & _). by eapply counted_free.
Qed.
Lemma offered_spendable utxos gs : rmapM (utxo_group isz rate consolidate_rate) utxos = Ok gs ->
  Forall (fun iu => exists o out x, iu = (InUtxo o, Some out) /\ spendable_value out = Ok x) (offered utxos).
Proof.
  revert gs. induction utxos as [|[o out] utxos IH]; intros gs H; [constructor|]. cbn [rmapM] in H.
  destruct (utxo_group _ _ _ _) as [x| |] eqn:Hx; [|done..]. destruct (rmapM _ _) as [gs'| |] eqn:Hgs; [|done..].
  cbn [offered map fst snd]. constructor; [|by eapply IH]. unfold utxo_group in Hx. apply rbind_ok in Hx as (y & Hy & _). eauto.
Qed.
Lemma spendable_unlocked l : Forall (fun iu => exists o out x, iu = (InUtxo o, Some out) /\ spendable_value out = Ok x) l ->
  forall L, all_free (unlocked cf L l).
Proof.
  induction 1 as [|iu l (o & out & x & -> & Hx) Hl IH]; intros L; [constructor|]. cbn [unlocked input_yields after_input fst].
  apply Forall_app. split; [by eapply spendable_free|apply IH].
Qed.

Theorem C70_node_accepts V L ins outs utxos r i o :
  views_read V L -> ledger_sound L ->
  fair_sources orc -> informed cf L infos ins -> larger_is_not_shorter osz -> no_withdrawal ins -> send ins outs utxos = Ok r ->
  value (of_currency Coin) (unlocked cf L ins) <= value (of_currency Coin) (charged cf L ins) + value (of_currency Coin) (needed cf outs) ->
  from_inputs cf V (map fst (cp_inputs r)) (map snd (cp_inputs r)) = Ok i -> from_outputs cf (cp_outputs r) = Ok o ->
  exists fee, check_values cf V (map fst (cp_inputs r)) (map snd (cp_inputs r)) (cp_outputs r) = Ok fee /\
    cp_fee r <= fee_value (of_currency Coin) fee /\
    rate * transaction_size isz osz empty (cp_inputs r) (cp_outputs r) <= 1000 * fee_value (of_currency Coin) fee /\
    (forall id, named cf L ins outs (Token id) -> fee_value (of_currency (Token id)) fee = 0).
Proof.
  intros HV HL Hf Hi Hl Hw H Hle Hfi Hfo.
  destruct (C70_fee_is_paid L _ _ _ _ Hf Hi Hl H Hle) as (paid & Q1 & Q2 & Q3 & _).
  destruct (send_request_ok _ _ _ _ _ _ _ _ _ _ _ _ _ _ _ _ Hf Hi Hl H) as (picked & changes & E1 & E2 & E3 & E4 & E5 & E6 & _).
  assert (zip (map fst (cp_inputs r)) (map snd (cp_inputs r)) = cp_inputs r) as Hz by (rewrite <- (zip_fst_snd (cp_inputs r)) at 3; done).
  assert (charged cf L (cp_inputs r) = charged cf L ins) as Hch by (rewrite E1; by apply plain_tail_charged).
  assert (all_free (unlocked cf L (cp_inputs r))) as Hfree.
  { unfold send_request in H. apply rbind_ok in H as (pre & Hpre & H). apply rbind_ok in H as (? & _ & H).
    apply rbind_ok in H as (? & _ & H). apply rbind_ok in H as (gs & Hgs & _). unfold utxo_groups in Hgs.
    apply rbind_ok in Hgs as (gs0 & Hgs0 & _). rewrite E1, unlocked_app. apply Forall_app. split; [by eapply preselected_free|].
    apply spendable_unlocked. eapply submseteq_Forall; [exact E2|]. by eapply offered_spendable. }
  assert (forall c, value (of_currency c) (charged cf L (cp_inputs r)) + value (of_currency c) (needed cf (cp_outputs r)) <=
                    value (of_currency c) (unlocked cf L (cp_inputs r))) as Hall.
  { intros [|id]; [lia|]. rewrite Hch. destruct (decide (Token id ∈ map po_currency (needed cf outs))) as [Hd|Hd].
    { rewrite (E5 (Token id)); [lia|done|by left]. }
    destruct (decide (value (of_currency (Token id)) (charged cf L ins) = 0)) as [Hd'|Hd'].
    - destruct (E6 (Token id)) as [-> ->]; [done|unfold named; tauto|]. rewrite Hd'. lia.
    - rewrite (E5 (Token id)); [lia|done|by right]. }
  assert (is_ok (check_values cf V (map fst (cp_inputs r)) (map snd (cp_inputs r)) (cp_outputs r))) as [fee Hfee].
  { apply (ConstraintsProperties.C23_accepted_exactly_when_covered cf V L _ _ _ i o HV HL Hfi Hfo). rewrite Hz. split.
    - intros c. rewrite (all_free_value (charged _ _ _)) by apply charged_free. rewrite (all_free_value (unlocked _ _ _)) by done.
      pose proof (value_within (free_of c) (of_currency c) (needed cf (cp_outputs r))) as Hwi. specialize (Hall c).
      assert (forall c' k, free_of c c' k = true -> of_currency c c' k = true) as Hx
        by (unfold free_of, of_currency; intros c' k [? _]%andb_true_iff; done). specialize (Hwi Hx). lia.
    - intros t. rewrite (all_free_locked (charged _ _ _)) by apply charged_free. rewrite (all_free_locked (unlocked _ _ _)) by done.
      pose proof (value_within (locked_up_to t) (of_currency Coin) (needed cf (cp_outputs r))) as Hwi. specialize (Hall Coin).
      assert (forall c' k, locked_up_to t c' k = true -> of_currency Coin c' k = true) as Hx
        by (unfold locked_up_to, of_currency; intros c' k [? _]%andb_true_iff; done). specialize (Hwi Hx). lia. }
  exists fee. split; [done|]. pose proof (ConstraintsProperties.C23_value_is_conserved cf V L _ _ _ _ HV HL Hfee) as Hcons.
  rewrite Hz in Hcons. assert (fee_value (of_currency Coin) fee = paid) as -> by (specialize (Hcons Coin); lia).
  split_and!; [done|done|]. intros id Hn. specialize (Hcons (Token id)). rewrite (E5 (Token id)), Hch in Hcons by done. lia.
Qed.

(** C71. Sweeping: every output goes to the destination, and all that the inputs yield comes out again except the fee, which
    is the fee shown and at least what the rate asks for the size of the transaction. *)
Theorem C71_sweep_sends_everything L destination ins r :
  spends_outputs ins -> larger_is_not_shorter osz ->
  sweep cf isz osz empty infos rate destination ins = Ok r ->
  cp_inputs r = ins /\
  Forall (fun o => exists v, o = OTransfer v destination) (cp_outputs r) /\
  value (of_currency Coin) (unlocked cf L ins) = value (of_currency Coin) (needed cf (cp_outputs r)) + cp_fee r /\
  (forall id, value (of_currency (Token id)) (unlocked cf L ins) = value (of_currency (Token id)) (needed cf (cp_outputs r))) /\
  rate * transaction_size isz osz empty (cp_inputs r) (cp_outputs r) <= 1000 * cp_fee r.
Proof.
  intros Hs Hl H. unfold sweep in H. apply rbind_ok in H as (pre & Hpre & H). apply rbind_ok in H as (ifee & Hif & H).
  apply rbind_ok in H as (coins & Hc & H). apply ok_or_ok in Hc. apply rbind_ok in H as (first & Hfirst & H).
  apply rbind_ok in H as (frame & Hframe & H). apply rbind_ok in H as (fee & Hfee & H). apply rbind_ok in H as (rest & Hrest & H).
  apply ok_or_ok in Hfirst, Hrest. unfold checked_sub in Hfirst, Hrest.
  destruct (ifee <=? coins.1) eqn:E1; [injection Hfirst as <-|done]. destruct (fee <=? coins.1) eqn:E2; [injection Hrest as <-|done].
  injection H as <-. cbn [cp_inputs cp_outputs cp_fee].
  assert (informed cf L infos ins) as Hinf.
  { clear - Hs. revert L. induction ins as [|iu ins IH]; intros L; [done|]. apply Forall_cons in Hs as [Hi Hs]. split; [|by apply IH].
    by destruct iu.1. }
  destruct (preselected_counted cf infos isz rate ins L _ _ Hinf Hpre) as (P1 & P2 & P3 & _). cbn [pr_amounts pr_sizes] in *.
  specialize (P2 ltac:(constructor)).
  assert (forall c, value (of_currency c) (unlocked cf L ins) = brought_at c (pr_amounts pre)) as Hb by (intros c; rewrite (proj1 (P1 c)); done).
  clear P1. assert (brought_at Coin (pr_amounts pre) = coins.1) as Hcoin by (unfold brought_at; by rewrite Hc).
  assert (forall c, value (of_currency c) (needed cf (sweep_tokens destination (pr_amounts pre))) =
                    match c with Coin => 0 | Token _ => brought_at c (pr_amounts pre) end) as Htok.
  { clear - P2. intros c. unfold sweep_tokens, brought_at. induction (pr_amounts pre) as [|[c' [a b]] l IH].
    - cbn. by destruct c.
    - cbn [map fst] in P2. apply NoDup_cons in P2 as [Hn Hd]. cbn [flat_map fst snd]. rewrite needed_app, value_app, (IH Hd). cbn [find_at].
      destruct c' as [|id'].
      + unfold needed. cbn [map concat]. rewrite value_nil. destruct c as [|id]; [done|]. destruct (decide (Coin = Token id)); [done|]. lia.
      + assert (value (of_currency c) (needed cf [OTransfer (OvToken id' a) destination]) = only (Token id') c a) as ->.
        { unfold needed. cbn [map concat output_costs]. rewrite app_nil_r. apply worth_value. }
        unfold only. destruct c as [|id]; [done|]. destruct (decide (Token id = Token id')) as [Heq|Hne].
        * rewrite <- Heq in *. destruct (decide (Token id = Token id)); [|done]. rewrite (proj2 (find_at_none _ _) Hn). cbn. lia.
        * destruct (decide (Token id' = Token id)); [congruence|]. lia. }
  assert (forall a c, value (of_currency c) (needed cf [OTransfer (OvCoin a) destination]) = only Coin c a) as Hlast.
  { intros a c. unfold needed. cbn [map concat output_costs]. rewrite app_nil_r. apply worth_value. }
  split_and!; [done|..].
  - apply Forall_app. split; [|apply Forall_singleton; eauto]. unfold sweep_tokens. apply Forall_flat_map. apply Forall_forall.
    intros [[|id] [a b]] _; cbn [fst snd]; [constructor|]. apply Forall_singleton. eauto.
  - rewrite Hb, Hcoin, needed_app, value_app, Htok, Hlast. unfold only. destruct (decide _); [|done]. lia.
  - intros id. rewrite Hb, needed_app, value_app, Htok, Hlast. unfold only. destruct (decide _); [done|]. lia.
  - apply frame_size_ok in Hframe. apply compute_fee_ok in Hfee. epose proof (fee_for_covers rate _) as Hcov.
    rewrite <- Hfee in Hcov. etransitivity; [|exact Hcov].
    apply N.mul_le_mono_l. unfold transaction_size. rewrite Hframe, P3. rewrite !app_length, !outputs_size_app. cbn [length].
    assert (ifee <= fee) as Hle.
    { apply compute_fee_ok in Hif. subst ifee fee. apply fee_for_mono. rewrite P3. lia. }
    pose proof (Hl destination (coins.1 - fee) (coins.1 - ifee) ltac:(lia)) as Hs2. unfold outputs_size. cbn [foldr]. lia.
Qed.
End Send.
Print Assumptions C70_tokens_balance.
Print Assumptions C70_fee_is_paid.
Print Assumptions C70_node_accepts.
Print Assumptions C71_sweep_sends_everything.

(** * Examples and what fails *)

Definition flat_isz : tx_input -> option tx_output -> option N := fun _ _ => Some 100.
Definition flat_osz : tx_output -> N := fun _ => 50.
Definition plain_sources (c : currency) : oracle (tx_input * tx_output) := CoinSelectProperties.plain_oracle (pays_fee c).
Definition out_at (n : N) : outpoint := (FromTx 1, n).
Definition no_infos : N -> option order_info := fun _ => None.
(** the request mints 40 of token 3, sends 50 of token 3 and 900 coins; five outputs are offered *)
Definition ask_inputs : list (tx_input * option tx_output) := [(InCommand 0 (CmdMint 3 40), None)].
Definition ask_outputs : list tx_output := [OTransfer (OvCoin 900) 7; OTransfer (OvToken 3 50) 7].
Definition ask_utxos : list (outpoint * tx_output) :=
  [(out_at 0, OTransfer (OvCoin 700) 5); (out_at 1, OTransfer (OvToken 3 25) 5); (out_at 2, OTransfer (OvCoin 90) 5);
   (out_at 3, OTransfer (OvCoin 2000) 5); (out_at 4, OTransfer (OvToken 4 6) 5)].
Definition sample_send := send_request ConstraintsProperties.sample_config flat_isz flat_osz 10 no_infos 1000 500 (fun _ => 9)
  plain_sources Randomize 100000.

Lemma plain_sources_fair : fair_sources plain_sources.
Proof. intros c. apply CoinSelectProperties.plain_oracle_fair. Qed.
Lemma flat_not_shorter : larger_is_not_shorter flat_osz.
Proof. intros d a b _. reflexivity. Qed.

Example C70_example :
  fair_sources plain_sources /\ informed ConstraintsProperties.sample_config ConstraintsProperties.sample_ledger no_infos ask_inputs /\
  larger_is_not_shorter flat_osz /\ no_withdrawal ask_inputs /\
  named ConstraintsProperties.sample_config ConstraintsProperties.sample_ledger ask_inputs ask_outputs (Token 3) /\
  match sample_send ask_inputs ask_outputs ask_utxos with
  | Ok r => cp_inputs r = ask_inputs ++ [(InUtxo (out_at 3), Some (OTransfer (OvCoin 2000) 5)); (InUtxo (out_at 1), Some (OTransfer (OvToken 3 25) 5))] /\
            cp_outputs r = ask_outputs ++ [OTransfer (OvToken 3 15) 9; OTransfer (OvCoin 490) 9] /\
            cp_fee r = 560 /\
            transaction_size flat_isz flat_osz 10 (cp_inputs r) (cp_outputs r) = 510 /\
            fee_value (of_currency Coin) (default acc_new (match check_values ConstraintsProperties.sample_config ConstraintsProperties.sample_views
              (map fst (cp_inputs r)) (map snd (cp_inputs r)) (cp_outputs r) with Ok f => Some f | _ => None end)) = 560
  | _ => False
  end.
Proof.
  split_and!; [apply plain_sources_fair|cbn; tauto|apply flat_not_shorter|repeat constructor|left; vm_compute; set_solver|].
  vm_compute. split_and!; reflexivity.
Qed.

Example C71_example :
  let ins := [(InUtxo (out_at 0), Some (OTransfer (OvCoin 700) 5)); (InUtxo (out_at 1), Some (OTransfer (OvToken 3 25) 5))] in
  spends_outputs ins /\
  sweep ConstraintsProperties.sample_config flat_isz flat_osz 10 no_infos 1000 8 ins =
  Ok (Completed ins [OTransfer (OvToken 3 25) 8; OTransfer (OvCoin 390) 8] 310).
Proof. cbn zeta. split; [repeat constructor|]. vm_compute. reflexivity. Qed.

(** When the inputs of the request bring more coins than it takes, the fee for the change output is added to the fee shown but
    not taken from the change: the transaction leaves less than the fee shown, and less than the rate asks for. *)
Theorem C70_fee_is_paid_with_surplus_coins_refuted :
  ~ (forall cf isz osz empty infos rate crate change_to orc algo mw L ins outs utxos r,
       fair_sources orc -> informed cf L infos ins -> larger_is_not_shorter osz ->
       send_request cf isz osz empty infos rate crate change_to orc algo mw ins outs utxos = Ok r ->
       value (of_currency Coin) (charged cf L (cp_inputs r)) + value (of_currency Coin) (needed cf (cp_outputs r)) + cp_fee r <=
       value (of_currency Coin) (unlocked cf L (cp_inputs r))).
Proof.
  intros H.
  pose proof (H ConstraintsProperties.sample_config flat_isz flat_osz 10 no_infos 1000 500 (fun _ => 9) plain_sources Randomize 100000
    ConstraintsProperties.sample_ledger [(InUtxo (out_at 0), Some (OTransfer (OvCoin 10000) 5))] [OTransfer (OvCoin 1000) 7] []
    (Completed [(InUtxo (out_at 0), Some (OTransfer (OvCoin 10000) 5))] [OTransfer (OvCoin 1000) 7; OTransfer (OvCoin 8840) 9] 210)
    plain_sources_fair) as H1.
  specialize (H1 ltac:(cbn; tauto) flat_not_shorter ltac:(vm_compute; reflexivity)). vm_compute in H1. by apply H1.
Qed.
Print Assumptions C70_fee_is_paid_with_surplus_coins_refuted.

(** A token that an input of the request brings and no output names is not returned. *)
Theorem C70_unnamed_tokens_are_returned_refuted :
  ~ (forall cf isz osz empty infos rate crate change_to orc algo mw L ins outs utxos r id,
       fair_sources orc -> informed cf L infos ins -> larger_is_not_shorter osz ->
       send_request cf isz osz empty infos rate crate change_to orc algo mw ins outs utxos = Ok r ->
       value (of_currency (Token id)) (unlocked cf L (cp_inputs r)) =
       value (of_currency (Token id)) (charged cf L (cp_inputs r)) + value (of_currency (Token id)) (needed cf (cp_outputs r))).
Proof.
  intros H.
  pose proof (H ConstraintsProperties.sample_config flat_isz flat_osz 10 no_infos 0 0 (fun _ => 9) plain_sources Randomize 100000
    ConstraintsProperties.sample_ledger [(InUtxo (out_at 0), Some (OTransfer (OvToken 3 10) 5))] [] []
    (Completed [(InUtxo (out_at 0), Some (OTransfer (OvToken 3 10) 5))] [] 0) 3
    plain_sources_fair) as H1.
  specialize (H1 ltac:(cbn; tauto) flat_not_shorter ltac:(vm_compute; reflexivity)). vm_compute in H1. discriminate.
Qed.
Print Assumptions C70_unnamed_tokens_are_returned_refuted.
