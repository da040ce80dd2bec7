(** C23, C24: what a transaction's inputs unlock covers what its outputs consume, and staked coins stay locked. *)
From Verif Require Import Base AmountModel LayeredModel TokensModel OrdersModel PosModel PrimModel ChainModel ConstraintsModel.
From Verif Require Import TokensSpec OrdersSpec PosSpec ConstraintsSpec TokensProofs OrdersProofs PosProofs ConstraintsProofs.
Local Open Scope N_scope.

(** Sample ledger: a pool with a pledge of 400 and one delegation of 50, a token, and an order asking 100 coins for 40 tokens of
    which 40 coins have been paid in. The sample transaction spends a plain output, the pool and 20 of the delegation, mints 10
    tokens and pays 30 coins into the order. *)
Definition sample_pos_db : pos_db :=
  PosDb {[ 1 := PoolData 5 400 0 6 100 3 ]} {[ 1 := 450 ]} {[ (1, 7) := 50 ]} {[ 7 := 50 ]} {[ 7 := DelegData 4 1 ]}.
Definition sample_tok_db : tok_db := TokDb {[ 3 := TokenData [65] 2 [66] Unlimited false (NotFrozen true) 8 ]} {[ 3 := 500 ]}.
Definition sample_ord_db : ord_db := OrdDb {[ 9 := OrderData 8 (OvCoin 100) (OvToken 3 40) false ]} {[ 9 := 60 ]} {[ 9 := 24 ]}.
Definition sample_ledger : ledger :=
  Ledger (PosState (fun p => pdb_pool sample_pos_db !! p) (fun p => default 0 (pdb_pool_balance sample_pos_db !! p))
                   (fun p => pdb_deleg sample_pos_db !! p) (fun p => default 0 (pdb_deleg_balance sample_pos_db !! p))
                   (fun p => default 0 (pdb_share sample_pos_db !! p)))
         (TokState (fun i => tdb_data sample_tok_db !! i) (fun i => default 0 (tdb_supply sample_tok_db !! i)))
         (OrdState (fun i => odb_data sample_ord_db !! i) (fun i => default 0 (odb_ask sample_ord_db !! i))
                   (fun i => default 0 (odb_give sample_ord_db !! i))).
Definition sample_views : views := Views (pos_db_view sample_pos_db) (tok_db_view sample_tok_db) (ord_db_view sample_ord_db).
Definition sample_config : config := Config 10 50 20 20 20 5 100 100 OrdersV1.
Definition sample_inputs : list tx_input :=
  [InUtxo (FromTx 1, 0); InUtxo (FromTx 2, 0); InAccount 0 7 20; InCommand 3 (CmdMint 3 10); InOrder (OcFill 9 30)].
Definition sample_utxos : list (option tx_output) :=
  [Some (OTransfer (OvCoin 200) 4); Some (OProduceBlockFromStake 4 1); None; None; None].
Definition sample_outputs : list tx_output :=
  [OLockThenTransfer (OvCoin 410) 4 (ForBlockCount 10); OTransfer (OvToken 3 22) 4; OTransfer (OvCoin 110) 4].

Lemma single_zero {K} `{Countable K} (k : K) (a : N) : a <> 0 -> no_zeroes {[ k := a ]}.
Proof. intros Ha i E. apply lookup_singleton_Some in E as [_ E]. auto. Qed.
Lemma single_below {K} `{Countable K} (k : K) (a : N) : (Z.of_N a <= I128_MAX)%Z ->
  below_2_127 (fun i => default 0 (({[ k := a ]} : gmap K N) !! i)).
Proof.
  intros Ha i. destruct (decide (k = i)) as [->|]; [rewrite lookup_singleton|rewrite lookup_singleton_ne by auto]; cbn; [exact Ha|].
  vm_compute. discriminate.
Qed.
Lemma sample_pos_is : pos_db_is sample_pos_db (lg_pos sample_ledger).
Proof.
  unfold pos_db_is. cbn [lg_pos sample_ledger ps_pool ps_deleg ps_pool_balance ps_deleg_balance ps_share].
  split; [reflexivity|]. split; [reflexivity|].
  split; [split; [reflexivity|split; [apply single_zero; discriminate|apply single_below; vm_compute; discriminate]]|].
  split; [split; [reflexivity|split; [apply single_zero; discriminate|apply single_below; vm_compute; discriminate]]|].
  split; [split; [reflexivity|split; [apply single_zero; discriminate|apply single_below; vm_compute; discriminate]]|].
  unfold sound_stakes. cbn [ps_pool ps_deleg ps_pool_balance ps_deleg_balance ps_share sample_pos_db pdb_pool pdb_deleg pdb_share pdb_deleg_balance pdb_pool_balance].
  split; [|split].
  - intros p x E. apply lookup_singleton_Some in E as [<- <-]. exists 50. split; [|reflexivity].
    exists [7]. split; [repeat constructor; set_solver|]. split; [|reflexivity].
    intros d Hd. rewrite lookup_singleton_ne; [reflexivity|]. intros [= <-]. apply Hd. set_solver.
  - intros d x E. apply lookup_singleton_Some in E as [<- <-]. split; [reflexivity|].
    intros p Hp. cbn in Hp. rewrite lookup_singleton_ne; [reflexivity|]. intros [= <-]. auto.
  - intros d E. apply lookup_singleton_None in E. split; [rewrite lookup_singleton_ne by auto; reflexivity|].
    intros p. rewrite lookup_singleton_ne; [reflexivity|]. intros [= _ <-]. auto.
Qed.
Lemma sample_tok_is : tok_db_is sample_tok_db (lg_tok sample_ledger).
Proof.
  unfold tok_db_is. cbn [lg_tok sample_ledger ts_data ts_supply].
  split; [reflexivity|]. split; [reflexivity|]. split; [apply single_zero; discriminate|].
  split; [apply single_below; vm_compute; discriminate|].
  intros i t E. cbn [sample_tok_db tdb_data] in E. apply lookup_singleton_Some in E as [<- <-]. discriminate.
Qed.
Lemma sample_ord_is : ord_db_is sample_ord_db (lg_ord sample_ledger).
Proof.
  unfold ord_db_is. cbn [lg_ord sample_ledger os_data os_ask os_give].
  split; [reflexivity|]. split; [reflexivity|]. split; [apply single_zero; discriminate|].
  split; [reflexivity|]. split; [apply single_zero; discriminate|].
  split; [apply single_below; vm_compute; discriminate|]. split; [apply single_below; vm_compute; discriminate|].
  intros i. cbn [os_data os_ask os_give sample_ord_db odb_data odb_ask odb_give]. destruct (decide (9 = i)) as [<-|].
  - rewrite !lookup_singleton. exists 100, 40. cbn. repeat split; lia.
  - rewrite !lookup_singleton_ne by auto. split; reflexivity.
Qed.
Lemma sample_reads : views_read sample_views sample_ledger /\ ledger_sound sample_ledger.
Proof.
  pose proof sample_pos_is as P. pose proof sample_tok_is as T. pose proof sample_ord_is as O.
  split; [split; [exact (pos_reads_db _ _ P)|split; [exact (tok_reads_db _ _ T)|exact (ord_reads_db _ _ O)]]|].
  unfold ledger_sound, pos_sound, tok_sound, ord_sound, pos_db_is, tok_db_is, ord_db_is in *. tauto.
Qed.

(** C23. An accepted transaction conserves every currency: what its inputs unlock is what its commands and outputs cost plus
    the reported fee. *)
Theorem C23_value_is_conserved cf V L inputs utxos outs fee :
  views_read V L -> ledger_sound L -> check_values cf V inputs utxos outs = Ok fee ->
  forall c, value (of_currency c) (unlocked cf L (zip inputs utxos)) =
    value (of_currency c) (charged cf L (zip inputs utxos)) + value (of_currency c) (needed cf outs) + fee_value (of_currency c) fee.
Proof. intros HV HL H. exact (proj1 (check_values_conserves cf V L inputs utxos outs fee HV HL H)). Qed.
Print Assumptions C23_value_is_conserved.

Definition fee_reads (r : res acv_err accumulator) : option (option N * option N * option N) :=
  match r with Ok f => Some (ac_free f !! Coin, ac_free f !! Token 3, ac_locked f !! 10) | _ => None end.
Example C23_example : views_read sample_views sample_ledger /\ ledger_sound sample_ledger /\
  fee_reads (check_values sample_config sample_views sample_inputs sample_utxos sample_outputs) = Some (Some 10, Some 0, Some 10) /\
  value (of_currency Coin) (unlocked sample_config sample_ledger (zip sample_inputs sample_utxos)) = 620 /\
  value (of_currency Coin) (charged sample_config sample_ledger (zip sample_inputs sample_utxos)) = 80 /\
  value (of_currency Coin) (needed sample_config sample_outputs) = 520 /\
  value (of_currency (Token 3)) (unlocked sample_config sample_ledger (zip sample_inputs sample_utxos)) = 22.
Proof.
  split; [apply sample_reads|]. split; [apply sample_reads|]. split; [vm_compute; reflexivity|].
  split; [vm_compute; reflexivity|]. split; [vm_compute; reflexivity|]. split; vm_compute; reflexivity.
Qed.

(** C23. The comparison is exact: given inputs and outputs whose amounts can be added up, the transaction is accepted exactly
    when the free part of every currency covers what must come from it, and the coins locked for at most [t] blocks cover, for
    every [t], what is spent on outputs locked for at most [t] blocks. *)
Theorem C23_accepted_exactly_when_covered cf V L inputs utxos outs i o :
  views_read V L -> ledger_sound L -> from_inputs cf V inputs utxos = Ok i -> from_outputs cf outs = Ok o ->
  (is_ok (check_values cf V inputs utxos outs) <->
   (forall c, value (free_of c) (charged cf L (zip inputs utxos)) + value (free_of c) (needed cf outs) <=
              value (free_of c) (unlocked cf L (zip inputs utxos))) /\
   (forall t, value (locked_up_to t) (charged cf L (zip inputs utxos)) + value (locked_up_to t) (needed cf outs) <=
              value (locked_up_to t) (unlocked cf L (zip inputs utxos)))).
Proof. exact (check_values_ok_iff cf V L inputs utxos outs i o). Qed.
Print Assumptions C23_accepted_exactly_when_covered.

Example C23_accepted_example :
  match from_inputs sample_config sample_views sample_inputs sample_utxos with Ok _ => True | _ => False end /\
  match from_outputs sample_config sample_outputs with Ok _ => True | _ => False end /\
  fee_reads (check_values sample_config sample_views sample_inputs sample_utxos
               (OTransfer (OvCoin 11) 4 :: sample_outputs)) = None.
Proof. split; [vm_compute; exact I|]. split; [vm_compute; exact I|]. vm_compute. reflexivity. Qed.

(** C23. The reward of a block without staking pays at most the fees of its transactions plus the subsidy, and no tokens. *)
Theorem C23_reward_within_fees_and_subsidy cf fees subsidy outs fee :
  check_reward_values cf fees subsidy outs = Ok fee ->
  fees + subsidy = value (of_currency Coin) (needed cf outs) + fee_value (of_currency Coin) fee /\
  forall id, value (of_currency (Token id)) (needed cf outs) = 0.
Proof. exact (reward_values_bounded cf fees subsidy outs fee). Qed.
Print Assumptions C23_reward_within_fees_and_subsidy.

Example C23_reward_example :
  fee_reads (check_reward_values sample_config 30 100 [OLockThenTransfer (OvCoin 125) 4 (ForBlockCount 10)]) = Some (Some 5, None, None) /\
  fee_reads (check_reward_values sample_config 30 100 [OLockThenTransfer (OvCoin 131) 4 (ForBlockCount 10)]) = None.
Proof. split; vm_compute; reflexivity. Qed.

(** C23. The fees credited to the block producer are exactly the coin fees of the transactions whose locks do not exceed the
    maturity period. *)
Theorem C23_block_fees_add_up cf fees total : block_fees cf fees = Ok total ->
  total = sum_over (fee_value (locked_up_to (cf_maturity cf))) fees.
Proof. exact (block_fees_value cf fees total). Qed.
Print Assumptions C23_block_fees_add_up.

Example C23_fees_example :
  block_fees sample_config [Accu {[ Coin := 10; Token 3 := 4 ]} {[ 10 := 7; 11 := 9 ]}; Accu {[ Coin := 2 ]} ∅] = Ok 19.
Proof. vm_compute. reflexivity. Qed.

(** C24. For every [t > 0]: the coins that must stay locked for [t] blocks or more are put into outputs locked for that long, or
    left as fee under their lock. *)
Theorem C24_staked_coins_stay_locked cf V L inputs utxos outs fee :
  views_read V L -> ledger_sound L -> check_values cf V inputs utxos outs = Ok fee ->
  forall t, 0 < t -> value (locked_from t) (unlocked cf L (zip inputs utxos)) <=
     value (locked_from t) (needed cf outs) + fee_value (locked_from t) fee.
Proof. intros HV HL H. exact (proj2 (check_values_conserves cf V L inputs utxos outs fee HV HL H)). Qed.
Print Assumptions C24_staked_coins_stay_locked.

Example C24_example :
  value (locked_from 10) (unlocked sample_config sample_ledger (zip sample_inputs sample_utxos)) = 420 /\
  value (locked_from 10) (needed sample_config sample_outputs) = 410 /\
  fee_reads (check_values sample_config sample_views sample_inputs sample_utxos sample_outputs) = Some (Some 10, Some 0, Some 10) /\
  (* one block less of locking is refused *)
  fee_reads (check_values sample_config sample_views sample_inputs sample_utxos
     (OLockThenTransfer (OvCoin 410) 4 (ForBlockCount 9) :: tail sample_outputs)) = None.
Proof. split; [vm_compute; reflexivity|]. split; [vm_compute; reflexivity|]. split; vm_compute; reflexivity. Qed.

(** C24. Matching locked outputs with locked inputs never crashes (the two [expect]s in it cannot fire). *)
Theorem C24_matching_never_crashes inputs outputs : satisfy_with inputs outputs <> Panic.
Proof. exact (satisfy_no_panic inputs outputs). Qed.
Print Assumptions C24_matching_never_crashes.
