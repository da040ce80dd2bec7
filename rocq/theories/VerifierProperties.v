(** C42, C56, C57, C58, C59, C60, C61: histories of whole blocks on the database. *)
From Verif Require Import Base AmountModel LayeredModel TokensModel OrdersModel PosModel PrimModel ChainModel
  UtxoModel ConstraintsModel RewardModel UndoCacheModel NonceModel VerifierModel.
From Verif Require Import PosSpec ConstraintsSpec SupplySpec SupplyProofs VerifierPools VerifierTokens.
Local Open Scope N_scope.

(** ** A sample chain: genesis has 1000 coins and a pool; two blocks staked by that pool issue, mint and sell a token, issue an
    NFT, open a delegation and delegate to it. *)
Definition sample_id (n : positive) (k : outpoint) : N := N.pos (encode (n, k)).
Definition sample_rules : rules :=
  Rules (Config 10 50 20 20 20 5 100 100 OrdersV1) 100 true true true true false 50 RewardV1.
Definition sample_fields (i : tx_input) : list N :=
  match i with
  | InUtxo _ => []
  | InAccount n d a => [0; n; d; a]
  | InCommand n c =>
      1 :: n :: match c with
                | CmdMint id a => [0; id; a] | CmdUnmint id => [1; id] | CmdLockSupply id => [2; id] | CmdFreeze id u => [3; id; if u then 1 else 0]
                | CmdUnfreeze id => [4; id] | CmdChangeAuthority id d => [5; id; d] | CmdConcludeOrder id => [6; id] | CmdFillOrder id a d => [7; id; a; d]
                | CmdChangeUri id uri => 8 :: id :: uri
                end
  | InOrder c => match c with OcFill id a => [2; 0; id; a] | OcFreeze id => [2; 1; id] | OcConclude id => [2; 2; id] end
  end.
Definition sample_token_id (i : tx_input) : N :=
  match i with InUtxo k => 2 * sample_id 4 k | _ => 2 * N.pos (encode (sample_fields i)) + 1 end.
Definition sample_cc : chain_config :=
  ChainConfig (fun _ => sample_rules) (sample_id 1) (sample_id 2) (sample_id 3) sample_token_id
    (fun _ _ => true) (fun _ _ _ _ _ => true) (fun _ _ _ _ _ => true).
Definition sample_genesis : genesis := Genesis 1 [OTransfer (OvCoin 1000) 7; OCreateStakePool 0 (StakePool 5000 7 8 9 100 5)].
Definition sample_token : N := sample_token_id (InUtxo (FromReward 1, 0)).
Definition sample_nft : N := sample_token_id (InUtxo (FromTx 201, 0)).
Definition sample_delegation : N := sample_id 2 (FromReward 1, 0).
Definition sample_block1 : block :=
  Block 11 1 1 100
    [Transaction 101 [InUtxo (FromReward 1, 0)]
       [OTransfer (OvCoin 700) 7; OCreateDelegationId 2 0; OIssueFungibleToken (Issuance [65] 2 [66] Unlimited 8 true)];
     Transaction 102 [InUtxo (FromTx 101, 0)] [OTransfer (OvCoin 400) 7; ODelegateStaking 200 sample_delegation]]
    [OProduceBlockFromStake 7 0] (Some ([InUtxo (FromReward 1, 1)], 0)).
Definition sample_block2 : block :=
  Block 12 11 2 200
    [Transaction 201 [InUtxo (FromTx 102, 0); InCommand 0 (CmdMint sample_token 30)]
       [OTransfer (OvCoin 300) 7; OTransfer (OvToken sample_token 20) 7; OTransfer (OvToken sample_token 10) 4];
     Transaction 202 [InUtxo (FromTx 201, 0); InUtxo (FromTx 201, 1)]
       [OCreateOrder (OrderData 5 (OvCoin 40) (OvToken sample_token 20) false); OTransfer (OvCoin 150) 7; OIssueNft sample_nft 0 3]]
    [OProduceBlockFromStake 7 0] (Some ([InUtxo (FromReward 11, 0)], 0)).
Definition sample_places : list site :=
  [AtOutput (FromTx 202, 1); InPool 0; InDelegation sample_delegation].

Theorem sample_ids : ids_distinct sample_cc sample_genesis.
Proof.
  split; [|split].
  1,2: intros k k' E; injection E as E; apply (inj encode) in E; congruence.
  intros k p x Hp. repeat (apply elem_of_cons in Hp as [Hp|Hp]; [try discriminate Hp|]); [|apply elem_of_nil in Hp as []].
  injection Hp as -> _. discriminate.
Qed.
Theorem sample_token_ids : token_ids_distinct sample_cc.
Proof.
  split; [|discriminate]. intros i j E. cbn [cc_token_id sample_cc] in E.
  destruct i as [k|n d a|n c|c], j as [k'|n' d' a'|n' c'|c']; unfold sample_token_id in E; try lia.
  1: { assert (sample_id 4 k = sample_id 4 k') as G by lia. injection G as G. apply (inj encode) in G. congruence. }
  all: match type of E with 2 * N.pos (encode ?x) + 1 = 2 * N.pos (encode ?y) + 1 =>
         assert (N.pos (encode x) = N.pos (encode y)) as G by lia; injection G as G; apply (inj encode) in G end.
  all: try destruct c; try destruct c'; cbn [sample_fields] in G; try discriminate G; try congruence.
  injection G as -> -> G. destruct unfreezable, unfreezable0; congruence.
Qed.
Theorem sample_reached db : replay sample_cc sample_genesis [sample_block1; sample_block2] = Ok db ->
  reached sample_cc sample_genesis [sample_block1; sample_block2] db.
Proof.
  intros H. apply replayed; [split; vm_compute; discriminate| |exact H].
  intros [|b0 [|b1 bs1]] b bs2 E.
  - injection E as <- _. split; [discriminate|]. split; [intros b' Hb; apply elem_of_nil in Hb as []|].
    intros tx tx' Ht Ht'. cbn [b_txs sample_block1 sample_block2 txs_of map concat app] in Ht, Ht'. rewrite !elem_of_cons, elem_of_nil in Ht, Ht'.
    destruct Ht as [->|[->|[]]], Ht' as [->|[->|[]]]; intros E; cbn [tx_id] in E; first [discriminate E|reflexivity].
  - injection E as <- <- _. split; [discriminate|]. split; [intros b' Hb; apply elem_of_list_singleton in Hb as ->; discriminate|].
    intros tx tx' Ht Ht'. unfold txs_of in Ht'. cbn [b_txs sample_block1 sample_block2 map concat] in Ht, Ht'.
    rewrite ?elem_of_app, !elem_of_cons, !elem_of_nil in Ht'. rewrite !elem_of_cons, elem_of_nil in Ht.
    destruct Ht as [->|[->|[]]], Ht' as [[[->|[->|[]]]|[]]|[->|[->|[]]]]; intros E; cbn [tx_id] in E; first [discriminate E|reflexivity].
  - exfalso. destruct bs1; discriminate E.
Qed.
Example sample_connects :
  match replay sample_cc sample_genesis [sample_block1; sample_block2] with Ok _ => true | _ => false end = true.
Proof. vm_compute. reflexivity. Qed.

(** ** C42 *)
Theorem C42_coins_never_exceed_emission cc g bs db places :
  ids_distinct cc g -> reached cc g bs db -> NoDup places ->
  sum_over (db_holding db Coin) places <= created_at_genesis g Coin + subsidies cc bs.
Proof. exact (fun Hids => coins_bounded cc g Hids bs db places). Qed.
Print Assumptions C42_coins_never_exceed_emission.
(** The 6000 coins of genesis and the subsidies of two blocks; what is missing paid for the token, its minting and the NFT. *)
Example C42_ex :
  created_at_genesis sample_genesis Coin + subsidies sample_cc [sample_block1; sample_block2] = 6100 /\
  match replay sample_cc sample_genesis [sample_block1; sample_block2] with
  | Ok db => map (db_holding db Coin) [AtOutput (FromTx 202, 1); InPool 0; InDelegation sample_delegation]
  | _ => []
  end = [150; 5481; 219].
Proof. split; vm_compute; reflexivity. Qed.

(** ** C56 *)
Theorem C56_database_is_the_replay_of_its_blocks cc g bs db :
  ids_distinct cc g -> reached cc g bs db -> replay cc g bs = Ok db.
Proof. exact (fun Hids => replays cc g Hids bs db). Qed.
Print Assumptions C56_database_is_the_replay_of_its_blocks.
Theorem C56_same_blocks_same_database cc g bs db db' :
  ids_distinct cc g -> reached cc g bs db -> reached cc g bs db' -> db = db'.
Proof.
  intros Hids H H'. pose proof (replays cc g Hids _ _ H) as E. rewrite (replays cc g Hids _ _ H') in E. congruence.
Qed.
Print Assumptions C56_same_blocks_same_database.
Theorem C56_tip_can_always_be_disconnected cc g bs b db :
  ids_distinct cc g -> reached cc g (bs ++ [b]) db ->
  exists db', disconnect_block db b = Ok db' /\ replay cc g bs = Ok db'.
Proof. exact (fun Hids => tip_disconnects cc g Hids bs b db). Qed.
Print Assumptions C56_tip_can_always_be_disconnected.
Example C56_ex :
  match replay sample_cc sample_genesis [sample_block1; sample_block2] with
  | Ok db => match disconnect_block db sample_block2 with
             | Ok db' => match disconnect_block db' sample_block1 with
                         | Ok db'' => Some (map (db_holding db'' Coin) [AtOutput (FromReward 1, 0); InPool 0])
                         | _ => None
                         end
             | _ => None
             end
  | _ => None
  end = Some [1000; 5000].
Proof. vm_compute. reflexivity. Qed.

(** ** C57 *)
Theorem C57_tokens_never_exceed_recorded_supply cc g bs db id places :
  ids_distinct cc g -> reached cc g bs db -> NoDup places ->
  sum_over (db_holding db (Token id)) places <=
    created_at_genesis g (Token id)
    + default 0 (tdb_supply (db_tok db) !! id)                        (* the circulating supply on record, if fungible *)
    + match db_aux db !! id with Some _ => 1 | None => 0 end.          (* the unit of an NFT *)
Proof. exact (fun Hids => tokens_bounded cc g Hids bs db id places). Qed.
Print Assumptions C57_tokens_never_exceed_recorded_supply.
Example C57_ex :
  match replay sample_cc sample_genesis [sample_block1; sample_block2] with
  | Ok db => (map (db_holding db (Token sample_token)) [OfferedByOrder (sample_id 3 (FromTx 201, 0)); AtOutput (FromTx 201, 2)],
              tdb_supply (db_tok db) !! sample_token,
              map (db_holding db (Token sample_nft)) [AtOutput (FromTx 202, 2)])
  | _ => ([], None, [])
  end = ([20; 10], Some 30, [1]).
Proof. vm_compute. reflexivity. Qed.

(** ** C58 *)
Theorem C58_no_transaction_twice cc g bs db :
  ids_distinct cc g -> reached cc g bs db -> NoDup (map tx_id (txs_of bs)) /\ NoDup (g_id g :: map b_id bs).
Proof. exact (fun Hids => nothing_twice cc g Hids bs db). Qed.
Print Assumptions C58_no_transaction_twice.
Theorem C58_replayed_transaction_refused cc g bs db b tx db' :
  ids_distinct cc g -> reached cc g bs db -> no_collision g bs b -> in_range cc g (bs ++ [b]) ->
  tx ∈ b_txs b -> tx ∈ txs_of bs -> connect_block cc db b <> Ok db'.
Proof. exact (fun Hids => replayed_refused cc g Hids bs db b tx db'). Qed.
Print Assumptions C58_replayed_transaction_refused.
(** After the second block, a block with a transaction of the first is refused; so is one with the same transaction twice. *)
Definition sample_replaying (txs : list transaction) : block :=
  Block 13 12 3 300 txs [OProduceBlockFromStake 7 0] (Some ([InUtxo (FromReward 12, 0)], 0)).
Definition sample_freeze : transaction := Transaction 301 [InOrder (OcFreeze (sample_id 3 (FromTx 201, 0)))] [].
Example C58_ex :
  match replay sample_cc sample_genesis [sample_block1; sample_block2] with
  | Ok db => map (fun txs => match connect_block sample_cc db (sample_replaying txs) with Ok _ => true | _ => false end)
                 [b_txs sample_block1; [sample_freeze]; [sample_freeze; sample_freeze]]
  | _ => []
  end = [false; true; false].
Proof. vm_compute. reflexivity. Qed.

(** ** C59 *)
Theorem C59_one_output_controls_each_pool cc g bs db p :
  ids_distinct cc g -> (forall d q, OProduceBlockFromStake d q ∉ g_outputs g) -> reached cc g bs db ->
  (is_Some (pdb_pool (db_pos db) !! p) <-> exists k u, udb_map (db_utxo db) !! k = Some u /\ controls (u_output u) = Some p) /\
  (forall k k' u u', udb_map (db_utxo db) !! k = Some u -> udb_map (db_utxo db) !! k' = Some u' ->
     controls (u_output u) = Some p -> controls (u_output u') = Some p -> k = k').
Proof. exact (one_output_each cc g bs db p). Qed.
Print Assumptions C59_one_output_controls_each_pool.
(** The pool of genesis is controlled by the reward output of the last block it made, and gone once that output is spent. *)
Definition sample_decommission : block :=
  Block 13 12 3 300 [Transaction 301 [InUtxo (FromReward 12, 0)] []] [] None.
Example C59_ex :
  map (fun bs => match replay sample_cc sample_genesis bs with
                 | Ok db => Some (bool_decide (is_Some (pdb_pool (db_pos db) !! 0)),
                                  map (fun k => option_map (fun u => controls (u_output u)) (udb_map (db_utxo db) !! k))
                                      [(FromReward 1, 1); (FromReward 11, 0); (FromReward 12, 0)])
                 | _ => None
                 end) [[]; [sample_block1]; [sample_block1; sample_block2]; [sample_block1; sample_block2; sample_decommission]] =
  [Some (true, [Some (Some 0); None; None]); Some (true, [None; Some (Some 0); None]); Some (true, [None; None; Some (Some 0)]);
   Some (false, [None; None; None])].
Proof. vm_compute. reflexivity. Qed.

(** ** C60 *)
Theorem C60_token_ids_issued_once cc g bs db :
  ids_distinct cc g -> token_ids_distinct cc -> reached cc g bs db ->
  NoDup (fungibles_of cc bs ++ nfts_of bs) /\
  forall id, (is_Some (tdb_data (db_tok db) !! id) <-> id ∈ fungibles_of cc bs) /\ (is_Some (db_aux db !! id) <-> id ∈ nfts_of bs).
Proof. exact (issued_once cc g bs db). Qed.
Print Assumptions C60_token_ids_issued_once.
Example C60_ex :
  fungibles_of sample_cc [sample_block1; sample_block2] = [sample_token] /\ nfts_of [sample_block1; sample_block2] = [sample_nft] /\
  match replay sample_cc sample_genesis [sample_block1; sample_block2] with
  | Ok db => map (fun id => (bool_decide (is_Some (tdb_data (db_tok db) !! id)), bool_decide (is_Some (db_aux db !! id)))) [sample_token; sample_nft]
  | _ => []
  end = [(true, false); (false, true)].
Proof. repeat split; vm_compute; reflexivity. Qed.
(** The second half of [token_ids_distinct] is needed. If ids came from any first input while orders are filled without
    nonces, a token and an NFT could get the same id: both transactions start with the same fill of an order. The forks of
    the real networks switch both rules at the same height (common/src/chain/config/builder.rs). *)
Definition colliding_cc : chain_config :=
  ChainConfig (fun _ => Rules (Config 10 5 2 2 2 5 1 1 OrdersV1) 100 true true true true true 50 RewardV1)
    (sample_id 1) (sample_id 2) (sample_id 3) sample_token_id (fun _ _ => true) (fun _ _ _ _ _ => true) (fun _ _ _ _ _ => true).
Definition colliding_input : tx_input := InOrder (OcFill (sample_id 3 (FromTx 201, 0)) 10).
Definition colliding_block : block :=
  Block 13 12 3 300
    [Transaction 301 [colliding_input; InUtxo (FromTx 202, 1)] [OIssueFungibleToken (Issuance [67] 2 [66] Unlimited 8 true); OTransfer (OvCoin 100) 7];
     Transaction 302 [colliding_input; InUtxo (FromTx 301, 1)] [OIssueNft (sample_token_id colliding_input) 0 3]]
    [OProduceBlockFromStake 7 0] (Some ([InUtxo (FromReward 12, 0)], 0)).
Theorem C60_any_first_input_refuted :
  match replay colliding_cc sample_genesis [sample_block1; sample_block2; colliding_block] with
  | Ok db => (bool_decide (is_Some (tdb_data (db_tok db) !! sample_token_id colliding_input)), bool_decide (is_Some (db_aux db !! sample_token_id colliding_input)))
  | _ => (false, false)
  end = (true, true).
Proof. vm_compute. reflexivity. Qed.
Print Assumptions C60_any_first_input_refuted.

(** ** C61 *)
Theorem C61_frozen_tokens_do_not_move cc g bs db b db' id t :
  ids_distinct cc g -> token_ids_distinct cc -> created_at_genesis g (Token id) = 0 -> reached cc g bs db ->
  no_collision g bs b -> in_range cc g (bs ++ [b]) -> connect_block cc db b = Ok db' ->
  tdb_data (db_tok db) !! id = Some t -> is_frozen t = true ->                  (* the token is frozen *)
  ru_frozen_checks (cc_rules cc (b_height b)) = true -> never_unfreezes b id ->
  (forall x, db_holding db' (Token id) x = db_holding db (Token id) x) /\
  tdb_data (db_tok db') !! id = Some t /\ tdb_supply (db_tok db') !! id = tdb_supply (db_tok db) !! id.
Proof. exact (frozen_stays cc g bs db b db' id t). Qed.
Print Assumptions C61_frozen_tokens_do_not_move.
(** Once the token is frozen, a block may still freeze the order that offers it, but neither move it nor fill the order. *)
Definition sample_freezing : block :=
  Block 13 12 3 300 [Transaction 301 [InUtxo (FromTx 202, 1); InCommand 1 (CmdFreeze sample_token true)] [OTransfer (OvCoin 100) 7]]
    [OProduceBlockFromStake 7 0] (Some ([InUtxo (FromReward 12, 0)], 0)).
Definition sample_after (txs : list transaction) : block :=
  Block 14 13 4 400 txs [OProduceBlockFromStake 7 0] (Some ([InUtxo (FromReward 13, 0)], 0)).
Definition sample_order : N := sample_id 3 (FromTx 201, 0).
Example C61_ex :
  match replay sample_cc sample_genesis [sample_block1; sample_block2; sample_freezing] with
  | Ok db => map (fun txs => match connect_block sample_cc db (sample_after txs) with
                             | Ok db' => Some (map (db_holding db' (Token sample_token)) [OfferedByOrder sample_order; AtOutput (FromTx 201, 2); AtOutput (FromTx 401, 0)])
                             | _ => None
                             end)
      [[Transaction 401 [InOrder (OcFreeze sample_order)] []];
       [Transaction 401 [InUtxo (FromTx 201, 2)] [OTransfer (OvToken sample_token 10) 9]];
       [Transaction 401 [InUtxo (FromTx 201, 2)] []];
       [Transaction 401 [InUtxo (FromTx 301, 0); InOrder (OcFill sample_order 10)] []];
       [Transaction 401 [InUtxo (FromTx 301, 0); InCommand 2 (CmdUnfreeze sample_token)] []; Transaction 402 [InUtxo (FromTx 201, 2)] []]]
  | _ => []
  end = [Some [20; 10; 0]; None; None; None; Some [20; 0; 0]].
Proof. vm_compute. reflexivity. Qed.

(** ** Within one verifier *)
(** Without a flush in between, a verifier cannot take back a transaction that issues an NFT, nor connect again one it has
    taken back: token_issuance_cache.rs 173-195 refuses any id that its cache holds an entry for. *)
Definition sample_issue : transaction :=
  Transaction 301 [InUtxo (FromReward 1, 0)] [OTransfer (OvCoin 500) 7; OIssueNft sample_token 0 3].
Definition connect_then_disconnect (db : chain_db) (tx : transaction) : res verr (res verr unit) :=
  let? (v, _) := connect_tx sample_cc 1 100 (store_of db) (SrcChain 11) (verifier_on db) tx in
  Ok (let? _ := disconnect_tx (store_of db) (SrcChain 11) v tx in Ok tt).
Theorem C56_undo_before_flush_refuted :
  (let? db := genesis_db sample_genesis in connect_then_disconnect db sample_issue) = Ok (Err VIssuanceDuplicate).
Proof. vm_compute. reflexivity. Qed.
Print Assumptions C56_undo_before_flush_refuted.
