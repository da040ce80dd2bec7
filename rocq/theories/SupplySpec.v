(** Where coins and tokens are held, and what a history of blocks is. *)
From Verif Require Import Base AmountModel LayeredModel TokensModel OrdersModel PosModel PrimModel ChainModel UtxoModel
  ConstraintsModel RewardModel UndoCacheModel NonceModel VerifierModel.
From Verif Require Import OrdersSpec PosSpec UtxoSpec ConstraintsSpec.
Local Open Scope N_scope.

(** The places a unit of a currency can be: an unspent output, a pool (its owner's pledge and rewards), a delegation, what
    has been paid into an open order, what an open order still offers. *)
Inductive site := AtOutput (k : outpoint) | InPool (p : N) | InDelegation (d : N) | PaidIntoOrder (o : N) | OfferedByOrder (o : N).
Global Instance site_eq : EqDecision site. Proof. solve_decision. Defined.

(** What an unspent output holds. Outputs that stand for pools hold nothing themselves. *)
Definition kept (o : tx_output) : list portion :=
  match o with
  | OTransfer v _ | OLockThenTransfer v _ _ | OHtlc v _ => worth v
  | OIssueNft id _ _ => [Portion (Token id) 0 1]
  | _ => []
  end.
Definition holding (U : outpoint -> option utxo) (P : pos_state) (O : ord_state) (c : currency) (x : site) : N :=
  match x with
  | AtOutput k => match U k with Some u => value (of_currency c) (kept (u_output u)) | None => 0 end
  | InPool p => match ps_pool P p with Some d => value (of_currency c) [Portion Coin 0 (pd_pledge d + pd_rewards d)] | None => 0 end
  | InDelegation d => value (of_currency c) [Portion Coin 0 (ps_deleg_balance P d)]
  | PaidIntoOrder o => match os_data O o with
                       | Some d => value (of_currency c) (units (od_ask d) (default 0 (side_amount (od_ask d)) - os_ask O o))
                       | None => 0
                       end
  | OfferedByOrder o => match os_data O o with Some d => value (of_currency c) (units (od_give d) (os_give O o)) | None => 0 end
  end.
(** However many places one looks at, they hold at most [n] together. *)
Definition at_most {K} (f : K -> N) (n : N) : Prop := forall l, NoDup l -> sum_over f l <= n.

(** The same, read off the database. *)
Definition db_holding (db : chain_db) (c : currency) (x : site) : N :=
  match x with
  | AtOutput k => match udb_map (db_utxo db) !! k with Some u => value (of_currency c) (kept (u_output u)) | None => 0 end
  | InPool p => match pdb_pool (db_pos db) !! p with Some d => value (of_currency c) [Portion Coin 0 (pd_pledge d + pd_rewards d)] | None => 0 end
  | InDelegation d => value (of_currency c) [Portion Coin 0 (default 0 (pdb_deleg_balance (db_pos db) !! d))]
  | PaidIntoOrder o =>
      match odb_data (db_ord db) !! o with
      | Some d => value (of_currency c) (units (od_ask d) (default 0 (side_amount (od_ask d)) - default 0 (odb_ask (db_ord db) !! o)))
      | None => 0
      end
  | OfferedByOrder o =>
      match odb_data (db_ord db) !! o with
      | Some d => value (of_currency c) (units (od_give d) (default 0 (odb_give (db_ord db) !! o)))
      | None => 0
      end
  end.

(** ** Histories *)
(** What genesis creates: what its outputs hold, and the pledges of its pools. *)
Definition pledged (o : tx_output) : list portion := match o with OCreateStakePool _ x => [Portion Coin 0 (sp_pledge x)] | _ => [] end.
Definition created_at_genesis (g : genesis) (c : currency) : N :=
  sum_over (fun o => value (of_currency c) (kept o) + value (of_currency c) (pledged o)) (g_outputs g).
(** The subsidies of a chain of blocks, as the consensus rules of their heights set them. *)
Definition subsidies (cc : chain_config) (bs : list block) : N := sum_over (fun b => ru_subsidy (cc_rules cc (b_height b))) bs.
(** The coins delegated, over all the transactions of a chain *)
Definition delegated (o : tx_output) : N := match o with ODelegateStaking a _ => a | _ => 0 end.
Definition delegations (bs : list block) : N :=
  sum_over (fun b => sum_over (fun tx => sum_over delegated (tx_outputs tx)) (b_txs b)) bs.

(** All the transactions of a chain *)
Definition txs_of (bs : list block) : list transaction := concat (map b_txs bs).
(** Ids are hashes of what they name. What is assumed of them is that a new block does not collide with anything: if it or
    one of its transactions has the id of something on the chain, it is the same thing. *)
Definition no_collision (g : genesis) (bs : list block) (b : block) : Prop :=
  b_id b <> g_id g /\ (forall b', b' ∈ bs -> b_id b' = b_id b -> b' = b) /\
  forall tx tx', tx ∈ b_txs b -> tx' ∈ txs_of bs ++ b_txs b -> tx_id tx = tx_id tx' -> tx = tx'.
(** Different outputs make different pool ids and order ids, and none of the former is that of a pool of genesis. *)
Definition ids_distinct (cc : chain_config) (g : genesis) : Prop :=
  (forall k k', cc_pool_id cc k = cc_pool_id cc k' -> k = k') /\ (forall k k', cc_order_id cc k = cc_order_id cc k' -> k = k') /\
  forall k p x, OCreateStakePool p x ∈ g_outputs g -> cc_pool_id cc k <> p.
(** The coins that can exist, and those that were ever delegated, can be written as signed amounts. *)
Definition in_range (cc : chain_config) (g : genesis) (bs : list block) : Prop :=
  (Z.of_N (created_at_genesis g Coin + subsidies cc bs) <= I128_MAX)%Z /\ (Z.of_N (delegations bs) <= I128_MAX)%Z.

(** A database that has had blocks connected to it and disconnected from it since genesis, in any order; [bs]: the blocks
    that are connected now. *)
Inductive reached (cc : chain_config) (g : genesis) : list block -> chain_db -> Prop :=
| at_genesis db : in_range cc g [] -> genesis_db g = Ok db -> reached cc g [] db
| by_connecting bs db b db' : reached cc g bs db -> no_collision g bs b -> in_range cc g (bs ++ [b]) -> connect_block cc db b = Ok db' ->
    reached cc g (bs ++ [b]) db'
| by_disconnecting bs db b db' : reached cc g (bs ++ [b]) db -> disconnect_block db b = Ok db' -> reached cc g bs db'.

(** The blocks connected one after the other, starting from genesis *)
Definition replay (cc : chain_config) (g : genesis) (bs : list block) : res verr chain_db :=
  let? db := genesis_db g in rfold (connect_block cc) bs db.

(** The pool an unspent output stands for: whoever may spend it can make blocks for the pool or close it. *)
Definition controls (o : tx_output) : option N :=
  match o with OCreateStakePool p _ | OProduceBlockFromStake _ p => Some p | _ => None end.

(** The token ids a transaction in a block at height [h] issues: of fungible tokens, and of NFTs. *)
Definition fungibles_by (cc : chain_config) (h : N) (tx : transaction) : list N :=
  concat (map (fun o => match o, make_token_id cc h (tx_inputs tx) with OIssueFungibleToken _, Ok id => [id] | _, _ => [] end) (tx_outputs tx)).
Definition nfts_by (tx : transaction) : list N :=
  concat (map (fun o => match o with OIssueNft id _ _ => [id] | _ => [] end) (tx_outputs tx)).
(** The same over a chain of blocks *)
Definition fungibles_of (cc : chain_config) (bs : list block) : list N := concat (map (fun b => concat (map (fungibles_by cc (b_height b)) (b_txs b))) bs).
Definition nfts_of (bs : list block) : list N := concat (map (fun b => concat (map nfts_by (b_txs b))) bs).
(** Different inputs make different token ids; while a token's id comes from any first input, orders are still filled and
    concluded with numbered commands, so that no two transactions can have the same first input. *)
Definition token_ids_distinct (cc : chain_config) : Prop :=
  (forall i j, cc_token_id cc i = cc_token_id cc j -> i = j) /\
  (forall h, ru_token_id_any_input (cc_rules cc h) = true -> cf_orders (ru_values (cc_rules cc h)) = OrdersV0).
(** No transaction of the block unfreezes the token. *)
Definition never_unfreezes (b : block) (id : N) : Prop := forall tx n, tx ∈ b_txs b -> InCommand n (CmdUnfreeze id) ∉ tx_inputs tx.
