(** C66 with the verifier: blocks made from a pool of valid transactions need not be valid. *)
From Verif Require Import Base AmountModel LayeredModel TokensModel OrdersModel PosModel PrimModel ChainModel
  UtxoModel ConstraintsModel RewardModel UndoCacheModel NonceModel VerifierModel VerifierKeep.
From Verif Require Import SupplySpec SupplyProofs VerifierPools VerifierTokens VerifierProperties.
From Verif Require Import MempoolModel MempoolSpec MempoolHistory MempoolProperties TemplateModel TemplateSpec.
Local Open Scope N_scope.

(** The verifier as it is used for picking: collect_txs.rs 85-100, 197-198. The pool's best block is at height [h - 1]. *)
Definition picking_verifier (cc : chain_config) (h mtp : N) (db : chain_db) (v : verifier) (tx : transaction) : verifier * bool :=
  let (v', r) := connect_tx_step cc h mtp (store_of db) SrcMempool v tx in (v', match r with Ok _ => true | _ => false end).

(** On the sample chain the delegation holds 219 coins. Four transactions come to the pool in this order, each valid after the ones
    before: [splitting] splits an output, [deposit] moves tokens and delegates 20 more coins, [withdrawal] withdraws 230, which are
    only there because of the deposit, and [freezing] freezes the token. The freezing pays better than the deposit. *)
Definition splitting : tx_entry :=
  TxEntry (Transaction 301 [InUtxo (FromTx 202, 1)] [OTransfer (OvCoin 40) 7; OTransfer (OvCoin 90) 7]) 1 100 20.
Definition deposit : tx_entry :=
  TxEntry (Transaction 302 [InUtxo (FromTx 301, 1); InUtxo (FromTx 201, 2)]
             [OTransfer (OvToken sample_token 10) 7; ODelegateStaking 20 sample_delegation; OTransfer (OvCoin 60) 7]) 2 100 10.
Definition withdrawal : tx_entry :=
  TxEntry (Transaction 303 [InAccount 0 sample_delegation 230] [OLockThenTransfer (OvCoin 225) 7 (ForBlockCount 10)]) 3 100 5.
Definition freezing : tx_entry :=
  TxEntry (Transaction 304 [InUtxo (FromTx 301, 0); InCommand 1 (CmdFreeze sample_token true)] []) 4 100 20.
Definition sample_makers : id_makers := IdMakers (sample_id 2) (fun k => sample_token_id (InUtxo k)) (sample_id 3).
Definition sample_pool_cfg : pool_cfg := PoolCfg 10 10000 100.
Definition sample_ops : list pool_op := [OpAdd splitting; OpAdd deposit; OpAdd withdrawal; OpAdd freezing].
Definition sample_new_block (txs : list transaction) : block :=
  Block 13 12 3 300 txs [OProduceBlockFromStake 7 0] (Some ([InUtxo (FromReward 12, 0)], 0)).
Definition sample_arrivals : list tx_entry := [splitting; deposit; withdrawal; freezing].
Definition sample_start : accum := accum_new 100000 12.

Definition succeeds {E A} (r : res E A) : bool := match r with Ok _ => true | _ => false end.
Fixpoint all_acceptedb {V} (connect : V -> transaction -> V * bool) (v : V) (txs : list transaction) : bool :=
  match txs with [] => true | tx :: txs' => let (v', r) := connect v tx in r && all_acceptedb connect v' txs' end.
Lemma all_acceptedb_spec {V} (connect : V -> transaction -> V * bool) txs v : all_acceptedb connect v txs = true <-> all_accepted connect v txs.
Proof.
  revert v. induction txs as [|tx txs IH]; intros v; cbn; [tauto|]. unfold accepts. destruct (connect v tx) as [v' r]. cbn. rewrite andb_true_iff, IH. tauto.
Qed.
Lemma sample_pool_history : history sample_makers sample_pool_cfg sample_ops sample_arrivals.
Proof.
  assert (Hc : 1 <= pc_max_count sample_pool_cfg) by (vm_compute; discriminate).
  assert (H1 : history sample_makers sample_pool_cfg [OpAdd splitting] [splitting]).
  { apply (history_add_ok _ _ [] [] _ Hc); [constructor|concrete_admissible|vm_compute; reflexivity]. }
  assert (H2 : history sample_makers sample_pool_cfg [OpAdd splitting; OpAdd deposit] [splitting; deposit]).
  { apply (history_add_ok _ _ [OpAdd splitting] [splitting] _ Hc); [exact H1|concrete_admissible|vm_compute; reflexivity]. }
  assert (H3 : history sample_makers sample_pool_cfg [OpAdd splitting; OpAdd deposit; OpAdd withdrawal] [splitting; deposit; withdrawal]).
  { apply (history_add_ok _ _ [OpAdd splitting; OpAdd deposit] [splitting; deposit] _ Hc); [exact H2|concrete_admissible|vm_compute; reflexivity]. }
  apply (history_add_ok _ _ [OpAdd splitting; OpAdd deposit; OpAdd withdrawal] [splitting; deposit; withdrawal] _ Hc); [exact H3|concrete_admissible|vm_compute; reflexivity].
Qed.
Definition sample_template (db : chain_db) : res template_err (option accum) :=
  match do_ops elements sample_makers sample_pool_cfg empty_store sample_ops with
  | Some s => collect_txs elements (picking_verifier sample_cc 3 200 db) (fun _ => true) s 12 12 (verifier_on db) sample_start [] FillSpace
  | None => Panic
  end.
(** the transactions of the block that is made *)
Definition sample_picked : list tx_entry := [splitting; freezing; withdrawal].
Lemma sample_run :
  match replay sample_cc sample_genesis [sample_block1; sample_block2] with
  | Ok db =>
      sample_template db = Ok (Some (with_picks sample_start sample_picked false)) /\
      all_acceptedb (picking_verifier sample_cc 3 200 db) (verifier_on db) (map te_tx sample_arrivals) = true /\
      succeeds (connect_block sample_cc db (sample_new_block (map te_tx sample_arrivals))) = true /\
      all_acceptedb (picking_verifier sample_cc 3 200 db) (verifier_on db) (map te_tx sample_picked) = false /\
      succeeds (connect_block sample_cc db (sample_new_block (map te_tx sample_picked))) = false
  | _ => False
  end.
Proof. vm_compute. repeat split. Qed.

(** C66: picking goes on with a verifier that refused a transaction although its delegation has been counted by then, so on a database
    reached by valid blocks and with a pool of transactions that are valid in their order of arrival, it makes a block that is not. *)
Theorem C66_block_from_valid_pool_is_valid_refuted :
  exists cc g bs db cfg mk ops l s b,
    reached cc g bs db /\ history mk cfg ops l /\ do_ops elements mk cfg empty_store ops = Some s /\
    all_accepted (picking_verifier cc 3 200 db) (verifier_on db) (map te_tx l) /\
    (exists db', connect_block cc db (sample_new_block (map te_tx l)) = Ok db') /\
    collect_txs elements (picking_verifier cc 3 200 db) (fun _ => true) s 12 12 (verifier_on db) (accum_new 100000 12) [] FillSpace = Ok (Some b) /\
    ~ all_accepted (picking_verifier cc 3 200 db) (verifier_on db) (TemplateSpec.txs_of b) /\
    (forall db', connect_block cc db (sample_new_block (TemplateSpec.txs_of b)) <> Ok db').
Proof.
  pose proof sample_run as H. destruct (replay sample_cc sample_genesis [sample_block1; sample_block2]) as [db| |] eqn:E; [|destruct H..].
  destruct H as (H1 & H2 & H3 & H4 & H5). unfold sample_template in H1.
  destruct (do_ops elements sample_makers sample_pool_cfg empty_store sample_ops) as [s|] eqn:Es; [|discriminate].
  exists sample_cc, sample_genesis, [sample_block1; sample_block2], db, sample_pool_cfg, sample_makers, sample_ops, sample_arrivals, s, (with_picks sample_start sample_picked false).
  split; [by apply sample_reached|]. split; [exact sample_pool_history|]. split; [exact Es|]. split; [by apply all_acceptedb_spec|].
  split; [destruct (connect_block _ _ _) as [db'| |]; [by exists db'|discriminate..]|]. split; [exact H1|].
  change (TemplateSpec.txs_of (with_picks sample_start sample_picked false)) with (map te_tx sample_picked).
  split; [intros H; apply all_acceptedb_spec in H; congruence|]. intros db' Hc. rewrite Hc in H5. discriminate.
Qed.
Print Assumptions C66_block_from_valid_pool_is_valid_refuted.

(** The verifier used for picking takes and refuses the same transactions as the one that connects blocks, with the same fee
    and the same state after those it takes *)
Theorem C66_picking_follows_the_block_rules cc h mtp S src v tx v' fee :
  connect_tx_step cc h mtp S src v tx = (v', Ok fee) <-> connect_tx cc h mtp S src v tx = Ok (v', fee).
Proof.
  rewrite <- connect_tx_step_agrees. unfold forget. destruct (connect_tx_step cc h mtp S src v tx) as [w [f|e|]]; cbn; split; intros H;
    by simplify_eq.
Qed.
Print Assumptions C66_picking_follows_the_block_rules.
