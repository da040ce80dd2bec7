(** [connect_transaction] with the state it leaves behind when it refuses a transaction.
    chainstate/tx-verifier/src/transaction_verifier/mod.rs 953-1018. VerifierModel.v gives the same steps without that state.
    Simplification: entries that a failing step only reads into the caches of nonces and of token issuances are not kept. *)
From Verif Require Import Base AmountModel LayeredModel TokensModel OrdersModel PosModel PrimModel ChainModel
  UtxoModel ConstraintsModel RewardModel UndoCacheModel NonceModel VerifierModel.
Local Open Scope N_scope.

(** [operations(tx_source).<op>(..).map_err(PoSAccountingError)] and the like *)
Definition pos_step (S : store) (src : tx_source) (v : verifier) (o : pos_op) : verifier * res verr (list pos_undo) :=
  let (A, r) := adapter_op (st_pos S) (v_pos v) src o in (set_pos v A, rmap (fun u => [u]) (rmap_err VPos r)).
Definition tok_step (S : store) (v : verifier) (o : tok_op) : verifier * res verr (list tok_undo) :=
  let (d, r) := tok_run (st_tok S) (v_tok v) o in (set_tok v d, rmap (fun u => [u]) (rmap_err VTok r)).
Definition ord_step (S : store) (v : verifier) (o : ord_op) : verifier * res verr (list ord_undo) :=
  let (d, r) := ord_run (st_ord S) (v_ord v) o in (set_ord v d, rmap (fun u => [u]) (rmap_err VOrd r)).
(** a step that changes nothing if it fails *)
Definition clean (v : verifier) (m : res verr verifier) : verifier * res verr unit :=
  match m with Ok v' => (v', Ok tt) | Err e => (v, Err e) | Panic => (v, Panic) end.
(** [iter().filter_map(..).collect::<Result<Vec<_>, _>>()] *)
Fixpoint steps {X U} (f : verifier -> X -> verifier * res verr (list U)) (l : list X) (v : verifier) : verifier * res verr (list U) :=
  match l with
  | [] => (v, Ok [])
  | x :: l' => sbind (f v x) (fun v1 us => sbind (steps f l' v1) (fun v2 us' => (v2, Ok (us ++ us'))))
  end.

(** mod.rs 310-479 *)
Definition pos_input_step (S : store) (src : tx_source) (v : verifier) (i : tx_input) : verifier * res verr (list pos_undo) :=
  match i with
  | InUtxo k =>
      match vw_utxo (utxos_now S v) k with
      | None => (v, Err VMissingOutput)
      | Some u => match u_output u with
                  | OCreateStakePool p _ | OProduceBlockFromStake _ p => pos_step S src v (DecommissionPool p)
                  | _ => (v, Ok [])
                  end
      end
  | InAccount nonce del a => sbind (clean v (do_spend S v nonce (AccDelegation del))) (fun v1 _ => pos_step S src v1 (SpendShare del a))
  | InCommand _ _ | InOrder _ => (v, Ok [])
  end.
Definition pos_output_step (cc : chain_config) (h : N) (S : store) (src : tx_source) (ins : list tx_input) (v : verifier) (o : tx_output)
  : verifier * res verr (list pos_undo) :=
  match o with
  | OCreateStakePool p x =>
      on_ok v (make_pool_id cc ins) (fun expected =>
      on_ok v (ensure (expected =? p) VUnexpectedId) (fun _ =>
      on_ok v (ensure (ru_min_pledge (cc_rules cc h) <=? sp_pledge x) VNotEnoughPledge) (fun _ =>
      pos_step S src v (CreatePool p (pool_of x)))))
  | OCreateDelegationId d p => on_ok v (make_delegation_id cc ins) (fun id => pos_step S src v (CreateDelegation p id d))
  | ODelegateStaking a del => pos_step S src v (Delegate del a)
  | _ => (v, Ok [])
  end.
Definition connect_pos_step (cc : chain_config) (h : N) (S : store) (src : tx_source) (v : verifier) (tx : transaction) : verifier * res verr unit :=
  sbind (steps (pos_input_step S src) (tx_inputs tx) v) (fun v1 us1 =>
  sbind (steps (pos_output_step cc h S src (tx_inputs tx)) (tx_outputs tx) v1) (fun v2 us2 =>
  on_ok v2 (check_balances S v2 (tx_inputs tx)) (fun _ =>
  clean v2 (add_pundo v2 src (tx_id tx) (us1 ++ us2))))).

(** mod.rs 533-678 *)
Definition tok_input_step (S : store) (outs : list tx_output) (v : verifier) (i : tx_input) : verifier * res verr (list tok_undo) :=
  let spend nonce id k := sbind (clean v (do_spend S v nonce (AccToken id))) (fun v1 _ => k v1) in
  match i with
  | InCommand nonce c =>
      match c with
      | CmdMint id a => spend nonce id (fun v1 => tok_step S v1 (MintTokens id a))
      | CmdUnmint id => spend nonce id (fun v1 =>
          on_ok v1 (tokens_burned id outs) (fun burned => if 0 <? burned then tok_step S v1 (UnmintTokens id burned) else (v1, Ok [])))
      | CmdLockSupply id => spend nonce id (fun v1 => tok_step S v1 (LockSupply id))
      | CmdFreeze id u => spend nonce id (fun v1 => tok_step S v1 (FreezeToken id u))
      | CmdUnfreeze id => spend nonce id (fun v1 => tok_step S v1 (UnfreezeToken id))
      | CmdChangeAuthority id d => spend nonce id (fun v1 => tok_step S v1 (ChangeAuthority id d))
      | CmdChangeUri id uri => spend nonce id (fun v1 => tok_step S v1 (ChangeMetadataUri id uri))
      | CmdConcludeOrder _ | CmdFillOrder _ _ _ => (v, Ok [])
      end
  | InUtxo _ | InAccount _ _ _ | InOrder _ => (v, Ok [])
  end.
Definition tok_output_step (cc : chain_config) (h : N) (S : store) (ins : list tx_input) (v : verifier) (o : tx_output)
  : verifier * res verr (list tok_undo) :=
  match o with
  | OIssueFungibleToken x => on_ok v (make_token_id cc h ins) (fun id => tok_step S v (IssueToken id (token_of x)))
  | _ => (v, Ok [])
  end.
Definition connect_tok_step (cc : chain_config) (h : N) (S : store) (src : tx_source) (v : verifier) (tx : transaction) : verifier * res verr unit :=
  on_ok v (check_frozen cc h S v tx) (fun _ =>
  sbind (steps (tok_input_step S (tx_outputs tx)) (tx_inputs tx) v) (fun v1 us1 =>
  sbind (steps (tok_output_step cc h S (tx_inputs tx)) (tx_outputs tx) v1) (fun v2 us2 =>
  clean v2 (add_tundo v2 src (tx_id tx) (us1 ++ us2))))).

(** mod.rs 820-924 *)
Definition ord_input_step (S : store) (v : verifier) (i : tx_input) : verifier * res verr (list ord_undo) :=
  match i with
  | InCommand nonce c =>
      match c with
      | CmdConcludeOrder id => sbind (clean v (do_spend S v nonce (AccOrder id))) (fun v1 _ => ord_step S v1 (ConcludeOrder id))
      | CmdFillOrder id a _ => sbind (clean v (do_spend S v nonce (AccOrder id))) (fun v1 _ => ord_step S v1 (FillOrder id a OrdersV0))
      | _ => (v, Ok [])
      end
  | InOrder c =>
      match c with
      | OcFill id a => ord_step S v (FillOrder id a OrdersV1)
      | OcFreeze id => ord_step S v (FreezeOrder id)
      | OcConclude id => ord_step S v (ConcludeOrder id)
      end
  | InUtxo _ | InAccount _ _ _ => (v, Ok [])
  end.
Definition ord_output_step (cc : chain_config) (S : store) (ins : list tx_input) (v : verifier) (o : tx_output) : verifier * res verr (list ord_undo) :=
  match o with
  | OCreateOrder d => on_ok v (make_order_id cc ins) (fun id => ord_step S v (CreateOrder id (new_order d)))
  | _ => (v, Ok [])
  end.
Definition connect_ord_step (cc : chain_config) (S : store) (src : tx_source) (v : verifier) (tx : transaction) : verifier * res verr unit :=
  sbind (steps (ord_input_step S) (tx_inputs tx) v) (fun v1 us1 =>
  sbind (steps (ord_output_step cc S (tx_inputs tx)) (tx_outputs tx) v1) (fun v2 us2 =>
  clean v2 (add_oundo v2 src (tx_id tx) (us1 ++ us2)))).

(** mod.rs 1004-1015 *)
Definition connect_utxo_step (h : N) (S : store) (src : tx_source) (v : verifier) (tx : transaction) : verifier * res verr unit :=
  match UtxoModel.connect_transaction (st_utxo S) (v_utxo v) tx (place src h) with
  | (c, Ok u) => clean (set_utxo v c) (add_uundo (set_utxo v c) src (tx_id tx) u)
  | (c, Err e) => (set_utxo v c, Err (VUtxo e))
  | (c, Panic) => (set_utxo v c, Panic)
  end.
(** mod.rs 953-1018 *)
Definition connect_tx_step (cc : chain_config) (h mtp : N) (S : store) (src : tx_source) (v : verifier) (tx : transaction)
  : verifier * res verr accumulator :=
  on_ok v (check_transaction cc h tx) (fun _ =>
  sbind (clean v (register_issuance cc h S src v tx)) (fun v1 _ =>
  on_ok v1 (check_tx_policy cc h (utxos_now S v1) (views_now S v1) tx) (fun fee =>
  on_ok v1 (ensure (cc_tx_scripts cc h mtp (utxos_now S v1) (views_now S v1) tx) VScripts) (fun _ =>
  sbind (connect_pos_step cc h S src v1 tx) (fun v2 _ =>
  sbind (connect_tok_step cc h S src v2 tx) (fun v3 _ =>
  sbind (connect_ord_step cc S src v3 tx) (fun v4 _ =>
  sbind (connect_utxo_step h S src v4 tx) (fun v5 _ =>
  (v5, Ok fee))))))))).

(** ** It is the model of VerifierModel.v *)
Definition forget {A} (m : verifier * res verr A) : res verr (verifier * A) := let (v, r) := m in rmap (fun a => (v, a)) r.
Lemma forget_sbind {A B} (m : verifier * res verr A) (k : verifier -> A -> verifier * res verr B) :
  forget (sbind m k) = rbind (forget m) (fun p => forget (k (fst p) (snd p))).
Proof. by destruct m as [v [a|e|]]. Qed.
Lemma forget_on_ok {A B} v (m : res verr A) (k : A -> verifier * res verr B) : forget (on_ok v m k) = rbind m (fun a => forget (k a)).
Proof. by destruct m. Qed.
Lemma forget_clean v m : forget (clean v m) = rmap (fun v' => (v', tt)) m.
Proof. by destruct m. Qed.
Lemma rbind_ext {E A B} (m : res E A) (f g : A -> res E B) : (forall a, f a = g a) -> rbind m f = rbind m g.
Proof. intros H. destruct m; cbn; auto. Qed.
Lemma rbind_rmap {E A B C} (m : res E A) (f : A -> B) (k : B -> res E C) : rbind (rmap f m) k = rbind m (fun a => k (f a)).
Proof. by destruct m. Qed.
Lemma rmap_rbind {E A B C} (m : res E A) (k : A -> res E B) (f : B -> C) : rmap f (rbind m k) = rbind m (fun a => rmap f (k a)).
Proof. by destruct m. Qed.
Lemma pos_step_agrees S src v o : forget (pos_step S src v o) = do_pos S src v o.
Proof. unfold pos_step, do_pos. by destruct (adapter_op _ _ _ _) as [A [u|e|]]. Qed.
Lemma tok_step_agrees S v o : forget (tok_step S v o) = do_tok S v o.
Proof. unfold tok_step, do_tok. by destruct (tok_run _ _ _) as [A [u|e|]]. Qed.
Lemma ord_step_agrees S v o : forget (ord_step S v o) = do_ord S v o.
Proof. unfold ord_step, do_ord. by destruct (ord_run _ _ _) as [A [u|e|]]. Qed.
Lemma steps_agree {X U} (f : verifier -> X -> verifier * res verr (list U)) g (l : list X) : (forall v x, forget (f v x) = g v x) ->
  forall v, forget (steps f l v) = collect g l v.
Proof.
  intros H. induction l as [|x l IH]; intros v; cbn; [reflexivity|]. rewrite forget_sbind, H. apply rbind_ext. intros [v1 us]. cbn [fst snd].
  rewrite forget_sbind, IH. by apply rbind_ext; intros [].
Qed.
Lemma pos_input_agrees S src v i : forget (pos_input_step S src v i) = pos_input S src v i.
Proof.
  destruct i as [k|n d a|n c|c]; cbn [pos_input_step pos_input]; try reflexivity.
  - destruct (vw_utxo _ _) as [u|]; [|reflexivity]. destruct (u_output u); try reflexivity; apply pos_step_agrees.
  - rewrite forget_sbind, forget_clean, rbind_rmap. apply rbind_ext. intros v1. apply pos_step_agrees.
Qed.
Lemma pos_output_agrees cc h S src ins v o : forget (pos_output_step cc h S src ins v o) = pos_output cc h S src ins v o.
Proof.
  destruct o; cbn [pos_output_step pos_output]; try reflexivity.
  - rewrite forget_on_ok. apply rbind_ext. intros e. rewrite forget_on_ok. apply rbind_ext. intros []. rewrite forget_on_ok. apply rbind_ext. intros []. apply pos_step_agrees.
  - rewrite forget_on_ok. apply rbind_ext. intros e. apply pos_step_agrees.
  - apply pos_step_agrees.
Qed.
Lemma connect_pos_agrees cc h S src v tx : forget (connect_pos_step cc h S src v tx) = rmap (fun v' => (v', tt)) (connect_pos cc h S src v tx).
Proof.
  unfold connect_pos_step, connect_pos. rewrite forget_sbind, (steps_agree _ (pos_input S src)) by apply pos_input_agrees. rewrite rmap_rbind. apply rbind_ext. intros [v1 us1].
  cbn [fst snd]. rewrite forget_sbind, (steps_agree _ (pos_output cc h S src (tx_inputs tx))) by (intros; apply pos_output_agrees). rewrite rmap_rbind. apply rbind_ext. intros [v2 us2].
  cbn [fst snd]. rewrite forget_on_ok, rmap_rbind. apply rbind_ext. intros _. apply forget_clean.
Qed.
Lemma tok_input_agrees S outs v i : forget (tok_input_step S outs v i) = tok_input S outs v i.
Proof.
  destruct i as [k|n d a|n c|c]; cbn [tok_input_step tok_input]; try reflexivity. destruct c; try reflexivity.
  all: rewrite forget_sbind, forget_clean, rbind_rmap; apply rbind_ext; intros v1; try apply tok_step_agrees.
  rewrite forget_on_ok. apply rbind_ext. intros b. destruct (0 <? b); [apply tok_step_agrees|reflexivity].
Qed.
Lemma tok_output_agrees cc h S ins v o : forget (tok_output_step cc h S ins v o) = tok_output cc h S ins v o.
Proof. destruct o; cbn [tok_output_step tok_output]; try reflexivity. rewrite forget_on_ok. apply rbind_ext. intros e. apply tok_step_agrees. Qed.
Lemma connect_tok_agrees cc h S src v tx : forget (connect_tok_step cc h S src v tx) = rmap (fun v' => (v', tt)) (connect_tok cc h S src v tx).
Proof.
  unfold connect_tok_step, connect_tok. rewrite forget_on_ok, rmap_rbind. apply rbind_ext. intros _.
  rewrite forget_sbind, (steps_agree _ (tok_input S (tx_outputs tx))) by apply tok_input_agrees. rewrite rmap_rbind. apply rbind_ext. intros [v1 us1].
  cbn [fst snd]. rewrite forget_sbind, (steps_agree _ (tok_output cc h S (tx_inputs tx))) by (intros; apply tok_output_agrees). rewrite rmap_rbind. apply rbind_ext. intros [v2 us2].
  cbn [fst snd]. apply forget_clean.
Qed.
Lemma ord_input_agrees S v i : forget (ord_input_step S v i) = ord_input S v i.
Proof.
  destruct i as [k|n d a|n c|c]; cbn [ord_input_step ord_input]; try reflexivity.
  - destruct c; try reflexivity. all: rewrite forget_sbind, forget_clean, rbind_rmap; apply rbind_ext; intros v1; apply ord_step_agrees.
  - destruct c; apply ord_step_agrees.
Qed.
Lemma ord_output_agrees cc S ins v o : forget (ord_output_step cc S ins v o) = ord_output cc S ins v o.
Proof. destruct o; cbn [ord_output_step ord_output]; try reflexivity. rewrite forget_on_ok. apply rbind_ext. intros e. apply ord_step_agrees. Qed.
Lemma connect_ord_agrees cc S src v tx : forget (connect_ord_step cc S src v tx) = rmap (fun v' => (v', tt)) (connect_ord cc S src v tx).
Proof.
  unfold connect_ord_step, connect_ord. rewrite forget_sbind, (steps_agree _ (ord_input S)) by apply ord_input_agrees. rewrite rmap_rbind. apply rbind_ext. intros [v1 us1].
  cbn [fst snd]. rewrite forget_sbind, (steps_agree _ (ord_output cc S (tx_inputs tx))) by (intros; apply ord_output_agrees). rewrite rmap_rbind. apply rbind_ext. intros [v2 us2].
  cbn [fst snd]. apply forget_clean.
Qed.
Lemma connect_utxo_agrees h S src v tx : forget (connect_utxo_step h S src v tx) = rmap (fun v' => (v', tt)) (connect_utxo h S src v tx).
Proof. unfold connect_utxo_step, connect_utxo. destruct (UtxoModel.connect_transaction _ _ _ _) as [c [u|e|]]; [apply forget_clean|reflexivity..]. Qed.
Theorem connect_tx_step_agrees cc h mtp S src v tx : forget (connect_tx_step cc h mtp S src v tx) = connect_tx cc h mtp S src v tx.
Proof.
  unfold connect_tx_step, connect_tx. rewrite forget_on_ok. apply rbind_ext. intros _. rewrite forget_sbind, forget_clean, rbind_rmap. apply rbind_ext. intros v1. cbn [fst snd].
  rewrite forget_on_ok. apply rbind_ext. intros fee. rewrite forget_on_ok. apply rbind_ext. intros _.
  rewrite forget_sbind, connect_pos_agrees, rbind_rmap. apply rbind_ext. intros v2. cbn [fst snd].
  rewrite forget_sbind, connect_tok_agrees, rbind_rmap. apply rbind_ext. intros v3. cbn [fst snd].
  rewrite forget_sbind, connect_ord_agrees, rbind_rmap. apply rbind_ext. intros v4. cbn [fst snd].
  rewrite forget_sbind, connect_utxo_agrees, rbind_rmap. apply rbind_ext. intros v5. reflexivity.
Qed.
