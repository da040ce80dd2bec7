(** Connecting and disconnecting a whole block, and the database around it. *)
From Verif Require Import Base BaseProofs AmountModel DeltaModel DeltaProofs LayeredModel TokensModel OrdersModel PosModel PrimModel ChainModel
  UtxoModel ConstraintsModel RewardModel UndoCacheModel NonceModel VerifierModel.
From Verif Require Import TokensSpec TokensProofs OrdersSpec OrdersProofs PosSpec PosProofs UtxoSpec UtxoProofs ConstraintsSpec
  ConstraintsProofs RewardSpec RewardProofs UndoCacheSpec UndoCacheProofs NonceProofs VerifierRecords VerifierSteps VerifierParts VerifierTx.
Local Open Scope N_scope.

(** ** The reward *)
Record reward_undo := RewardUndo { y_u : option (list utxo); y_p : option (list pos_undo) }.
Definition rew_add {I R} (T : undo_table I R) (s : tx_source) (r : option R) : undo_table I R :=
  match r with Some r => ut_addr T s r | None => T end.
Record reward_done (b : block) (total : N) (s : books) (y : reward_undo) (s' : books) : Prop := {
  rd_ustep : utxo_step (k_utxo s) (OpConnectReward (reward_of b) (b_id b) (b_height b)) = Ok (k_utxo s');
  rd_uundo : undoes (UnReward (reward_of b) (b_id b) (y_u y)) (k_utxo s') (k_utxo s);
  rd_pos : match b_pos b with
           | None => y_p y = None /\ k_pos s' = k_pos s
           | Some (_, pool) => exists x l R,
               ps_pool (k_pos s) pool = Some x /\ members (k_pos s) pool l /\ NoDup l.*1 /\ tot l + R = total /\ paid (k_pos s) pool x l R (k_pos s') /\
               (Z.of_N (ps_pool_balance (k_pos s) pool + total) <= I128_MAX)%Z /\ pos_good (k_pos s) /\
               y_p y = Some (map (fun da => PUndoDelegate da.1 da.2) l ++
                             [PUndoRewards pool R (DataDelta (Some (with_rewards x (pd_rewards x + R))) (Some x))])
           end;
  rd_tok : k_tok s' = k_tok s; rd_ord : k_ord s' = k_ord s; rd_uses : k_uses s' = k_uses s; rd_aux : k_aux s' = k_aux s;
  rd_index : k_index s' = k_index s; rd_t : k_t s' = k_t s; rd_o : k_o s' = k_o s;
  rd_u : k_u s' = rew_add (k_u s) (SrcChain (b_id b)) (y_u y); rd_p : k_p s' = rew_add (k_p s) (SrcChain (b_id b)) (y_p y);
  rd_new_u : ut_reward (k_u s) !! SrcChain (b_id b) = None; rd_new_p : ut_reward (k_p s) !! SrcChain (b_id b) = None }.

Lemma rew_delr {I R} (T : undo_table I R) s r : ut_reward T !! s = None -> ut_delr (rew_add T s r) s = T.
Proof.
  intros H. destruct r as [r|]; [exact (ut_delr_addr T s r H)|]. cbn. unfold ut_delr. rewrite delete_notin by exact H. destruct T; reflexivity.
Qed.
Lemma rew_lookup {I R} (T : undo_table I R) s r : ut_reward T !! s = None -> ut_reward (rew_add T s r) !! s = r.
Proof. intros H. destruct r as [r|]; cbn; [apply lookup_insert|exact H]. Qed.

(** ** The transactions, one after the other; [acc]: the fees so far *)
Inductive txs_done (cc : chain_config) (h b : N) (s : books) : list transaction -> accumulator -> books -> Prop :=
| txs_none : txs_done cc h b s [] acc_new s
| txs_one l acc s1 tx utxos fee acc' x s2 : txs_done cc h b s l acc s1 -> tx_checked cc h s1 tx utxos fee ->
    fee_combine acc fee = Ok acc' -> tx_done cc h b s1 tx x s2 -> txs_done cc h b s (l ++ [tx]) acc' s2.

(** What connecting the next transaction relies on *)
Record tx_room (cc : chain_config) (h b : N) (s : books) (tx : transaction) : Prop := {
  tr_u : ut_tx (k_u s) !! (SrcChain b, tx_id tx) = None; tr_p : ut_tx (k_p s) !! (SrcChain b, tx_id tx) = None;
  tr_t : ut_tx (k_t s) !! (SrcChain b, tx_id tx) = None; tr_o : ut_tx (k_o s) !! (SrcChain b, tx_id tx) = None;
  tr_index : k_index s (tx_id tx) = None; tr_absent : absent (us_map (k_utxo s)) (created (FromTx (tx_id tx)) (tx_outputs tx));
  tr_leaf : forall u, ~ has_child (ut_add (k_u s) (SrcChain b) (tx_id tx) (u, map fst (spent_by (tx_inputs tx)))) (SrcChain b) (tx_id tx);
  tr_pos : fit pos_step pos_fits (k_pos s) (pos_ops cc (us_map (k_utxo s)) tx); tr_tok : fit tok_step tok_fits (k_tok s) (tok_ops cc h tx) }.
Record reward_room (b : block) (total : N) (s : books) : Prop := {
  rr_u : ut_reward (k_u s) !! SrcChain (b_id b) = None; rr_p : ut_reward (k_p s) !! SrcChain (b_id b) = None;
  rr_absent : absent (us_map (k_utxo s)) (created (FromReward (b_id b)) (b_reward b));
  rr_pos : forall ins pool, b_pos b = Some (ins, pool) -> is_Some (ps_pool (k_pos s) pool) -> (Z.of_N (ps_pool_balance (k_pos s) pool + total) <= I128_MAX)%Z }.

(** What has been checked of the reward *)
Definition reward_checked (cc : chain_config) (b : block) (s : books) (fees : N) : Prop :=
  match b_pos b with
  | None => forallb is_lock (b_reward b) = true /\
            exists r, check_reward_values (ru_values (cc_rules cc (b_height b))) fees (ru_subsidy (cc_rules cc (b_height b))) (b_reward b) = Ok r
  | Some (ins, _) => exists k u p d d', ins = [InUtxo k] /\ us_map (k_utxo s) k = Some u /\ pool_output (u_output u) = Some (p, d) /\
                                   b_reward b = [OProduceBlockFromStake d' p]
  end.

Definition with_best (s : books) (b : N) : books :=
  Books (UtxoState (us_map (k_utxo s)) b) (k_pos s) (k_tok s) (k_ord s) (k_uses s) (k_aux s) (k_index s) (k_u s) (k_p s) (k_t s) (k_o s).

(** ** A connected block *)
Inductive block_done (cc : chain_config) (b : block) (s : books) : books -> Prop :=
| BlockDone s1 s2 acc fees y : us_best (k_utxo s) = b_prev b -> txs_done cc (b_height b) (b_id b) s (b_txs b) acc s1 ->
    map_into_block_fees (ru_values (cc_rules cc (b_height b))) acc = Ok fees -> reward_checked cc b s1 fees ->
    reward_done b (ru_subsidy (cc_rules cc (b_height b)) + fees) s1 y s2 -> block_done cc b s (with_best s2 (b_id b)).

Section block.
Context (S : store) (p : books) (HS : store_is S p).

Lemma reward_inputs_fit cc b s fees ins : reward_checked cc b s fees -> rt_inputs (reward_of b) = Some ins ->
  ins <> [] /\ Forall (fun i => exists k, i = InUtxo k) ins.
Proof.
  unfold reward_checked, reward_of. cbn. destruct (b_pos b) as [[ins' pool]|]; [|discriminate]. cbn. intros (k & u & q & d & d' & -> & _) [= <-].
  split; [discriminate|]. repeat constructor. eauto.
Qed.

Lemma check_block_reward_ok cc v b fees s : vnow p (b_id b) v s -> check_block_reward cc (utxos_now S v) b fees = Ok tt ->
  reward_checked cc b s fees.
Proof.
  intros Hn H. unfold check_block_reward in H. apply rbind_ok in H as ([] & H1 & H2). unfold check_reward_purposes, reward_of in H1.
  cbn [rt_inputs rt_outputs] in H1. unfold reward_checked. destruct (b_pos b) as [[ins pool]|]; cbn [option_map fst] in H1.
  - apply rbind_ok in H1 as (ks & Hk & H1). apply rbind_ok in H1 as (us & Hu & H1). apply rmapM_ok in Hk, Hu.
    destruct us as [|u [|u' us]]; [discriminate H1| |discriminate H1].
    inversion Hu as [|k ? ks' us' Hku Hnil Ek Eu]. subst. inversion Hnil. subst.
    inversion Hk as [|i ? ins' ks'' Hi Hnil' Ei Eks]. subst. inversion Hnil'. subst.
    destruct i as [k'|? ? ?|? ?|?]; try discriminate Hi. injection Hi as ->.
    rewrite (now_utxo S p (b_id b) HS v s k Hn) in Hku. destruct (us_map (k_utxo s) k) as [w|] eqn:Ew; [|discriminate Hku]. injection Hku as ->.
    apply rbind_ok in H1 as ([q d] & Hq & H1). apply ok_or_ok in Hq. cbn [ok_or rbind] in H1.
    destruct (b_reward b) as [|o [|o' outs]]; [discriminate H1| |destruct o; discriminate H1].
    destruct o as [| | | |d' q'| | | | | | |]; try discriminate H1. apply rbind_ok in H1 as ([] & Hx & _). apply ensure_ok, N.eqb_eq in Hx as <-.
    exists k, u, q, d, d'. auto.
  - cbn [ok_or rbind] in H1. apply ensure_ok in H1. apply rbind_ok in H2 as (r & Hr & _). apply rmap_err_ok in Hr. eauto.
Qed.

Lemma connect_reward_ok cc v b fees v' s :
  vnow p (b_id b) v s -> vrec p (b_id b) v s -> reward_checked cc b s fees -> reward_room b (ru_subsidy (cc_rules cc (b_height b)) + fees) s ->
  connect_reward cc S v b fees = Ok v' ->
  exists y s', reward_done b (ru_subsidy (cc_rules cc (b_height b)) + fees) s y s' /\ vnow p (b_id b) v' s' /\ vrec p (b_id b) v' s'.
Proof.
  intros Hn Hr Hck [Nu Np Ha Hb] H. unfold connect_reward in H. apply rbind_ok in H as ([] & _ & H).
  pose proof (op_refines _ _ _ _ (OpConnectReward (reward_of b) (b_id b) (b_height b)) (si_utxo _ _ HS) (vn_utxo _ _ _ _ Hn)) as G.
  specialize (G (conj Ha (fun ins E => reward_inputs_fit cc b s fees ins Hck E))). cbn [run_op] in G.
  destruct (connect_block_transactable (st_utxo S) (v_utxo v) (reward_of b) (b_id b) (b_height b)) as [c [ou|e|]] eqn:Ec; [|discriminate H..].
  destruct (utxo_step (k_utxo s) (OpConnectReward (reward_of b) (b_id b) (b_height b))) as [su|e|] eqn:Estep.
  2:{ destruct G as (c' & E & _). cbn in E. discriminate E. }
  2:{ destruct G. }
  destruct G as (c' & u & E & Iu & Uu). cbn in E. injection E as <- <-.
  cbv zeta in H. apply rbind_ok in H as (v2 & Hv2 & H).
  assert (exists st, v2 = set_uundo (set_utxo v c) st /\ ur_rec (b_id b) (k_u p) st (rew_add (k_u s) (SrcChain (b_id b)) ou)) as (st & -> & Ru).
  { destruct ou as [us|].
    - destruct (ur_add_reward _ _ _ _ us (vr_u _ _ _ _ Hr) Nu) as (st & E & R). cbn [v_uundo set_utxo] in Hv2. rewrite E in Hv2.
      cbn [rmap_err rbind] in Hv2. injection Hv2 as <-. eauto.
    - injection Hv2 as <-. exists (v_uundo v). split; [destruct v; reflexivity|exact (vr_u _ _ _ _ Hr)]. }
  destruct (b_pos b) as [[ins pool]|] eqn:Eb.
  - apply rbind_ok in H as (total & Ht & H). apply ok_or_ok in Ht. apply amount_add_some in Ht as [-> _].
    cbn [v_pos set_uundo set_utxo v_pundo] in H.
    revert H Hb. generalize (ru_subsidy (cc_rules cc (b_height b)) + fees). intros total H Hb.
    destruct (distribute_pos_reward (st_pos S) (v_pos v) (SrcChain (b_id b)) pool total (ru_reward (cc_rules cc (b_height b)))) as [A [us|e|]] eqn:Ed;
      [|discriminate H..].
    destruct (distribute_done _ _ _ (si_pos _ _ HS) _ _ _ _ _ _ _ (vn_pos _ _ _ _ Hn) (Hb _ _ eq_refl) Ed) as (x & l & R & sp & Hx & Hm & Hnd & Htot & Hp & IA & ->).
    match type of H with context [UAddReward _ ?u] => set (us := u) in * end.
    destruct (acc_add_reward _ _ _ _ us (vr_p _ _ _ _ Hr) Np) as (st' & E & R'). cbn [v_pundo set_uundo set_utxo] in H. rewrite E in H.
    cbn [rmap_err rbind] in H. injection H as <-.
    exists (RewardUndo ou (Some us)).
    exists (Books su sp (k_tok s) (k_ord s) (k_uses s) (k_aux s) (k_index s) (rew_add (k_u s) (SrcChain (b_id b)) ou)
      (ut_addr (k_p s) (SrcChain (b_id b)) us) (k_t s) (k_o s)).
    split; [|split].
    + constructor; cbn [k_utxo k_pos k_tok k_ord k_uses k_aux k_index k_u k_p k_t k_o y_u y_p]; try assumption; try reflexivity.
      rewrite Eb. exists x, l, R. pose proof (Hb _ _ eq_refl ltac:(eauto)). pose proof (pos_inv_good _ _ _ (proj1 (vn_pos _ _ _ _ Hn))). auto 10.
    + destruct Hn. constructor; assumption.
    + destruct Hr. constructor; assumption.
  - injection H as <-. exists (RewardUndo ou None).
    exists (Books su (k_pos s) (k_tok s) (k_ord s) (k_uses s) (k_aux s) (k_index s) (rew_add (k_u s) (SrcChain (b_id b)) ou) (k_p s) (k_t s) (k_o s)).
    split; [|split].
    + constructor; cbn [k_utxo k_pos k_tok k_ord k_uses k_aux k_index k_u k_p k_t k_o y_u y_p]; try assumption; try reflexivity.
      rewrite Eb. auto.
    + destruct Hn. constructor; assumption.
    + destruct Hr. constructor; assumption.
Qed.

Lemma disconnect_reward_ok v b total y s s' ids :
  vnow p (b_id b) v s' -> vret p (b_id b) ids v s' -> reward_done b total s y s' ->
  exists v', disconnect_reward S v b = Ok v' /\ vnow p (b_id b) v' s /\ vret p (b_id b) ids v' s.
Proof.
  intros Hn Hr D. unfold disconnect_reward.
  destruct (ur_take_reward _ _ _ _ _ (vt_u _ _ _ _ _ Hr)) as (st & E & Ru). rewrite E. cbn [rmap_err rbind].
  rewrite (rd_u _ _ _ _ _ D), rew_lookup by exact (rd_new_u _ _ _ _ _ D). rewrite (rd_u _ _ _ _ _ D), rew_delr in Ru by exact (rd_new_u _ _ _ _ _ D).
  destruct (undo_refines _ _ _ _ _ _ (si_utxo _ _ HS) (vn_utxo _ _ _ _ Hn) (rd_uundo _ _ _ _ _ D)) as (c & E2 & Iu). cbn [run_undo] in E2.
  cbn [v_utxo set_uundo]. destruct (disconnect_block_transactable (st_utxo S) (v_utxo v) (reward_of b) (b_id b) (y_u y)) as [c' [[]|e|]]; [|discriminate E2..].
  cbn in E2. injection E2 as ->. pose proof (rd_pos _ _ _ _ _ D) as Hp. destruct (b_pos b) as [[ins pool]|].
  - destruct Hp as (x & l & R & Hx & Hm & _ & Htot & Hpaid & Hb & Hg & Ey).
    destruct (acc_take_reward _ _ _ _ _ (vt_p _ _ _ _ _ Hr)) as (st' & E3 & Rp). cbn [v_pundo set_utxo set_uundo]. rewrite E3. cbn [rmap_err rbind].
    rewrite (rd_p _ _ _ _ _ D), rew_lookup by exact (rd_new_p _ _ _ _ _ D). rewrite (rd_p _ _ _ _ _ D), rew_delr in Rp by exact (rd_new_p _ _ _ _ _ D).
    rewrite Ey. rewrite <- Htot in Hb.
    destruct (undo_reward_refines _ _ _ (si_pos _ _ HS) (k_pos s) pool x R l Hg Hx Hm Hb (v_pos v) (k_pos s') Hpaid (vn_pos _ _ _ _ Hn)) as (A' & E4 & IA).
    cbn [v_pos set_pundo set_utxo set_uundo]. rewrite E4. eexists. split; [reflexivity|].
      pose proof (rd_tok _ _ _ _ _ D) as T1. pose proof (rd_ord _ _ _ _ _ D) as T2. pose proof (rd_uses _ _ _ _ _ D) as T3.
      pose proof (rd_aux _ _ _ _ _ D) as T4. pose proof (rd_index _ _ _ _ _ D) as T5. pose proof (rd_t _ _ _ _ _ D) as T6. pose proof (rd_o _ _ _ _ _ D) as T7.
      destruct Hn, Hr. rewrite T1, T2, T3, T4, T5, ?T6, ?T7 in *. split; constructor; assumption.
  - destruct Hp as [Hy Hp]. eexists. split; [reflexivity|].
    pose proof (rd_tok _ _ _ _ _ D) as T1. pose proof (rd_ord _ _ _ _ _ D) as T2. pose proof (rd_uses _ _ _ _ _ D) as T3.
    pose proof (rd_aux _ _ _ _ _ D) as T4. pose proof (rd_index _ _ _ _ _ D) as T5. pose proof (rd_t _ _ _ _ _ D) as T6. pose proof (rd_o _ _ _ _ _ D) as T7.
    pose proof (rd_p _ _ _ _ _ D) as T8. rewrite Hy in T8. cbn in T8.
    destruct Hn, Hr. rewrite T1, T2, T3, T4, T5, ?T6, ?T7, ?T8, ?Hp in *. split; constructor; assumption.
Qed.

(** Which block is recorded as the best one plays no part. *)
Lemma undoes_best u s' s x : (match u with UnTx _ _ | UnReward _ _ _ => True | _ => False end) -> undoes u s' s ->
  undoes u (UtxoState (us_map s') x) (UtxoState (us_map s) x).
Proof. destruct u; intros []; cbn; intros (_ & H); (split; [reflexivity|exact H]). Qed.
Lemma tx_done_best cc h b s tx x s' z : tx_done cc h b s tx x s' -> tx_done cc h b (with_best s z) tx x (with_best s' z).
Proof.
  intros D. pose proof (td_ustep _ _ _ _ _ _ _ D) as H1. pose proof (td_uundo _ _ _ _ _ _ _ D) as H2. destruct D. constructor; try assumption.
  - cbn in H1 |- *. destruct (take_all (us_map (k_utxo s)) (spent_by (tx_inputs tx))); [|discriminate]. injection H1 as <-. reflexivity.
  - exact (undoes_best (UnTx tx (x_u x)) _ _ z Logic.I H2).
Qed.
Lemma reward_done_best b total s y s' z : reward_done b total s y s' -> reward_done b total (with_best s z) y (with_best s' z).
Proof.
  intros D. pose proof (rd_ustep _ _ _ _ _ D) as H1. pose proof (rd_uundo _ _ _ _ _ D) as H2. destruct D. constructor; try assumption.
  - cbn in H1 |- *. destruct (take_all (us_map (k_utxo s)) _); [|discriminate]. destruct (forallb spendable (b_reward b)); [|discriminate].
    injection H1 as <-. reflexivity.
  - exact (undoes_best (UnReward (reward_of b) (b_id b) (y_u y)) _ _ z Logic.I H2).
Qed.

Lemma set_best_ok v b s x : vnow p b v s -> vnow p b (set_utxo v (UtxoModel.set_best_block (v_utxo v) x)) (with_best s x).
Proof.
  intros Hn. destruct (op_refines _ _ _ _ (OpSetBest x) (si_utxo _ _ HS) (vn_utxo _ _ _ _ Hn) Logic.I) as (c & u & E & Iu & _). cbn in E. injection E as <- _.
  destruct Hn. constructor; assumption.
Qed.

Lemma connect_txs_ok cc b txs : forall v acc v' acc' l s,
  vnow p (b_id b) v s -> vrec p (b_id b) v s -> txs_done cc (b_height b) (b_id b) p l acc s ->
  (forall l1 tx l2 acc1 s1, l ++ txs = l1 ++ tx :: l2 -> txs_done cc (b_height b) (b_id b) p l1 acc1 s1 ->
     forall utxos fee, tx_checked cc (b_height b) s1 tx utxos fee -> tx_room cc (b_height b) (b_id b) s1 tx) ->
  connect_txs cc S b txs v acc = Ok (v', acc') ->
  exists s', txs_done cc (b_height b) (b_id b) p (l ++ txs) acc' s' /\ vnow p (b_id b) v' s' /\ vrec p (b_id b) v' s'.
Proof.
  induction txs as [|tx txs IH]; intros v acc v' acc' l s Hn Hr Hd Hroom H; cbn [connect_txs] in H.
  - injection H as <- <-. exists s. rewrite app_nil_r. auto.
  - apply rbind_ok in H as ([v1 fee] & H1 & H). apply rbind_ok in H as (acc1 & H2 & H). apply rmap_err_ok in H2.
    destruct (connect_tx_checks S p (b_id b) HS _ _ _ _ _ _ _ _ Hn H1) as [utxos Hck].
    destruct (Hroom l tx txs acc s eq_refl Hd utxos fee Hck) as [R1 R2 R3 R4 R5 R6 R7 R8 R9].
    destruct (connect_tx_ok S p (b_id b) HS _ _ _ _ _ _ _ _ Hn Hr R1 R2 R3 R4 R5 R6 R7 R8 R9 H1) as (x & s1 & D & Hn1 & Hr1).
    destruct (IH v1 acc1 v' acc' (l ++ [tx]) s1 Hn1 Hr1) as (s' & D' & Hn' & Hr').
    + econstructor; eassumption.
    + intros l1 tx1 l2 a1 s2 E. apply Hroom with l2. rewrite <- app_assoc in E. exact E.
    + exact H.
    + exists s'. rewrite <- app_assoc in D'. auto.
Qed.

Lemma verify_block_ok cc v b v' :
  vnow p (b_id b) v p -> vrec p (b_id b) v p -> us_best (k_utxo p) = b_prev b ->
  (forall l1 tx l2 acc1 s1, b_txs b = l1 ++ tx :: l2 -> txs_done cc (b_height b) (b_id b) p l1 acc1 s1 ->
     forall utxos fee, tx_checked cc (b_height b) s1 tx utxos fee -> tx_room cc (b_height b) (b_id b) s1 tx) ->
  (forall acc s1 fees, txs_done cc (b_height b) (b_id b) p (b_txs b) acc s1 -> map_into_block_fees (ru_values (cc_rules cc (b_height b))) acc = Ok fees ->
     reward_checked cc b s1 fees -> reward_room b (ru_subsidy (cc_rules cc (b_height b)) + fees) s1) ->
  verify_block cc S v b = Ok v' ->
  exists s', block_done cc b p s' /\ vnow p (b_id b) v' s' /\ vrec p (b_id b) v' s'.
Proof.
  intros Hn Hr Hbest Hroom Hrr H. unfold verify_block in H. apply rbind_ok in H as ([v1 acc] & H1 & H). apply rbind_ok in H as (fees & Hf & H).
  apply rmap_err_ok in Hf. apply rbind_ok in H as ([] & Hc & H). apply rbind_ok in H as (v2 & H2 & [= <-]).
  destruct (connect_txs_ok cc b (b_txs b) v acc_new v1 acc [] p Hn Hr (txs_none _ _ _ _) Hroom H1) as (s1 & D & Hn1 & Hr1). cbn [app] in D.
  pose proof (check_block_reward_ok cc v1 b fees s1 Hn1 Hc) as Hck.
  destruct (connect_reward_ok cc v1 b fees v2 s1 Hn1 Hr1 Hck (Hrr acc s1 fees D Hf Hck) H2) as (y & s2 & D2 & Hn2 & Hr2).
  exists (with_best s2 (b_id b)). split; [econstructor; eauto|]. split; [exact (set_best_ok v2 (b_id b) s2 (b_id b) Hn2)|].
  destruct Hr2. constructor; assumption.
Qed.

Lemma disconnect_txs_ok cc h b z txs s acc s' : txs_done cc h b s txs acc s' -> NoDup (map tx_id txs) -> forall v,
  vnow p b v (with_best s' z) -> vret p b (map tx_id txs) v (with_best s' z) ->
  exists v', each (disconnect_tx S (SrcChain b)) (rev txs) v = Ok v' /\ vnow p b v' (with_best s z) /\ vret p b [] v' (with_best s z).
Proof.
  induction 1 as [|l acc s1 tx utxos fee acc' x s2 D IH Hck Hf Dt]; intros Hnd v Hn Hr.
  - exists v. cbn. auto.
  - rewrite rev_app_distr. cbn [rev app each]. rewrite map_app in Hnd. cbn [map] in Hnd. apply NoDup_app in Hnd as (N1 & N2 & _).
    assert (tx_id tx ∉ map tx_id l) as Hni. { intros Hx. apply (N2 _ Hx). left. }
    assert (vret p b (tx_id tx :: map tx_id l) v (with_best s2 z)) as Hr'.
    { assert (forall y, y ∈ tx_id tx :: map tx_id l -> y ∈ map tx_id (l ++ [tx])) as Hsub.
      { intros y Hy. rewrite map_app. cbn [map]. clear -Hy. set_solver. }
      clear -Hr Hsub. destruct Hr as [(? & ? & ? & Q1) (? & ? & ? & Q2) (? & ? & ? & Q3) (? & ? & ? & Q4) Q5].
      constructor; [| | | |exact Q5]; eexists _, _; (split; [eassumption|]); intros y Hy; auto. }
    destruct (disconnect_tx_ok S p b HS cc h v tx x _ _ (map tx_id l) Hn Hr' Hni (tx_done_best _ _ _ _ _ _ _ z Dt)) as (v1 & E & Hn1 & Hr1).
    rewrite E. cbn [rbind]. exact (IH N1 v1 Hn1 Hr1).
Qed.

Lemma unverify_block_ok cc v b s s' : NoDup (map tx_id (b_txs b)) -> block_done cc b s s' ->
  vnow p (b_id b) v s' -> vret p (b_id b) (map tx_id (b_txs b)) v s' ->
  exists v', unverify_block S v b = Ok v' /\ vnow p (b_id b) v' s /\ vret p (b_id b) [] v' s.
Proof.
  intros Hnd [s1 s2 acc fees y Hbest D Hf Hck D2] Hn Hr. unfold unverify_block.
  destruct (disconnect_reward_ok v b _ y _ _ _ Hn Hr (reward_done_best _ _ _ _ _ (b_id b) D2)) as (v1 & E1 & Hn1 & Hr1). rewrite E1. cbn [rbind].
  destruct (disconnect_txs_ok cc _ _ (b_id b) _ _ _ _ D Hnd v1 Hn1 Hr1) as (v2 & E2 & Hn2 & Hr2). rewrite E2. cbn [rbind].
  eexists. split; [reflexivity|]. pose proof (set_best_ok v2 (b_id b) _ (b_prev b) Hn2) as Hn3.
  assert (with_best (with_best s (b_id b)) (b_prev b) = s) as E. { rewrite <- Hbest. destruct s as [[m bb] ? ? ? ? ? ? ? ? ? ?]. reflexivity. }
  rewrite E in Hn3. split; [exact Hn3|]. destruct Hr2. constructor; assumption.
Qed.
End block.

(** ** The database *)
Record db_is (db : chain_db) (s : books) : Prop := {
  di_utxo : utxo_db_is (db_utxo db) (k_utxo s); di_pos : pos_db_is (db_pos db) (k_pos s); di_tok : tok_db_is (db_tok db) (k_tok s);
  di_ord : ord_db_is (db_ord db) (k_ord s); di_nonce : forall a, db_nonce db !! a = nonce_of (k_uses s a);
  di_aux : forall t, db_aux db !! t = k_aux s t; di_index : forall t, db_index db !! t = k_index s t;
  di_u : ur_stored (db_uundo db) (k_u s); di_p : acc_stored (db_pundo db) (k_p s); di_t : acc_stored (db_tundo db) (k_t s);
  di_o : acc_stored (db_oundo db) (k_o s) }.

Lemma db_store db s : db_is db s -> store_is (store_of db) s.
Proof.
  intros []. constructor; cbn; [exact di_utxo0|exact (pos_reads_db _ _ di_pos0)|exact (tok_reads_db _ _ di_tok0)|exact (ord_reads_db _ _ di_ord0)|assumption..].
Qed.
Lemma open_now db s b : db_is db s -> vnow s b (verifier_on db) s.
Proof.
  intros []. constructor; cbn.
  - apply uinv_empty.
  - apply adapter_inv_new. destruct di_pos0 as (_ & _ & (_ & _ & B1) & (_ & _ & B2) & (_ & _ & B3) & Hs). exact (conj B1 (conj B2 (conj B3 Hs))).
  - apply tok_inv_empty. destruct di_tok0 as (_ & _ & _ & B1 & B2). split; assumption.
  - apply ord_inv_empty. destruct di_ord0 as (_ & _ & _ & _ & _ & B1 & B2 & B3). split; [|split]; assumption.
  - apply ninv_empty.
  - apply ainv_empty.
  - apply ainv_empty.
Qed.
Lemma open_rec db s b : db_is db s -> ut_none (k_u s) (SrcChain b) -> ut_none (k_p s) (SrcChain b) -> ut_none (k_t s) (SrcChain b) ->
  ut_none (k_o s) (SrcChain b) -> vrec s b (verifier_on db) s.
Proof. intros [] H1 H2 H3 H4. constructor; [apply ur_rec_open|apply acc_rec_open..]; assumption. Qed.
Lemma open_ret db s b ids : db_is db s -> vret s b ids (verifier_on db) s.
Proof.
  intros []. constructor; [apply ur_ret_open|apply acc_ret_open..|]; try assumption. cbn. intros t x. rewrite lookup_empty. discriminate.
Qed.

Lemma store_ops_is {X} (p s : N -> option X) m db : ainv p m s -> (forall t, db !! t = p t) -> forall t, store_ops m db !! t = s t.
Proof.
  intros H Hdb t. unfold store_ops. rewrite lookup_merge. unfold diag_None. specialize (H t). specialize (Hdb t).
  destruct (m !! t) as [[x|x|]|]; [rewrite H; reflexivity|destruct H|rewrite H; reflexivity|].
  rewrite H. destruct (db !! t); exact Hdb.
Qed.
Lemma store_nonces_is p c n (db : gmap account_type N) : ninv p c n -> (forall a, db !! a = nonce_of (p a)) -> forall a, store_nonces c db !! a = nonce_of (n a).
Proof.
  intros [Hr H] Hdb a. unfold store_nonces. rewrite lookup_merge. unfold diag_None. specialize (H a). specialize (Hdb a). specialize (Hr a).
  unfold get_nonce in H. destruct (c !! a) as [[x|x|]|]; [exact H|destruct (Hr x eq_refl)|exact H|].
  rewrite <- H, <- Hdb. destruct (db !! a); reflexivity.
Qed.

Lemma flush_ok db p b v s : db_is db p -> vnow p b v s ->
  (exists st, undo_run utxo_records (v_uundo v) UFlush = Ok (st, UDone) /\ ur_stored (stored (us_base st)) (k_u s)) ->
  (exists st, undo_run pos_records (v_pundo v) UFlush = Ok (st, UDone) /\ acc_stored (stored (us_base st)) (k_p s)) ->
  (exists st, undo_run tok_records (v_tundo v) UFlush = Ok (st, UDone) /\ acc_stored (stored (us_base st)) (k_t s)) ->
  (exists st, undo_run ord_records (v_oundo v) UFlush = Ok (st, UDone) /\ acc_stored (stored (us_base st)) (k_o s)) ->
  exists db', flush_verifier db v = Ok db' /\ db_is db' s.
Proof.
  intros [] [V1 V2 V3 V4 V5 V6 V7] (su & Eu & Iu) (sp & Ep & Ip) (st & Et & It) (so & Eo & Io). unfold flush_verifier.
  destruct (db_merge_refines _ _ _ _ di_utxo0 V1) as (u' & ? & -> & J1). rewrite Eu. cbn [rmap_err rbind].
  destruct (pos_db_merge_refines _ _ _ _ di_pos0 (proj1 V2)) as (p' & ? & -> & J2). rewrite Ep. cbn [rmap_err rbind].
  destruct (tok_db_merge_refines _ _ _ _ di_tok0 V3) as (t' & ? & -> & J3). rewrite Et. cbn [rmap_err rbind].
  destruct (ord_db_merge_refines _ _ _ _ di_ord0 V4) as (o' & ? & -> & J4). rewrite Eo. cbn [rmap_err rbind].
  eexists. split; [reflexivity|]. constructor; cbn; try assumption.
  - exact (store_nonces_is _ _ _ _ V5 di_nonce0).
  - exact (store_ops_is _ _ _ _ V6 di_aux0).
  - exact (store_ops_is _ _ _ _ V7 di_index0).
Qed.
Lemma flush_rec db p b v s : db_is db p -> vnow p b v s -> vrec p b v s -> exists db', flush_verifier db v = Ok db' /\ db_is db' s.
Proof.
  intros Hdb Hn [R1 R2 R3 R4]. apply (flush_ok db p b v s Hdb Hn); [exact (ur_rec_flush _ _ _ _ R1)|exact (acc_rec_flush _ _ _ _ R2)|
    exact (acc_rec_flush _ _ _ _ R3)|exact (acc_rec_flush _ _ _ _ R4)].
Qed.
Lemma flush_ret db p b ids v s : db_is db p -> vnow p b v s -> vret p b ids v s -> exists db', flush_verifier db v = Ok db' /\ db_is db' s.
Proof.
  intros Hdb Hn [R1 R2 R3 R4 _]. apply (flush_ok db p b v s Hdb Hn); [exact (ur_ret_flush _ _ _ _ _ R1)|exact (acc_ret_flush _ _ _ _ _ R2)|
    exact (acc_ret_flush _ _ _ _ _ R3)|exact (acc_ret_flush _ _ _ _ _ R4)].
Qed.

(** The database is determined by the books. *)
Lemma no_zeroes_unique {K} `{Countable K} (m m' : gmap K N) :
  (forall k, m !! k <> Some 0) -> (forall k, m' !! k <> Some 0) -> (forall k, default 0 (m !! k) = default 0 (m' !! k)) -> m = m'.
Proof.
  intros H1 H2 E. apply map_eq. intros k. specialize (H1 k). specialize (H2 k). specialize (E k).
  destruct (m !! k), (m' !! k); cbn in E; congruence.
Qed.
Lemma db_unique db db' s : db_is db s -> db_is db' s -> db = db'.
Proof.
  intros [[A1 A1'] A2 A3 A4 A5 A6 A7 A8 A9 A10 A11] [[B1 B1'] B2 B3 B4 B5 B6 B7 B8 B9 B10 B11].
  destruct db as [[um ub] [q1 q2 q3 q4 q5] [t1 t2] [o1 o2 o3] n a i u pp t o], db' as [[um' ub'] [q1' q2' q3' q4' q5'] [t1' t2'] [o1' o2' o3'] n' a' i' u' pp' t' o'].
  cbn in *. f_equal.
  - f_equal; [|congruence]. apply map_eq. intros k. rewrite A1, B1. reflexivity.
  - destruct A2 as (C1 & C2 & (C3 & C4 & _) & (C5 & C6 & _) & (C7 & C8 & _) & _), B2 as (D1 & D2 & (D3 & D4 & _) & (D5 & D6 & _) & (D7 & D8 & _) & _).
    cbn in *. f_equal; first [apply map_eq; intros k; first [rewrite C1, D1|rewrite C2, D2]; reflexivity|
      apply no_zeroes_unique; [assumption..|]; intros k; first [rewrite C3, D3|rewrite C5, D5|rewrite C7, D7]; reflexivity].
  - destruct A3 as (C1 & C2 & C3 & _), B3 as (D1 & D2 & D3 & _).
    cbn in *. f_equal; first [apply map_eq; intros k; rewrite C1, D1; reflexivity|
      apply no_zeroes_unique; [assumption..|]; intros k; rewrite C2, D2; reflexivity].
  - destruct A4 as (C1 & C2 & C3 & C4 & C5 & _), B4 as (D1 & D2 & D3 & D4 & D5 & _).
    cbn in *. f_equal; first [apply map_eq; intros k; rewrite C1, D1; reflexivity|
      apply no_zeroes_unique; [assumption..|]; intros k; first [rewrite C2, D2|rewrite C4, D4]; reflexivity].
  - apply map_eq. intros k. rewrite A5, B5. reflexivity.
  - apply map_eq. intros k. rewrite A6, B6. reflexivity.
  - apply map_eq. intros k. rewrite A7, B7. reflexivity.
  - exact (ur_unique _ _ _ A8 B8).
  - exact (acc_unique _ _ _ A9 B9).
  - exact (acc_unique _ _ _ A10 B10).
  - exact (acc_unique _ _ _ A11 B11).
Qed.

(** ** Blocks over the database *)
Lemma connect_block_ok cc db s b db' : db_is db s ->
  ut_none (k_u s) (SrcChain (b_id b)) -> ut_none (k_p s) (SrcChain (b_id b)) -> ut_none (k_t s) (SrcChain (b_id b)) -> ut_none (k_o s) (SrcChain (b_id b)) ->
  (forall l1 tx l2 acc1 s1, b_txs b = l1 ++ tx :: l2 -> txs_done cc (b_height b) (b_id b) s l1 acc1 s1 ->
     forall utxos fee, tx_checked cc (b_height b) s1 tx utxos fee -> tx_room cc (b_height b) (b_id b) s1 tx) ->
  (forall acc s1 fees, txs_done cc (b_height b) (b_id b) s (b_txs b) acc s1 -> map_into_block_fees (ru_values (cc_rules cc (b_height b))) acc = Ok fees ->
     reward_checked cc b s1 fees -> reward_room b (ru_subsidy (cc_rules cc (b_height b)) + fees) s1) ->
  connect_block cc db b = Ok db' -> exists s', block_done cc b s s' /\ db_is db' s'.
Proof.
  intros Hdb N1 N2 N3 N4 Hroom Hrr H. unfold connect_block in H. apply rbind_ok in H as ([] & Hb & H). apply ensure_ok, N.eqb_eq in Hb.
  apply rbind_ok in H as (v & Hv & H).
  assert (us_best (k_utxo s) = b_prev b) as Hbest. { rewrite <- Hb. symmetry. exact (proj2 (di_utxo _ _ Hdb)). }
  destruct (verify_block_ok _ s (db_store db s Hdb) cc _ b v (open_now db s (b_id b) Hdb) (open_rec db s (b_id b) Hdb N1 N2 N3 N4) Hbest Hroom Hrr Hv)
    as (s' & D & Hn & Hr). exists s'. split; [exact D|].
  destruct (flush_rec db s (b_id b) v s' Hdb Hn Hr) as (db2 & E & Hdb2). rewrite E in H. injection H as <-. exact Hdb2.
Qed.

Lemma disconnect_block_ok cc db s s' b : db_is db s' -> NoDup (map tx_id (b_txs b)) -> block_done cc b s s' ->
  exists db', disconnect_block db b = Ok db' /\ db_is db' s.
Proof.
  intros Hdb Hnd D. unfold disconnect_block.
  assert (udb_best (db_utxo db) = b_id b) as ->.
  { pose proof (proj2 (di_utxo _ _ Hdb)) as E. cbn in E. rewrite E. destruct D. reflexivity. }
  rewrite N.eqb_refl. cbn [ensure rbind].
  destruct (unverify_block_ok _ s' (db_store db s' Hdb) cc _ b s s' Hnd D (open_now db s' (b_id b) Hdb) (open_ret db s' (b_id b) _ Hdb)) as (v & E & Hn & Hr).
  rewrite E. cbn [rbind]. exact (flush_ret db s' (b_id b) [] v s Hdb Hn Hr).
Qed.
