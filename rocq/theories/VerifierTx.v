(** Connecting and disconnecting one transaction. *)
From Verif Require Import Base BaseProofs AmountModel DeltaModel DeltaProofs LayeredModel TokensModel OrdersModel PosModel PrimModel ChainModel
  UtxoModel ConstraintsModel RewardModel UndoCacheModel NonceModel VerifierModel.
From Verif Require Import TokensSpec TokensProofs OrdersSpec OrdersProofs PosSpec PosProofs UtxoSpec UtxoProofs ConstraintsSpec
  ConstraintsProofs RewardSpec RewardProofs UndoCacheSpec UndoCacheProofs NonceProofs VerifierRecords VerifierSteps VerifierParts.
Local Open Scope N_scope.

(** A cache of writes and erasures over a table *)
Definition ainv {X} (p : N -> option X) (m : gmap N (cop X)) (s : N -> option X) : Prop :=
  forall t, match m !! t with None => s t = p t | Some (OpWrite x) => s t = Some x | Some OpErase => s t = None | Some (OpRead _) => False end.
Definition set_at {X} (f : N -> option X) (k : N) (o : option X) : N -> option X := fun t => if decide (t = k) then o else f t.
Lemma ainv_empty {X} (p : N -> option X) : ainv p ∅ p.
Proof. intros t. rewrite lookup_empty. reflexivity. Qed.
Lemma ainv_write {X} (p : N -> option X) m s k x : ainv p m s -> ainv p (<[k := OpWrite x]> m) (set_at s k (Some x)).
Proof.
  intros H t. unfold set_at. destruct (decide (t = k)) as [->|Ht]; [rewrite lookup_insert; reflexivity|]. rewrite lookup_insert_ne by congruence. apply H.
Qed.
Lemma ainv_erase {X} (p : N -> option X) m s k s' : ainv p m s -> (forall t, t <> k -> s t = s' t) -> s' k = None -> ainv p (<[k := OpErase]> m) s'.
Proof.
  intros H E Ek t. destruct (decide (t = k)) as [->|Ht]; [rewrite lookup_insert; exact Ek|]. rewrite lookup_insert_ne by congruence. rewrite <- (E t Ht). apply H.
Qed.
Lemma ainv_ext {X} (p : N -> option X) m s s' : (forall t, s t = s' t) -> ainv p m s -> ainv p m s'.
Proof. intros E H t. rewrite <- E. apply H. Qed.

(** ** What the caches of a verifier stand for *)
Record vnow (p : books) (b : N) (v : verifier) (s : books) : Prop := {
  vn_utxo : uinv (k_utxo p) (v_utxo v) (k_utxo s); vn_pos : adapter_inv (SrcChain b) (k_pos p) (v_pos v) (k_pos s);
  vn_tok : tok_inv (k_tok p) (v_tok v) (k_tok s); vn_ord : ord_inv (k_ord p) (v_ord v) (k_ord s);
  vn_nonce : ninv (k_uses p) (v_nonce v) (k_uses s); vn_aux : ainv (k_aux p) (v_aux v) (k_aux s);
  vn_index : ainv (k_index p) (v_index v) (k_index s) }.
Record vrec (p : books) (b : N) (v : verifier) (s : books) : Prop := {
  vr_u : ur_rec b (k_u p) (v_uundo v) (k_u s); vr_p : acc_rec b (k_p p) (v_pundo v) (k_p s);
  vr_t : acc_rec b (k_t p) (v_tundo v) (k_t s); vr_o : acc_rec b (k_o p) (v_oundo v) (k_o s) }.
Record vret (p : books) (b : N) (ids : list N) (v : verifier) (s : books) : Prop := {
  vt_u : ur_ret b ids (k_u p) (v_uundo v) (k_u s); vt_p : acc_ret b ids (k_p p) (v_pundo v) (k_p s);
  vt_t : acc_ret b ids (k_t p) (v_tundo v) (k_t s); vt_o : acc_ret b ids (k_o p) (v_oundo v) (k_o s);
  vt_aux : forall t x, v_aux v !! t <> Some (OpWrite x) }.

(** ** What connecting a transaction does *)
Record tx_undo := TxUndo { x_u : list (option utxo); x_p : list pos_undo; x_t : list tok_undo; x_o : list ord_undo }.
Record tx_done (cc : chain_config) (h b : N) (s : books) (tx : transaction) (x : tx_undo) (s' : books) : Prop := {
  td_ustep : utxo_step (k_utxo s) (OpConnectTx tx (InChain h)) = Ok (k_utxo s');
  td_uundo : undoes (UnTx tx (x_u x)) (k_utxo s') (k_utxo s);
  td_pran : ran pos_step (k_pos s) (pos_ops cc (us_map (k_utxo s)) tx) (k_pos s'); td_ppath : path pos_undoes (x_p x) (k_pos s) (k_pos s');
  td_tran : ran tok_step (k_tok s) (tok_ops cc h tx) (k_tok s'); td_tpath : path tok_undoes (x_t x) (k_tok s) (k_tok s');
  td_oran : ran ord_step (k_ord s) (ord_ops cc tx) (k_ord s'); td_opath : path ord_undoes (x_o x) (k_ord s) (k_ord s');
  td_uses : forall a, k_uses s' a = k_uses s a + cnt account_of (tx_inputs tx) a;
  td_aux : match issued_nft (tx_outputs tx) with
           | None => (forall t, k_aux s' t = k_aux s t) /\ (forall t, k_index s' t = k_index s t)
           | Some id => token_id cc h (tx_inputs tx) = Some id /\ k_aux s id = None /\ k_index s (tx_id tx) = None /\
               (forall t, k_aux s' t = set_at (k_aux s) id (Some (tx, b)) t) /\ (forall t, k_index s' t = set_at (k_index s) (tx_id tx) (Some id) t)
           end;
  td_u : k_u s' = ut_add (k_u s) (SrcChain b) (tx_id tx) (x_u x, map fst (spent_by (tx_inputs tx)));
  td_p : k_p s' = rec_add (k_p s) (SrcChain b) (tx_id tx) (x_p x);
  td_t : k_t s' = rec_add (k_t s) (SrcChain b) (tx_id tx) (x_t x);
  td_o : k_o s' = rec_add (k_o s) (SrcChain b) (tx_id tx) (x_o x);
  td_new_u : ut_tx (k_u s) !! (SrcChain b, tx_id tx) = None; td_new_p : ut_tx (k_p s) !! (SrcChain b, tx_id tx) = None;
  td_new_t : ut_tx (k_t s) !! (SrcChain b, tx_id tx) = None; td_new_o : ut_tx (k_o s) !! (SrcChain b, tx_id tx) = None;
  td_leaf : ~ has_child (k_u s') (SrcChain b) (tx_id tx) }.

(** The account and the nonce an input names *)
Definition nonce_use (i : tx_input) : option (account_type * N) :=
  match i with InAccount n del _ => Some (AccDelegation del, n) | InCommand n c => Some (command_account c, n) | InUtxo _ | InOrder _ => None end.
(** Tokens whose movement freezing forbids *)
Definition tok_frozen (T : tok_state) (id : N) : Prop := exists t, ts_data T id = Some t /\ is_frozen t = true.
Definition value_tokens (x : output_value) : list N := match x with OvToken id _ => [id] | OvCoin _ | OvTokenV0 => [] end.
Definition order_tokens (d : order_data) : list N := value_tokens (od_ask d) ++ value_tokens (od_give d).
Definition moves (o : tx_output) : list N :=
  match o with
  | OTransfer x _ | OLockThenTransfer x _ _ | OBurn x | OHtlc x _ => value_tokens x
  | OCreateOrder d => order_tokens d
  | _ => []
  end.
Definition order_moved (i : tx_input) : option N :=
  match i with
  | InCommand _ (CmdConcludeOrder id) | InCommand _ (CmdFillOrder id _ _) | InOrder (OcFill id _) | InOrder (OcConclude id) => Some id
  | _ => None
  end.
Record leaves_alone (cc : chain_config) (h : N) (s : books) (tx : transaction) (id : N) : Prop := {
  la_outs : forall o, o ∈ tx_outputs tx -> id ∉ moves o;
  la_ins : ru_frozen_checks (cc_rules cc h) = true -> forall k u, InUtxo k ∈ tx_inputs tx -> us_map (k_utxo s) k = Some u -> id ∉ moves (u_output u);
  la_orders : forall i oid d, i ∈ tx_inputs tx -> order_moved i = Some oid -> os_data (k_ord s) oid = Some d -> id ∉ order_tokens d;
  la_commands : forall n c, InCommand n c ∈ tx_inputs tx -> command_account c = AccToken id -> c = CmdUnfreeze id }.

(** What has been checked of a transaction that was accepted *)
Record tx_checked (cc : chain_config) (h : N) (s : books) (tx : transaction) (utxos : list (option tx_output)) (fee : accumulator) : Prop := {
  tc_inputs : tx_inputs tx <> []; tc_nodup : NoDup (tx_inputs tx); tc_ok : cc_tx_ok cc h tx = true;
  tc_sound : ledger_sound (k_ledger s); tc_issuance : (count is_issuance (tx_outputs tx) <= 1)%nat;
  tc_order_ins : forallb (order_input_ok (cf_orders (ru_values (cc_rules cc h)))) (tx_inputs tx) = true;
  tc_utxos : Forall2 (fun i o => match i with
                                 | InUtxo k => exists u, us_map (k_utxo s) k = Some u /\ o = Some (u_output u)
                                 | _ => o = None
                                 end) (tx_inputs tx) utxos;
  tc_purposes : check_tx_purposes (tx_inputs tx) utxos (tx_outputs tx) = Ok tt;
  tc_values : exists V, views_read V (k_ledger s) /\ check_values (ru_values (cc_rules cc h)) V (tx_inputs tx) utxos (tx_outputs tx) = Ok fee;
  tc_pools : forall q dat, OCreateStakePool q dat ∈ tx_outputs tx -> exists k, first_outpoint (tx_inputs tx) = Some k /\ q = cc_pool_id cc k;
  tc_order_outs : forallb (order_output_ok (cc_rules cc h)) (tx_outputs tx) = true;
  tc_nonces : forall i a n, i ∈ tx_inputs tx -> nonce_use i = Some (a, n) -> k_uses s a <= n < k_uses s a + cnt account_of (tx_inputs tx) a;
  tc_freeze : forall id, InOrder (OcFreeze id) ∈ tx_inputs tx -> exists d, os_data (k_ord s) id = Some d /\ od_frozen d = false;
  tc_frozen : forall id, tok_frozen (k_tok s) id -> leaves_alone cc h s tx id }.

Lemma ensure_ok {E} c (e : E) x : ensure c e = Ok x -> c = true.
Proof. unfold ensure. destruct c; [auto|discriminate]. Qed.

Lemma collect_each {X U} (f : verifier -> X -> res verr (verifier * list U)) l x : x ∈ l -> forall v r, collect f l v = Ok r -> exists v1 r1, f v1 x = Ok r1.
Proof.
  induction l as [|y l IH]; [intros H; apply elem_of_nil in H as []|]. intros Hx v r H. cbn [collect] in H.
  apply rbind_ok in H as ([v1 us] & H1 & H). apply rbind_ok in H as ([v2 us2] & H2 & _).
  apply elem_of_cons in Hx as [->|Hx]; [eauto|]. exact (IH Hx _ _ H2).
Qed.
Lemma rmapM_ok {E A B} (f : A -> res E B) l r : rmapM f l = Ok r -> Forall2 (fun x y => f x = Ok y) l r.
Proof.
  revert r. induction l as [|x l IH]; intros r H; cbn [rmapM] in H.
  - injection H as <-. constructor.
  - apply rbind_ok in H as (y & Hy & H). apply rbind_ok in H as (ys & Hys & [= <-]). constructor; [exact Hy|exact (IH _ Hys)].
Qed.

Section tx.
Context (S : store) (p : books) (b : N) (HS : store_is S p).
Notation src := (SrcChain b).

Lemma now_utxo v s k : vnow p b v s -> vw_utxo (utxos_now S v) k = us_map (k_utxo s) k.
Proof. intros H. destruct (reads_cache _ _ _ _ (si_utxo _ _ HS) (vn_utxo _ _ _ _ H)) as [G _]. exact (G k). Qed.
Lemma now_views v s : vnow p b v s -> views_read (views_now S v) (k_ledger s).
Proof.
  intros H. split; [|split].
  - exact (adapter_reads _ _ _ _ _ (si_pos _ _ HS) (vn_pos _ _ _ _ H)).
  - exact (tok_reads_cache _ _ _ _ (si_tok _ _ HS) (vn_tok _ _ _ _ H)).
  - exact (ord_reads_cache _ _ _ _ (si_ord _ _ HS) (vn_ord _ _ _ _ H)).
Qed.
Lemma now_sound v s : vnow p b v s -> ledger_sound (k_ledger s).
Proof.
  intros H. split; [|split].
  - exact (pos_inv_good _ _ _ (proj1 (vn_pos _ _ _ _ H))).
  - exact (tok_inv_good _ _ _ (vn_tok _ _ _ _ H)).
  - exact (ord_inv_good _ _ _ (vn_ord _ _ _ _ H)).
Qed.

Lemma register_ok cc h v tx v' s : vnow p b v s -> register_issuance cc h S src v tx = Ok v' ->
  exists m i, v' = set_issuance v m i /\
  match issued_nft (tx_outputs tx) with
  | None => m = v_aux v /\ i = v_index v
  | Some id => token_id cc h (tx_inputs tx) = Some id /\ k_aux s id = None /\
      ainv (k_aux p) m (set_at (k_aux s) id (Some (tx, b))) /\ ainv (k_index p) i (set_at (k_index s) (tx_id tx) (Some id))
  end.
Proof.
  intros Hn H. unfold register_issuance in H. destruct (issued_nft (tx_outputs tx)) as [id|].
  - apply rbind_ok in H as (ex & He & H). apply rbind_ok in H as ([] & Hq & H). apply ensure_ok, N.eqb_eq in Hq as <-.
    apply rbind_ok in H as (m & Hm & H). apply rbind_ok in H as (m' & Hm' & [= <-]). eexists _, _. split; [reflexivity|].
    split; [unfold token_id; rewrite He; reflexivity|]. unfold precache_issuance in Hm. unfold insert_aux in Hm'.
    pose proof (vn_aux _ _ _ _ Hn id) as Ha. destruct (v_aux v !! id) eqn:E; [discriminate Hm|]. injection Hm as <-.
    rewrite (si_aux _ _ HS) in Hm'. destruct (k_aux p id) as [y|] eqn:Ep; [rewrite lookup_insert in Hm'; discriminate Hm'|].
    rewrite E in Hm'. injection Hm' as <-. split; [exact Ha|]. split; apply ainv_write; [exact (vn_aux _ _ _ _ Hn)|exact (vn_index _ _ _ _ Hn)].
  - injection H as <-. exists (v_aux v), (v_index v). split; [destruct v; reflexivity|]. auto.
Qed.

(** Nonces along the passes over the inputs *)
Lemma do_spend_nonce v nonce a v' n : ninv (k_uses p) (v_nonce v) n -> do_spend S v nonce a = Ok v' -> nonce = n a.
Proof.
  intros [Hr Hn] H. unfold do_spend, spend_account in H. apply rbind_ok in H as (c & Hc & _). apply rmap_err_ok in Hc.
  apply rbind_ok in Hc as (ex & He & Hc). apply rbind_ok in Hc as ([] & Hq & _). rewrite (get_nonce_ext _ _ _ _ (si_nonce _ _ HS)), Hn in He.
  unfold ensure in Hq. destruct (N.eqb_spec ex nonce) as [<-|]; [|discriminate Hq].
  unfold nonce_of in He. destruct (N.eqb_spec (n a) 0) as [E|E]; [injection He as <-; auto|]. apply ok_or_ok in He.
  unfold checked_add in He. destruct (n a - 1 + 1 <=? U64_MAX); [|discriminate He]. injection He as <-. lia.
Qed.
Definition rest (v v' : verifier) : Prop := v_nonce v' = v_nonce v.
Lemma do_pos_rest sr v o v' us : do_pos S sr v o = Ok (v', us) -> rest v v' /\ v_tok v' = v_tok v /\ v_ord v' = v_ord v /\ v_utxo v' = v_utxo v.
Proof. unfold do_pos. destruct (adapter_op _ _ _ _) as [A [u|e|]]; intros [= <- <-]; repeat split. Qed.
Lemma do_tok_rest v o v' us : do_tok S v o = Ok (v', us) -> rest v v' /\ v_ord v' = v_ord v.
Proof. unfold do_tok. destruct (tok_run _ _ _) as [A [u|e|]]; intros [= <- <-]; repeat split. Qed.
Lemma do_ord_rest v o v' us : do_ord S v o = Ok (v', us) -> rest v v'.
Proof. unfold do_ord. destruct (ord_run _ _ _) as [A [u|e|]]; intros [= <- <-]; repeat split. Qed.
Lemma do_spend_rest v n a v' : do_spend S v n a = Ok v' -> v_tok v' = v_tok v /\ v_ord v' = v_ord v /\ v_utxo v' = v_utxo v.
Proof. unfold do_spend. intros H. apply rbind_ok in H as (c & _ & [= <-]). repeat split. Qed.

Definition nonce_step {U} (sel : tx_input -> option account_type) (f : verifier -> tx_input -> res verr (verifier * list U)) : Prop :=
  forall v i v' us n, ninv (k_uses p) (v_nonce v) n -> f v i = Ok (v', us) ->
    ninv (k_uses p) (v_nonce v') (fun a => n a + use_of sel i a) /\ forall a m, sel i = Some a -> nonce_use i = Some (a, m) -> m = n a.
Lemma collect_nonces {U} sel (f : verifier -> tx_input -> res verr (verifier * list U)) : nonce_step sel f ->
  forall l v v' us n, ninv (k_uses p) (v_nonce v) n -> collect f l v = Ok (v', us) ->
    ninv (k_uses p) (v_nonce v') (fun a => n a + cnt sel l a) /\
    forall i a m, i ∈ l -> sel i = Some a -> nonce_use i = Some (a, m) -> n a <= m < n a + cnt sel l a.
Proof.
  intros Hf. induction l as [|i l IH]; intros v v' us n Hn H; cbn [collect] in H.
  - injection H as <- <-. split; [|intros i a m Hi; inversion Hi]. revert Hn. apply ninv_ext. intros a. rewrite cnt_nil. lia.
  - apply rbind_ok in H as ([v1 us1] & H1 & H). apply rbind_ok in H as ([v2 us2] & H2 & [= <- <-]).
    destruct (Hf _ _ _ _ _ Hn H1) as [N1 E1]. destruct (IH _ _ _ _ N1 H2) as [N2 E2]. split.
    + revert N2. apply ninv_ext. intros a. rewrite cnt_cons. unfold use_of. lia.
    + intros j a m Hj Hs Hm. rewrite cnt_cons. apply elem_of_cons in Hj as [->|Hj].
      * rewrite (E1 _ _ Hs Hm), decide_True by exact Hs. lia.
      * specialize (E2 _ _ _ Hj Hs Hm). unfold use_of in E2. destruct (decide (sel i = Some a)); lia.
Qed.
Lemma collect_keeps {X U} (Q : verifier -> verifier -> Prop) (f : verifier -> X -> res verr (verifier * list U)) :
  (forall v, Q v v) -> (forall v v1 v2, Q v v1 -> Q v1 v2 -> Q v v2) -> (forall v x v' us, f v x = Ok (v', us) -> Q v v') ->
  forall l v v' us, collect f l v = Ok (v', us) -> Q v v'.
Proof.
  intros Hr Ht Hf. induction l as [|x l IH]; intros v v' us H; cbn [collect] in H; [injection H as <- <-; apply Hr|].
  apply rbind_ok in H as ([v1 us1] & H1 & H). apply rbind_ok in H as ([v2 us2] & H2 & [= <- <-]). eapply Ht; [exact (Hf _ _ _ _ H1)|exact (IH _ _ _ H2)].
Qed.
Lemma use_none sel i n : sel i = None -> forall a, n a = n a + use_of sel i a.
Proof. intros E a. unfold use_of. rewrite E, decide_False by discriminate. lia. Qed.

Lemma spend_then {U} sel i v nonce a (g : verifier -> res verr (verifier * list U)) v' us n :
  sel i = Some a -> nonce_use i = Some (a, nonce) -> (forall w w' us, g w = Ok (w', us) -> rest w w') ->
  ninv (k_uses p) (v_nonce v) n -> (let? v1 := do_spend S v nonce a in g v1) = Ok (v', us) ->
  ninv (k_uses p) (v_nonce v') (fun b => n b + use_of sel i b) /\ forall b m, sel i = Some b -> nonce_use i = Some (b, m) -> m = n b.
Proof.
  intros Es En Hg Hn H. apply rbind_ok in H as (v1 & H1 & H). pose proof (do_spend_nonce _ _ _ _ _ Hn H1) as ->.
  destruct (do_spend_ok S p _ _ _ _ _ (si_nonce _ _ HS) Hn H1) as (c & -> & Hc). pose proof (Hg _ _ _ H) as E. unfold rest in E. rewrite E. split.
  - revert Hc. apply ninv_ext. intros b'. unfold use_of. rewrite Es. reflexivity.
  - intros b' m Hb Hm. congruence.
Qed.
Lemma pos_nonce_step : nonce_step deleg_account (pos_input S src).
Proof.
  intros v i v' us n Hn H. destruct i as [k|nonce del a|nonce c|c]; cbn [pos_input] in H.
  - split; [|discriminate]. apply (ninv_ext _ _ n); [apply use_none; reflexivity|].
    destruct (vw_utxo (utxos_now S v) k) as [u|]; [|discriminate H]. destruct (u_output u); try (injection H as <- <-; exact Hn);
      destruct (do_pos_rest _ _ _ _ _ H) as [E _]; unfold rest in E; rewrite E; exact Hn.
  - apply (spend_then deleg_account (InAccount nonce del a) v nonce (AccDelegation del) (fun v1 => do_pos S src v1 (SpendShare del a)) v' us n eq_refl eq_refl); [|exact Hn|exact H].
    intros w w' us' Hw. exact (proj1 (do_pos_rest _ _ _ _ _ Hw)).
  - injection H as <- <-. split; [|discriminate]. apply (ninv_ext _ _ n); [apply use_none; reflexivity|exact Hn].
  - injection H as <- <-. split; [|discriminate]. apply (ninv_ext _ _ n); [apply use_none; reflexivity|exact Hn].
Qed.
Lemma tok_nonce_step outs : nonce_step token_account (tok_input S outs).
Proof.
  intros v i v' us n Hn H. destruct i as [k|nonce del a|nonce c|c]; cbn [tok_input] in H.
  1,2,4: injection H as <- <-; split; [|discriminate]; apply (ninv_ext _ _ n); [apply use_none; reflexivity|exact Hn].
  destruct c as [id a|id|id|id b0|id|id dst|id|id a dst|id uri].
  7,8: injection H as <- <-; split; [|discriminate]; apply (ninv_ext _ _ n); [apply use_none; reflexivity|exact Hn].
  all: eapply spend_then; [reflexivity|reflexivity| |exact Hn|exact H]; intros w w' us' Hw.
  all: try exact (proj1 (do_tok_rest _ _ _ _ Hw)).
  apply rbind_ok in Hw as (bd & _ & Hw). destruct (0 <? bd); [exact (proj1 (do_tok_rest _ _ _ _ Hw))|]. injection Hw as <- <-. reflexivity.
Qed.
Lemma ord_nonce_step : nonce_step order_account (ord_input S).
Proof.
  intros v i v' us n Hn H. destruct i as [k|nonce del a|nonce c|c]; cbn [ord_input] in H.
  1,2: injection H as <- <-; split; [|discriminate]; apply (ninv_ext _ _ n); [apply use_none; reflexivity|exact Hn].
  - destruct c as [id a|id|id|id b0|id|id dst|id|id a dst|id uri]; try (injection H as <- <-; split; [|discriminate]; apply (ninv_ext _ _ n); [apply use_none; reflexivity|exact Hn]).
    all: eapply spend_then; [reflexivity|reflexivity| |exact Hn|exact H]; intros w w' us' Hw.
    all: exact (do_ord_rest _ _ _ _ Hw).
  - split; [|discriminate]. apply (ninv_ext _ _ n); [apply use_none; reflexivity|]. destruct c; rewrite (do_ord_rest _ _ _ _ H); exact Hn.
Qed.

(** What the passes leave as it was *)
Lemma add_pundo_rest v sr t us v' : add_pundo v sr t us = Ok v' -> rest v v' /\ v_tok v' = v_tok v /\ v_ord v' = v_ord v /\ v_utxo v' = v_utxo v.
Proof. unfold add_pundo. destruct us; intros H; [injection H as <-; repeat split|]. apply rbind_ok in H as ([st o] & _ & [= <-]). repeat split. Qed.
Lemma add_tundo_rest v sr t us v' : add_tundo v sr t us = Ok v' -> rest v v' /\ v_ord v' = v_ord v.
Proof. unfold add_tundo. destruct us; intros H; [injection H as <-; repeat split|]. apply rbind_ok in H as ([st o] & _ & [= <-]). repeat split. Qed.
Lemma connect_pos_rest cc h v tx v' n : ninv (k_uses p) (v_nonce v) n -> connect_pos cc h S src v tx = Ok v' ->
  v_tok v' = v_tok v /\ v_ord v' = v_ord v /\ v_utxo v' = v_utxo v /\ ninv (k_uses p) (v_nonce v') (fun a => n a + cnt deleg_account (tx_inputs tx) a) /\
  forall i a m, i ∈ tx_inputs tx -> deleg_account i = Some a -> nonce_use i = Some (a, m) -> n a <= m < n a + cnt deleg_account (tx_inputs tx) a.
Proof.
  intros Hn H. unfold connect_pos in H. apply rbind_ok in H as ([v1 us1] & H1 & H). apply rbind_ok in H as ([v2 us2] & H2 & H). apply rbind_ok in H as (_ & _ & H).
  destruct (add_pundo_rest _ _ _ _ _ H) as (R1 & R2 & R3 & R4). destruct (collect_nonces _ _ pos_nonce_step _ _ _ _ _ Hn H1) as [N1 E1].
  assert (v_tok v1 = v_tok v /\ v_ord v1 = v_ord v /\ v_utxo v1 = v_utxo v) as (A1 & A2 & A3).
  { apply (collect_keeps (fun v v' => v_tok v' = v_tok v /\ v_ord v' = v_ord v /\ v_utxo v' = v_utxo v) (pos_input S src)) with (l := tx_inputs tx) (us := us1); [auto| | |exact H1].
    - intros ? ? ? (-> & -> & ->) (-> & -> & ->). auto.
    - intros w [k|nonce del a|nonce c|c] w' us Hw; cbn [pos_input] in Hw; try (injection Hw as <- <-; auto; fail).
      + destruct (vw_utxo (utxos_now S w) k) as [u|]; [|discriminate Hw]. destruct (u_output u); try (injection Hw as <- <-; auto; fail); exact (proj2 (do_pos_rest _ _ _ _ _ Hw)).
      + apply rbind_ok in Hw as (w1 & E & Hw). destruct (do_pos_rest _ _ _ _ _ Hw) as (_ & -> & -> & ->). exact (do_spend_rest _ _ _ _ E). }
  assert (rest v1 v2 /\ v_tok v2 = v_tok v1 /\ v_ord v2 = v_ord v1 /\ v_utxo v2 = v_utxo v1) as (B0 & B1 & B2 & B3).
  { apply (collect_keeps (fun v v' => rest v v' /\ v_tok v' = v_tok v /\ v_ord v' = v_ord v /\ v_utxo v' = v_utxo v) (pos_output cc h S src (tx_inputs tx))) with (l := tx_outputs tx) (us := us2); [unfold rest; auto| | |exact H2].
    - unfold rest. intros ? ? ? (-> & -> & -> & ->) (-> & -> & -> & ->). auto.
    - intros w o w' us Hw. destruct o; cbn [pos_output] in Hw; try (injection Hw as <- <-; unfold rest; auto; fail).
      + apply rbind_ok in Hw as (ex & _ & Hw). apply rbind_ok in Hw as ([] & _ & Hw). apply rbind_ok in Hw as ([] & _ & Hw). exact (do_pos_rest _ _ _ _ _ Hw).
      + apply rbind_ok in Hw as (ex & _ & Hw). exact (do_pos_rest _ _ _ _ _ Hw).
      + exact (do_pos_rest _ _ _ _ _ Hw). }
  unfold rest in *. split; [congruence|]. split; [congruence|]. split; [congruence|]. split; [rewrite R1, B0; exact N1|exact E1].
Qed.
Lemma connect_tok_rest cc h v tx v' n : ninv (k_uses p) (v_nonce v) n -> connect_tok cc h S src v tx = Ok v' ->
  v_ord v' = v_ord v /\ ninv (k_uses p) (v_nonce v') (fun a => n a + cnt token_account (tx_inputs tx) a) /\
  forall i a m, i ∈ tx_inputs tx -> token_account i = Some a -> nonce_use i = Some (a, m) -> n a <= m < n a + cnt token_account (tx_inputs tx) a.
Proof.
  intros Hn H. unfold connect_tok in H. apply rbind_ok in H as ([] & _ & H). apply rbind_ok in H as ([v1 us1] & H1 & H). apply rbind_ok in H as ([v2 us2] & H2 & H).
  destruct (add_tundo_rest _ _ _ _ _ H) as (R1 & R3). destruct (collect_nonces _ _ (tok_nonce_step _) _ _ _ _ _ Hn H1) as [N1 E1].
  assert (v_ord v1 = v_ord v) as A2.
  { apply (collect_keeps (fun v v' => v_ord v' = v_ord v) (tok_input S (tx_outputs tx))) with (l := tx_inputs tx) (us := us1); [auto|congruence| |exact H1].
    intros w [k|nonce del a|nonce c|c] w' us Hw; cbn [tok_input] in Hw; try (injection Hw as <- <-; auto; fail).
    destruct c as [id a|id|id|id b0|id|id dst|id|id a dst|id uri]; try (injection Hw as <- <-; reflexivity); apply rbind_ok in Hw as (w1 & E & Hw);
      destruct (do_spend_rest _ _ _ _ E) as (_ & <- & _); try exact (proj2 (do_tok_rest _ _ _ _ Hw)).
    apply rbind_ok in Hw as (bd & _ & Hw). destruct (0 <? bd); [exact (proj2 (do_tok_rest _ _ _ _ Hw))|]. injection Hw as <- <-. reflexivity. }
  assert (rest v1 v2 /\ v_ord v2 = v_ord v1) as (B0 & B2).
  { apply (collect_keeps (fun v v' => rest v v' /\ v_ord v' = v_ord v) (tok_output cc h S (tx_inputs tx))) with (l := tx_outputs tx) (us := us2); [unfold rest; auto| | |exact H2].
    - unfold rest. intros ? ? ? (-> & ->) (-> & ->). auto.
    - intros w o w' us Hw. destruct o; cbn [tok_output] in Hw; try (injection Hw as <- <-; unfold rest; auto; fail).
      apply rbind_ok in Hw as (ex & _ & Hw). exact (do_tok_rest _ _ _ _ Hw). }
  unfold rest in *. split; [congruence|]. split; [rewrite R1, B0; exact N1|exact E1].
Qed.
Lemma connect_ord_nonces cc v tx v' n : ninv (k_uses p) (v_nonce v) n -> connect_ord cc S src v tx = Ok v' ->
  forall i a m, i ∈ tx_inputs tx -> order_account i = Some a -> nonce_use i = Some (a, m) -> n a <= m < n a + cnt order_account (tx_inputs tx) a.
Proof.
  intros Hn H. unfold connect_ord in H. apply rbind_ok in H as ([v1 us1] & H1 & H). exact (proj2 (collect_nonces _ _ ord_nonce_step _ _ _ _ _ Hn H1)).
Qed.
Lemma connect_ord_command cc v tx v' i : (count is_command (tx_inputs tx) <= 1)%nat -> i ∈ tx_inputs tx -> is_command i = true -> connect_ord cc S src v tx = Ok v' ->
  exists r, ord_input S v i = Ok r.
Proof.
  intros Hc Hi Ei H. unfold connect_ord in H. apply rbind_ok in H as ([v1 us1] & H1 & _). revert Hc Hi v v1 us1 H1. generalize (tx_inputs tx). clear -Ei.
  intros l. induction l as [|j l IH]; intros Hc Hi v v1 us1 H1; [inversion Hi|]. cbn [collect] in H1. apply rbind_ok in H1 as ([w us] & Hj & H1). apply rbind_ok in H1 as ([w2 us2] & H2 & _).
  apply elem_of_cons in Hi as [->|Hi]; [eauto|]. unfold count in Hc. cbn [List.filter] in Hc.
  destruct (is_command j) eqn:Ej.
  - exfalso. cbn [length] in Hc. assert (In i (List.filter is_command l)) as G by (apply filter_In; split; [apply elem_of_list_In; exact Hi|exact Ei]).
    destruct (List.filter is_command l); [destruct G|cbn in Hc; lia].
  - assert (w = v) as ->; [|exact (IH Hc Hi _ _ _ H2)]. destruct j; try discriminate Ej; cbn [ord_input] in Hj; injection Hj as <- <-; reflexivity.
Qed.

(** Frozen tokens *)
Lemma not_frozen_ok V T id : tok_reads V T -> not_frozen V id = Ok tt -> ~ tok_frozen T id.
Proof.
  intros HV H (t & Ht & Hf). unfold not_frozen in H. rewrite (proj1 (HV id)) in H. cbn [rmap_err rbind] in H. rewrite Ht in H. apply ensure_ok in H. rewrite Hf in H. discriminate H.
Qed.
Lemma value_not_frozen_ok V T id x : tok_reads V T -> tok_frozen T id -> value_not_frozen V x = Ok tt -> id ∉ value_tokens x.
Proof.
  intros HV Hf H. destruct x as [a| |i a]; cbn [value_tokens]; [apply not_elem_of_nil..|]. cbn [value_not_frozen] in H. intros Hin. apply elem_of_list_singleton in Hin as ->.
  exact (not_frozen_ok _ _ _ HV H Hf).
Qed.
Lemma output_not_frozen_ok V T id o : tok_reads V T -> tok_frozen T id -> output_not_frozen V o = Ok tt -> id ∉ moves o.
Proof.
  intros HV Hf H. destruct o; cbn [moves output_not_frozen] in *; try apply not_elem_of_nil; try exact (value_not_frozen_ok _ _ _ _ HV Hf H).
  apply rbind_ok in H as ([] & H1 & H2). unfold order_tokens. rewrite elem_of_app. intros [G|G]; [exact (value_not_frozen_ok _ _ _ _ HV Hf H1 G)|exact (value_not_frozen_ok _ _ _ _ HV Hf H2 G)].
Qed.
Lemma check_frozen_ok cc h v tx s id : tok_reads (tok_cache_view (st_tok S) (v_tok v)) (k_tok s) -> ord_reads (ord_cache_view (st_ord S) (v_ord v)) (k_ord s) ->
  (forall k, vw_utxo (utxos_now S v) k = us_map (k_utxo s) k) -> check_frozen cc h S v tx = Ok tt -> tok_frozen (k_tok s) id -> leaves_alone cc h s tx id.
Proof.
  intros HV HO HU H Hf. unfold check_frozen in H. apply rbind_ok in H as (r1 & H1 & H). apply rbind_ok in H as (r2 & H2 & _). apply rmapM_ok in H1, H2.
  assert (forall i, i ∈ tx_inputs tx -> input_not_frozen cc h S v i = Ok tt) as G1.
  { intros i Hi. apply elem_of_list_lookup in Hi as (j & Hj). destruct (Forall2_lookup_l _ _ _ _ _ H1 Hj) as ([] & _ & G). exact G. }
  assert (forall o, o ∈ tx_outputs tx -> output_not_frozen (tok_cache_view (st_tok S) (v_tok v)) o = Ok tt) as G2.
  { intros i Hi. apply elem_of_list_lookup in Hi as (j & Hj). destruct (Forall2_lookup_l _ _ _ _ _ H2 Hj) as ([] & _ & G). exact G. }
  constructor.
  - intros o Ho. exact (output_not_frozen_ok _ _ _ _ HV Hf (G2 o Ho)).
  - intros Hc k u Hk Hu. specialize (G1 _ Hk). cbn [input_not_frozen] in G1. rewrite HU, Hu, Hc in G1. exact (output_not_frozen_ok _ _ _ _ HV Hf G1).
  - intros i oid d Hi Hm Hd. specialize (G1 _ Hi).
    assert (order_not_frozen S v oid = Ok tt) as G. { destruct i as [k|? ? ?|? []|[]]; try discriminate Hm; injection Hm as ->; exact G1. }
    unfold order_not_frozen in G. destruct HO as [HO _]. rewrite (proj1 (HO oid)), Hd in G. cbn [rmap_err rbind ok_or] in G. apply rbind_ok in G as ([] & A1 & A2).
    unfold order_tokens. rewrite elem_of_app. intros [G|G]; [exact (value_not_frozen_ok _ _ _ _ HV Hf A1 G)|exact (value_not_frozen_ok _ _ _ _ HV Hf A2 G)].
  - intros n c Hi Hc. specialize (G1 _ Hi). cbn [input_not_frozen] in G1. destruct c; cbn [command_account] in Hc; try discriminate Hc; injection Hc as ->; try reflexivity;
      destruct (not_frozen_ok _ _ _ HV G1 Hf).
Qed.

Lemma connect_tx_checks cc h mtp v tx v' fee s : vnow p b v s -> connect_tx cc h mtp S src v tx = Ok (v', fee) ->
  exists utxos, tx_checked cc h s tx utxos fee.
Proof.
  intros Hn H. unfold connect_tx in H. apply rbind_ok in H as ([] & Hc & H). apply rbind_ok in H as (v1 & Hreg & H).
  apply rbind_ok in H as (fee' & Hpol & H). apply rbind_ok in H as ([] & _ & H). apply rbind_ok in H as (v2 & Hpos & H).
  apply rbind_ok in H as (v3 & Htok & H). apply rbind_ok in H as (v4 & Hord & H). apply rbind_ok in H as (v5 & _ & [= <- <-]).
  destruct (register_ok _ _ _ _ _ _ Hn Hreg) as (m & i & -> & _).
  assert (forall k, vw_utxo (utxos_now S (set_issuance v m i)) k = us_map (k_utxo s) k) as HU by (intros k; exact (now_utxo v s k Hn)).
  assert (views_read (views_now S (set_issuance v m i)) (k_ledger s)) as HV by exact (now_views v s Hn).
  unfold check_transaction in Hc. apply rbind_ok in Hc as ([] & H1 & Hc). apply ensure_ok, andb_true_iff in H1 as [H1 H2].
  apply negb_true_iff, bool_decide_eq_false in H1. apply bool_decide_eq_true in H2.
  apply rbind_ok in Hc as ([] & H3 & Hc). apply ensure_ok in H3. apply rbind_ok in Hc as ([] & H5 & Hc). apply ensure_ok, Nat.leb_le in H5.
  apply rbind_ok in Hc as ([] & H4 & Hc). apply ensure_ok in H4. apply ensure_ok in Hc.
  unfold check_tx_policy in Hpol. apply rbind_ok in Hpol as (utxos & Hu & Hpol). apply rbind_ok in Hpol as ([] & Hpur & Hpol).
  apply rbind_ok in Hpol as (fee'' & Hval & Hpol). apply rbind_ok in Hpol as ([] & _ & [= ->]). apply rmap_err_ok in Hval.
  destruct (connect_pos_rest cc h (set_issuance v m i) tx v2 _ (vn_nonce _ _ _ _ Hn) Hpos) as (P1 & P2 & P3 & Np & Ep).
  destruct (connect_tok_rest _ _ _ _ _ _ Np Htok) as (T2 & Nt & Et). pose proof (connect_ord_nonces _ _ _ _ _ Nt Hord) as Eo.
  cbn [set_issuance v_tok v_ord v_utxo] in P1, P2, P3.
  exists utxos. constructor; try assumption.
  - exact (now_sound v s Hn).
  - apply rmapM_ok in Hu. eapply Forall2_impl; [exact Hu|]. cbn beta. intros [k|? ? ?|? ?|?] o Ho; try (injection Ho as <-; reflexivity).
    rewrite HU in Ho. destruct (us_map (k_utxo s) k) as [u|]; [|discriminate Ho]. injection Ho as <-. exists u. auto.
  - eauto.
  - intros q dat Hq. unfold connect_pos in Hpos. apply rbind_ok in Hpos as ([w1 us1] & _ & Hpos). apply rbind_ok in Hpos as ([w2 us2] & H2' & _).
    destruct (collect_each _ _ _ Hq _ _ H2') as (w & r & E). cbn [pos_output] in E. apply rbind_ok in E as (ex & He & E).
    apply rbind_ok in E as ([] & Hx & _). apply ensure_ok, N.eqb_eq in Hx as ->. unfold make_pool_id in He.
    destruct (first_outpoint (tx_inputs tx)) as [k|]; [|discriminate He]. injection He as <-. eauto.
  - intros j a n Hj Hu'. pose proof (cnt_split (tx_inputs tx) a) as Hs. specialize (Ep j a n Hj). specialize (Et j a n Hj). specialize (Eo j a n Hj).
    destruct j as [k|n0 del am|n0 c|c]; try discriminate Hu'; cbn [nonce_use] in *.
    + injection Hu' as <- <-. specialize (Ep eq_refl eq_refl). lia.
    + injection Hu' as <- <-. cbn [token_account order_account] in Et, Eo. destruct (command_account c) as [id|id|id] eqn:Ec.
      * destruct c; discriminate Ec.
      * specialize (Et eq_refl eq_refl). assert (cnt deleg_account (tx_inputs tx) (AccToken id) = 0) as Z.
        { apply sum_over_zero. intros y _. rewrite decide_False; [reflexivity|]. destruct y; discriminate. } rewrite Z in *. lia.
      * specialize (Eo eq_refl eq_refl). assert (cnt deleg_account (tx_inputs tx) (AccOrder id) = 0) as Z.
        { apply sum_over_zero. intros y _. rewrite decide_False; [reflexivity|]. destruct y; discriminate. }
        assert (cnt token_account (tx_inputs tx) (AccOrder id) = 0) as Z2.
        { apply sum_over_zero. intros y _. rewrite decide_False; [reflexivity|]. destruct y as [| |? cm|]; cbn; try discriminate. destruct (command_account cm); discriminate. }
        rewrite Z, Z2 in *. lia.
  - intros id Hid.
    assert (count is_command (tx_inputs tx) <= 1)%nat as Hone.
    { unfold check_tx_purposes in Hpur. apply rbind_ok in Hpur as ([] & _ & Hpur). apply rbind_ok in Hpur as ([] & G & _). apply ensure_ok, Nat.leb_le in G. exact G. }
    destruct (connect_ord_command _ _ _ _ _ Hone Hid eq_refl Hord) as ([w us] & G). cbn [ord_input] in G.
    assert (ord_inv (k_ord p) (v_ord v3) (k_ord s)) as I by (rewrite T2, P2; exact (vn_ord _ _ _ _ Hn)).
    destruct (do_ord_ok S p HS _ _ _ _ _ I G) as (A & s' & u & _ & _ & E & _). cbn [ord_step] in E.
    destruct (os_data (k_ord s) id) as [d|]; [|discriminate E]. destruct (od_frozen d) eqn:Ef; [discriminate E|]. eauto.
  - intros id Hfr. unfold connect_tok in Htok. apply rbind_ok in Htok as ([] & Hck & _).
    apply (check_frozen_ok cc h v2 tx s id); [| | |exact Hck|exact Hfr].
    + rewrite P1. exact (proj1 (proj2 HV)).
    + rewrite P2. exact (proj2 (proj2 HV)).
    + intros k. rewrite <- HU. unfold utxos_now. rewrite P3. reflexivity.
Qed.

Lemma connect_tx_ok cc h mtp v tx v' fee s :
  vnow p b v s -> vrec p b v s ->
  ut_tx (k_u s) !! (src, tx_id tx) = None -> ut_tx (k_p s) !! (src, tx_id tx) = None ->
  ut_tx (k_t s) !! (src, tx_id tx) = None -> ut_tx (k_o s) !! (src, tx_id tx) = None ->
  k_index s (tx_id tx) = None -> absent (us_map (k_utxo s)) (created (FromTx (tx_id tx)) (tx_outputs tx)) ->
  (forall u, ~ has_child (ut_add (k_u s) src (tx_id tx) (u, map fst (spent_by (tx_inputs tx)))) src (tx_id tx)) ->
  fit pos_step pos_fits (k_pos s) (pos_ops cc (us_map (k_utxo s)) tx) -> fit tok_step tok_fits (k_tok s) (tok_ops cc h tx) ->
  connect_tx cc h mtp S src v tx = Ok (v', fee) ->
  exists x s', tx_done cc h b s tx x s' /\ vnow p b v' s' /\ vrec p b v' s'.
Proof.
  intros Hn Hr Nu Np Nt No Ni Ha Hleaf Fp Ft H. unfold connect_tx in H. apply rbind_ok in H as ([] & _ & H). apply rbind_ok in H as (v1 & Hreg & H).
  apply rbind_ok in H as (fee' & _ & H). apply rbind_ok in H as ([] & _ & H). apply rbind_ok in H as (v2 & Hp & H).
  apply rbind_ok in H as (v3 & Ht & H). apply rbind_ok in H as (v4 & Ho & H). apply rbind_ok in H as (v5 & Hu & [= <- <-]).
  destruct (register_ok _ _ _ _ _ _ Hn Hreg) as (m & i & -> & Haux).
  assert (forall k, vw_utxo (utxos_now S (set_issuance v m i)) k = us_map (k_utxo s) k) as HU by (intros k; exact (now_utxo v s k Hn)).
  destruct (connect_pos_ok S p b HS cc h (us_map (k_utxo s)) (set_issuance v m i) tx v2 (k_pos s) (k_uses s) (k_p p) (k_p s) (vn_pos _ _ _ _ Hn) (vn_nonce _ _ _ _ Hn)
    (vr_p _ _ _ _ Hr) Np HU Fp Hp) as (A & c & st & sp & us & -> & Rp & Pp & Ip & Nn & Rr).
  match type of Ht with connect_tok _ _ _ _ ?w _ = _ => set (w2 := w) in Ht end.
  destruct (connect_tok_ok S p b HS cc h w2 tx v3 (k_tok s) _ (k_t p) (k_t s) (vn_tok _ _ _ _ Hn) Nn
    (vr_t _ _ _ _ Hr) Nt Ft Ht) as (At & ct & stt & spt & ust & -> & Rt & Pt & It & Nnt & Rrt).
  match type of Ho with connect_ord _ _ _ ?w _ = _ => set (w3 := w) in Ho end.
  destruct (connect_ord_ok S p b HS cc w3 tx v4 (k_ord s) _ (k_o p) (k_o s) (vn_ord _ _ _ _ Hn) Nnt
    (vr_o _ _ _ _ Hr) No Ho) as (Ao & co & sto & spo & uso & -> & Ro & Po & Io & Nno & Rro).
  match type of Hu with connect_utxo _ _ _ ?w _ = _ => set (w4 := w) in Hu end.
  destruct (connect_utxo_ok S p b HS h w4 tx v5 (k_utxo s) (k_u p) (k_u s) (vn_utxo _ _ _ _ Hn) (vr_u _ _ _ _ Hr) Nu Ha Hu)
    as (cu & stu & su & uu & -> & Eu & Uu & Iu & Rru).
  exists (TxUndo uu us ust uso).
  exists (Books su sp spt spo (fun a => k_uses s a + cnt account_of (tx_inputs tx) a)
    (match issued_nft (tx_outputs tx) with Some id => set_at (k_aux s) id (Some (tx, b)) | None => k_aux s end)
    (match issued_nft (tx_outputs tx) with Some id => set_at (k_index s) (tx_id tx) (Some id) | None => k_index s end)
    (ut_add (k_u s) src (tx_id tx) (uu, map fst (spent_by (tx_inputs tx)))) (rec_add (k_p s) src (tx_id tx) us)
    (rec_add (k_t s) src (tx_id tx) ust) (rec_add (k_o s) src (tx_id tx) uso)).
  split; [|split].
  - constructor; cbn [k_utxo k_pos k_tok k_ord k_uses k_aux k_index k_u k_p k_t k_o x_u x_p x_t x_o]; try assumption; try reflexivity.
    + destruct (issued_nft (tx_outputs tx)) as [id|]; [|split; reflexivity]. destruct Haux as (H1 & H2 & _). auto 10.
    + apply Hleaf.
  - constructor; cbn [k_utxo k_pos k_tok k_ord k_uses k_aux k_index]; try assumption.
    + revert Nno. apply ninv_ext. intros a. pose proof (cnt_split (tx_inputs tx) a). lia.
    + cbn. destruct (issued_nft (tx_outputs tx)) as [id|]; [exact (proj1 (proj2 (proj2 Haux)))|]. destruct Haux as [-> _]. exact (vn_aux _ _ _ _ Hn).
    + cbn. destruct (issued_nft (tx_outputs tx)) as [id|]; [exact (proj2 (proj2 (proj2 Haux)))|]. destruct Haux as [_ ->]. exact (vn_index _ _ _ _ Hn).
  - constructor; assumption.
Qed.

Lemma disconnect_tx_ok cc h v tx x s s' ids :
  vnow p b v s' -> vret p b (tx_id tx :: ids) v s' -> tx_id tx ∉ ids -> tx_done cc h b s tx x s' ->
  exists v', disconnect_tx S src v tx = Ok v' /\ vnow p b v' s /\ vret p b ids v' s.
Proof.
  intros Hn Hr Hni D. unfold disconnect_tx.
  assert (ut_tx (k_u s') !! (src, tx_id tx) = Some (x_u x, map fst (spent_by (tx_inputs tx)))) as Eu.
  { rewrite (td_u _ _ _ _ _ _ _ D). cbn. apply lookup_insert. }
  assert (child_block (k_u s') src (tx_id tx) = false) as Eb.
  { unfold child_block. apply bool_decide_eq_false. exact (td_leaf _ _ _ _ _ _ _ D). }
  destruct (ur_take _ _ _ _ _ _ _ (vt_u _ _ _ _ _ Hr) Hni Eu Eb) as (stu & E1 & Ru). rewrite E1. cbn [rmap_err rbind ok_or fst].
  rewrite (td_u _ _ _ _ _ _ _ D), ut_del_add in Ru by exact (td_new_u _ _ _ _ _ _ _ D).
  destruct (undo_nonces_ok S p HS (tx_inputs tx) (set_uundo v stu) (k_uses s') (vn_nonce _ _ _ _ Hn)) as (cn & E2 & Nn).
  { intros a. rewrite (td_uses _ _ _ _ _ _ _ D). lia. }
  rewrite E2. cbn [rbind].
  pose proof (vt_p _ _ _ _ _ Hr) as Rp. rewrite (td_p _ _ _ _ _ _ _ D) in Rp.
  destruct (undo_pos_ok S p b HS (set_nonce (set_uundo v stu) cn) (tx_id tx) _ _ _ _ _ _ (vn_pos _ _ _ _ Hn) (td_ppath _ _ _ _ _ _ _ D) Rp Hni
    (td_new_p _ _ _ _ _ _ _ D)) as (Ap & stp & E3 & Ip & Rp'). rewrite E3. cbn [rbind].
  pose proof (vt_t _ _ _ _ _ Hr) as Rt. rewrite (td_t _ _ _ _ _ _ _ D) in Rt.
  destruct (undo_tok_ok S p b HS (set_pos (set_pundo (set_nonce (set_uundo v stu) cn) stp) Ap) (tx_id tx) _ _ _ _ _ _ (vn_tok _ _ _ _ Hn)
    (td_tpath _ _ _ _ _ _ _ D) Rt Hni (td_new_t _ _ _ _ _ _ _ D)) as (At & stt & E4 & It & Rt'). rewrite E4. cbn [rbind].
  pose proof (vt_o _ _ _ _ _ Hr) as Ro. rewrite (td_o _ _ _ _ _ _ _ D) in Ro.
  destruct (undo_ord_ok S p b HS (set_tok (set_tundo (set_pos (set_pundo (set_nonce (set_uundo v stu) cn) stp) Ap) stt) At) (tx_id tx) _ _ _ _ _ _
    (vn_ord _ _ _ _ Hn) (td_opath _ _ _ _ _ _ _ D) Ro Hni (td_new_o _ _ _ _ _ _ _ D)) as (Ao & sto & E5 & Io & Ro'). rewrite E5. cbn [rbind].
  destruct (undo_refines _ _ _ _ _ _ (si_utxo _ _ HS) (vn_utxo _ _ _ _ Hn) (td_uundo _ _ _ _ _ _ _ D)) as (cu & E6 & Iu).
  cbn [run_undo] in E6. cbn [v_utxo set_ord set_oundo set_tok set_tundo set_pos set_pundo set_nonce set_uundo].
  destruct (UtxoModel.disconnect_transaction (st_utxo S) (v_utxo v) tx (x_u x)) as [c0 [[]|e|]]; [|discriminate E6..].
  cbn [lift rmap rmap_err] in E6. injection E6 as ->.
  assert (ninv (k_uses p) cn (k_uses s)) as Nn'.
  { revert Nn. apply ninv_ext. intros a. rewrite (td_uses _ _ _ _ _ _ _ D). lia. }
  unfold unregister_issuance. pose proof (td_aux _ _ _ _ _ _ _ D) as Haux. destruct (issued_nft (tx_outputs tx)) as [id|].
  - destruct Haux as (_ & A1 & A2 & A3 & A4). unfold precache_issuance.
    cbn [v_aux v_index set_utxo set_ord set_oundo set_tok set_tundo set_pos set_pundo set_nonce set_uundo].
    pose proof (vn_aux _ _ _ _ Hn id) as Hid. rewrite A3 in Hid. unfold set_at in Hid. rewrite decide_True in Hid by reflexivity.
    destruct (v_aux v !! id) as [[y|y|]|] eqn:Ea; [exfalso; exact (vt_aux _ _ _ _ _ Hr id y Ea)|destruct Hid|discriminate Hid|].
    cbn [rbind]. rewrite (si_aux _ _ HS), <- Hid. rewrite lookup_insert. eexists. split; [reflexivity|]. split; constructor; try assumption.
    + cbn. rewrite insert_insert. apply (ainv_erase _ _ (k_aux s')); [exact (vn_aux _ _ _ _ Hn)| |exact A1].
      intros t Ht. rewrite A3. unfold set_at. rewrite decide_False by exact Ht. reflexivity.
    + cbn. apply (ainv_erase _ _ (k_index s')); [exact (vn_index _ _ _ _ Hn)| |exact A2].
      intros t Ht. rewrite A4. unfold set_at. rewrite decide_False by exact Ht. reflexivity.
    + cbn. intros t y. rewrite insert_insert. destruct (decide (t = id)) as [->|Ht]; [rewrite lookup_insert; discriminate|].
      rewrite lookup_insert_ne by congruence. exact (vt_aux _ _ _ _ _ Hr t y).
  - destruct Haux as [A1 A2]. eexists. split; [reflexivity|]. split; constructor; try assumption.
    + cbn. exact (ainv_ext _ _ _ _ A1 (vn_aux _ _ _ _ Hn)).
    + cbn. exact (ainv_ext _ _ _ _ A2 (vn_index _ _ _ _ Hn)).
    + cbn. exact (vt_aux _ _ _ _ _ Hr).
Qed.
End tx.
