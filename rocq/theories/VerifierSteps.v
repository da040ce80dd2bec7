(** What the verifier does with a transaction, by parts: the operations a transaction stands for, and that the verifier's
    caches follow them. *)
From Verif Require Import Base BaseProofs AmountModel DeltaModel DeltaProofs LayeredModel TokensModel OrdersModel PosModel PrimModel ChainModel
  UtxoModel ConstraintsModel RewardModel UndoCacheModel NonceModel VerifierModel.
From Verif Require Import TokensSpec TokensProofs OrdersSpec OrdersProofs PosSpec PosProofs UtxoSpec UtxoProofs ConstraintsSpec
  ConstraintsProofs RewardSpec RewardProofs UndoCacheSpec UndoCacheProofs NonceProofs VerifierRecords.
Local Open Scope N_scope.

(** ** Books: everything the database stands for *)
Record books := Books {
  k_utxo : utxo_state; k_pos : pos_state; k_tok : tok_state; k_ord : ord_state; k_uses : account_type -> N;
  k_aux : N -> option aux_data; k_index : N -> option N;
  k_u : undo_table (list (option utxo) * list source_id) (list utxo); k_p : undo_table (list pos_undo) (list pos_undo);
  k_t : undo_table (list tok_undo) (list tok_undo); k_o : undo_table (list ord_undo) (list ord_undo) }.
Definition k_ledger (s : books) : ledger := Ledger (k_pos s) (k_tok s) (k_ord s).

(** The nonce stored for an account used [n] times *)
Definition nonce_of (n : N) : option N := if n =? 0 then None else Some (n - 1).

Record store_is (S : store) (p : books) : Prop := {
  si_utxo : utxo_reads (st_utxo S) (k_utxo p); si_pos : pos_reads (st_pos S) (k_pos p);
  si_tok : tok_reads (st_tok S) (k_tok p); si_ord : ord_reads (st_ord S) (k_ord p);
  si_nonce : forall a, st_nonce S a = nonce_of (k_uses p a); si_aux : forall t, st_aux S t = k_aux p t }.

(** ** Lists of operations *)
Fixpoint ran {St O E} (step : St -> O -> res E St) (s : St) (l : list O) (s' : St) : Prop :=
  match l with [] => s' = s | o :: l' => exists s1, step s o = Ok s1 /\ ran step s1 l' s' end.
Fixpoint fit {St O E} (step : St -> O -> res E St) (fits : St -> O -> Prop) (s : St) (l : list O) : Prop :=
  match l with [] => True | o :: l' => fits s o /\ forall s1, step s o = Ok s1 -> fit step fits s1 l' end.
Fixpoint path {St U} (undoes : U -> St -> St -> Prop) (us : list U) (s s' : St) : Prop :=
  match us with [] => s' = s | u :: us' => exists s1, undoes u s1 s /\ path undoes us' s1 s' end.

Lemma ran_app {St O E} (step : St -> O -> res E St) l1 l2 s s2 :
  ran step s (l1 ++ l2) s2 <-> exists s1, ran step s l1 s1 /\ ran step s1 l2 s2.
Proof.
  revert s. induction l1 as [|o l1 IH]; intros s; cbn.
  - split; [intros H; exists s; auto|intros (s1 & -> & H); exact H].
  - split.
    + intros (s1 & H1 & H). apply IH in H as (s3 & H2 & H3). exists s3. split; [exists s1; auto|exact H3].
    + intros (s3 & (s1 & H1 & H2) & H3). exists s1. split; [exact H1|]. apply IH. exists s3. auto.
Qed.
Lemma path_app {St U} (un : U -> St -> St -> Prop) l1 l2 s s2 :
  path un (l1 ++ l2) s s2 <-> exists s1, path un l1 s s1 /\ path un l2 s1 s2.
Proof.
  revert s. induction l1 as [|o l1 IH]; intros s; cbn.
  - split; [intros H; exists s; auto|intros (s1 & -> & H); exact H].
  - split.
    + intros (s1 & H1 & H). apply IH in H as (s3 & H2 & H3). exists s3. split; [exists s1; auto|exact H3].
    + intros (s3 & (s1 & H1 & H2) & H3). exists s1. split; [exact H1|]. apply IH. exists s3. auto.
Qed.
Lemma fit_app {St O E} (step : St -> O -> res E St) fits l1 l2 s :
  fit step fits s (l1 ++ l2) <-> fit step fits s l1 /\ forall s1, ran step s l1 s1 -> fit step fits s1 l2.
Proof.
  revert s. induction l1 as [|o l1 IH]; intros s; cbn.
  - split; [intros H; split; [exact Logic.I|]; intros s1 ->; exact H|intros [_ H]; exact (H s eq_refl)].
  - split.
    + intros [H1 H2]. split; [split; [exact H1|]|].
      * intros s1 E1. exact (proj1 (proj1 (IH s1) (H2 s1 E1))).
      * intros s3 (s1 & E1 & R). exact (proj2 (proj1 (IH s1) (H2 s1 E1)) s3 R).
    + intros [[H1 H2] H3]. split; [exact H1|]. intros s1 E1. apply IH. split; [exact (H2 s1 E1)|].
      intros s3 R. apply H3. exists s1. auto.
Qed.

Definition pos_ops_in (U : outpoint -> option utxo) (i : tx_input) : list pos_op :=
  match i with
  | InUtxo k => match U k with
                | Some u => match u_output u with OCreateStakePool p _ | OProduceBlockFromStake _ p => [DecommissionPool p] | _ => [] end
                | None => []
                end
  | InAccount _ del a => [SpendShare del a]
  | InCommand _ _ | InOrder _ => []
  end.
Definition pos_ops_out (cc : chain_config) (ins : list tx_input) (o : tx_output) : list pos_op :=
  match o with
  | OCreateStakePool p x => [CreatePool p (pool_of x)]
  | OCreateDelegationId d p => match first_outpoint ins with Some k => [CreateDelegation p (cc_delegation_id cc k) d] | None => [] end
  | ODelegateStaking a del => [Delegate del a]
  | _ => []
  end.
Definition burned (id : N) (outs : list tx_output) : N :=
  sum_over (fun o => match o with OBurn (OvToken i a) => if i =? id then a else 0 | _ => 0 end) outs.
Definition tok_ops_in (outs : list tx_output) (i : tx_input) : list tok_op :=
  match i with
  | InCommand _ c =>
      match c with
      | CmdMint id a => [MintTokens id a]
      | CmdUnmint id => if 0 <? burned id outs then [UnmintTokens id (burned id outs)] else []
      | CmdLockSupply id => [LockSupply id]
      | CmdFreeze id u => [FreezeToken id u]
      | CmdUnfreeze id => [UnfreezeToken id]
      | CmdChangeAuthority id d => [ChangeAuthority id d]
      | CmdChangeUri id uri => [ChangeMetadataUri id uri]
      | CmdConcludeOrder _ | CmdFillOrder _ _ _ => []
      end
  | _ => []
  end.
Definition token_id (cc : chain_config) (h : N) (ins : list tx_input) : option N :=
  match make_token_id cc h ins with Ok id => Some id | _ => None end.
Definition tok_ops_out (cc : chain_config) (h : N) (ins : list tx_input) (o : tx_output) : list tok_op :=
  match o with
  | OIssueFungibleToken x => match token_id cc h ins with Some id => [IssueToken id (token_of x)] | None => [] end
  | _ => []
  end.
Definition ord_ops_in (i : tx_input) : list ord_op :=
  match i with
  | InCommand _ (CmdConcludeOrder id) | InOrder (OcConclude id) => [ConcludeOrder id]
  | InCommand _ (CmdFillOrder id a _) => [FillOrder id a OrdersV0]
  | InOrder (OcFill id a) => [FillOrder id a OrdersV1]
  | InOrder (OcFreeze id) => [FreezeOrder id]
  | _ => []
  end.
Definition ord_ops_out (cc : chain_config) (ins : list tx_input) (o : tx_output) : list ord_op :=
  match o with
  | OCreateOrder d => match first_outpoint ins with Some k => [CreateOrder (cc_order_id cc k) (new_order d)] | None => [] end
  | _ => []
  end.

(** ** Nonces *)
Definition ninv (p : account_type -> N) (c : nonce_cache) (n : account_type -> N) : Prop :=
  no_read c /\ forall a, get_nonce (fun a => nonce_of (p a)) c a = nonce_of (n a).
(** How often the inputs use an account; [sel] says which account an input uses *)
Definition cnt (sel : tx_input -> option account_type) (ins : list tx_input) (a : account_type) : N :=
  sum_over (fun i => if decide (sel i = Some a) then 1 else 0) ins.
Definition account_of (i : tx_input) : option account_type :=
  match i with InAccount _ del _ => Some (AccDelegation del) | InCommand _ c => Some (command_account c) | InUtxo _ | InOrder _ => None end.
Definition deleg_account (i : tx_input) : option account_type := match i with InAccount _ del _ => Some (AccDelegation del) | _ => None end.
Definition token_account (i : tx_input) : option account_type :=
  match i with InCommand _ c => match command_account c with AccToken id => Some (AccToken id) | _ => None end | _ => None end.
Definition order_account (i : tx_input) : option account_type :=
  match i with InCommand _ c => match command_account c with AccOrder id => Some (AccOrder id) | _ => None end | _ => None end.

Lemma nonce_of_succ n : nonce_of (n + 1) = Some n.
Proof. unfold nonce_of. rewrite (proj2 (N.eqb_neq _ _)) by lia. f_equal. lia. Qed.
Lemma ninv_ext p c n n' : (forall a, n a = n' a) -> ninv p c n -> ninv p c n'.
Proof. intros E [H1 H2]. split; [exact H1|]. intros a. rewrite <- E. apply H2. Qed.
Lemma ninv_empty p : ninv p ∅ p.
Proof. split; [intros a n H; rewrite lookup_empty in H; discriminate|]. intros a. unfold get_nonce. rewrite lookup_empty. reflexivity. Qed.
Lemma get_nonce_ext P P' c a : (forall a, P a = P' a) -> get_nonce P c a = get_nonce P' c a.
Proof. intros E. unfold get_nonce. rewrite E. reflexivity. Qed.

Lemma get_insert P c a b o : get_nonce P (<[a := o]> c) b = if decide (b = a) then op_get o else get_nonce P c b.
Proof.
  unfold get_nonce. destruct (decide (b = a)) as [->|H]; [rewrite lookup_insert; reflexivity|].
  rewrite lookup_insert_ne by congruence. reflexivity.
Qed.

Lemma do_spend_ok S p v nonce a v' n : (forall a, st_nonce S a = nonce_of (k_uses p a)) -> ninv (k_uses p) (v_nonce v) n ->
  do_spend S v nonce a = Ok v' ->
  exists c, v' = set_nonce v c /\ ninv (k_uses p) c (fun b => n b + (if decide (Some a = Some b) then 1 else 0)).
Proof.
  intros HS [Hr Hn] H. unfold do_spend, spend_account in H. apply rbind_ok in H as (c & Hc & [= <-]). apply rmap_err_ok in Hc.
  apply rbind_ok in Hc as (ex & He & Hc). apply rbind_ok in Hc as ([] & Hq & [= <-]).
  rewrite (get_nonce_ext _ _ _ _ HS), Hn in He. eexists. split; [reflexivity|].
  assert (ex = n a) as ->.
  { unfold nonce_of in He. destruct (N.eqb_spec (n a) 0) as [E|E]; [injection He as <-; auto|]. apply ok_or_ok in He.
    unfold checked_add in He. destruct (n a - 1 + 1 <=? U64_MAX); [|discriminate He]. injection He as <-. lia. }
  unfold ensure in Hq. destruct (N.eqb_spec (n a) nonce) as [<-|]; [|discriminate Hq]. split.
  - apply no_read_insert; [exact Hr|]. intros m; discriminate.
  - intros b. rewrite get_insert. destruct (decide (b = a)) as [->|Hb].
    + rewrite decide_True by reflexivity. cbn. rewrite nonce_of_succ. reflexivity.
    + rewrite decide_False by congruence. rewrite N.add_0_r. apply Hn.
Qed.
Lemma do_unspend_ok S p v a n : (forall a, st_nonce S a = nonce_of (k_uses p a)) -> ninv (k_uses p) (v_nonce v) n -> 0 < n a ->
  exists c, do_unspend S v a = Ok (set_nonce v c) /\ ninv (k_uses p) c (fun b => n b - (if decide (Some a = Some b) then 1 else 0)).
Proof.
  intros HS [Hr Hn] Hpos. unfold do_unspend, unspend_account. rewrite (get_nonce_ext _ _ _ _ HS), Hn.
  replace (nonce_of (n a)) with (Some (n a - 1)) by (unfold nonce_of; rewrite (proj2 (N.eqb_neq _ _)) by lia; reflexivity).
  cbn [ok_or rbind rmap_err]. eexists. split; [reflexivity|]. split.
  - apply no_read_insert; [exact Hr|]. intros m. destruct (checked_sub _ _); discriminate.
  - intros b. rewrite get_insert. destruct (decide (b = a)) as [->|Hb].
    + rewrite decide_True by reflexivity. unfold checked_sub, nonce_of.
      destruct (N.leb_spec 1 (n a - 1)); cbn.
      * rewrite (proj2 (N.eqb_neq _ _)) by lia. f_equal.
      * rewrite (proj2 (N.eqb_eq _ _)) by lia. reflexivity.
    + rewrite decide_False by congruence. rewrite N.sub_0_r. apply Hn.
Qed.

Lemma cnt_nil sel a : cnt sel [] a = 0. Proof. reflexivity. Qed.
Lemma cnt_cons sel i ins a : cnt sel (i :: ins) a = (if decide (sel i = Some a) then 1 else 0) + cnt sel ins a.
Proof. reflexivity. Qed.
Lemma cnt_split ins a : cnt deleg_account ins a + cnt token_account ins a + cnt order_account ins a = cnt account_of ins a.
Proof.
  induction ins as [|i ins IH]; [reflexivity|]. rewrite !cnt_cons.
  assert ((if decide (deleg_account i = Some a) then 1 else 0) + (if decide (token_account i = Some a) then 1 else 0) +
          (if decide (order_account i = Some a) then 1 else 0) = (if decide (account_of i = Some a) then 1 else 0)); [|lia].
  destruct i as [k|nonce del am|nonce c|c]; cbn; [reflexivity| |destruct c; cbn|reflexivity];
    repeat case_decide; try reflexivity; exfalso; congruence.
Qed.

(** ** One operation *)
Section steps.
Context (S : store) (p : books) (src : tx_source) (HS : store_is S p).

Lemma do_pos_ok v s o v' us : adapter_inv src (k_pos p) (v_pos v) s -> pos_fits s o -> do_pos S src v o = Ok (v', us) ->
  exists A s' u, v' = set_pos v A /\ us = [u] /\ pos_step s o = Ok s' /\ adapter_inv src (k_pos p) A s' /\ pos_undoes u s' s.
Proof.
  intros Hi Hf H. unfold do_pos in H. pose proof (adapter_op_refines src (st_pos S) (k_pos p) (v_pos v) s o (si_pos _ _ HS) Hi Hf) as R.
  destruct (pos_step s o) as [s'|e|].
  - destruct R as (A & u & E & HA & Hu). rewrite E in H. injection H as <- <-. exists A, s', u. auto.
  - rewrite R in H. discriminate H.
  - destruct R.
Qed.
Lemma do_tok_ok v s o v' us : tok_inv (k_tok p) (v_tok v) s -> tok_fits s o -> do_tok S v o = Ok (v', us) ->
  exists A s' u, v' = set_tok v A /\ us = [u] /\ tok_step s o = Ok s' /\ tok_inv (k_tok p) A s' /\ tok_undoes u s' s.
Proof.
  intros Hi Hf H. unfold do_tok in H. pose proof (tok_op_refines (st_tok S) (k_tok p) (v_tok v) s o (si_tok _ _ HS) Hi Hf) as R.
  destruct (tok_step s o) as [s'|e|].
  - destruct R as (A & u & E & HA & Hu). rewrite E in H. injection H as <- <-. exists A, s', u. auto.
  - destruct R as (A & E & _). rewrite E in H. discriminate H.
  - destruct R.
Qed.
(** Orders that do not fit are refused. *)
Lemma into_signed_some a z : into_signed a = Some z -> (Z.of_N a <= I128_MAX)%Z.
Proof. unfold into_signed. destruct (Z.leb_spec (Z.of_N a) I128_MAX); [auto|discriminate]. Qed.
Lemma add_ask_ok c id a c' : ord_add_ask c id a = (c', Ok tt) -> (Z.of_N a <= I128_MAX)%Z.
Proof.
  unfold ord_add_ask, add_unsigned. intros H. destruct (into_signed a) as [z|] eqn:E; [exact (into_signed_some _ _ E)|]. cbn in H. discriminate H.
Qed.
Lemma add_give_ok c id a c' : ord_add_give c id a = (c', Ok tt) -> (Z.of_N a <= I128_MAX)%Z.
Proof.
  unfold ord_add_give, add_unsigned. intros H. destruct (into_signed a) as [z|] eqn:E; [exact (into_signed_some _ _ E)|]. cbn in H. discriminate H.
Qed.
Lemma ord_fits_of v s o d' u : ord_run (st_ord S) (v_ord v) o = (d', Ok u) -> ord_fits s o.
Proof.
  destruct o as [id d|id|id f ver|id]; [|intros; exact Logic.I..]. intros H s' Hs'. cbn [ord_run] in H. unfold create_order in H.
  apply on_ok_ok in H as ([a g] & Hc & H).
  apply rbind_ok in Hc as (o & _ & Hc). apply rbind_ok in Hc as ([] & _ & Hc). apply rbind_ok in Hc as (x & _ & Hc). apply rbind_ok in Hc as ([] & _ & Hc).
  apply rbind_ok in Hc as (a' & Ha & Hc). apply rbind_ok in Hc as (g' & Hg & Hc). apply rbind_ok in Hc as ([] & _ & [= -> ->]).
  apply sbind_ok in H as (c1 & u1 & _ & H). apply sbind_ok in H as (c2 & [] & H2 & H). apply sbind_ok in H as (c3 & [] & H3 & H).
  apply add_ask_ok in H2. apply add_give_ok in H3.
  cbn [ord_step] in Hs'. destruct (os_data s id); [discriminate Hs'|].
  destruct (od_ask d) as [x1| |t1 x1]; [|discriminate Ha|]; (destruct (od_give d) as [x2| |t2 x2]; [|discriminate Hg|]);
    injection Ha as <-; injection Hg as <-; cbn [side_amount] in Hs'; destruct (decide _); try discriminate Hs'; injection Hs' as <-;
    rewrite put_order_ask, put_order_give; split; assumption.
Qed.
Lemma do_ord_ok v s o v' us : ord_inv (k_ord p) (v_ord v) s -> do_ord S v o = Ok (v', us) ->
  exists A s' u, v' = set_ord v A /\ us = [u] /\ ord_step s o = Ok s' /\ ord_inv (k_ord p) A s' /\ ord_undoes u s' s.
Proof.
  intros Hi H. unfold do_ord in H.
  destruct (ord_run (st_ord S) (v_ord v) o) as [d' [u| |]] eqn:Er; [|discriminate H..]. pose proof (ord_fits_of v s o d' u Er) as Hf.
  injection H as <- <-. pose proof (ord_op_refines (st_ord S) (k_ord p) (v_ord v) s o (si_ord _ _ HS) Hi Hf) as R.
  destruct (ord_step s o) as [s'|e|].
  - destruct R as (A & u0 & E & HA & Hu). rewrite E in Er. injection Er as <- <-. exists A, s', u0. auto.
  - destruct R as (A & E & _). rewrite E in Er. discriminate Er.
  - destruct R.
Qed.

(** ** Lists of inputs and outputs *)
Lemma collect_ok {X U St O E} (f : verifier -> X -> res verr (verifier * list U)) (Q : verifier -> St -> (account_type -> N) -> Prop)
  (step : St -> O -> res E St) (fits : St -> O -> Prop) (undoes : U -> St -> St -> Prop) (ops : X -> list O) (use : X -> account_type -> N) (l : list X) :
  (forall v s n n', (forall a, n a = n' a) -> Q v s n -> Q v s n') ->
  (forall x v s n v' us, x ∈ l -> Q v s n -> fit step fits s (ops x) -> f v x = Ok (v', us) ->
     exists s', ran step s (ops x) s' /\ path undoes us s s' /\ Q v' s' (fun a => n a + use x a)) ->
  forall v s n v' us, Q v s n -> fit step fits s (concat (map ops l)) -> collect f l v = Ok (v', us) ->
    exists s', ran step s (concat (map ops l)) s' /\ path undoes us s s' /\ Q v' s' (fun a => n a + sum_over (fun x => use x a) l).
Proof.
  intros Hext Hx. induction l as [|x l IH]; intros v s n v' us HQ Hf H; cbn [collect] in H.
  - injection H as <- <-. exists s. split; [reflexivity|]. split; [reflexivity|]. apply (Hext v s n); [|exact HQ]. intros a. cbn. lia.
  - apply rbind_ok in H as ([v1 us1] & H1 & H). apply rbind_ok in H as ([v2 us2] & H2 & [= <- <-]). cbn [map concat] in Hf |- *.
    apply fit_app in Hf as [Hf1 Hf2]. destruct (Hx x v s n v1 us1 ltac:(left) HQ Hf1 H1) as (s1 & R1 & P1 & Q1).
    destruct (IH ltac:(intros; eapply Hx; [right|..]; eassumption) v1 s1 _ v2 us2 Q1 (Hf2 s1 R1) H2) as (s2 & R2 & P2 & Q2).
    exists s2. split; [apply ran_app; eauto|]. split; [apply path_app; eauto|]. revert Q2. apply Hext. intros a. rewrite sum_over_cons. lia.
Qed.

(** The parts of the verifier a pass may change *)
Definition pos_frame (v0 v : verifier) : Prop := v = set_nonce (set_pos v0 (v_pos v)) (v_nonce v).
Definition tok_frame (v0 v : verifier) : Prop := v = set_nonce (set_tok v0 (v_tok v)) (v_nonce v).
Definition ord_frame (v0 v : verifier) : Prop := v = set_nonce (set_ord v0 (v_ord v)) (v_nonce v).
Definition use_of (sel : tx_input -> option account_type) (i : tx_input) (a : account_type) : N := if decide (sel i = Some a) then 1 else 0.

Definition pos_Q (v0 v : verifier) (s : pos_state) (n : account_type -> N) : Prop :=
  pos_frame v0 v /\ adapter_inv src (k_pos p) (v_pos v) s /\ ninv (k_uses p) (v_nonce v) n.
Definition tok_Q (v0 v : verifier) (s : tok_state) (n : account_type -> N) : Prop :=
  tok_frame v0 v /\ tok_inv (k_tok p) (v_tok v) s /\ ninv (k_uses p) (v_nonce v) n.
Definition ord_Q (v0 v : verifier) (s : ord_state) (n : account_type -> N) : Prop :=
  ord_frame v0 v /\ ord_inv (k_ord p) (v_ord v) s /\ ninv (k_uses p) (v_nonce v) n.
Lemma pos_Q_ext v0 v s n n' : (forall a, n a = n' a) -> pos_Q v0 v s n -> pos_Q v0 v s n'.
Proof. intros E (H1 & H2 & H3). split; [exact H1|]. split; [exact H2|]. exact (ninv_ext _ _ _ _ E H3). Qed.
Lemma tok_Q_ext v0 v s n n' : (forall a, n a = n' a) -> tok_Q v0 v s n -> tok_Q v0 v s n'.
Proof. intros E (H1 & H2 & H3). split; [exact H1|]. split; [exact H2|]. exact (ninv_ext _ _ _ _ E H3). Qed.
Lemma ord_Q_ext v0 v s n n' : (forall a, n a = n' a) -> ord_Q v0 v s n -> ord_Q v0 v s n'.
Proof. intros E (H1 & H2 & H3). split; [exact H1|]. split; [exact H2|]. exact (ninv_ext _ _ _ _ E H3). Qed.

Lemma do_pos_Q v0 v s n o v' us : pos_Q v0 v s n -> fit pos_step pos_fits s [o] -> do_pos S src v o = Ok (v', us) ->
  exists s', ran pos_step s [o] s' /\ path pos_undoes us s s' /\ pos_Q v0 v' s' n.
Proof.
  intros (Hfr & Hi & Hn) [Hf _] H. destruct (do_pos_ok _ _ _ _ _ Hi Hf H) as (A & s' & u & -> & -> & Hs & HA & Hu).
  exists s'. split; [exists s'; split; [exact Hs|reflexivity]|]. split; [exists s'; split; [exact Hu|reflexivity]|].
  split; [|split; [exact HA|exact Hn]]. unfold pos_frame in *. rewrite Hfr. reflexivity.
Qed.
Lemma do_tok_Q v0 v s n o v' us : tok_Q v0 v s n -> fit tok_step tok_fits s [o] -> do_tok S v o = Ok (v', us) ->
  exists s', ran tok_step s [o] s' /\ path tok_undoes us s s' /\ tok_Q v0 v' s' n.
Proof.
  intros (Hfr & Hi & Hn) [Hf _] H. destruct (do_tok_ok _ _ _ _ _ Hi Hf H) as (A & s' & u & -> & -> & Hs & HA & Hu).
  exists s'. split; [exists s'; split; [exact Hs|reflexivity]|]. split; [exists s'; split; [exact Hu|reflexivity]|].
  split; [|split; [exact HA|exact Hn]]. unfold tok_frame in *. rewrite Hfr. reflexivity.
Qed.
Lemma do_ord_Q v0 v s n o v' us : ord_Q v0 v s n -> do_ord S v o = Ok (v', us) ->
  exists s', ran ord_step s [o] s' /\ path ord_undoes us s s' /\ ord_Q v0 v' s' n.
Proof.
  intros (Hfr & Hi & Hn) H. destruct (do_ord_ok _ _ _ _ _ Hi H) as (A & s' & u & -> & -> & Hs & HA & Hu).
  exists s'. split; [exists s'; split; [exact Hs|reflexivity]|]. split; [exists s'; split; [exact Hu|reflexivity]|].
  split; [|split; [exact HA|exact Hn]]. unfold ord_frame in *. rewrite Hfr. reflexivity.
Qed.
Lemma spend_pos_Q v0 v s n nonce a v' : pos_Q v0 v s n -> do_spend S v nonce a = Ok v' ->
  pos_Q v0 v' s (fun b => n b + (if decide (Some a = Some b) then 1 else 0)).
Proof.
  intros (Hfr & Hi & Hn) H. destruct (do_spend_ok S p _ _ _ _ _ (si_nonce _ _ HS) Hn H) as (c & -> & Hc).
  split; [|split; [exact Hi|exact Hc]]. unfold pos_frame in *. rewrite Hfr. reflexivity.
Qed.
Lemma spend_tok_Q v0 v s n nonce a v' : tok_Q v0 v s n -> do_spend S v nonce a = Ok v' ->
  tok_Q v0 v' s (fun b => n b + (if decide (Some a = Some b) then 1 else 0)).
Proof.
  intros (Hfr & Hi & Hn) H. destruct (do_spend_ok S p _ _ _ _ _ (si_nonce _ _ HS) Hn H) as (c & -> & Hc).
  split; [|split; [exact Hi|exact Hc]]. unfold tok_frame in *. rewrite Hfr. reflexivity.
Qed.
Lemma spend_ord_Q v0 v s n nonce a v' : ord_Q v0 v s n -> do_spend S v nonce a = Ok v' ->
  ord_Q v0 v' s (fun b => n b + (if decide (Some a = Some b) then 1 else 0)).
Proof.
  intros (Hfr & Hi & Hn) H. destruct (do_spend_ok S p _ _ _ _ _ (si_nonce _ _ HS) Hn H) as (c & -> & Hc).
  split; [|split; [exact Hi|exact Hc]]. unfold ord_frame in *. rewrite Hfr. reflexivity.
Qed.

Ltac nothing s := exists s; split; [reflexivity|]; split; [reflexivity|].

Lemma pos_input_ok U v0 i v s n v' us : (forall k, vw_utxo (utxos_now S v0) k = U k) -> pos_Q v0 v s n ->
  fit pos_step pos_fits s (pos_ops_in U i) -> pos_input S src v i = Ok (v', us) ->
  exists s', ran pos_step s (pos_ops_in U i) s' /\ path pos_undoes us s s' /\ pos_Q v0 v' s' (fun a => n a + use_of deleg_account i a).
Proof.
  intros HU HQ Hf H.
  assert (forall v s n, (forall a, use_of deleg_account i a = 0) -> pos_Q v0 v s n -> pos_Q v0 v s (fun a => n a + use_of deleg_account i a)) as H0.
  { intros w t m Hz. apply pos_Q_ext. intros a. rewrite Hz. lia. }
  destruct i as [k|nonce del a|nonce c|c]; cbn [pos_input pos_ops_in] in *.
  - assert (vw_utxo (utxos_now S v) k = U k) as E.
    { destruct HQ as (Hfr & _). rewrite Hfr. exact (HU k). }
    rewrite E in H. destruct (U k) as [u|]; [|discriminate H].
    destruct (u_output u) as [x d|x d t|x|q dat|d q|d q|a del|is|id dat d|dat|x hh|d].
    all: try (injection H as <- <-; nothing s; apply H0; [reflexivity|exact HQ]).
    all: destruct (do_pos_Q _ _ _ _ _ _ _ HQ Hf H) as (s' & R & P & Q'); exists s'; split; [exact R|]; split; [exact P|]; apply H0; [reflexivity|exact Q'].
  - apply rbind_ok in H as (v1 & H1 & H). pose proof (spend_pos_Q _ _ _ _ _ _ _ HQ H1) as Q1. exact (do_pos_Q _ _ _ _ _ _ _ Q1 Hf H).
  - injection H as <- <-; nothing s; apply H0; [reflexivity|exact HQ].
  - injection H as <- <-; nothing s; apply H0; [reflexivity|exact HQ].
Qed.
Lemma pos_output_ok cc h ins v0 o v s n v' us : pos_Q v0 v s n ->
  fit pos_step pos_fits s (pos_ops_out cc ins o) -> pos_output cc h S src ins v o = Ok (v', us) ->
  exists s', ran pos_step s (pos_ops_out cc ins o) s' /\ path pos_undoes us s s' /\ pos_Q v0 v' s' n.
Proof.
  intros HQ Hf H. destruct o as [x d|x d t|x|q dat|d q|d q|a del|is|id dat d|dat|x hh|d]; cbn [pos_output pos_ops_out] in *.
  all: try (injection H as <- <-; nothing s; exact HQ).
  - apply rbind_ok in H as (ex & _ & H). apply rbind_ok in H as ([] & _ & H). apply rbind_ok in H as ([] & _ & H). exact (do_pos_Q _ _ _ _ _ _ _ HQ Hf H).
  - apply rbind_ok in H as (ex & He & H). unfold make_delegation_id in He. destruct (first_outpoint ins) as [k|]; [|discriminate He].
    cbn in He. injection He as <-. exact (do_pos_Q _ _ _ _ _ _ _ HQ Hf H).
  - exact (do_pos_Q _ _ _ _ _ _ _ HQ Hf H).
Qed.

Lemma tokens_burned_ok id outs b : tokens_burned id outs = Ok b -> b = burned id outs.
Proof.
  unfold tokens_burned, amount_sum. intros H. apply ok_or_ok in H. apply amount_sum_from_val in H as ->. rewrite N.add_0_l.
  unfold burned. induction outs as [|o outs IH]; [reflexivity|]. rewrite sum_over_cons, <- IH.
  destruct o as [| |[a| |i a]| | | | | | | | |]; try reflexivity. cbn. destruct (i =? id); reflexivity.
Qed.
Lemma tok_input_ok outs v0 i v s n v' us : tok_Q v0 v s n ->
  fit tok_step tok_fits s (tok_ops_in outs i) -> tok_input S outs v i = Ok (v', us) ->
  exists s', ran tok_step s (tok_ops_in outs i) s' /\ path tok_undoes us s s' /\ tok_Q v0 v' s' (fun a => n a + use_of token_account i a).
Proof.
  intros HQ Hf H.
  assert (forall v s n, (forall a, use_of token_account i a = 0) -> tok_Q v0 v s n -> tok_Q v0 v s (fun a => n a + use_of token_account i a)) as H0.
  { intros w t m Hz. apply tok_Q_ext. intros a. rewrite Hz. lia. }
  destruct i as [k|nonce del a|nonce c|c]; cbn [tok_input tok_ops_in] in *.
  1,2,4: injection H as <- <-; nothing s; apply H0; [reflexivity|exact HQ].
  destruct c as [id a|id|id|id b|id|id d|id|id a d|id uri].
  2: { apply rbind_ok in H as (v1 & H1 & H). pose proof (spend_tok_Q _ _ _ _ _ _ _ HQ H1) as Q1. apply rbind_ok in H as (b & Hb & H).
       apply tokens_burned_ok in Hb as ->. destruct (0 <? burned id outs); [exact (do_tok_Q _ _ _ _ _ _ _ Q1 Hf H)|].
       injection H as <- <-. nothing s. exact Q1. }
  6,7: injection H as <- <-; nothing s; apply H0; [reflexivity|exact HQ].
  all: apply rbind_ok in H as (v1 & H1 & H); pose proof (spend_tok_Q _ _ _ _ _ _ _ HQ H1) as Q1; exact (do_tok_Q _ _ _ _ _ _ _ Q1 Hf H).
Qed.
Lemma tok_output_ok cc h ins v0 o v s n v' us : tok_Q v0 v s n ->
  fit tok_step tok_fits s (tok_ops_out cc h ins o) -> tok_output cc h S ins v o = Ok (v', us) ->
  exists s', ran tok_step s (tok_ops_out cc h ins o) s' /\ path tok_undoes us s s' /\ tok_Q v0 v' s' n.
Proof.
  intros HQ Hf H. destruct o as [x d|x d t|x|q dat|d q|d q|a del|is|id dat d|dat|x hh|d]; cbn [tok_output tok_ops_out] in *.
  all: try (injection H as <- <-; nothing s; exact HQ).
  apply rbind_ok in H as (id & Hid & H). unfold token_id in *. rewrite Hid in *. exact (do_tok_Q _ _ _ _ _ _ _ HQ Hf H).
Qed.
Lemma ord_input_ok v0 i v s n v' us : ord_Q v0 v s n -> ord_input S v i = Ok (v', us) ->
  exists s', ran ord_step s (ord_ops_in i) s' /\ path ord_undoes us s s' /\ ord_Q v0 v' s' (fun a => n a + use_of order_account i a).
Proof.
  intros HQ H.
  assert (forall v s n, (forall a, use_of order_account i a = 0) -> ord_Q v0 v s n -> ord_Q v0 v s (fun a => n a + use_of order_account i a)) as H0.
  { intros w t m Hz. apply ord_Q_ext. intros a. rewrite Hz. lia. }
  destruct i as [k|nonce del a|nonce c|c]; cbn [ord_input ord_ops_in] in *.
  1,2: injection H as <- <-; nothing s; apply H0; [reflexivity|exact HQ].
  - destruct c as [id a|id|id|id b|id|id d|id|id a d|id uri].
    7,8: apply rbind_ok in H as (v1 & H1 & H); pose proof (spend_ord_Q _ _ _ _ _ _ _ HQ H1) as Q1; exact (do_ord_Q _ _ _ _ _ _ _ Q1 H).
    all: injection H as <- <-; nothing s; apply H0; [reflexivity|exact HQ].
  - destruct c as [id a|id|id]; destruct (do_ord_Q _ _ _ _ _ _ _ HQ H) as (s' & R & P & Q'); exists s'; (split; [exact R|]); (split; [exact P|]);
      (apply H0; [reflexivity|exact Q']).
Qed.
Lemma ord_output_ok cc ins v0 o v s n v' us : ord_Q v0 v s n -> ord_output cc S ins v o = Ok (v', us) ->
  exists s', ran ord_step s (ord_ops_out cc ins o) s' /\ path ord_undoes us s s' /\ ord_Q v0 v' s' n.
Proof.
  intros HQ H. destruct o as [x d|x d t|x|q dat|d q|d q|a del|is|id dat d|dat|x hh|d]; cbn [ord_output ord_ops_out] in *.
  all: try (injection H as <- <-; nothing s; exact HQ).
  apply rbind_ok in H as (id & Hid & H). unfold make_order_id in Hid. destruct (first_outpoint ins) as [k|]; [|discriminate Hid].
  cbn in Hid. injection Hid as <-. exact (do_ord_Q _ _ _ _ _ _ _ HQ H).
Qed.
End steps.
