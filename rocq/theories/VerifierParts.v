(** Connecting and disconnecting one transaction, part by part. *)
From Verif Require Import Base BaseProofs AmountModel DeltaModel DeltaProofs LayeredModel TokensModel OrdersModel PosModel PrimModel ChainModel
  UtxoModel ConstraintsModel RewardModel UndoCacheModel NonceModel VerifierModel.
From Verif Require Import TokensSpec TokensProofs OrdersSpec OrdersProofs PosSpec PosProofs UtxoSpec UtxoProofs ConstraintsSpec
  ConstraintsProofs RewardSpec RewardProofs UndoCacheSpec UndoCacheProofs NonceProofs VerifierRecords VerifierSteps.
Local Open Scope N_scope.

(** ** The records of the two kinds *)
Section acc.
Context {R T : Type} {ER : EqDecision R} {ET : EqDecision T}.
Notation K := (accounting_kind (R := R) (T := list T)).
Definition acc_stored := stored_is (accounting_kind (R := R) (T := T)) cb_holds cb_gone.
Definition acc_rec := recording (accounting_kind (R := R) (T := T)) cb_holds cb_derived cb_fresh cb_gone.
Definition acc_ret := returning (accounting_kind (R := R) (T := T)) cb_holds cb_derived cb_fresh cb_gone.
Definition acc_add := recording_add (accounting_kind (R := R) (T := T)) id _ no_block cb_holds cb_derived cb_fresh cb_gone accounting_laws no_block_spec.
Definition acc_add_reward := recording_add_reward (accounting_kind (R := R) (T := T)) id _ no_block cb_holds cb_derived cb_fresh cb_gone accounting_laws no_block_spec.
Definition acc_take := returning_take (accounting_kind (R := R) (T := T)) id _ no_block cb_holds cb_derived cb_fresh cb_gone accounting_laws no_block_spec.
Definition acc_take_none := returning_take_none (accounting_kind (R := R) (T := T)) id _ no_block cb_holds cb_derived cb_fresh cb_gone accounting_laws no_block_spec.
Definition acc_take_reward := returning_take_reward (accounting_kind (R := R) (T := T)) id _ no_block cb_holds cb_derived cb_fresh cb_gone accounting_laws no_block_spec.
Definition acc_rec_flush := recording_flush (accounting_kind (R := R) (T := T)) id _ no_block cb_holds cb_derived cb_fresh cb_gone accounting_laws no_block_spec.
Definition acc_ret_flush := returning_flush (accounting_kind (R := R) (T := T)) id _ no_block cb_holds cb_derived cb_fresh cb_gone accounting_laws no_block_spec.
Definition acc_rec_open := recording_open (accounting_kind (R := R) (T := T)) id _ no_block cb_holds cb_derived cb_fresh cb_gone accounting_laws no_block_spec.
Definition acc_ret_open := returning_open (accounting_kind (R := R) (T := T)) id _ no_block cb_holds cb_derived cb_fresh cb_gone accounting_laws no_block_spec.
Definition acc_unique := stored_unique (accounting_kind (R := R) (T := T)) cb_holds cb_gone accounting_load.
Definition ur_stored := stored_is (utxo_kind (R := R) (T := T)) ub_holds ub_gone.
Definition ur_rec := recording (utxo_kind (R := R) (T := T)) ub_holds ub_derived ub_fresh ub_gone.
Definition ur_ret := returning (utxo_kind (R := R) (T := T)) ub_holds ub_derived ub_fresh ub_gone.
Definition ur_add := recording_add (utxo_kind (R := R) (T := T)) fst _ child_block ub_holds ub_derived ub_fresh ub_gone utxo_laws child_block_spec.
Definition ur_add_reward := recording_add_reward (utxo_kind (R := R) (T := T)) fst _ child_block ub_holds ub_derived ub_fresh ub_gone utxo_laws child_block_spec.
Definition ur_take := returning_take (utxo_kind (R := R) (T := T)) fst _ child_block ub_holds ub_derived ub_fresh ub_gone utxo_laws child_block_spec.
Definition ur_take_reward := returning_take_reward (utxo_kind (R := R) (T := T)) fst _ child_block ub_holds ub_derived ub_fresh ub_gone utxo_laws child_block_spec.
Definition ur_rec_flush := recording_flush (utxo_kind (R := R) (T := T)) fst _ child_block ub_holds ub_derived ub_fresh ub_gone utxo_laws child_block_spec.
Definition ur_ret_flush := returning_flush (utxo_kind (R := R) (T := T)) fst _ child_block ub_holds ub_derived ub_fresh ub_gone utxo_laws child_block_spec.
Definition ur_rec_open := recording_open (utxo_kind (R := R) (T := T)) fst _ child_block ub_holds ub_derived ub_fresh ub_gone utxo_laws child_block_spec.
Definition ur_ret_open := returning_open (utxo_kind (R := R) (T := T)) fst _ child_block ub_holds ub_derived ub_fresh ub_gone utxo_laws child_block_spec.
Definition ur_unique := stored_unique (utxo_kind (R := R) (T := T)) ub_holds ub_gone utxo_load.
End acc.

(** A transaction that did nothing in a part leaves no record there. *)
Definition rec_add {U R} (T : undo_table (list U) R) (s : tx_source) (t : N) (us : list U) : undo_table (list U) R :=
  match us with [] => T | _ => ut_add T s t us end.
Lemma ut_del_add {I R} (T : undo_table I R) s t i : ut_tx T !! (s, t) = None -> ut_del (ut_add T s t i) s t = T.
Proof. intros H. destruct T as [m r]. unfold ut_del, ut_add. cbn in *. rewrite delete_insert by exact H. reflexivity. Qed.
Lemma ut_delr_addr {I R} (T : undo_table I R) s r : ut_reward T !! s = None -> ut_delr (ut_addr T s r) s = T.
Proof. intros H. destruct T as [m m']. unfold ut_delr, ut_addr. cbn in *. rewrite delete_insert by exact H. reflexivity. Qed.

Lemma each_app {X} (f : verifier -> X -> res verr verifier) l1 l2 v : each f (l1 ++ l2) v = rbind (each f l1 v) (each f l2).
Proof. revert v. induction l1 as [|x l1 IH]; intros v; [reflexivity|]. cbn. destruct (f v x); cbn; [apply IH|reflexivity..]. Qed.

Section parts.
Context (S : store) (p : books) (b : N) (HS : store_is S p).
Notation src := (SrcChain b).

Definition pos_ops (cc : chain_config) (U : outpoint -> option utxo) (tx : transaction) : list pos_op :=
  concat (map (pos_ops_in U) (tx_inputs tx)) ++ concat (map (pos_ops_out cc (tx_inputs tx)) (tx_outputs tx)).
Definition tok_ops (cc : chain_config) (h : N) (tx : transaction) : list tok_op :=
  concat (map (tok_ops_in (tx_outputs tx)) (tx_inputs tx)) ++ concat (map (tok_ops_out cc h (tx_inputs tx)) (tx_outputs tx)).
Definition ord_ops (cc : chain_config) (tx : transaction) : list ord_op :=
  concat (map ord_ops_in (tx_inputs tx)) ++ concat (map (ord_ops_out cc (tx_inputs tx)) (tx_outputs tx)).

Lemma sum_use sel ins a : sum_over (fun i => use_of sel i a) ins = cnt sel ins a.
Proof. reflexivity. Qed.
Lemma sum_zero {X} (l : list X) : sum_over (fun _ => 0) l = 0.
Proof. apply sum_over_zero. reflexivity. Qed.

Lemma fit_true {St O E} (step : St -> O -> res E St) l : forall s, fit step (fun _ _ => True) s l.
Proof. induction l as [|o l IH]; intros s; [exact Logic.I|]. split; [exact Logic.I|]. intros s1 _. apply IH. Qed.

Lemma connect_pos_ok cc h U v tx v' s n Tb T :
  adapter_inv src (k_pos p) (v_pos v) s -> ninv (k_uses p) (v_nonce v) n -> acc_rec b Tb (v_pundo v) T -> ut_tx T !! (src, tx_id tx) = None ->
  (forall k, vw_utxo (utxos_now S v) k = U k) -> fit pos_step pos_fits s (pos_ops cc U tx) ->
  connect_pos cc h S src v tx = Ok v' ->
  exists A c st s' us, v' = set_pundo (set_nonce (set_pos v A) c) st /\ ran pos_step s (pos_ops cc U tx) s' /\ path pos_undoes us s s' /\
    adapter_inv src (k_pos p) A s' /\ ninv (k_uses p) c (fun a => n a + cnt deleg_account (tx_inputs tx) a) /\
    acc_rec b Tb st (rec_add T src (tx_id tx) us).
Proof.
  intros Hi Hn Hr Hx HU Hf H. unfold connect_pos in H. apply rbind_ok in H as ([v1 us1] & H1 & H). apply rbind_ok in H as ([v2 us2] & H2 & H).
  apply rbind_ok in H as (_ & _ & H). apply fit_app in Hf as [Hf1 Hf2].
  assert (pos_Q p src v v s n) as Q0. { split; [destruct v; reflexivity|]. split; assumption. }
  destruct (collect_ok (pos_input S src) (pos_Q p src v) pos_step pos_fits pos_undoes (pos_ops_in U) (use_of deleg_account) (tx_inputs tx)
    (pos_Q_ext p src v) (fun x w t m w' us _ HQ Hf Hx => pos_input_ok S p src HS U v x w t m w' us HU HQ Hf Hx) v s n v1 us1 Q0 Hf1 H1)
    as (s1 & R1 & P1 & Q1).
  destruct (collect_ok (pos_output cc h S src (tx_inputs tx)) (pos_Q p src v) pos_step pos_fits pos_undoes (pos_ops_out cc (tx_inputs tx))
    (fun _ _ => 0) (tx_outputs tx) (pos_Q_ext p src v)
    (fun x w t m w' us _ HQ Hf Hx => match pos_output_ok S p src HS cc h (tx_inputs tx) v x w t m w' us HQ Hf Hx with
       ex_intro _ t' (conj A (conj B C)) => ex_intro _ t' (conj A (conj B (pos_Q_ext p src v _ _ _ _ (fun a => eq_sym (N.add_0_r _)) C))) end)
    v1 s1 _ v2 us2 Q1 (Hf2 s1 R1) H2) as (s2 & R2 & P2 & Q2).
  destruct Q2 as (Hfr & Hi2 & Hn2). unfold pos_frame in Hfr.
  assert (ninv (k_uses p) (v_nonce v2) (fun a => n a + cnt deleg_account (tx_inputs tx) a)) as Hn3.
  { revert Hn2. apply ninv_ext. intros a. rewrite sum_use, sum_zero. lia. }
  assert (v_pundo v2 = v_pundo v) as Ep by (rewrite Hfr; reflexivity).
  assert (ran pos_step s (pos_ops cc U tx) s2) as R by (apply ran_app; eauto).
  assert (path pos_undoes (us1 ++ us2) s s2) as P by (apply path_app; eauto).
  unfold add_pundo in H. destruct (us1 ++ us2) as [|u us] eqn:Eu.
  - injection H as <-. exists (v_pos v2), (v_nonce v2), (v_pundo v2), s2, []. split; [rewrite Ep, Hfr at 1; destruct v; reflexivity|].
    rewrite Ep. auto 10.
  - rewrite <- Ep in Hr. destruct (acc_add _ _ _ _ _ (u :: us) Hr Hx) as (st & E & Hr'). rewrite E in H. cbn in H. injection H as <-.
    exists (v_pos v2), (v_nonce v2), st, s2, (u :: us). split; [rewrite Hfr at 1; reflexivity|]. auto 10.
Qed.

Lemma connect_tok_ok cc h v tx v' s n Tb T :
  tok_inv (k_tok p) (v_tok v) s -> ninv (k_uses p) (v_nonce v) n -> acc_rec b Tb (v_tundo v) T -> ut_tx T !! (src, tx_id tx) = None ->
  fit tok_step tok_fits s (tok_ops cc h tx) -> connect_tok cc h S src v tx = Ok v' ->
  exists A c st s' us, v' = set_tundo (set_nonce (set_tok v A) c) st /\ ran tok_step s (tok_ops cc h tx) s' /\ path tok_undoes us s s' /\
    tok_inv (k_tok p) A s' /\ ninv (k_uses p) c (fun a => n a + cnt token_account (tx_inputs tx) a) /\
    acc_rec b Tb st (rec_add T src (tx_id tx) us).
Proof.
  intros Hi Hn Hr Hx Hf H. unfold connect_tok in H. apply rbind_ok in H as (_ & _ & H). apply rbind_ok in H as ([v1 us1] & H1 & H). apply rbind_ok in H as ([v2 us2] & H2 & H).
  apply fit_app in Hf as [Hf1 Hf2].
  assert (tok_Q p v v s n) as Q0. { split; [destruct v; reflexivity|]. split; assumption. }
  destruct (collect_ok (tok_input S (tx_outputs tx)) (tok_Q p v) tok_step tok_fits tok_undoes (tok_ops_in (tx_outputs tx)) (use_of token_account) (tx_inputs tx)
    (tok_Q_ext p v) (fun x w t m w' us _ HQ Hf Hx => tok_input_ok S p HS (tx_outputs tx) v x w t m w' us HQ Hf Hx) v s n v1 us1 Q0 Hf1 H1)
    as (s1 & R1 & P1 & Q1).
  destruct (collect_ok (tok_output cc h S (tx_inputs tx)) (tok_Q p v) tok_step tok_fits tok_undoes (tok_ops_out cc h (tx_inputs tx))
    (fun _ _ => 0) (tx_outputs tx) (tok_Q_ext p v)
    (fun x w t m w' us _ HQ Hf Hx => match tok_output_ok S p HS cc h (tx_inputs tx) v x w t m w' us HQ Hf Hx with
       ex_intro _ t' (conj A (conj B C)) => ex_intro _ t' (conj A (conj B (tok_Q_ext p v _ _ _ _ (fun a => eq_sym (N.add_0_r _)) C))) end)
    v1 s1 _ v2 us2 Q1 (Hf2 s1 R1) H2) as (s2 & R2 & P2 & Q2).
  destruct Q2 as (Hfr & Hi2 & Hn2). unfold tok_frame in Hfr.
  assert (ninv (k_uses p) (v_nonce v2) (fun a => n a + cnt token_account (tx_inputs tx) a)) as Hn3.
  { revert Hn2. apply ninv_ext. intros a. rewrite sum_use, sum_zero. lia. }
  assert (v_tundo v2 = v_tundo v) as Ep by (rewrite Hfr; reflexivity).
  assert (ran tok_step s (tok_ops cc h tx) s2) as R by (apply ran_app; eauto).
  assert (path tok_undoes (us1 ++ us2) s s2) as P by (apply path_app; eauto).
  unfold add_tundo in H. destruct (us1 ++ us2) as [|u us] eqn:Eu.
  - injection H as <-. exists (v_tok v2), (v_nonce v2), (v_tundo v2), s2, []. split; [rewrite Ep, Hfr at 1; destruct v; reflexivity|].
    rewrite Ep. auto 10.
  - rewrite <- Ep in Hr. destruct (acc_add _ _ _ _ _ (u :: us) Hr Hx) as (st & E & Hr'). rewrite E in H. cbn in H. injection H as <-.
    exists (v_tok v2), (v_nonce v2), st, s2, (u :: us). split; [rewrite Hfr at 1; reflexivity|]. auto 10.
Qed.

Lemma connect_ord_ok cc v tx v' s n Tb T :
  ord_inv (k_ord p) (v_ord v) s -> ninv (k_uses p) (v_nonce v) n -> acc_rec b Tb (v_oundo v) T -> ut_tx T !! (src, tx_id tx) = None ->
  connect_ord cc S src v tx = Ok v' ->
  exists A c st s' us, v' = set_oundo (set_nonce (set_ord v A) c) st /\ ran ord_step s (ord_ops cc tx) s' /\ path ord_undoes us s s' /\
    ord_inv (k_ord p) A s' /\ ninv (k_uses p) c (fun a => n a + cnt order_account (tx_inputs tx) a) /\
    acc_rec b Tb st (rec_add T src (tx_id tx) us).
Proof.
  intros Hi Hn Hr Hx H. unfold connect_ord in H. apply rbind_ok in H as ([v1 us1] & H1 & H). apply rbind_ok in H as ([v2 us2] & H2 & H).
  assert (ord_Q p v v s n) as Q0. { split; [destruct v; reflexivity|]. split; assumption. }
  destruct (collect_ok (ord_input S) (ord_Q p v) ord_step (fun _ _ => True) ord_undoes ord_ops_in (use_of order_account) (tx_inputs tx)
    (ord_Q_ext p v) (fun x w t m w' us _ HQ _ Hx => ord_input_ok S p HS v x w t m w' us HQ Hx) v s n v1 us1 Q0 (fit_true _ _ _) H1)
    as (s1 & R1 & P1 & Q1).
  destruct (collect_ok (ord_output cc S (tx_inputs tx)) (ord_Q p v) ord_step (fun _ _ => True) ord_undoes (ord_ops_out cc (tx_inputs tx))
    (fun _ _ => 0) (tx_outputs tx) (ord_Q_ext p v)
    (fun x w t m w' us _ HQ _ Hx => match ord_output_ok S p HS cc (tx_inputs tx) v x w t m w' us HQ Hx with
       ex_intro _ t' (conj A (conj B C)) => ex_intro _ t' (conj A (conj B (ord_Q_ext p v _ _ _ _ (fun a => eq_sym (N.add_0_r _)) C))) end)
    v1 s1 _ v2 us2 Q1 (fit_true _ _ _) H2) as (s2 & R2 & P2 & Q2).
  destruct Q2 as (Hfr & Hi2 & Hn2). unfold ord_frame in Hfr.
  assert (ninv (k_uses p) (v_nonce v2) (fun a => n a + cnt order_account (tx_inputs tx) a)) as Hn3.
  { revert Hn2. apply ninv_ext. intros a. rewrite sum_use, sum_zero. lia. }
  assert (v_oundo v2 = v_oundo v) as Ep by (rewrite Hfr; reflexivity).
  assert (ran ord_step s (ord_ops cc tx) s2) as R by (apply ran_app; eauto).
  assert (path ord_undoes (us1 ++ us2) s s2) as P by (apply path_app; eauto).
  unfold add_oundo in H. destruct (us1 ++ us2) as [|u us] eqn:Eu.
  - injection H as <-. exists (v_ord v2), (v_nonce v2), (v_oundo v2), s2, []. split; [rewrite Ep, Hfr at 1; destruct v; reflexivity|].
    rewrite Ep. auto 10.
  - rewrite <- Ep in Hr. destruct (acc_add _ _ _ _ _ (u :: us) Hr Hx) as (st & E & Hr'). rewrite E in H. cbn in H. injection H as <-.
    exists (v_ord v2), (v_nonce v2), st, s2, (u :: us). split; [rewrite Hfr at 1; reflexivity|]. auto 10.
Qed.

Lemma connect_utxo_ok h v tx v' s Tb T :
  uinv (k_utxo p) (v_utxo v) s -> ur_rec b Tb (v_uundo v) T -> ut_tx T !! (src, tx_id tx) = None ->
  absent (us_map s) (created (FromTx (tx_id tx)) (tx_outputs tx)) ->
  connect_utxo h S src v tx = Ok v' ->
  exists c st s' u, v' = set_uundo (set_utxo v c) st /\ utxo_step s (OpConnectTx tx (InChain h)) = Ok s' /\ undoes (UnTx tx u) s' s /\
    uinv (k_utxo p) c s' /\ ur_rec b Tb st (ut_add T src (tx_id tx) (u, map fst (spent_by (tx_inputs tx)))).
Proof.
  intros Hi Hr Hx Ha H. unfold connect_utxo in H. cbn [place] in H.
  pose proof (op_refines (st_utxo S) (k_utxo p) (v_utxo v) s (OpConnectTx tx (InChain h)) (si_utxo _ _ HS) Hi Ha) as G.
  cbn [run_op] in G. destruct (UtxoModel.connect_transaction (st_utxo S) (v_utxo v) tx (InChain h)) as [c [[u ss]|e|]] eqn:E; [|discriminate H..].
  cbn [or_restore lift rmap rmap_err] in G.
  destruct (utxo_step s (OpConnectTx tx (InChain h))) as [s'|e|]; [|destruct G as (c' & [= ] & _)|destruct G].
  destruct G as (c' & u' & [= <- <-] & Hi' & Hu). cbn [fst] in *.
  assert (ss = map fst (spent_by (tx_inputs tx))) as ->.
  { unfold UtxoModel.connect_transaction in E. apply sbind_ok in E as (c1 & us & _ & E). apply sbind_ok in E as (c2 & [] & _ & E). injection E as _ _ <-.
    clear. generalize (tx_inputs tx). intros ins. induction ins as [|i l IH]; [reflexivity|]. destruct i; cbn; [f_equal; exact IH|exact IH..]. }
  unfold add_uundo in H. cbn [set_utxo v_uundo] in H. destruct (ur_add _ _ _ _ _ (u, map fst (spent_by (tx_inputs tx))) Hr Hx) as (st & Es & Hr').
  rewrite Es in H. cbn in H. injection H as <-. exists c, st, s', u. auto.
Qed.

(** ** Disconnecting *)
Lemma undo_all {St U} (inv : verifier -> St -> Prop) (undoes : U -> St -> St -> Prop) (f : verifier -> U -> res verr verifier) :
  (forall v s' s u, inv v s' -> undoes u s' s -> exists v', f v u = Ok v' /\ inv v' s) ->
  forall us v s s', inv v s' -> path undoes us s s' -> exists v', each f (rev us) v = Ok v' /\ inv v' s.
Proof.
  intros Hf. induction us as [|u us IH]; intros v s s' Hi Hp; cbn in Hp.
  - subst s'. exists v. auto.
  - destruct Hp as (s1 & Hu & Hp). destruct (IH v s1 s' Hi Hp) as (v1 & E1 & Hi1). destruct (Hf v1 s1 s u Hi1 Hu) as (v2 & E2 & Hi2).
    exists v2. split; [|exact Hi2]. cbn [rev]. rewrite each_app, E1. cbn. rewrite E2. reflexivity.
Qed.

Lemma undo_pos_ok v t s s' us ids Tb T :
  adapter_inv src (k_pos p) (v_pos v) s' -> path pos_undoes us s s' -> acc_ret b (t :: ids) Tb (v_pundo v) (rec_add T src t us) ->
  t ∉ ids -> ut_tx T !! (src, t) = None ->
  exists A st, undo_pos S src v t = Ok (set_pos (set_pundo v st) A) /\ adapter_inv src (k_pos p) A s /\ acc_ret b ids Tb st T.
Proof.
  intros Hi Hp Hr Hni Hx. unfold undo_pos. destruct us as [|u us]; cbn [rec_add] in Hr.
  - destruct (acc_take_none _ _ _ _ _ _ Hr eq_refl Hx) as (st & E & Hr'). rewrite E. cbn. cbn in Hp. subst s'.
    exists (v_pos v), st. split; [destruct v; reflexivity|]. auto.
  - assert (ut_tx (ut_add T src t (u :: us)) !! (src, t) = Some (u :: us)) as Hs by (cbn; apply lookup_insert).
    destruct (acc_take _ _ _ _ _ _ _ Hr Hni Hs eq_refl) as (st & E & Hr'). rewrite E. cbn [rmap_err rbind id].
    rewrite ut_del_add in Hr' by exact Hx.
    destruct (undo_all (fun w z => w = set_pos (set_pundo v st) (v_pos w) /\ adapter_inv src (k_pos p) (v_pos w) z) pos_undoes
      (fun v u => match adapter_undo (st_pos S) (v_pos v) src u with
                  | (A, Ok _) => Ok (set_pos v A) | (_, Err e) => Err (VPos e) | (_, Panic) => Panic end)) with (us := u :: us) (v := set_pundo v st) (s := s) (s' := s')
      as (v' & Ev & Hfr & Hi').
    + intros w z' z x (Hw & Hz) Hu. destruct (adapter_undo_refines src _ _ _ _ _ _ (si_pos _ _ HS) Hz Hu) as (A & EA & HA).
      rewrite EA. eexists. split; [reflexivity|]. cbn. split; [rewrite Hw; reflexivity|exact HA].
    + cbn. split; [reflexivity|exact Hi].
    + exact Hp.
    + exists (v_pos v'), st. rewrite Ev. split; [f_equal; exact Hfr|]. auto.
Qed.
Lemma undo_tok_ok v t s s' us ids Tb T :
  tok_inv (k_tok p) (v_tok v) s' -> path tok_undoes us s s' -> acc_ret b (t :: ids) Tb (v_tundo v) (rec_add T src t us) ->
  t ∉ ids -> ut_tx T !! (src, t) = None ->
  exists A st, undo_tok S src v t = Ok (set_tok (set_tundo v st) A) /\ tok_inv (k_tok p) A s /\ acc_ret b ids Tb st T.
Proof.
  intros Hi Hp Hr Hni Hx. unfold undo_tok. destruct us as [|u us]; cbn [rec_add] in Hr.
  - destruct (acc_take_none _ _ _ _ _ _ Hr eq_refl Hx) as (st & E & Hr'). rewrite E. cbn. cbn in Hp. subst s'.
    exists (v_tok v), st. split; [destruct v; reflexivity|]. auto.
  - assert (ut_tx (ut_add T src t (u :: us)) !! (src, t) = Some (u :: us)) as Hs by (cbn; apply lookup_insert).
    destruct (acc_take _ _ _ _ _ _ _ Hr Hni Hs eq_refl) as (st & E & Hr'). rewrite E. cbn [rmap_err rbind id].
    rewrite ut_del_add in Hr' by exact Hx.
    destruct (undo_all (fun w z => w = set_tok (set_tundo v st) (v_tok w) /\ tok_inv (k_tok p) (v_tok w) z) tok_undoes
      (fun v u => match undo_token_op (st_tok S) (v_tok v) u with
                  | (A, Ok _) => Ok (set_tok v A) | (_, Err e) => Err (VTok e) | (_, Panic) => Panic end)) with (us := u :: us) (v := set_tundo v st) (s := s) (s' := s')
      as (v' & Ev & Hfr & Hi').
    + intros w z' z x (Hw & Hz) Hu. destruct (tok_undo_refines _ _ _ _ _ _ (si_tok _ _ HS) Hz Hu) as (A & EA & HA).
      rewrite EA. eexists. split; [reflexivity|]. cbn. split; [rewrite Hw; reflexivity|exact HA].
    + cbn. split; [reflexivity|exact Hi].
    + exact Hp.
    + exists (v_tok v'), st. rewrite Ev. split; [f_equal; exact Hfr|]. auto.
Qed.
Lemma undo_ord_ok v t s s' us ids Tb T :
  ord_inv (k_ord p) (v_ord v) s' -> path ord_undoes us s s' -> acc_ret b (t :: ids) Tb (v_oundo v) (rec_add T src t us) ->
  t ∉ ids -> ut_tx T !! (src, t) = None ->
  exists A st, undo_ord S src v t = Ok (set_ord (set_oundo v st) A) /\ ord_inv (k_ord p) A s /\ acc_ret b ids Tb st T.
Proof.
  intros Hi Hp Hr Hni Hx. unfold undo_ord. destruct us as [|u us]; cbn [rec_add] in Hr.
  - destruct (acc_take_none _ _ _ _ _ _ Hr eq_refl Hx) as (st & E & Hr'). rewrite E. cbn. cbn in Hp. subst s'.
    exists (v_ord v), st. split; [destruct v; reflexivity|]. auto.
  - assert (ut_tx (ut_add T src t (u :: us)) !! (src, t) = Some (u :: us)) as Hs by (cbn; apply lookup_insert).
    destruct (acc_take _ _ _ _ _ _ _ Hr Hni Hs eq_refl) as (st & E & Hr'). rewrite E. cbn [rmap_err rbind id].
    rewrite ut_del_add in Hr' by exact Hx.
    destruct (undo_all (fun w z => w = set_ord (set_oundo v st) (v_ord w) /\ ord_inv (k_ord p) (v_ord w) z) ord_undoes
      (fun v u => match undo_order_op (st_ord S) (v_ord v) u with
                  | (A, Ok _) => Ok (set_ord v A) | (_, Err e) => Err (VOrd e) | (_, Panic) => Panic end)) with (us := u :: us) (v := set_oundo v st) (s := s) (s' := s')
      as (v' & Ev & Hfr & Hi').
    + intros w z' z x (Hw & Hz) Hu. destruct (ord_undo_refines _ _ _ _ _ _ (si_ord _ _ HS) Hz Hu) as (A & EA & HA).
      rewrite EA. eexists. split; [reflexivity|]. cbn. split; [rewrite Hw; reflexivity|exact HA].
    + cbn. split; [reflexivity|exact Hi].
    + exact Hp.
    + exists (v_ord v'), st. rewrite Ev. split; [f_equal; exact Hfr|]. auto.
Qed.
Lemma undo_nonces_ok ins : forall v n, ninv (k_uses p) (v_nonce v) n -> (forall a, cnt account_of ins a <= n a) ->
  exists c, each (undo_input_nonce S) ins v = Ok (set_nonce v c) /\ ninv (k_uses p) c (fun a => n a - cnt account_of ins a).
Proof.
  induction ins as [|i ins IH]; intros v n Hn Hle.
  - exists (v_nonce v). split; [destruct v; reflexivity|]. revert Hn. apply ninv_ext. intros a. rewrite cnt_nil. lia.
  - assert (forall a, (if decide (account_of i = Some a) then 1 else 0) + cnt account_of ins a <= n a) as Hle'.
    { intros a. specialize (Hle a). rewrite cnt_cons in Hle. exact Hle. }
    cbn [each].
    assert (exists c, undo_input_nonce S v i = Ok (set_nonce v c) /\
      ninv (k_uses p) c (fun a => n a - (if decide (account_of i = Some a) then 1 else 0))) as (c1 & E1 & Hn1).
    { assert (forall a, account_of i = Some a -> 0 < n a) as Hpos.
      { intros a Ea. specialize (Hle' a). rewrite decide_True in Hle' by exact Ea. lia. }
      destruct i as [k|nonce del a|nonce c|c]; cbn [undo_input_nonce account_of] in *.
      - exists (v_nonce v). split; [destruct v; reflexivity|]. revert Hn. apply ninv_ext. intros a. rewrite decide_False by discriminate. lia.
      - exact (do_unspend_ok S p v _ n (si_nonce _ _ HS) Hn (Hpos _ eq_refl)).
      - exact (do_unspend_ok S p v _ n (si_nonce _ _ HS) Hn (Hpos _ eq_refl)).
      - exists (v_nonce v). split; [destruct v; reflexivity|]. revert Hn. apply ninv_ext. intros a. rewrite decide_False by discriminate. lia. }
    rewrite E1. cbn [rbind]. destruct (IH (set_nonce v c1) _ Hn1) as (c2 & E2 & Hn2).
    { intros a. specialize (Hle' a). destruct (decide _); lia. }
    exists c2. split; [rewrite E2; destruct v; reflexivity|]. revert Hn2. apply ninv_ext. intros a. rewrite cnt_cons. destruct (decide _); lia.
Qed.
End parts.
