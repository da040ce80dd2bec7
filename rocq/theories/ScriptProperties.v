(** C31: verifying a script is its logical meaning. C32: thresholds. C33: who may spend what, and splitting the checks. *)
From Verif Require Import Base BaseProofs AmountModel PrimModel OrdersModel TokensModel PosModel ChainModel UtxoModel ScriptModel ScriptSpec ScriptProofs.
Local Open Scope N_scope.

(** ** C31 *)
(** Verification with an explicit stack is the recursive reading of the script from left to right, for every script and every
    checker, also one that keeps state: same calls, same final state, same result. *)
Theorem C31_verification_is_recursive_reading {St SE TE HE} (v : visitor St SE TE HE) s st : verify v s st = reading v s st.
Proof. apply verify_reading. Qed.
Print Assumptions C31_verification_is_recursive_reading.

(** For every script of any depth and every checker without state, verification succeeds exactly when the script holds: the
    checked leaves pass and every threshold that is reached has exactly the required number of declared conditions, which all hold. *)
Theorem C31_accepts_exactly_true_scripts {SE TE HE} (v : visitor unit SE TE HE) s :
  snd (verify v s tt) = Ok tt <->
  holds (fun d w => snd (visit_signature v d w tt) = Ok tt) (fun t => snd (visit_timelock v t tt) = Ok tt) (fun c p => snd (visit_hashlock v c p tt) = Ok tt) s.
Proof. apply verify_ok. Qed.
Print Assumptions C31_accepts_exactly_true_scripts.

(** Verification of a script made by the public constructors never crashes, unless the checker does. *)
Theorem C31_no_crash {SE TE HE} (v : visitor unit SE TE HE) s : buildable s ->
  (forall d w, snd (visit_signature v d w tt) <> Panic) -> (forall t, snd (visit_timelock v t tt) <> Panic) -> (forall c p, snd (visit_hashlock v c p tt) <> Panic) ->
  snd (verify v s tt) <> Panic.
Proof. intros Hb H1 H2 H3. rewrite verify_reading. by apply reading_panic. Qed.
Print Assumptions C31_no_crash.

(** A checker that counts the leaves it sees and accepts destination 7, and a 2-of-3 script with a nested 1-of-2 *)
Definition ex_v : visitor N unit unit unit :=
  Visitor (fun d _ n => (n + 1, if d =? 7 then Ok tt else Err tt)) (fun _ n => (n + 1, Ok tt)) (fun _ _ n => (n + 1, Ok tt)).
Definition ex_u : visitor unit unit unit unit := Visitor (fun d _ u => (u, if d =? 7 then Ok tt else Err tt)) (fun _ u => (u, Ok tt)) (fun _ _ u => (u, Ok tt)).
Definition ex_s (d : N) : script :=
  Threshold 2 [Satisfied (Threshold 1 [Dissatisfied; Satisfied (Signature d (NoSignature None))]); Dissatisfied; Satisfied (Timelock (UntilHeight 5))].
Example C31_ex_good : verify ex_v (ex_s 7) 0 = (2, Ok tt). Proof. reflexivity. Qed.
Example C31_ex_bad : verify ex_v (ex_s 8) 0 = (1, Err (SignatureErr tt)). Proof. reflexivity. Qed.
Example C31_ex_buildable : buildable (ex_s 7).
Proof. repeat (constructor || (cbn; lia)). Qed.
Example C31_ex_ok : snd (verify ex_u (ex_s 7) tt) = Ok tt /\ snd (verify ex_u (ex_s 8) tt) <> Ok tt. Proof. by split. Qed.

(** ** C32 *)
(** A threshold is built exactly when it does not ask for more conditions than it has, and it is the one asked for. *)
Theorem C32_built_when_possible required conds :
  (required <= N.of_nat (length conds) -> threshold required conds = Ok (Threshold required conds)) /\
  (N.of_nat (length conds) < required -> threshold required conds = Err (InvalidThreshold required (N.of_nat (length conds)))).
Proof.
  unfold threshold, len. split; intros H.
  - by rewrite (proj2 (N.leb_le _ _)).
  - by rewrite (proj2 (N.leb_gt _ _)).
Qed.
Print Assumptions C32_built_when_possible.

(** What a threshold asks of its declared conditions, for every checker: too few are refused, too many are refused, in both cases
    before anything is checked, and the exact number is accepted when each of them is. *)
Theorem C32_exactly_the_required_number {SE TE HE} (v : visitor unit SE TE HE) required conds s : threshold required conds = Ok s ->
  (N.of_nat (length (declared conds)) < required -> snd (verify v s tt) = Err (ThresholdErr Insufficient)) /\
  (required < N.of_nat (length (declared conds)) -> snd (verify v s tt) = Err (ThresholdErr Excessive)) /\
  (snd (verify v s tt) = Ok tt <-> N.of_nat (length (declared conds)) = required /\ forall c, c ∈ declared conds -> snd (verify v c tt) = Ok tt).
Proof.
  destruct (C32_built_when_possible required conds) as [H1 H2]. destruct (N.le_gt_cases required (N.of_nat (length conds))) as [Hle|Hgt].
  2: { rewrite H2 by done. done. }
  rewrite H1 by done. intros [= <-]. split_and!.
  - intros H. rewrite verify_reading, reading_threshold. rewrite (proj2 (N.ltb_ge _ _)) by lia. by rewrite (proj2 (N.ltb_lt _ _)) by lia.
  - intros H. rewrite verify_reading, reading_threshold. rewrite (proj2 (N.ltb_ge _ _)) by lia. rewrite (proj2 (N.ltb_ge _ required)) by lia.
    by rewrite (proj2 (N.ltb_lt _ _)) by lia.
  - rewrite C31_accepts_exactly_true_scripts. split.
    + inversion 1 as [| | |n' conds' Hn Hf]; subst. split; [done|]. intros c Hc. rewrite C31_accepts_exactly_true_scripts. by eapply Forall_forall in Hf.
    + intros [Hn Hf]. constructor; [done|]. apply Forall_forall. intros c Hc. apply C31_accepts_exactly_true_scripts. auto.
Qed.
Print Assumptions C32_exactly_the_required_number.

(** The conjunction never fails to build, and holds when all its conditions are declared and hold. *)
Theorem C32_conjunction {E SE TE HE} (v : visitor unit SE TE HE) conds :
  exists s, conjunction (E := E) conds = Ok s /\
    (snd (verify v s tt) = Ok tt <-> (forall c, c ∈ conds -> exists x, c = Satisfied x /\ snd (verify v x tt) = Ok tt)).
Proof.
  exists (Threshold (N.of_nat (length conds)) conds). split.
  { unfold conjunction, threshold_unchecked, len. by rewrite (proj2 (N.leb_le _ _)). }
  assert (Hb : threshold (N.of_nat (length conds)) conds = Ok (Threshold (N.of_nat (length conds)) conds)) by (by apply C32_built_when_possible).
  destruct (C32_exactly_the_required_number v _ _ _ Hb) as (_ & _ & ->). clear Hb.
  induction conds as [|c conds IH].
  { split; [intros _ c Hc; set_solver|intros _; split; [done|intros c Hc; cbn in Hc; set_solver]]. }
  pose proof (declared_length conds) as Hd. destruct c as [s|].
  - rewrite declared_sat. cbn [length]. split.
    + intros [Hn Hf] c Hc. apply elem_of_cons in Hc as [->|Hc].
      * exists s. split; [done|]. apply Hf. set_solver.
      * apply IH; [|done]. split; [lia|]. intros x Hx. apply Hf. set_solver.
    + intros H. destruct (proj2 IH) as [Hn Hf]. { intros c Hc. apply H. set_solver. } split; [lia|]. intros x Hx. apply elem_of_cons in Hx as [->|Hx]; [|auto].
      destruct (H (Satisfied s)) as (y & [= <-] & ?); [set_solver|done].
  - rewrite declared_dis. cbn [length]. split; [intros [Hn _]; lia|]. intros H. destruct (H Dissatisfied) as (y & ? & _); [set_solver|done].
Qed.
Print Assumptions C32_conjunction.

(** The disjunction of no conditions is refused; any other holds when exactly one condition is declared and that one holds. *)
Theorem C32_disjunction {SE TE HE} (v : visitor unit SE TE HE) conds :
  (conds = [] -> disjunction conds = Err (InvalidThreshold 1 0)) /\
  (conds <> [] -> exists s, disjunction conds = Ok s /\ (snd (verify v s tt) = Ok tt <-> exists x, declared conds = [x] /\ snd (verify v x tt) = Ok tt)).
Proof.
  split; [by intros ->|]. intros Hne. exists (Threshold 1 conds). assert (Hb : threshold 1 conds = Ok (Threshold 1 conds)).
  { apply C32_built_when_possible. destruct conds; [done|]. cbn [length]. lia. }
  split; [done|]. destruct (C32_exactly_the_required_number v _ _ _ Hb) as (_ & _ & ->). destruct (declared conds) as [|x [|y l]]; cbn [length].
  - split; [intros [? _]; lia|intros (x & ? & _); done].
  - split; [intros [_ H]; exists x; split; [done|apply H; set_solver]|]. intros (z & [= <-] & H). split; [done|]. intros c Hc. apply elem_of_list_singleton in Hc as ->. done.
  - split; [intros [? _]; lia|intros (z & ? & _); done].
Qed.
Print Assumptions C32_disjunction.

Definition ok7 : condition script := Satisfied (Signature 7 (NoSignature None)).
Example C32_ex_cases : (threshold 2 [ok7] = Err (InvalidThreshold 2 1)) /\
  (snd (verify ex_u (Threshold 2 [ok7; Dissatisfied; ok7]) tt) = Ok tt) /\ (snd (verify ex_u (Threshold 2 [ok7; Dissatisfied; Dissatisfied]) tt) = Err (ThresholdErr Insufficient)) /\
  (snd (verify ex_u (Threshold 2 [ok7; ok7; ok7]) tt) = Err (ThresholdErr Excessive)).
Proof. by split_and!. Qed.
Example C32_ex_conjunction : exists s, conjunction (E := unit) [ok7; ok7] = Ok s /\ snd (verify ex_u s tt) = Ok tt. Proof. by eexists. Qed.
Example C32_ex_disjunction : exists s, disjunction [Dissatisfied; ok7] = Ok s /\ snd (verify ex_u s tt) = Ok tt. Proof. by eexists. Qed.

(** ** C33 *)
Section Spending.
  (** Anything may be the destination that anyone can spend from, the decoding of HTLC witnesses, the hash, the commitments and the
      check of one signature *)
  Context (anyone : N) (from_data : bytes -> option htlc_spend) (hash160 : bytes -> N).
  Context {SE K : Type} (commitments : list (N * input_info * witness) -> res (N * @input_err SE) K) (sig : K -> N -> N -> witness -> res SE unit).
  Notation tx lk := (translate_tx anyone from_data lk).
  (** The split signature check of one input, as the chain uses its lookups *)
  Definition signature_part (lk : lookups) (k : K) (p : N * input_info * witness) : res translation_err (res (script_err SE (lock_err lock_ctx_err) hash_lock_err) unit) :=
    let '(n, info, w) := p in let? s := translate_signature anyone from_data lk info w in Ok (check (signature_only (sig k n)) s).
  Lemma signature_part_ok lk k p : signature_part lk k p = Ok (Ok tt) <-> signed_input anyone from_data sig lk k p.
  Proof.
    destruct p as [[n info] w]. cbn [signature_part signed_input]. unfold accepts. split.
    - intros H. destruct (translate_signature anyone from_data lk info w) as [s| |]; [|done..]. cbn [rbind] in H. exists s. split; [done|].
      injection H as H. apply verify_ok in H. eapply holds_mono; [..|exact H]; done.
    - intros (s & -> & H). cbn [rbind]. f_equal. apply verify_ok. eapply holds_mono; [..|exact H]; done.
  Qed.

  (** Who may spend an input of a transaction: it passes the full check exactly when the table [tx_requires] has an entry for it and
      its signer has signed, its lock is open and its secret is shown. *)
  Theorem C33_who_may_spend lk k cx n info w : ctx_in_range cx ->
    verify_full_input hash160 sig (tx lk) k cx (n, info, w) = Ok tt <->
    exists r, tx_requires anyone from_data lk info w r /\ signer_ok (sig k n) r /\ lock_ok cx info r /\ secret_ok hash160 r.
  Proof. apply full_input_requires. Qed.
  (** In a block reward only stake can be spent, and the staker has to sign. *)
  Theorem C33_who_may_stake lk k cx n info w : ctx_in_range cx ->
    verify_full_input hash160 sig (translate_reward lk) k cx (n, info, w) = Ok tt <-> exists r, reward_requires info w r /\ signer_ok (sig k n) r.
  Proof. apply reward_input_requires. Qed.

  (** Splitting the check of an input: the full check passes exactly when the time-lock part and the signature part pass and the
      secret of a hashed time-lock contract, if the witness is meant to show one, is right. *)
  Theorem C33_split_of_an_input lk k cx n info w :
    verify_full_input hash160 sig (tx lk) k cx (n, info, w) = Ok tt <->
    verify_timelocks_input (SE := SE) from_data cx (n, info, w) = Ok tt /\ signature_part lk k (n, info, w) = Ok (Ok tt) /\
    (forall v h src ty raw secret sg, info = InfoUtxo (OHtlc v h) src -> w = Standard ty raw -> from_data raw = Some (HtlcSpend secret sg) -> hash160 secret = hl_secret_hash h).
  Proof. rewrite signature_part_ok. apply full_input_split. Qed.
  (** So for every input that does not show a secret the two parts together are the full check. *)
  Theorem C33_split_without_secrets lk k cx n info w : (forall v h src, info <> InfoUtxo (OHtlc v h) src) ->
    verify_full_input hash160 sig (tx lk) k cx (n, info, w) = Ok tt <->
    verify_timelocks_input (SE := SE) from_data cx (n, info, w) = Ok tt /\ signature_part lk k (n, info, w) = Ok (Ok tt).
  Proof.
    intros H. rewrite C33_split_of_an_input. split; [tauto|]. intros [H1 H2]. split_and!; [done..|]. intros v h src ty raw secret sg E. destruct (H _ _ _ E).
  Qed.

  (** The same for all inputs of a transaction. *)
  Theorem C33_split_of_a_transaction lk cx utxos inputs sigs :
    verify_full hash160 commitments sig (tx lk) cx utxos inputs sigs = Ok tt <->
    verify_timelocks (SE := SE) from_data cx utxos inputs sigs = Ok tt /\
    exists l k, core_context (SE := SE) utxos inputs sigs = Ok l /\ commitments l = Ok k /\ Forall (fun p => signature_part lk k p = Ok (Ok tt)) l /\
      Forall (fun '(n, info, w) => forall v h src ty raw secret sg, info = InfoUtxo (OHtlc v h) src -> w = Standard ty raw ->
                                     from_data raw = Some (HtlcSpend secret sg) -> hash160 secret = hl_secret_hash h) l.
  Proof.
    rewrite full_ok, timelocks_ok. split.
    - intros (l & k & E1 & E2 & H). split; [exists l; split; [done|]|exists l, k; split_and!; [done..| |]]; eapply Forall_impl; try exact H; cbn; intros [[n info] w] Hp;
        apply C33_split_of_an_input in Hp; tauto.
    - intros [(l' & E' & H1) (l & k & E1 & E2 & H2 & H3)]. rewrite E1 in E'. injection E' as <-. exists l, k. split_and!; [done..|].
      rewrite Forall_forall in *. intros [[n info] w] Hp. apply C33_split_of_an_input. split_and!; [by apply H1|by apply H2|by apply (H3 _ Hp)].
  Qed.

  (** A transaction that passed the full check needs only its time locks checked again when the chain moves on, as the mempool
      does, while the outputs it spends and the views stay the same. *)
  Theorem C33_recheck_only_locks lk cx cx' utxos inputs sigs :
    verify_full hash160 commitments sig (tx lk) cx utxos inputs sigs = Ok tt ->
    (verify_full hash160 commitments sig (tx lk) cx' utxos inputs sigs = Ok tt <-> verify_timelocks (SE := SE) from_data cx' utxos inputs sigs = Ok tt).
  Proof. rewrite !C33_split_of_a_transaction. tauto. Qed.

  (** The check that wallets and signers use, which is told the owner instead of looking it up, gives the answer of the signature
      part of the full check, when the owner is the one the views give. *)
  Theorem C33_wallet_check_agrees lk k d n i u utxos w p :
    is_owner lk i u d -> (forall o, i = InUtxo o -> u = u_output <$> utxos o) -> per_input (SE := SE) utxos n (i, Some w) = Ok p ->
    verify_tx_signature anyone from_data sig k d n i u (Some w) = Ok tt <-> signature_part lk k p = Ok (Ok tt).
  Proof. rewrite signature_part_ok. apply tx_signature_ok. Qed.

  (** The full check of an input does not crash, in particular it never meets a hash that is not implemented, unless checking the
      signature, a view or the time lock does. *)
  Theorem C33_full_check_no_crash lk k cx n info w : (forall d w, sig k n d w <> Panic) ->
    (forall id, pool_decommission lk id <> Panic) -> (forall id, delegation_spend lk id <> Panic) -> (forall id, token_authority lk id <> Panic) -> (forall id, order_conclude lk id <> Panic) ->
    (forall t, standard_timelock (lock_ctx_of cx info) t <> Panic) -> verify_full_input hash160 sig (tx lk) k cx (n, info, w) <> Panic.
  Proof. intros H1 H2 H3 H4 H5 Ht H. apply full_input_panic in H as (t & E & _); auto. by apply (Ht t). Qed.
End Spending.
Print Assumptions C33_who_may_spend.
Print Assumptions C33_who_may_stake.
Print Assumptions C33_split_of_an_input.
Print Assumptions C33_split_without_secrets.
Print Assumptions C33_split_of_a_transaction.
Print Assumptions C33_recheck_only_locks.
Print Assumptions C33_wallet_check_agrees.
Print Assumptions C33_full_check_no_crash.

(** An example world: a signature is good when the raw bytes hold the destination; a witness starting with 1 shows a secret, the
    next byte, one starting with 2 is a refund; the hash adds one to the first byte. *)
Definition ex_sig (k : unit) (n d : N) (w : witness) : res unit unit :=
  match w with Standard _ [x] => ensure (x =? d) tt | NoSignature None => ensure (d =? 0) tt | _ => Err tt end.
Definition ex_data (l : bytes) : option htlc_spend := match l with [1; s; x] => Some (HtlcSpend [s] [x]) | [2; x] => Some (HtlcRefund [x]) | _ => None end.
Definition ex_hash (l : bytes) : N := hd 0 l + 1.
Definition ex_lk : lookups := Lookups (fun p => Ok (if p =? 3 then Some 9 else None)) (fun _ => Ok None) (fun _ => Ok None) (fun _ => Ok None).
Definition ex_cx (h : N) : chain_ctx := ChainCtx h 1000 (fun _ => Some 10).
Definition ex_htlc : tx_output := OHtlc (OvCoin 5) (HtlcData 43 7 (ForBlockCount 10) 8).
Notation ex_full h info w := (verify_full_input ex_hash ex_sig (translate_tx 0 ex_data ex_lk) tt (ex_cx h) (0, info, w)).
Example C33_ex_range : ctx_in_range (ex_cx 100). Proof. by split. Qed.
Example C33_ex_transfer : ex_full 100 (InfoUtxo (OTransfer (OvCoin 5) 7) (Some (InChain 95))) (Standard 1 [7]) = Ok tt. Proof. reflexivity. Qed.
Example C33_ex_wrong_key : ex_full 100 (InfoUtxo (OTransfer (OvCoin 5) 7) (Some (InChain 95))) (Standard 1 [8]) = Err (0, Verification (SignatureErr tt)). Proof. reflexivity. Qed.
Example C33_ex_pool : ex_full 100 (InfoUtxo (OProduceBlockFromStake 7 3) (Some (InChain 95))) (Standard 1 [9]) = Ok tt. Proof. reflexivity. Qed.
Example C33_ex_secret : ex_full 100 (InfoUtxo ex_htlc (Some (InChain 95))) (Standard 1 [1; 42; 7]) = Ok tt. Proof. reflexivity. Qed.
Example C33_ex_refund_early : ex_full 100 (InfoUtxo ex_htlc (Some (InChain 95))) (Standard 1 [2; 8]) = Err (0, Verification (TimelockErr (LockError (HeightLocked 100 105)))).
Proof. vm_compute. reflexivity. Qed.
Example C33_ex_refund : ex_full 105 (InfoUtxo ex_htlc (Some (InChain 95))) (Standard 1 [2; 8]) = Ok tt. Proof. vm_compute. reflexivity. Qed.
Example C33_ex_fill : ex_full 105 (InfoOrder (OcFill 1 5)) (NoSignature None) = Ok tt. Proof. reflexivity. Qed.
Example C33_ex_stake : verify_full_input ex_hash ex_sig (translate_reward ex_lk) tt (ex_cx 100) (0, InfoUtxo (OProduceBlockFromStake 7 3) (Some (InChain 95)), Standard 1 [7]) = Ok tt.
Proof. reflexivity. Qed.
Definition ex_utxos (o : source_id * N) : option utxo := if snd o =? 0 then Some (Utxo (OTransfer (OvCoin 5) 7) (InChain 95)) else Some (Utxo ex_htlc (InChain 95)).
Definition ex_inputs (t : N) : list tx_input := [InUtxo (FromTx t, 0); InUtxo (FromTx t, 1)].
Definition ex_wits : list (option witness) := [Some (Standard 1 [7]); Some (Standard 1 [2; 8])].
Example C33_ex_tx h : h = 105 \/ h = 200 -> verify_full ex_hash (fun _ => Ok tt) ex_sig (translate_tx 0 ex_data ex_lk) (ex_cx h) ex_utxos (ex_inputs 1) ex_wits = Ok tt.
Proof. by intros [->| ->]; vm_compute. Qed.
Example C33_ex_tx_early : verify_timelocks (SE := unit) ex_data (ex_cx 104) ex_utxos (ex_inputs 1) ex_wits = Err (1, Verification (TimelockErr (LockError (HeightLocked 104 105)))).
Proof. by vm_compute. Qed.
Example C33_ex_wallet : is_owner ex_lk (InUtxo (FromTx 1, 0)) (Some (OProduceBlockFromStake 7 3)) 9 /\
  verify_tx_signature 0 ex_data ex_sig tt 9 0 (InUtxo (FromTx 1, 0)) (Some (OProduceBlockFromStake 7 3)) (Some (Standard 1 [9])) = Ok tt.
Proof. split; [|reflexivity]. intros x p [= <- <-]. reflexivity. Qed.

(** The two parts alone are weaker than the full check: both pass for a hashed time-lock contract whose secret is wrong, because
    neither of them looks at the secret. *)
Theorem C33_two_parts_suffice_refuted :
  ~ (forall (from_data : bytes -> option htlc_spend) (hash160 : bytes -> N) (sig : unit -> N -> N -> witness -> res unit unit) lk cx n info w, ctx_in_range cx ->
       verify_timelocks_input (SE := unit) from_data cx (n, info, w) = Ok tt -> signature_part 0 from_data sig lk tt (n, info, w) = Ok (Ok tt) ->
       verify_full_input hash160 sig (translate_tx 0 from_data lk) tt cx (n, info, w) = Ok tt).
Proof.
  intros H. specialize (H ex_data ex_hash ex_sig ex_lk (ex_cx 100) 0 (InfoUtxo ex_htlc (Some (InChain 95))) (Standard 1 [1; 99; 7]) C33_ex_range eq_refl eq_refl). discriminate H.
Qed.
Print Assumptions C33_two_parts_suffice_refuted.
