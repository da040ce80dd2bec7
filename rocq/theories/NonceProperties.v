(** C25: account nonces. *)
From Verif Require Import Base BaseProofs ChainModel UndoCacheModel NonceModel NonceSpec NonceProofs.
Local Open Scope N_scope.

(** After any history of accepted connects and disconnects, over nested verifiers that are flushed into one another and into
    the database or dropped, the numbers in use by every account are 0, 1, 2, ...: no gap, no repetition. *)
Theorem C25_numbers_in_use_are_sequential ks st : accepted ks st ->
  exists ls db, history ks = Some (ls, db) /\ Forall (fun u => forall a, sequential (u a)) (db :: ls).
Proof.
  intros H. destruct (accepted_inv ks st H) as ([ls db] & -> & Hi). exists ls, db. split; [done|].
  destruct Hi as [Hv _]. cbn [fst snd] in Hv. revert ls Hv. generalize (ns_caches st). intros cs. induction cs as [|c cs IH]; intros [|u ls] Hv; cbn in Hv; try done.
  - constructor; [|done]. intros a. apply Hv.
  - destruct Hv as [Hv Hvs]. specialize (IH _ Hvs). apply Forall_cons in IH as [I1 I2]. constructor; [done|]. constructor; [|done]. intros a. apply Hv.
Qed.
Print Assumptions C25_numbers_in_use_are_sequential.

(** A spend from an account is accepted exactly with the next unused number, as long as that is a 64-bit number. *)
Theorem C25_only_next_number_accepted ks st u ls db a n : accepted ks st -> history ks = Some (u :: ls, db) ->
  (exists st', nonce_run st (NSpend a n) = Ok st') <-> n = N.of_nat (length (u a)) /\ n <= U64_MAX.
Proof.
  intros H Hh. destruct (accepted_inv ks st H) as (h & Hh' & [Hv _]). rewrite Hh in Hh'. injection Hh' as <-. destruct st as [cs d]. cbn [fst snd ns_caches ns_db] in Hv.
  destruct cs as [|c cs]; [done|]. destruct Hv as [Hv _]. cbn. rewrite (spend_spec _ _ _ _ _ _ Hv). destruct (decide _) as [Hd|Hd]; cbn.
  - split; [done|]. intros _. by eexists.
  - split; [by intros [? ?]|done].
Qed.
Print Assumptions C25_only_next_number_accepted.

(** A refused spend names the number that would have been accepted; there is none after 2^64 spends. *)
Theorem C25_refusal_names_next_number ks st u ls db a n e : accepted ks st -> history ks = Some (u :: ls, db) -> nonce_run st (NSpend a n) = Err e ->
  e = (if decide (N.of_nat (length (u a)) <= U64_MAX) then NonceIsNotIncremental a (N.of_nat (length (u a))) n else FailedToIncrementAccountNonce).
Proof.
  intros H Hh. destruct (accepted_inv ks st H) as (h & Hh' & [Hv _]). rewrite Hh in Hh'. injection Hh' as <-. destruct st as [cs d]. cbn [fst snd ns_caches ns_db] in Hv.
  destruct cs as [|c cs]; [done|]. destruct Hv as [Hv _]. cbn. rewrite (spend_spec _ _ _ _ _ _ Hv). destruct (decide (n = _ /\ _)) as [Hd|Hd]; cbn; [done|].
  intros [= <-]. case_decide as Hc.
  - by rewrite (proj2 (N.ltb_ge _ _)).
  - rewrite (proj2 (N.ltb_lt _ _)) by lia. done.
Qed.
Print Assumptions C25_refusal_names_next_number.

(** Disconnecting a spend makes exactly that number available again, and changes nothing for other accounts. *)
Theorem C25_disconnect_frees_the_last_number ks st u ls db a st' : accepted ks st -> history ks = Some (u :: ls, db) -> nonce_run st (NUnspend a) = Ok st' ->
  exists last l, u a = last :: l
    /\ (forall n, (exists st'', nonce_run st' (NSpend a n) = Ok st'') <-> n = last)
    /\ (forall b n, b <> a -> (exists st'', nonce_run st' (NSpend b n) = Ok st'') <-> (exists st'', nonce_run st (NSpend b n) = Ok st'')).
Proof.
  intros H Hh Hrun. pose proof (accepted_inv ks st H) as (h & Hh' & [Hv _]). rewrite Hh in Hh'. injection Hh' as <-.
  assert (H' : accepted (NUnspend a :: ks) st') by (by exists st).
  pose proof Hrun as Hrun'. destruct st as [cs d]. cbn [fst snd ns_caches ns_db] in Hv. destruct cs as [|c cs]; [done|]. destruct Hv as [Hv _].
  cbn in Hrun'. rewrite (unspend_spec _ _ _ _ _ Hv) in Hrun'. destruct (Hv a) as (_ & Hs & Hl). destruct (u a) as [|m l] eqn:Eu; [done|]. clear Hrun'.
  assert (Hh' : history (NUnspend a :: ks) = Some (set_used u a l :: ls, db)) by (cbn; rewrite Hh; cbn; by rewrite Eu).
  destruct (sequential_tail _ _ Hs) as [Em _]. cbn [length] in Hl. exists m, l. split; [done|]. split.
  - intros n. rewrite (C25_only_next_number_accepted _ _ _ _ _ a n H' Hh'). unfold set_used. rewrite decide_True by done. split; [by intros [-> _]|intros ->]. lia.
  - intros b n Hb. rewrite (C25_only_next_number_accepted _ _ _ _ _ b n H' Hh'), (C25_only_next_number_accepted _ _ _ _ _ b n H Hh). unfold set_used. by rewrite decide_False.
Qed.
Print Assumptions C25_disconnect_frees_the_last_number.

(** A spend can be disconnected whenever one is in use, and nothing aborts as long as a verifier is open. *)
Theorem C25_disconnect_exact ks st u ls db a : accepted ks st -> history ks = Some (u :: ls, db) ->
  (exists st', nonce_run st (NUnspend a) = Ok st') <-> u a <> [].
Proof.
  intros H Hh. destruct (accepted_inv ks st H) as (h & Hh' & [Hv _]). rewrite Hh in Hh'. injection Hh' as <-. destruct st as [cs d]. cbn [fst snd ns_caches ns_db] in Hv.
  destruct cs as [|c cs]; [done|]. destruct Hv as [Hv _]. cbn. rewrite (unspend_spec _ _ _ _ _ Hv). destruct (u a) as [|m l]; cbn.
  - by split; [intros [? ?]|].
  - split; [done|]. intros _. by eexists.
Qed.
Print Assumptions C25_disconnect_exact.
Theorem C25_no_crash ks st u ls db k : accepted ks st -> history ks = Some (u :: ls, db) -> nonce_run st k <> Panic.
Proof.
  intros H Hh. destruct (accepted_inv ks st H) as (h & Hh' & [Hv _]). rewrite Hh in Hh'. injection Hh' as <-. destruct st as [cs d]. cbn [fst snd ns_caches ns_db] in Hv.
  destruct cs as [|c cs]; [done|]. destruct Hv as [Hv _]. destruct k as [a n|a| | |]; cbn; try done.
  - rewrite (spend_spec _ _ _ _ _ _ Hv). by destruct (decide _).
  - rewrite (unspend_spec _ _ _ _ _ Hv). by destruct (u a).
  - by destruct cs.
Qed.
Print Assumptions C25_no_crash.

(** A history that is accepted: two spends, the second in a nested verifier that is flushed, stored, and the second disconnected
    later; then number 1 is accepted again, and numbers 0 and 2 are not. *)
Definition ex_nonces : list nonce_call :=
  [NUnspend (AccDelegation 7); NDerive; NFlush; NFlush; NSpend (AccDelegation 7) 1; NDerive; NSpend (AccToken 7) 0; NSpend (AccDelegation 7) 0; NDerive].
Example C25_ex : exists st u db, accepted ex_nonces st /\ history ex_nonces = Some ([u], db) /\ u (AccDelegation 7) = [0] /\ db (AccDelegation 7) = [1; 0]
  /\ (exists st', nonce_run st (NSpend (AccDelegation 7) 1) = Ok st')
  /\ ~ (exists st', nonce_run st (NSpend (AccDelegation 7) 0) = Ok st') /\ ~ (exists st', nonce_run st (NSpend (AccDelegation 7) 2) = Ok st').
Proof.
  assert (Ha : exists st, accepted ex_nonces st).
  { unfold ex_nonces. eexists. cbn [accepted]. repeat (eexists; split); try reflexivity. }
  destruct Ha as [st Ha]. destruct (history ex_nonces) as [[[|u [|]] db]|] eqn:Hh; try (exfalso; clear -Hh; vm_compute in Hh; congruence).
  exists st, u, db. split; [done|]. split; [done|].
  assert (Eu : u (AccDelegation 7) = [0]) by (cbn in Hh; injection Hh as <- _; reflexivity).
  split; [done|]. split; [cbn in Hh; injection Hh as _ <-; reflexivity|].
  rewrite !(C25_only_next_number_accepted _ _ _ _ _ _ _ Ha Hh), Eu. cbn [length]. unfold U64_MAX. lia.
Qed.
