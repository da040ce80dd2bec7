(** C14-C16: staking pools and delegations. *)
From Verif Require Import Base AmountModel DeltaModel LayeredModel LayeredSpec LayeredProofs PosModel PosSpec PosProofs.
Local Open Scope N_scope.

(** Sample run: two pools, two delegations to the first, rewards, a withdrawal, a decommissioning. *)
Definition pool1 := PoolData 5 400 0 6 100 3.
Definition pool2 := PoolData 7 500 0 8 200 4.
Definition empty_db : pos_db := PosDb ∅ ∅ ∅ ∅ ∅.
Definition empty_books : pos_state := PosState (fun _ => None) (fun _ => 0) (fun _ => None) (fun _ => 0) (fun _ => 0).
Definition sample_run : list (command pos_op) :=
  [Push; Do (CreatePool 1 pool1); Do (CreateDelegation 1 11 50); Push; Do (CreateDelegation 1 12 51); Do (Delegate 11 70);
   Do (Delegate 12 30); Do (IncreaseRewards 1 9); Flush; Flush; Push; Do (SpendShare 11 20); Do (CreatePool 2 pool2)].
Definition sample_neutral : list (command pos_op) :=
  [Push; Do (Delegate 12 5); Do (IncreaseRewards 2 8); Flush; Do (DecommissionPool 1); Push; Do (SpendShare 12 35);
   Do (DeleteDelegation 12); UndoLast; UndoLast; Flush; UndoLast; UndoLast; UndoLast].

Lemma empty_db_is : pos_db_is empty_db empty_books.
Proof.
  unfold pos_db_is, no_zeroes, below_2_127, sound_stakes. cbn. repeat split; try discriminate; try (intros k; rewrite lookup_empty; discriminate).
Qed.
Ltac fits_step :=
  split; [first [exact I
    | apply fits_do; vm_compute; reflexivity
    | apply fits_create; [discriminate|reflexivity|intros ?; vm_compute; reflexivity]]|].
Lemma sample_fits : fits_all pos_step pos_fits ((empty_books, []), []) (sample_run ++ sample_neutral).
Proof. unfold sample_run, sample_neutral. cbn [app fits_all]. repeat fits_step. exact I. Qed.

(** C14. Undoing everything, latest first, with caches opened and flushed in between, restores every answer. *)
Theorem C14_pos_undo_restores db s0 cs ns :
  pos_db_is db s0 -> fits_all pos_step pos_fits ((s0, []), []) (cs ++ ns) -> neutral ns ->
  let m1 := (pos_exec_all ((db, []), []) cs).1 in
  Forall (fun o => o = Done) (pos_exec_all m1 ns).2 ->
  pos_answers_agree (pos_machine_view m1) (pos_machine_view (pos_exec_all m1 ns).1).
Proof. exact (pos_undo_restores db s0 cs ns). Qed.
Print Assumptions C14_pos_undo_restores.

Example C14_example : pos_db_is empty_db empty_books /\ fits_all pos_step pos_fits ((empty_books, []), []) (sample_run ++ sample_neutral) /\
  neutral sample_neutral /\
  Forall (fun o => o = Done) (pos_exec_all (pos_exec_all ((empty_db, []), []) sample_run).1 sample_neutral).2.
Proof.
  split; [exact empty_db_is|]. split; [exact sample_fits|]. split.
  - change sample_neutral with ([Push] ++ (Do (Delegate 12 5) :: (Do (IncreaseRewards 2 8) :: ([Flush] ++ (Do (DecommissionPool 1) ::
      ([Push] ++ (Do (SpendShare 12 35) :: (Do (DeleteDelegation 12) :: [] ++ [UndoLast]) ++ [UndoLast]) ++ [Flush]) ++ [UndoLast]))
      ++ [UndoLast]) ++ [UndoLast])).
    repeat constructor.
  - vm_compute. repeat constructor.
Qed.

(** C14. Undoing and flushing are never refused and nothing crashes. *)
Theorem C14_pos_undo_never_refused db s0 cs :
  pos_db_is db s0 -> fits_all pos_step pos_fits ((s0, []), []) cs ->
  Forall2 expected cs (pos_exec_all ((db, []), []) cs).2.
Proof. exact (pos_never_stuck db s0 cs). Qed.
Print Assumptions C14_pos_undo_never_refused.

(** C14. A refused operation changes no answer. *)
Theorem C14_refused_pos_op_changes_nothing db s0 cs o e :
  pos_db_is db s0 -> fits_all pos_step pos_fits ((s0, []), []) cs ->
  let m1 := (pos_exec_all ((db, []), []) cs).1 in
  (forall s, pos_reads (pos_machine_view m1) s -> pos_fits s o) -> (pos_exec m1 (Do o)).2 = Refused e ->
  pos_answers_agree (pos_machine_view m1) (pos_machine_view (pos_exec m1 (Do o)).1).
Proof. exact (pos_refused_changes_nothing db s0 cs o e). Qed.
Print Assumptions C14_refused_pos_op_changes_nothing.

Example C14_refusals_example :
  (pos_exec_all (pos_exec_all ((empty_db, []), []) sample_run).1
     [Do (CreatePool 1 pool1); Do (DecommissionPool 3); Do (IncreaseRewards 3 1); Do (CreateDelegation 3 13 50);
      Do (CreateDelegation 1 11 50); Do (DeleteDelegation 11); Do (DeleteDelegation 13); Do (Delegate 13 1); Do (SpendShare 13 0);
      Do (SpendShare 11 50); Do (DeleteDelegation 11)]).2 =
  [Refused PoolDataAlreadyExists; Refused DecommissionNonexistingPool; Refused IncreaseRewardsOfNonexistingPool;
   Refused DelegationPoolDoesNotExist; Refused DelegationIdAlreadyExists; Refused DelegationBalanceNonZero;
   Refused DelegationIdDoesNotExist; Refused DelegateToNonexistingId; Refused SpendingShareOfNonexistingDelegation;
   Done; Refused DelegationPoolStillExists].
Proof. vm_compute. reflexivity. Qed.

(** C15. For every existing pool the reported balance is the staker's own balance (pledge plus rewards) plus the sum of
    all shares listed for the pool. *)
Theorem C15_pool_balance_is_staker_plus_shares db s0 cs :
  pos_db_is db s0 -> fits_all pos_step pos_fits ((s0, []), []) cs ->
  let v := pos_machine_view (pos_exec_all ((db, []), []) cs).1 in
  forall p x, pv_pool v p = Ok (Some x) ->
  exists o, pv_shares v p = Ok o /\ pv_pool_balance v p = Ok (pd_pledge x + pd_rewards x + total o) /\
    staker_balance x = Ok (pd_pledge x + pd_rewards x).
Proof. exact (pool_balance_is_sum db s0 cs). Qed.
Print Assumptions C15_pool_balance_is_staker_plus_shares.

(** C15. A delegation's balance is its share in its own pool; it has no share in any other pool; ids without a delegation
    have neither. *)
Theorem C15_delegation_balance_is_share db s0 cs :
  pos_db_is db s0 -> fits_all pos_step pos_fits ((s0, []), []) cs ->
  let v := pos_machine_view (pos_exec_all ((db, []), []) cs).1 in
  forall d, match pv_deleg v d with
            | Ok (Some x) => pv_deleg_balance v d = pv_share v (dd_pool x) d /\ is_ok (pv_deleg_balance v d) /\
                             forall p, p <> dd_pool x -> pv_share v p d = Ok 0
            | Ok None => pv_deleg_balance v d = Ok 0 /\ forall p, pv_share v p d = Ok 0
            | _ => False
            end.
Proof. exact (deleg_balance_is_share db s0 cs). Qed.
Print Assumptions C15_delegation_balance_is_share.

Example C15_example :
  let v := pos_machine_view (pos_exec_all ((empty_db, []), []) sample_run).1 in
  pv_pool v 1 = Ok (Some (with_rewards pool1 9)) /\ pv_pool_balance v 1 = Ok 489 /\
  pv_share v 1 11 = Ok 50 /\ pv_share v 1 12 = Ok 30 /\ pv_deleg_balance v 11 = Ok 50 /\ pv_deleg v 11 = Ok (Some (DelegData 50 1)) /\
  match pv_shares v 1 with Ok o => total o | _ => 0 end = 80.
Proof. vm_compute. repeat split; reflexivity. Qed.

(** C15. Delegating adds exactly the amount to the delegation and to its pool and touches nothing else. *)
Theorem C15_delegating_adds_exactly db s0 cs d a x bal :
  pos_db_is db s0 -> fits_all pos_step pos_fits ((s0, []), []) cs ->
  let m1 := (pos_exec_all ((db, []), []) cs).1 in
  m1.2 <> [] ->
  let v := pos_machine_view m1 in
  let v' := pos_machine_view (pos_exec m1 (Do (Delegate d a))).1 in
  pv_deleg v d = Ok (Some x) -> pv_deleg_balance v d = Ok bal ->
  (Z.of_N (bal + a) <= I128_MAX)%Z ->
  forall pb, pv_pool_balance v (dd_pool x) = Ok pb -> (Z.of_N (pb + a) <= I128_MAX)%Z ->
  (pos_exec m1 (Do (Delegate d a))).2 = Done /\
  pv_deleg_balance v' d = Ok (bal + a) /\ pv_pool_balance v' (dd_pool x) = Ok (pb + a) /\
  (forall d', d' <> d -> pv_deleg_balance v' d' = pv_deleg_balance v d') /\
  (forall p, p <> dd_pool x -> pv_pool_balance v' p = pv_pool_balance v p) /\
  (forall p, pv_pool v' p = pv_pool v p) /\ (forall d, pv_deleg v' d = pv_deleg v d).
Proof. exact (next_delegate db s0 cs d a x bal). Qed.
Print Assumptions C15_delegating_adds_exactly.

(** C15. Any amount up to the balance can be withdrawn from a delegation; exactly that amount leaves the delegation and,
    if the pool still exists, the pool; nothing else changes. *)
Theorem C15_spending_removes_exactly db s0 cs d a x bal :
  pos_db_is db s0 -> fits_all pos_step pos_fits ((s0, []), []) cs ->
  let m1 := (pos_exec_all ((db, []), []) cs).1 in
  m1.2 <> [] ->
  let v := pos_machine_view m1 in
  let v' := pos_machine_view (pos_exec m1 (Do (SpendShare d a))).1 in
  pv_deleg v d = Ok (Some x) -> pv_deleg_balance v d = Ok bal -> a <= bal ->
  (pos_exec m1 (Do (SpendShare d a))).2 = Done /\
  pv_deleg_balance v' d = Ok (bal - a) /\
  (forall pd pb, pv_pool v (dd_pool x) = Ok (Some pd) -> pv_pool_balance v (dd_pool x) = Ok pb ->
     a <= pb /\ pv_pool_balance v' (dd_pool x) = Ok (pb - a)) /\
  (forall d', d' <> d -> pv_deleg_balance v' d' = pv_deleg_balance v d') /\
  (forall p, p <> dd_pool x -> pv_pool_balance v' p = pv_pool_balance v p) /\
  (forall p, pv_pool v' p = pv_pool v p) /\ (forall d, pv_deleg v' d = pv_deleg v d).
Proof. exact (next_spend db s0 cs d a x bal). Qed.
Print Assumptions C15_spending_removes_exactly.

Example C15_moves_example :
  let m1 := (pos_exec_all ((empty_db, []), []) sample_run).1 in
  let m2 := (pos_exec_all m1 [Do (Delegate 12 5); Do (SpendShare 12 35)]).1 in
  length m1.2 = 1%nat /\ pv_pool_balance (pos_machine_view m2) 1 = Ok 459 /\ pv_deleg_balance (pos_machine_view m2) 12 = Ok 0.
Proof. vm_compute. repeat split; reflexivity. Qed.

(** The operations themselves do not stop a withdrawal of more than the balance: it is reported as done, and afterwards
    the balance cannot be read. (The transaction verifier checks the balance first.) *)
Theorem C15_overspending_reported_as_done_refuted :
  exists d a, let m1 := (pos_exec_all ((empty_db, []), []) sample_run).1 in
    let m2 := pos_exec m1 (Do (SpendShare d a)) in
    pv_deleg_balance (pos_machine_view m1) d = Ok (a - 1) /\ m2.2 = Done /\ ~ is_ok (pv_deleg_balance (pos_machine_view m2.1) d).
Proof. exists 11, 51. split; [vm_compute; reflexivity|]. split; [vm_compute; reflexivity|]. vm_compute. intros [x H]. discriminate H. Qed.
Print Assumptions C15_overspending_reported_as_done_refuted.

(** Delegating to a decommissioned pool is accepted. It leaves a pool balance without a pool, which withdrawing the whole
    delegation does not remove. *)
Theorem C15_delegating_to_missing_pool_accepted_refuted :
  exists p d a, let m1 := (pos_exec_all ((empty_db, []), []) sample_run).1 in
    let m2 := pos_exec_all m1 [Do (DecommissionPool p); Do (Delegate d a)] in
    let v2 := pos_machine_view m2.1 in
    m2.2 = [Done; Done] /\ pv_pool v2 p = Ok None /\ pv_pool_balance v2 p = Ok a /\ 0 < a /\
    exists b, pv_deleg_balance v2 d = Ok b /\
    let m3 := pos_exec_all m2.1 [Do (SpendShare d b); Do (DeleteDelegation d)] in
    m3.2 = [Done; Done] /\ pv_pool_balance (pos_machine_view m3.1) p = Ok a.
Proof.
  exists 1, 11, 5. split; [vm_compute; reflexivity|]. split; [vm_compute; reflexivity|]. split; [vm_compute; reflexivity|].
  split; [lia|]. exists 55. split; [vm_compute; reflexivity|]. split; vm_compute; reflexivity.
Qed.
Print Assumptions C15_delegating_to_missing_pool_accepted_refuted.

(** C16. A stack of staking caches over a database is indistinguishable from a stack of plain tables: operations are
    accepted or refused alike with the same errors, all queries (including the listing of a pool's shares) answer as the
    top table, flushing changes no answer, and the database holds exactly the table afterwards. *)
Theorem C16_pos_caches_refine_tables db s0 cs :
  pos_db_is db s0 -> fits_all pos_step pos_fits ((s0, []), []) cs ->
  let (m, os) := pos_exec_all ((db, []), []) cs in
  let (sm, sos) := sexec_all pos_step ((s0, []), []) cs in
  os = sos /\ pos_reads (pos_machine_view m) (top sm) /\ (m.2 = [] -> pos_db_is m.1.1 (top sm)).
Proof. exact (pos_layered db s0 cs). Qed.
Print Assumptions C16_pos_caches_refine_tables.

Example C16_example :
  (pos_exec_all ((empty_db, []), []) sample_run).2 = [Done; Done; Done; Done; Done; Done; Done; Done; Done; Done; Done; Done; Done].
Proof. vm_compute. reflexivity. Qed.
