(** C05-C08: token accounting. *)
From Verif Require Import Base AmountModel DeltaModel LayeredModel LayeredSpec LayeredProofs TokensModel TokensSpec TokensProofs.
Local Open Scope N_scope.

(** Sample state and runs used to show that the hypotheses below can be met. *)
Definition sample_token : token_data := from_issuance [84; 75] 8 [] (Fixed 1000) true 7.
Definition sample_lockable : token_data := from_issuance [76] 2 [] Lockable false 7.
Definition empty_db : tok_db := TokDb ∅ ∅.
Definition empty_state : tok_state := TokState (fun _ => None) (fun _ => 0).
Definition sample_run : list (command tok_op) :=
  [Push; Do (IssueToken 1 sample_token); Do (MintTokens 1 600); Push; Do (IssueToken 2 sample_lockable);
   Do (MintTokens 2 50); Do (LockSupply 2); Flush; Do (MintTokens 1 500); Do (UnmintTokens 1 100)].
Definition sample_neutral : list (command tok_op) :=
  [Push; Do (FreezeToken 1 true); Flush; Push; Do (UnfreezeToken 1); UndoLast; UndoLast].

Lemma empty_db_is : tok_db_is empty_db empty_state.
Proof. repeat split; cbn; try discriminate; try (intros id; rewrite lookup_empty; discriminate). Qed.

Lemma sample_fits : fits_all tok_step tok_fits ((empty_state, []), []) sample_run.
Proof. apply (fits_allb_sound _ _ _ tok_fitsb_sound). vm_compute. reflexivity. Qed.
Lemma sample_fits_neutral : fits_all tok_step tok_fits ((empty_state, []), []) (sample_run ++ sample_neutral).
Proof. apply (fits_allb_sound _ _ _ tok_fitsb_sound). vm_compute. reflexivity. Qed.

(** C05. Whatever ran before, a sequence in which every operation is undone again, latest first, with caches opened and
    flushed (also into the database) anywhere in between, leaves every answer as it was. *)
Theorem C05_token_undo_restores db s0 cs ns :
  tok_db_is db s0 -> fits_all tok_step tok_fits ((s0, []), []) (cs ++ ns) -> neutral ns ->
  let m1 := (tok_exec_all ((db, []), []) cs).1 in
  Forall (fun o => o = Done) (tok_exec_all m1 ns).2 ->
  forall id, tv_data (tok_machine_view (tok_exec_all m1 ns).1) id = tv_data (tok_machine_view m1) id /\
             tv_supply (tok_machine_view (tok_exec_all m1 ns).1) id = tv_supply (tok_machine_view m1) id.
Proof. exact (undo_restores db s0 cs ns). Qed.
Print Assumptions C05_token_undo_restores.

Example C05_example : neutral sample_neutral /\
  Forall (fun o => o = Done) (tok_exec_all (tok_exec_all ((empty_db, []), []) sample_run).1 sample_neutral).2.
Proof.
  split.
  - change sample_neutral with ([Push] ++ (Do (FreezeToken 1 true) ::
      ([Flush] ++ [Push] ++ (Do (UnfreezeToken 1) :: [] ++ [UndoLast])) ++ [UndoLast])).
    repeat constructor.
  - vm_compute. repeat constructor.
Qed.

(** C05. Undoing (and flushing) is never refused, and nothing crashes. *)
Theorem C05_token_undo_never_refused db s0 cs :
  tok_db_is db s0 -> fits_all tok_step tok_fits ((s0, []), []) cs ->
  Forall2 expected cs (tok_exec_all ((db, []), []) cs).2.
Proof. exact (tok_never_stuck db s0 cs). Qed.
Print Assumptions C05_token_undo_never_refused.

(** C05. An operation that is refused changes nothing in the cache, for every parent view and every cache. *)
Theorem C05_refused_token_op_changes_nothing P c o c' e : tok_run P c o = (c', Err e) -> c' = c.
Proof. exact (tok_run_refused P c o c' e). Qed.
Print Assumptions C05_refused_token_op_changes_nothing.

Example C05_refused_example :
  let c := (tok_run (tok_db_view empty_db) tok_delta_new (IssueToken 1 sample_token)).1 in
  (tok_run (tok_db_view empty_db) c (MintTokens 1 1001)).2 = Err MintExceedsSupplyLimit.
Proof. vm_compute. reflexivity. Qed.

(** C06. A fixed maximum supply is never exceeded: whatever was run, undone, flushed or dropped. *)
Theorem C06_fixed_supply_never_exceeded db s0 cs :
  tok_db_is db s0 -> caps_respected s0 -> fits_all tok_step tok_fits ((s0, []), []) cs ->
  let v := tok_machine_view (tok_exec_all ((db, []), []) cs).1 in
  forall id t cap, tv_data v id = Ok (Some t) -> tk_supply t = Fixed cap ->
  exists n, tv_supply v id = Ok n /\ n <= cap.
Proof. exact (fixed_cap db s0 cs). Qed.
Print Assumptions C06_fixed_supply_never_exceeded.

Example C06_fixed_example : caps_respected empty_state /\
  tv_data (tok_machine_view (tok_exec_all ((empty_db, []), []) sample_run).1) 1 = Ok (Some sample_token) /\
  tv_supply (tok_machine_view (tok_exec_all ((empty_db, []), []) sample_run).1) 1 = Ok 500.
Proof. split; [intros id t cap H; discriminate|]. vm_compute. split; reflexivity. Qed.

(** C06. Once locked, the supply never changes again under operations and flushes. *)
Theorem C06_locked_supply_never_changes db s0 cs fs :
  tok_db_is db s0 -> fits_all tok_step tok_fits ((s0, []), []) (cs ++ fs) -> Forall forward fs ->
  let m1 := (tok_exec_all ((db, []), []) cs).1 in
  let v1 := tok_machine_view m1 in let v2 := tok_machine_view (tok_exec_all m1 fs).1 in
  forall id t, tv_data v1 id = Ok (Some t) -> tk_supply t = Lockable -> tk_locked t = true ->
  tv_supply v2 id = tv_supply v1 id /\ exists t', tv_data v2 id = Ok (Some t') /\ tk_locked t' = true.
Proof. exact (locked_supply_constant db s0 cs fs). Qed.
Print Assumptions C06_locked_supply_never_changes.

Example C06_locked_example :
  let m1 := (tok_exec_all ((empty_db, []), []) sample_run).1 in
  tv_data (tok_machine_view m1) 2 = Ok (Some (TokenData [76] 2 [] Lockable true (NotFrozen false) 7)) /\
  (tok_exec_all m1 [Do (MintTokens 2 1); Do (UnmintTokens 2 1); Do (ChangeAuthority 2 9)]).2 =
    [Refused CannotMintFromLockedSupply; Refused CannotUnmintFromLockedSupply; Done].
Proof. vm_compute. split; reflexivity. Qed.

(** C07. A frozen token refuses everything but unfreezing, and the refusal changes no answer. *)
Theorem C07_frozen_token_refuses db s0 cs o id :
  tok_db_is db s0 -> fits_all tok_step tok_fits ((s0, []), []) cs ->
  let m1 := (tok_exec_all ((db, []), []) cs).1 in
  m1.2 <> [] -> op_on_frozen id o ->
  (exists t u, tv_data (tok_machine_view m1) id = Ok (Some t) /\ tk_frozen t = Frozen u) ->
  (exists e, (tok_exec m1 (Do o)).2 = Refused e) /\
  tok_answers_agree (tok_machine_view m1) (tok_machine_view (tok_exec m1 (Do o)).1).
Proof. exact (frozen_rejects db s0 cs o id). Qed.
Print Assumptions C07_frozen_token_refuses.

Definition frozen_run := sample_run ++ [Do (FreezeToken 1 false)].
Example C07_frozen_example :
  let m1 := (tok_exec_all ((empty_db, []), []) frozen_run).1 in
  length m1.2 = 1%nat /\ tv_data (tok_machine_view m1) 1 = Ok (Some (TokenData [84; 75] 8 [] (Fixed 1000) false (Frozen false) 7)) /\
  (tok_exec m1 (Do (MintTokens 1 1))).2 = Refused CannotMintFrozenToken.
Proof. vm_compute. repeat split; reflexivity. Qed.

(** C07. Frozen without permission to unfreeze is for ever. *)
Theorem C07_frozen_without_unfreeze_is_permanent db s0 cs fs :
  tok_db_is db s0 -> fits_all tok_step tok_fits ((s0, []), []) (cs ++ fs) -> Forall forward fs ->
  let m1 := (tok_exec_all ((db, []), []) cs).1 in
  let v1 := tok_machine_view m1 in let v2 := tok_machine_view (tok_exec_all m1 fs).1 in
  forall id t, tv_data v1 id = Ok (Some t) -> tk_frozen t = Frozen false ->
  exists t', tv_data v2 id = Ok (Some t') /\ tk_frozen t' = Frozen false.
Proof. exact (frozen_forever db s0 cs fs). Qed.
Print Assumptions C07_frozen_without_unfreeze_is_permanent.

(** C07. A token issued as not freezable is never frozen. *)
Theorem C07_not_freezable_is_permanent db s0 cs fs :
  tok_db_is db s0 -> fits_all tok_step tok_fits ((s0, []), []) (cs ++ fs) -> Forall forward fs ->
  let m1 := (tok_exec_all ((db, []), []) cs).1 in
  let v1 := tok_machine_view m1 in let v2 := tok_machine_view (tok_exec_all m1 fs).1 in
  forall id t, tv_data v1 id = Ok (Some t) -> tk_frozen t = NotFrozen false ->
  exists t', tv_data v2 id = Ok (Some t') /\ tk_frozen t' = NotFrozen false.
Proof. exact (not_freezable_forever db s0 cs fs). Qed.
Print Assumptions C07_not_freezable_is_permanent.

Example C07_permanent_example :
  let m1 := (tok_exec_all ((empty_db, []), []) frozen_run).1 in
  tv_data (tok_machine_view m1) 1 = Ok (Some (TokenData [84; 75] 8 [] (Fixed 1000) false (Frozen false) 7)) /\
  tv_data (tok_machine_view m1) 2 = Ok (Some (TokenData [76] 2 [] Lockable true (NotFrozen false) 7)) /\
  (tok_exec_all m1 [Do (UnfreezeToken 1); Do (FreezeToken 2 true)]).2 =
    [Refused CannotUnfreezeNotUnfreezableToken; Refused CannotFreezeNotFreezableToken].
Proof. vm_compute. repeat split; reflexivity. Qed.

(** C08. A stack of token caches over a database is indistinguishable from a stack of plain tables: the same operations
    are accepted and refused with the same errors, every query answers as the top table, and flushing (to the cache
    below or into the database) changes no answer. *)
Theorem C08_token_caches_refine_tables db s0 cs :
  tok_db_is db s0 -> fits_all tok_step tok_fits ((s0, []), []) cs ->
  let (m, os) := tok_exec_all ((db, []), []) cs in
  let (sm, sos) := sexec_all tok_step ((s0, []), []) cs in
  os = sos /\ tok_reads (tok_machine_view m) (top sm) /\ (m.2 = [] -> tok_db_is m.1.1 (top sm)).
Proof. exact (tok_layered db s0 cs). Qed.
Print Assumptions C08_token_caches_refine_tables.

Example C08_example : tok_db_is empty_db empty_state /\ fits_all tok_step tok_fits ((empty_state, []), []) sample_run /\
  (tok_exec_all ((empty_db, []), []) sample_run).2 =
    [Done; Done; Done; Done; Done; Done; Done; Done; Refused MintExceedsSupplyLimit; Done].
Proof. split; [exact empty_db_is|]. split; [exact sample_fits|]. vm_compute. reflexivity. Qed.

(** The range condition in [tok_fits] is needed: minting an unlimited token past 2^127-1 is reported as successful, after
    which the supply can no longer be read and the cache can no longer be written to the database. *)
Definition big_db : tok_db :=
  TokDb {[ 1 := from_issuance [85] 0 [] Unlimited false 7 ]} {[ 1 := Z.to_N I128_MAX ]}.
Theorem C08_mint_beyond_signed_range_refuted :
  exists db s0 cs, tok_db_is db s0 /\
    (tok_exec_all ((db, []), []) cs).2 = [Done; Done] /\
    tv_supply (tok_machine_view (tok_exec_all ((db, []), []) cs).1) 1 = Err (TokAccounting DeltaAdditionFailed) /\
    (tok_exec (tok_exec_all ((db, []), []) cs).1 Flush).2 = Refused TokStorageWrite.
Proof.
  exists big_db, (TokState (fun id => tdb_data big_db !! id) (fun id => default 0 (tdb_supply big_db !! id))),
    [Push; Do (MintTokens 1 1)].
  split; [|vm_compute; repeat split; reflexivity].
  split; [reflexivity|]. split; [reflexivity|]. split; [|split].
  - intros id H. cbn [big_db tdb_supply] in H. apply lookup_singleton_Some in H as [_ H]. discriminate.
  - intros id. cbn [ts_supply]. destruct (decide (id = 1)) as [->|Hne]; [vm_compute; discriminate|].
    cbn [big_db tdb_supply]. rewrite lookup_singleton_ne by congruence. vm_compute; discriminate.
  - intros id t. cbn [big_db tdb_data ts_data]. intros H. apply lookup_singleton_Some in H as [_ <-]. discriminate.
Qed.
Print Assumptions C08_mint_beyond_signed_range_refuted.
