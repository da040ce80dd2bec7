(** C43: undo records through the caches. *)
From Verif Require Import Base BaseProofs ChainModel RewardModel UndoCacheModel UndoCacheSpec UndoCacheProofs.
Local Open Scope N_scope.

(** ** C43 *)
Section C43.
Context {R T : Type} `{EqDecision R} `{EqDecision T}.
Notation acc := (accounting_kind (R := R) (T := T)).
Notation utx := (utxo_kind (R := R) (T := T)).
Notation child := (fun (t : undo_table (T * list source_id) R) s x => bool_decide (has_child t s x)).

Lemma C43_any_kind {B I O R' D} (K : block_kind B I O R' D) released blockedf blocked holds derived fresh gone :
  kind_laws K released blockedf holds derived fresh gone ->
  (forall t s x, blocked t s x = true <-> blockedf (tx_of t s) x) ->
  forall m st k, undo_reach K released blocked m st -> undo_use (bk_strict K) st k ->
    answer_fits st k (spec_call released blocked st k).2 (rmap snd (undo_run K m k)).
Proof.
  intros L Hb m st k Hr Hu. apply (reach_inv K released blockedf blocked holds derived fresh gone L Hb) in Hr.
  destruct (call_spec K released blockedf blocked holds derived fresh gone L Hb _ _ _ Hr Hu) as [(m' & o & E & Es & _)|(e & E & He)].
  - left. by rewrite E, Es.
  - by rewrite E.
Qed.

Lemma utxo_blocked (t : undo_table (T * list source_id) R) s x : bool_decide (has_child t s x) = true <-> ub_blocked (tx_of t s) x.
Proof. rewrite bool_decide_eq_true. unfold has_child, ub_blocked, edge, tx_of. naive_solver. Qed.

(** Accounting records (stake, tokens, orders): along every history of recording, handing back, opening nested verifiers, flushing
    them into one another or into the database, and dropping them, every call answers what the plain table of records answers:
    what is handed back is what was recorded, once. Nothing crashes. *)
Theorem C43_accounting_records_follow_the_table m st k :
  undo_reach acc id (fun _ _ _ => false) m st -> undo_use false st k ->
  answer_fits st k (spec_call id (fun _ _ _ => false) st k).2 (rmap snd (undo_run acc m k)).
Proof. apply (C43_any_kind acc id _ (fun _ _ _ => false) _ _ _ _ accounting_laws). done. Qed.

(** The same for the records of spent outputs, where moreover a record is refused exactly while a recorded transaction of the
    same block spends an output of its transaction. *)
Theorem C43_utxo_records_follow_the_table m st k :
  undo_reach utx fst child m st -> undo_use true st k ->
  answer_fits st k (spec_call fst child st k).2 (rmap snd (undo_run utx m k)).
Proof. apply (C43_any_kind utx fst _ child _ _ _ _ utxo_laws). apply utxo_blocked. Qed.

(** No call aborts the process. *)
Theorem C43_no_crash m st k : undo_reach acc id (fun _ _ _ => false) m st -> undo_use false st k -> undo_run acc m k <> Panic.
Proof.
  intros Hr Hu Hp. pose proof (C43_accounting_records_follow_the_table m st k Hr Hu) as Ha. rewrite Hp in Ha. destruct st as [ls T0 mem].
  destruct Ha as [Ha|Ha].
  - destruct k; cbn in Ha, Hu; destruct ls as [|l ls]; cbn in Ha; try done; try (by destruct Hu).
    + by destruct (ut_tx (ul_table l) !! (s, t)).
    + by destruct (ut_reward (ul_table l) !! s).
    + by destruct ls.
  - destruct k; cbn in Ha; try done; by destruct Ha.
Qed.
Theorem C43_utxo_no_crash m st k : undo_reach utx fst child m st -> undo_use true st k -> undo_run utx m k <> Panic.
Proof.
  intros Hr Hu Hp. pose proof (C43_utxo_records_follow_the_table m st k Hr Hu) as Ha. rewrite Hp in Ha. destruct st as [ls T0 mem].
  destruct Ha as [Ha|Ha].
  - destruct k; cbn in Ha, Hu; destruct ls as [|l ls]; cbn in Ha; try done; try (by destruct Hu).
    + destruct (ut_tx (ul_table l) !! (s, t)); [|done]. by destruct (bool_decide _).
    + by destruct (ut_reward (ul_table l) !! s).
    + by destruct ls.
  - destruct k; cbn in Ha; try done; by destruct Ha.
Qed.

(** What is handed back is what the table holds, and the table then no longer holds it: nothing is handed back twice. *)
Theorem C43_handed_back_once m st s x m' u :
  undo_reach acc id (fun _ _ _ => false) m st -> undo_use false st (UTake s x) -> undo_run acc m (UTake s x) = Ok (m', UTook (Some u)) ->
  ut_tx (sp_now st) !! (s, x) = Some u /\ (forall m'' u', undo_run acc m' (UTake s x) <> Ok (m'', UTook (Some u'))).
Proof.
  intros Hr Hu Hrun. pose proof (C43_accounting_records_follow_the_table m st _ Hr Hu) as Ha. rewrite Hrun in Ha.
  pose proof (reach_call acc id (fun _ _ _ => false) m st (UTake s x) m' _ Hr Hu Hrun) as Hr'.
  destruct Ha as [Ha|(? & _)]; [|done]. cbn in Ha. destruct st as [ls T0 mem].
  destruct Hu as (Hne & Hmt & _). destruct ls as [|l ls]; [done|]. cbn in Ha, Hr'. unfold sp_now. cbn [below sp_layers].
  destruct (ut_tx (ul_table l) !! (s, x)) as [i|] eqn:E; [|done]. cbn in Ha. injection Ha as ->. split; [done|].
  intros m'' u' Hrun'. set (st' := USpec _ T0 mem) in Hr'.
  assert (Hu' : undo_use false st' (UTake s x)) by (split; [done|]; split; [exact Hmt|done]).
  pose proof (C43_accounting_records_follow_the_table m' st' _ Hr' Hu') as Ha'. rewrite Hrun' in Ha'.
  destruct Ha' as [Ha'|(? & _)]; [|done]. cbn in Ha'. by rewrite lookup_delete in Ha'.
Qed.

(** The question whether a transaction may be disconnected is answered from the table: something is on record for its block,
    and nothing recorded depends on it. *)
Theorem C43_can_disconnect_exact m st s x :
  undo_reach utx fst child m st -> may_take st s -> (sp_mempool st = true -> ~ ut_none (sp_now st) s) ->
  exists b, can_disconnect utx has_children_of m s x = Ok b /\ (b = true <-> ~ ut_none (sp_now st) s /\ ~ has_child (sp_now st) s x).
Proof.
  intros Hr Hm Hs. destruct (fetch_whole utx fst ub_blocked child ub_holds ub_derived ub_fresh ub_gone utxo_laws utxo_blocked m st s Hr Hm (fun _ => Hs))
    as (o & E & Ho).
  unfold can_disconnect. rewrite E. cbn [rbind]. eexists. split; [done|]. destruct o as [b|].
  - destruct Ho as [Hn Hb]. rewrite negb_true_iff, <- not_true_iff_false, (has_children_spec b _ _ x Hb), <- utxo_blocked, bool_decide_eq_true. naive_solver.
  - split; [done|]. intros [? _]. done.
Qed.

(** The two sets of dependencies written to the database mirror each other. *)
Theorem C43_stored_dependencies_mirrored m st db b d :
  undo_reach utx fst child m st -> us_caches m = [] -> us_base m = ChainDb db -> db !! b = Some d ->
  forall c p, ud_child_parent d !! (c, p) = Some tt <-> ud_parent_child d !! (p, c) = Some tt.
Proof.
  intros Hr Hc Hb Hd c p.
  apply (reach_inv utx fst ub_blocked child ub_holds ub_derived ub_fresh ub_gone utxo_laws utxo_blocked) in Hr.
  unfold inv in Hr. rewrite Hc, Hb in Hr. destruct (sp_layers st); [|done]. destruct Hr as (_ & _ & Hr). specialize (Hr b). rewrite Hd in Hr.
  destruct Hr as (_ & [_ He] & _). destruct (He c p) as [E1 E2]. unfold live in E1, E2. cbn in E1, E2. rewrite lookup_fmap in E1, E2.
  destruct (ud_child_parent d !! (c, p)) as [[]|], (ud_parent_child d !! (p, c)) as [[]|]; cbn in *; naive_solver.
Qed.
End C43.
Print Assumptions C43_accounting_records_follow_the_table.
Print Assumptions C43_utxo_records_follow_the_table.
Print Assumptions C43_no_crash.
Print Assumptions C43_utxo_no_crash.
Print Assumptions C43_handed_back_once.
Print Assumptions C43_can_disconnect_exact.
Print Assumptions C43_stored_dependencies_mirrored.

(** *** The restrictions on use are needed *)
Fixpoint outcomes {B I O R D} (K : block_kind B I O R D) (m : undo_stack B D) (ks : list (undo_call I R)) : list (res undo_err (undo_out O R)) :=
  match ks with
  | [] => []
  | k :: ks' => match undo_run K m k with
                | Ok (m', o) => Ok o :: outcomes K m' ks'
                | Err e => Err e :: outcomes K m ks'
                | Panic => [Panic]
                end
  end.
Notation accN := (accounting_kind (R := N) (T := N)).
Notation utxN := (utxo_kind (R := N) (T := N)).

(** A reward record taken in a nested verifier while records of transactions of the block remain, flushed into the verifier
    below, is still there: it is handed back a second time. *)
Theorem C43_reward_once_in_any_order_refuted :
  ~ (forall ks s, let os := outcomes accN (UndoStack [] (ChainDb ∅)) (ks ++ [UTakeReward s; UFlush; UTakeReward s]) in
       forall r, last (take (length ks + 1) os) = Some (Ok (UTookReward (Some r))) -> last os <> Some (Ok (UTookReward (Some r)))).
Proof.
  intros H. refine (H [UDerive; UAdd (SrcChain 1) 10 5; UAddReward (SrcChain 1) 6; UDerive] (SrcChain 1) 6 _ _); vm_compute; reflexivity.
Qed.
Print Assumptions C43_reward_once_in_any_order_refuted.

(** A verifier that has recorded something for a block (or for the mempool) does not see what is on record for it below: a record
    made before is reported as not existing, without an error. *)
Theorem C43_records_below_always_found_refuted :
  ~ (forall s x y u w, x <> y ->
       last (outcomes accN (UndoStack [] (ChainDb ∅)) [UDerive; UAdd s x u; UDerive; UAdd s y w; UTake s x]) = Some (Ok (UTook (Some u)))).
Proof. intros H. specialize (H (SrcChain 1) 10 11 5 6 ltac:(done)). vm_compute in H. discriminate H. Qed.
Print Assumptions C43_records_below_always_found_refuted.

(** A transaction of the mempool that was disconnected cannot be connected again while other transactions are there. *)
Theorem C43_reconnecting_always_accepted_refuted :
  ~ (forall s x y u w, x <> y ->
       last (outcomes accN (UndoStack [] MempoolBase) [UDerive; UAdd s x u; UAdd s y w; UTake s x; UAdd s x u]) = Some (Ok UDone)).
Proof. intros H. specialize (H SrcMempool 10 11 5 6 ltac:(done)). vm_compute in H. discriminate H. Qed.
Print Assumptions C43_reconnecting_always_accepted_refuted.

(** *** A history that meets the conditions *)
Fixpoint uses {I O R} (strict : bool) (released : I -> O) blocked (st : undo_spec I R) (ks : list (undo_call I R)) : Prop :=
  match ks with
  | [] => True
  | k :: ks' => undo_use strict st k /\ uses strict released blocked (spec_call released blocked st k).1 ks'
  end.
Lemma uses_reach {B I O R D} (K : block_kind B I O R D) (released : I -> O) blocked ks m st :
  undo_reach K released blocked m st -> uses (bk_strict K) released blocked st ks ->
  Forall (fun r => match r with Ok _ => True | _ => False end) (outcomes K m ks) ->
  exists m', undo_reach K released blocked m' (foldl (fun st k => (spec_call released blocked st k).1) st ks).
Proof.
  revert m st. induction ks as [|k ks IH]; intros m st Hr; cbn; [by eauto|]. intros [Hu Hus] Ho.
  destruct (undo_run K m k) as [[m' o]|e|] eqn:E.
  - apply Forall_cons in Ho as [_ Ho]. eapply IH; [|done|exact Ho]. by eapply reach_call.
  - by apply Forall_cons in Ho as [Ho _].
  - by apply Forall_cons in Ho as [Ho _].
Qed.

(** A block with a reward and two dependent transactions, the second recorded in a nested verifier; everything is flushed to the
    database; later both are handed back through two nested verifiers. *)
Definition ex_calls : list (undo_call (N * list source_id) N) :=
  [UDerive; UAdd (SrcChain 1) 10 (5, [FromReward 0]); UAddReward (SrcChain 1) 7; UDerive; UAdd (SrcChain 1) 11 (6, [FromTx 10]); UFlush; UFlush;
   UDerive; UDerive; UTake (SrcChain 1) 11; UFlush; UTake (SrcChain 1) 10; UTakeReward (SrcChain 1); UFlush].
Notation exchild := (fun (t : undo_table (N * list source_id) N) s x => bool_decide (has_child t s x)).
Example C43_ex_outcomes : outcomes utxN (UndoStack [] (ChainDb ∅)) ex_calls
  = [Ok UDone; Ok UDone; Ok UDone; Ok UDone; Ok UDone; Ok UDone; Ok UDone; Ok UDone; Ok UDone; Ok (UTook (Some 6)); Ok UDone; Ok (UTook (Some 5)); Ok (UTookReward (Some 7)); Ok UDone].
Proof. vm_compute. reflexivity. Qed.
Example C43_ex_dependency : last (outcomes utxN (UndoStack [] (ChainDb ∅)) (take 9 ex_calls ++ [UTake (SrcChain 1) 10])) = Some (Err (TxUndoWithDependency 10)).
Proof. vm_compute. reflexivity. Qed.

Example C43_ex_uses : uses true fst exchild (USpec [] ut_empty false) ex_calls.
Proof.
  unfold ex_calls.
  assert (Hn : ut_none (ut_empty (I := N * list source_id) (R := N)) (SrcChain 1)) by (split; [done|intros x; done]).
  cbn [uses spec_call below fst snd].
  assert (E11 : ut_tx (ut_add (ut_addr (ut_add (ut_empty (I := N * list source_id) (R := N)) (SrcChain 1) 10 (5, [FromReward 0])) (SrcChain 1) 7)
        (SrcChain 1) 11 (6, [FromTx 10])) !! (SrcChain 1, 11) = Some (6, [FromTx 10])) by (vm_compute; reflexivity).
  cbn [ul_table]. rewrite E11. rewrite bool_decide_false.
  2: { intros (c & u & ss & E & Hin). cbn in E. apply lookup_insert_Some in E as [[_ [= <- <-]]|[_ E]]; [set_solver|].
       apply lookup_insert_Some in E as [[_ [= <- <-]]|[_ E]]; [set_solver|]. by rewrite lookup_empty in E. }
  cbn [uses spec_call below fst snd ul_table].
  assert (E10 : ut_tx (ut_del (ut_add (ut_addr (ut_add (ut_empty (I := N * list source_id) (R := N)) (SrcChain 1) 10 (5, [FromReward 0])) (SrcChain 1) 7)
        (SrcChain 1) 11 (6, [FromTx 10])) (SrcChain 1) 11) !! (SrcChain 1, 10) = Some (5, [FromReward 0])) by (vm_compute; reflexivity).
  rewrite E10. rewrite bool_decide_false.
  2: { intros (c & u & ss & E & Hin). cbn in E. apply lookup_delete_Some in E as [Hne E]. apply lookup_insert_Some in E as [[Hk _]|[_ E]]; [done|].
       apply lookup_insert_Some in E as [[_ [= <- <-]]|[_ E]]; [set_solver|]. by rewrite lookup_empty in E. }
  cbn [uses spec_call below fst snd ul_table].
  match goal with |- context [ut_reward ?t !! SrcChain 1] => replace (ut_reward t !! SrcChain 1) with (Some 7) by (vm_compute; reflexivity) end.
  cbn [uses spec_call below fst snd ul_table].
  assert (Ht : forall st : undo_spec (N * list source_id) N, sp_mempool st = false -> all_layers (fun _ l => SrcChain 1 ∉ ul_added l) (sp_layers st) (sp_base st) -> may_take st (SrcChain 1)).
  { intros [ls T mem] H1 H2. split; [exact H1|]. cbn in *. induction ls as [|l ls IH]; [done|]. destruct H2. split; [by right|by apply IH]. }
  assert (Ha : forall st : undo_spec (N * list source_id) N, sp_mempool st = false -> ut_none (sp_base st) (SrcChain 1) ->
            all_layers (fun _ l => SrcChain 1 ∉ ul_taken l) (sp_layers st) (sp_base st) -> may_add st (SrcChain 1)).
  { intros [ls T mem] H1 H0 H2. split; [exact H1|]. split; [done|]. cbn in *. induction ls as [|l ls IH]; [done|]. destruct H2. split; [by right|by apply IH]. }
  repeat match goal with |- undo_use _ _ _ /\ _ => split end.
  all: try exact I. all: try (split; [discriminate|done]). all: cbn [undo_use sp_layers sp_base sp_mempool sp_now below ul_table].
  all: match goal with
       | |- _ /\ may_add _ _ /\ _ => split; [discriminate|split; [apply Ha; [done|exact Hn|cbn; repeat split; set_solver]|by vm_compute]]
       | |- _ /\ may_take _ _ /\ _ /\ _ => split; [discriminate|split; [apply Ht; [done|cbn; repeat split; set_solver]|split; [discriminate|by left]]]
       | |- _ /\ may_take _ _ /\ _ => split; [discriminate|split; [apply Ht; [done|cbn; repeat split; set_solver]|vm_compute; discriminate]]
       end.
Qed.
Example C43_ex_reach : exists m st, undo_reach utxN fst exchild m st /\ st = foldl (fun st k => (spec_call fst exchild st k).1) (USpec [] ut_empty false) ex_calls.
Proof.
  destruct (uses_reach utxN fst exchild ex_calls _ _ (reach_chainstate _ _ _) C43_ex_uses) as [m Hm]; [|by eexists _, _].
  vm_compute. repeat constructor.
Qed.
