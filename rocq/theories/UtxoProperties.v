(** C19-C22: the set of unspent outputs. *)
From Verif Require Import Base AmountModel OrdersModel PrimModel ChainModel LayeredModel LayeredSpec LayeredProofs
  UtxoModel UtxoSpec UtxoProofs.
Local Open Scope N_scope.

(** Sample runs showing that the hypotheses can be met. *)
Definition coin (a : N) : tx_output := OTransfer (OvCoin a) 7.
Definition start_db : utxo_db := UtxoDb {[ (FromReward 0, 0) := Utxo (coin 100) (InChain 0) ]} 50.
Definition start_state : utxo_state :=
  UtxoState (fun k => if decide (k = (FromReward 0, 0)) then Some (Utxo (coin 100) (InChain 0)) else None) 50.
Definition tx1 : transaction := Transaction 1 [InUtxo (FromReward 0, 0)] [coin 60; OBurn (OvCoin 1); coin 39].
Definition tx2 : transaction := Transaction 2 [InAccount 0 5 3; InUtxo (FromTx 1, 2)] [coin 40].
Definition tx4 : transaction := Transaction 4 [InUtxo (FromTx 2, 0); InUtxo (FromReward 0, 0)] [coin 5].
Definition reward3 : reward_tx := RewardTx (Some [InUtxo (FromTx 1, 0)]) (Some [OProduceBlockFromStake 7 3]).
Definition sample_run : list (command utxo_op) :=
  [Push; Do (OpConnectTx tx1 (InChain 1)); Push; Do (OpConnectTx tx2 (InChain 1)); Do (OpSpend (FromTx 1, 2));
   Do (OpSetBest 51); Flush; Do (OpConnectTx tx4 (InChain 2))].
Definition sample_neutral : list (command utxo_op) :=
  [Push; Do (OpConnectReward reward3 9 2); Flush; Flush; Push; Do (OpSpend (FromReward 9, 0)); UndoLast; UndoLast].

Lemma start_db_is : utxo_db_is start_db start_state.
Proof.
  split; [|reflexivity]. intros k. cbn. case_decide as H.
  - subst k. apply lookup_singleton.
  - rewrite lookup_singleton_ne; auto.
Qed.
Definition absentb (m : outpoint -> option utxo) (l : list (outpoint * tx_output)) : bool :=
  forallb (fun ko => match m ko.1 with None => true | Some _ => false end) l.
Lemma absentb_sound m l : absentb m l = true -> absent m l.
Proof.
  intros H k o Hk. unfold absentb in H. rewrite forallb_forall in H. specialize (H (k, o)).
  apply elem_of_list_In in Hk. specialize (H Hk). cbn in H. destruct (m k); [discriminate|reflexivity].
Qed.
Definition utxo_fitsb (s : utxo_state) (o : utxo_op) : bool :=
  match o with
  | OpAdd k _ ow => ow || match us_map s k with None => true | Some _ => false end
  | OpConnectTx tx _ => absentb (us_map s) (created (FromTx (tx_id tx)) (tx_outputs tx))
  | OpAddTxOutputs tx _ chk => chk || absentb (us_map s) (created (FromTx (tx_id tx)) (tx_outputs tx))
  | OpConnectReward rt b _ => absentb (us_map s) (created (FromReward b) (option_list (rt_outputs rt))) &&
      match rt_inputs rt with
      | Some [] => false
      | Some ins => forallb (fun i => match i with InUtxo _ => true | _ => false end) ins
      | None => true
      end
  | _ => true
  end.
Lemma utxo_fitsb_sound s o : utxo_fitsb s o = true -> utxo_fits s o.
Proof.
  destruct o as [k u ow|k|k|b|tx src|rt b h|tx src chk|outs src b chk]; cbn; auto; intros H.
  - intros ->. cbn in H. destruct (us_map s k); [discriminate|reflexivity].
  - apply absentb_sound, H.
  - apply andb_true_iff in H as [H1 H2]. split; [apply absentb_sound, H1|]. intros ins E. rewrite E in H2.
    destruct ins as [|i ins]; [discriminate|]. split; [discriminate|]. rewrite forallb_forall in H2.
    apply Forall_forall. intros x Hx. apply elem_of_list_In in Hx. specialize (H2 x Hx). destruct x; try discriminate. eauto.
  - intros ->. apply absentb_sound, H.
Qed.
Lemma sample_fits : fits_all utxo_step utxo_fits ((start_state, []), []) sample_run.
Proof. apply (fits_allb_sound _ _ _ utxo_fitsb_sound). vm_compute. reflexivity. Qed.
Lemma sample_fits_neutral : fits_all utxo_step utxo_fits ((start_state, []), []) (sample_run ++ sample_neutral).
Proof. apply (fits_allb_sound _ _ _ utxo_fitsb_sound). vm_compute. reflexivity. Qed.

(** C19. A stack of UTXO caches over a database cannot be told from a stack of plain tables: every operation is accepted
    or refused alike and every outpoint (and the best block) reads alike, after any run of operations, flushes, drops and
    undos. *)
Theorem C19_utxo_caches_refine_tables db s0 cs :
  utxo_db_is db s0 -> fits_all utxo_step utxo_fits ((s0, []), []) cs ->
  let (m, os) := utxo_exec_all ((db, []), []) cs in
  let (sm, sos) := sexec_all utxo_step ((s0, []), []) cs in
  os = sos /\ utxo_reads (utxo_machine_view m) (top sm) /\ (m.2 = [] -> utxo_db_is m.1.1 (top sm)).
Proof. exact (utxo_layered db s0 cs). Qed.
Print Assumptions C19_utxo_caches_refine_tables.

Example C19_example :
  utxo_db_is start_db start_state /\ fits_all utxo_step utxo_fits ((start_state, []), []) sample_run /\
  (utxo_exec_all ((start_db, []), []) sample_run).2 =
    [Done; Done; Done; Done; Refused NotThere; Done; Done; Refused NotThere] /\
  map (vw_utxo (utxo_machine_view (utxo_exec_all ((start_db, []), []) sample_run).1))
    [(FromReward 0, 0); (FromTx 1, 0); (FromTx 1, 1); (FromTx 1, 2); (FromTx 2, 0)] =
    [None; Some (Utxo (coin 60) (InChain 1)); None; None; Some (Utxo (coin 40) (InChain 1))].
Proof. split; [exact start_db_is|]. split; [exact sample_fits|]. vm_compute. split; reflexivity. Qed.

(** C20. Once something consumed an output, everything that needs it is refused: in the same cache, in caches opened on
    top, after flushing to lower caches or to the database, as long as nothing adds the output again. *)
Theorem C20_no_double_spend db s0 cs o fs o' k :
  utxo_db_is db s0 -> fits_all utxo_step utxo_fits ((s0, []), []) (cs ++ Do o :: fs ++ [Do o']) ->
  consumes k o -> consumes k o' -> Forall forward fs -> (forall o'', Do o'' ∈ fs -> ~ creates k o'') ->
  let m1 := (utxo_exec_all ((db, []), []) cs).1 in
  let m2 := (utxo_exec m1 (Do o)).1 in
  let m3 := (utxo_exec_all m2 fs).1 in
  (utxo_exec m1 (Do o)).2 = Done -> m3.2 <> [] ->
  vw_utxo (utxo_machine_view m3) k = None /\ (utxo_exec m3 (Do o')).2 = Refused NotThere.
Proof. exact (no_double_spend db s0 cs o fs o' k). Qed.
Print Assumptions C20_no_double_spend.

Definition fs20 : list (command utxo_op) := [Push; Do (OpConnectTx tx2 (InChain 1)); Flush; Flush; Push].
Example C20_example :
  fits_all utxo_step utxo_fits ((start_state, []), [])
    ([Push] ++ Do (OpConnectTx tx1 (InChain 1)) :: fs20 ++ [Do (OpSpend (FromReward 0, 0))]) /\
  consumes (FromReward 0, 0) (OpConnectTx tx1 (InChain 1)) /\ Forall forward fs20 /\
  let m1 := (utxo_exec_all ((start_db, []), []) [Push]).1 in
  (utxo_exec m1 (Do (OpConnectTx tx1 (InChain 1)))).2 = Done /\
  length (utxo_exec_all (utxo_exec m1 (Do (OpConnectTx tx1 (InChain 1)))).1 fs20).1.2 = 1%nat.
Proof.
  split; [apply (fits_allb_sound _ _ _ utxo_fitsb_sound); vm_compute; reflexivity|].
  split; [left|]. split; [repeat constructor|]. vm_compute. split; reflexivity.
Qed.

(** The overwrite flag matters: adding an output that a lower layer already has, without permission to overwrite, is
    accepted, and then spending it makes the old output visible (and spendable) again. *)
Theorem C20_unflagged_overwrite_refuted :
  exists db k u cs, (utxo_exec_all ((db, []), []) cs).2 = [Done; Done; Done; Done] /\
    cs = [Push; Do (OpAdd k u false); Do (OpSpend k); Do (OpSpend k)].
Proof.
  exists start_db, (FromReward 0, 0), (Utxo (coin 1) InMempool). eexists. split; [|reflexivity]. vm_compute. reflexivity.
Qed.
Print Assumptions C20_unflagged_overwrite_refuted.

(** C21. Flushing never fails and changes no answer. *)
Theorem C21_flush_is_lossless db s0 cs :
  utxo_db_is db s0 -> fits_all utxo_step utxo_fits ((s0, []), []) cs ->
  let m := (utxo_exec_all ((db, []), []) cs).1 in
  m.2 <> [] ->
  (utxo_exec m Flush).2 = Done /\ vw_best (utxo_machine_view (utxo_exec m Flush).1) = vw_best (utxo_machine_view m) /\
  forall k, vw_utxo (utxo_machine_view (utxo_exec m Flush).1) k = vw_utxo (utxo_machine_view m) k.
Proof. exact (flush_lossless db s0 cs). Qed.
Print Assumptions C21_flush_is_lossless.

(** C21. No assertion inside the caches ever fails; flushes and undos are never refused. *)
Theorem C21_never_crashes db s0 cs :
  utxo_db_is db s0 -> fits_all utxo_step utxo_fits ((s0, []), []) cs ->
  Forall2 expected cs (utxo_exec_all ((db, []), []) cs).2.
Proof. exact (utxo_never_stuck db s0 cs). Qed.
Print Assumptions C21_never_crashes.

Example C21_example :
  fits_all utxo_step utxo_fits ((start_state, []), []) sample_run /\
  length (utxo_exec_all ((start_db, []), []) sample_run).1.2 = 1%nat.
Proof. split; [exact sample_fits|]. vm_compute. reflexivity. Qed.

(** C22. Connecting transactions and block rewards and disconnecting them again in reverse order, with caches opened and
    flushed anywhere in between, leaves every outpoint and the best block as they were. *)
Theorem C22_disconnect_restores db s0 cs ns :
  utxo_db_is db s0 -> fits_all utxo_step utxo_fits ((s0, []), []) (cs ++ ns) -> neutral ns ->
  let m1 := (utxo_exec_all ((db, []), []) cs).1 in
  Forall (fun o => o = Done) (utxo_exec_all m1 ns).2 ->
  vw_best (utxo_machine_view (utxo_exec_all m1 ns).1) = vw_best (utxo_machine_view m1) /\
  forall k, vw_utxo (utxo_machine_view (utxo_exec_all m1 ns).1) k = vw_utxo (utxo_machine_view m1) k.
Proof. exact (undo_restores db s0 cs ns). Qed.
Print Assumptions C22_disconnect_restores.

Example C22_example : fits_all utxo_step utxo_fits ((start_state, []), []) (sample_run ++ sample_neutral) /\
  neutral sample_neutral /\
  Forall (fun o => o = Done) (utxo_exec_all (utxo_exec_all ((start_db, []), []) sample_run).1 sample_neutral).2.
Proof.
  split; [exact sample_fits_neutral|]. split.
  - change sample_neutral with ([Push] ++ (Do (OpConnectReward reward3 9 2) ::
      ([Flush] ++ [Flush] ++ [Push] ++ (Do (OpSpend (FromReward 9, 0)) :: [] ++ [UndoLast])) ++ [UndoLast])).
    repeat constructor.
  - vm_compute. repeat constructor.
Qed.

(** A block reward whose input list is present but empty (or has a non-output input before an output input) cannot be
    disconnected: this is why [utxo_fits] asks for output inputs. *)
Theorem C22_empty_reward_inputs_refuted :
  exists P c rt b h c' u, connect_block_transactable P c rt b h = (c', Ok u) /\
    (disconnect_block_transactable P c' rt b u).2 = Err MissingBlockRewardUndo.
Proof.
  exists (UtxoView (fun _ => None) 0), cache_new, (RewardTx (Some []) (Some [])), 1, 1.
  do 2 eexists. split; reflexivity.
Qed.
Print Assumptions C22_empty_reward_inputs_refuted.
