From Verif Require Import Base BloomModel BloomSpec BloomProofs BloomProperties TxRelayModel TxRelaySpec.
From stdpp Require Import sorting.
Local Open Scope N_scope.
Opaque FILTER_SIZE.

Lemma size_pos : (0 < FILTER_SIZE)%nat.
Proof. Transparent FILTER_SIZE. unfold FILTER_SIZE. lia. Qed.

Section Proofs.
  Context {Seed : Type} (positions : Seed -> N -> list nat) (service : bool) (max : N).

  (** ** The filter *)
  Definition knows (r : rolling Seed) (ids : list N) : Prop :=
    exists s0 s1 s2 items, filled positions FILTER_SIZE s0 s1 s2 items = Ok r /\ map fst items = ids.
  Lemma rfold_app {A X E} (f : A -> X -> res E A) l1 l2 a : rfold f (l1 ++ l2) a = (let? b := rfold f l1 a in rfold f l2 b).
  Proof. revert a. induction l1 as [|x l1 IH]; intros a; cbn; [done|]. destruct (f a x); cbn; [apply IH|done|done]. Qed.
  Lemma knows_insert r ids s id : knows r ids -> exists r', rolling_insert positions r id s = Ok r' /\ knows r' (ids ++ [id]).
  Proof.
    intros (s0 & s1 & s2 & items & F & M). destruct (filled_ok positions FILTER_SIZE s0 s1 s2 (items ++ [(id, s)]) size_pos) as (r' & F' & _).
    assert (rolling_insert positions r id s = Ok r') as I.
    { revert F'. unfold filled in *. destruct (rolling_new FILTER_SIZE s0 s1 s2) as [r0| |]; cbn [rbind] in *; [|discriminate..].
      rewrite rfold_app, F. cbn [rbind rfold fst snd]. destruct (rolling_insert positions r id s); [|discriminate..]. done. }
    exists r'. split; [done|]. exists s0, s1, s2, (items ++ [(id, s)]). split; [done|]. rewrite map_app, M. done.
  Qed.
  Lemma knows_recent r ids id : knows r ids -> id ∈ last_of FILTER_SIZE ids -> rolling_contains positions r id = true.
  Proof.
    intros (s0 & s1 & s2 & items & F & <-) H. destruct (C79_recent_items_are_recognised positions FILTER_SIZE s0 s1 s2 items size_pos) as (r' & F' & C).
    rewrite F in F'. injection F' as <-. apply C. unfold last_of in H. rewrite map_length, skipn_map in H. done.
  Qed.

  (** ** The parts of a turn *)
  Lemma add_known_ok p ids s id : knows (t_known p) ids ->
    exists k, add_known_transaction positions p s id = Ok (with_known p k) /\ knows k (ids ++ [id]).
  Proof. intros K. destruct (knows_insert _ _ s id K) as (k & I & K'). exists k. unfold add_known_transaction. rewrite I. done. Qed.

  Lemma announce_ids_ok (sd : N -> Seed) ids : forall p known, knows (t_known p) known ->
    exists k, rfold (fun p id => add_known_transaction positions p (sd id) id) ids p = Ok (with_known p k) /\ knows k (known ++ ids).
  Proof.
    induction ids as [|id ids IH]; intros p known K; cbn [rfold].
    - exists (t_known p). rewrite app_nil_r. split; [by destruct p|done].
    - destruct (add_known_ok p known (sd id) id K) as (k & -> & K1). destruct (IH (with_known p k) _ K1) as (k' & E & K2).
      exists k'. rewrite <- app_assoc in K2. split; [|done]. rewrite E. done.
  Qed.

  Lemma enqueue_spec p ids :
    enqueue_transactions_to_announce positions service p ids =
    with_announce p (if service then list_to_set (filter (fun id => rolling_contains positions (t_known p) id = false) ids) ∪ t_announce p else t_announce p).
  Proof.
    unfold enqueue_transactions_to_announce. destruct service; [|by destruct p]. revert p. induction ids as [|id ids IH]; intros p; cbn [fold_left].
    - rewrite filter_nil. cbn. rewrite (left_id_L ∅ (∪)). by destruct p.
    - rewrite IH. rewrite filter_cons. destruct (rolling_contains positions (t_known p) id) eqn:C.
      + rewrite decide_False by congruence. done.
      + rewrite decide_True by done. unfold with_announce. cbn. f_equal. set_solver.
  Qed.

  (** The transactions announced in a turn *)
  Definition batch (p : peer Seed) (e : env Seed) : list N :=
    merge_sort (ranked (e_rank e)) (elements (filter (fun id => id ∈ e_pool_later e) (t_announce p))).
  Lemma batch_elem p e id : id ∈ batch p e <-> id ∈ t_announce p /\ id ∈ e_pool_later e.
  Proof. unfold batch. rewrite merge_sort_Permutation, elem_of_elements, elem_of_filter. tauto. Qed.
  Lemma batch_nodup p e : NoDup (batch p e).
  Proof. unfold batch. rewrite merge_sort_Permutation. apply NoDup_elements. Qed.

  Definition purged (p p' : peer Seed) (time : N) : Prop :=
    t_known p' = t_known p /\ t_announce p' = t_announce p /\ t_next p' = t_next p /\
    if t_purge p <=? time then
      t_requested p' = filter (fun kt : N * N => time - EXPIRY_PERIOD <= kt.2) (t_requested p) /\ t_purge p' = time + PURGE_INTERVAL
    else t_requested p' = t_requested p /\ t_purge p' = t_purge p.
  Lemma purge_ok p time : EXPIRY_PERIOD <= t_purge p -> exists p', purge_if_needed p time = Ok p' /\ purged p p' time.
  Proof.
    intros P. unfold purge_if_needed, purged. destruct (t_purge p <=? time) eqn:D.
    - unfold checked_sub. rewrite (proj2 (N.leb_le _ _)) by lia. cbn [expect rbind]. eexists. split; [reflexivity|]. cbn. done.
    - exists p. done.
  Qed.

  Definition announced (p p' : peer Seed) (e : env Seed) (said : list output) : Prop :=
    t_requested p' = t_requested p /\ t_purge p' = t_purge p /\
    if t_next p <=? e_now e then
      t_announce p' = ∅ /\ said = map (fun id => Say (NewTransaction id)) (batch p e) /\ (forall ids, knows (t_known p) ids -> knows (t_known p') (ids ++ batch p e))
    else t_announce p' = t_announce p /\ said = [] /\ t_known p' = t_known p.

  (** The node asks for a transaction it hears of. *)
  Definition wanted (p : peer Seed) (e : env Seed) (id : N) : Prop :=
    e_ibd e = false /\ service = true /\ t_requested p !! id = None /\ N.of_nat (size (t_requested p)) < max /\ id ∉ e_pool e.
  Global Instance wanted_dec p e id : Decision (wanted p e id).
  Proof. unfold wanted. apply _. Defined.
  Definition reaction (v : verdict) (id : N) : list output :=
    match v with
    | InMempool => [ToMempool id; ValidReceived id]
    | Refused n => if 0 <? n then [ToMempool id; AdjustScore n] else [ToMempool id]
    | _ => [ToMempool id]
    end.
  Definition handled (p : peer Seed) (e : env Seed) (ev : event) (p1 : peer Seed) (o1 : list output) : Prop :=
    t_purge p1 = t_purge p /\ t_next p1 = t_next p /\
    match ev with
    | Heard (NewTransaction id) => t_announce p1 = t_announce p /\
      if decide (wanted p e id) then t_requested p1 = <[id := e_time e]> (t_requested p) /\ o1 = [Say (TransactionRequest id)]
      else t_requested p1 = t_requested p /\ o1 = if e_ibd e || service then [] else [AdjustScore UNEXPECTED_MESSAGE_SCORE]
    | Heard (TransactionRequest id) => p1 = p /\
      o1 = if service then if decide (id ∈ e_pool e) then [Say (Found id); SentNotice id] else [Say (NotFound id)] else [AdjustScore UNEXPECTED_MESSAGE_SCORE]
    | Heard (Found id) => t_known p1 = t_known p /\ t_announce p1 = t_announce p /\ t_requested p1 = delete id (t_requested p) /\
      o1 = match t_requested p !! id with Some _ => reaction (e_verdict e id) id | None => [] end
    | Heard (NotFound id) => t_known p1 = t_known p /\ t_announce p1 = t_announce p /\ t_requested p1 = delete id (t_requested p) /\ o1 = []
    | RelayableTx id => p1 = enqueue_transactions_to_announce positions service p [id] /\ o1 = []
    | Reannouncement ids => p1 = enqueue_transactions_to_announce positions service p ids /\ o1 = []
    | MaintenanceTick => p1 = p /\ o1 = []
    end.
  Definition heard_of (ev : event) : list N := match ev with Heard (NewTransaction id) => [id] | _ => [] end.

  Lemma handle_ok p e ev known : knows (t_known p) known ->
    exists p1 o1, handle positions service max p e ev = Ok (p1, o1) /\ handled p e ev p1 o1 /\ knows (t_known p1) (known ++ heard_of ev).
  Proof.
    intros K. destruct ev as [[id|id|id|id]|id|ids|]; cbn [handle heard_of]; rewrite ?app_nil_r.
    - unfold handle_transaction_announcement. destruct (add_known_ok p known (e_seed e) id K) as (k & -> & K'). cbn [rbind].
      unfold requested_add. cbn [with_known t_requested].
      unfold handled. destruct (e_ibd e) eqn:I.
      { eexists _, _. split; [reflexivity|]. rewrite decide_False by (intros (?&?); congruence). cbn. done. }
      destruct service eqn:Sv; cbn [negb].
      2: { eexists _, _. split; [reflexivity|]. rewrite decide_False by (intros (?&?&?); congruence). cbn. done. }
      destruct (t_requested p !! id) as [t|] eqn:R.
      { eexists _, _. split; [reflexivity|]. rewrite decide_False by (intros (?&?&?&?); congruence). cbn. done. }
      destruct (max <=? N.of_nat (size (t_requested p))) eqn:M.
      { eexists _, _. split; [reflexivity|]. rewrite decide_False by (intros (?&?&?&?&?); lia). cbn. done. }
      case_bool_decide as P.
      { eexists _, _. split; [reflexivity|]. rewrite decide_False by (intros (?&?&?&?&?); done). cbn. done. }
      cbn [rbind]. eexists _, _. split; [reflexivity|]. rewrite decide_True by (split_and!; try done; lia). cbn. done.
    - unfold handle_transaction_request, handled. destruct service; cbn [negb].
      + case_bool_decide as P; eexists _, _; (split; [reflexivity|]); [rewrite decide_True by done|rewrite decide_False by done]; done.
      + eexists _, _; (split; [reflexivity|]). done.
    - unfold handle_transaction_response, handled. destruct (t_requested p !! id) as [t|] eqn:R.
      + destruct (e_verdict e id); eexists _, _; (split; [reflexivity|]); cbn; done.
      + eexists _, _; (split; [reflexivity|]); rewrite delete_notin by done; cbn; done.
    - unfold handle_transaction_response, handled. destruct (t_requested p !! id) as [t|] eqn:R.
      + eexists _, _; (split; [reflexivity|]); cbn; done.
      + eexists _, _; (split; [reflexivity|]); rewrite delete_notin by done; cbn; done.
    - eexists _, _; (split; [reflexivity|]); unfold handled; rewrite enqueue_spec; cbn; done.
    - eexists _, _; (split; [reflexivity|]); unfold handled; rewrite enqueue_spec; cbn; done.
    - eexists _, _; (split; [reflexivity|]); unfold handled; done.
  Qed.

  Lemma turn_ok p e ev known : knows (t_known p) known -> EXPIRY_PERIOD <= t_purge p ->
    exists p1 o1 p2 p' said, turn positions service max p e ev = Ok (p', o1 ++ said) /\ handled p e ev p1 o1 /\ purged p1 p2 (e_purge_time e) /\
      announced p2 p' e said /\ knows (t_known p1) (known ++ heard_of ev).
  Proof.
    intros K P. unfold turn. destruct (handle_ok p e ev known K) as (p1 & o1 & -> & H & K1). cbn [rbind].
    assert (EXPIRY_PERIOD <= t_purge p1) as P1 by (destruct H as (-> & _); done).
    destruct (purge_ok p1 (e_purge_time e) P1) as (p2 & -> & G). cbn [rbind].
    assert (knows (t_known p2) (known ++ heard_of ev)) as K2 by (destruct G as (-> & _); done).
    unfold announced. destruct (t_next p2 <=? e_now e) eqn:D.
    - unfold announce_transactions. change (merge_sort (ranked (e_rank e)) (elements (filter (fun id => id ∈ e_pool_later e) (t_announce p2)))) with (batch p2 e).
      destruct (announce_ids_ok (e_seeds e) (batch p2 e) (with_announce p2 ∅) _ K2) as (k & E & _).
      rewrite E. cbn [rbind]. eexists p1, o1, p2, _, _. split; [reflexivity|]. cbn. rewrite D. split_and!; try done.
      intros ids K3. destruct (announce_ids_ok (e_seeds e) (batch p2 e) (with_announce p2 ∅) _ K3) as (k' & E' & K4).
      rewrite E in E'. assert (k = k') as -> by (injection E'; done). done.
    - eexists p1, o1, p2, p2, []. rewrite app_nil_r, D. done.
  Qed.
End Proofs.
