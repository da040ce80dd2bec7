From Verif Require Import Base BloomModel TxRelayModel TxRelaySpec TxRelayProofs TxRelayHistory.
From stdpp Require Import sorting.
Local Open Scope N_scope.
Opaque FILTER_SIZE.

(** * Examples: a peer that is played step by step *)
Section Play.
  Context {Seed : Type} (positions : Seed -> N -> list nat) (service : bool) (max : N).
  Fixpoint play (p : peer Seed) (steps : list (env Seed * event)) : option (list (list output)) :=
    match steps with
    | [] => Some []
    | (e, ev) :: steps => match turn positions service max p e ev with
                          | Ok (p', out) => match play p' steps with Some outs => Some (out :: outs) | None => None end
                          | _ => None
                          end
    end.
  Definition play_new s time now delay steps : option (list (list output)) :=
    match peer_new s s s time now delay with Ok p => play p steps | _ => None end.
  Lemma play_lived time p0 l0 steps outs : lived positions service max time l0 p0 -> play p0 steps = Some outs ->
    exists p l, lived positions service max time (l0 ++ l) p /\ l = map (fun x : (env Seed * event) * list output => {| h_env := x.1.1; h_event := x.1.2; h_out := x.2 |}) (zip steps outs).
  Proof.
    revert p0 l0 outs. induction steps as [|[e ev] steps IH]; intros p0 l0 outs L H; cbn [play] in H.
    - injection H as <-. exists p0, []. rewrite app_nil_r. done.
    - destruct (turn positions service max p0 e ev) as [[p' out]| |] eqn:T; [|discriminate..]. destruct (play p' steps) as [outs'|] eqn:Q; [|discriminate]. injection H as <-.
      destruct (IH p' (l0 ++ [{| h_env := e; h_event := ev; h_out := out |}]) outs') as (p & l & L' & E); [|done|].
      { eapply lived_turn; [exact L|exact T]. }
      exists p, ({| h_env := e; h_event := ev; h_out := out |} :: l). rewrite <- app_assoc in L'. split; [exact L'|]. rewrite E. done.
  Qed.
  Lemma play_new_lived time s now delay steps outs : play_new s time now delay steps = Some outs ->
    exists p, lived positions service max time (map (fun x : (env Seed * event) * list output => {| h_env := x.1.1; h_event := x.1.2; h_out := x.2 |}) (zip steps outs)) p.
  Proof.
    unfold play_new. destruct (peer_new s s s time now delay) as [p0| |] eqn:E; [|discriminate..]. intros H.
    destruct (play_lived time p0 [] steps outs) as (p & l & L & ->); [eapply lived_new; exact E|done|]. eauto.
  Qed.
End Play.

(** A turn at the given second, with the given mempool *)
Definition example_env (second : N) (pool : list N) : env unit :=
  {| e_ibd := false; e_pool := list_to_set pool; e_verdict := fun id => if id =? 13 then Refused 50 else InMempool;
     e_time := second * 1000000000; e_purge_time := second * 1000000000; e_now := second * 1000000000; e_pool_later := list_to_set pool; e_rank := fun id => 100 - id;
     e_delay := 5000000000; e_seed := tt; e_seeds := fun _ => tt |}.
Definition example_positions (_ : unit) (id : N) : list nat := [N.to_nat id].
Definition example (service : bool) (max : N) (steps : list (env unit * event)) : option (list (list output)) :=
  play_new example_positions service max tt 1000000000000 1000000000000 5000000000 steps.
Definition example_steps : list (env unit * event) := [
  (example_env 1001 [], Heard (NewTransaction 7)); (example_env 1002 [], Heard (Found 7)); (example_env 1003 [7], RelayableTx 7);
  (example_env 1003 [7; 8], RelayableTx 8); (example_env 1004 [7; 8; 9], Reannouncement [8; 9]); (example_env 1004 [7; 8; 9], Heard (NewTransaction 8));
  (example_env 1006 [7; 8; 9], MaintenanceTick); (example_env 1007 [7; 8], Heard (TransactionRequest 8)); (example_env 1007 [7; 8], Heard (TransactionRequest 9));
  (example_env 1008 [], Heard (NewTransaction 13)); (example_env 1009 [], Heard (Found 13)); (example_env 1009 [], Heard (Found 13));
  (example_env 1010 [], Heard (NewTransaction 20)); (example_env 1010 [], Heard (NewTransaction 21)); (example_env 1010 [], Heard (NewTransaction 22));
  (example_env 1010 [], Heard (NewTransaction 20)); (example_env 4700 [], MaintenanceTick); (example_env 4701 [], Heard (NewTransaction 20));
  (example_env 4702 [], Heard (Found 21))].
Definition example_outs : list (list output) := [
  [Say (TransactionRequest 7)]; [ToMempool 7; ValidReceived 7]; [];
  []; []; [];
  [Say (NewTransaction 9); Say (NewTransaction 8)]; [Say (Found 8); SentNotice 8]; [Say (NotFound 9)];
  [Say (TransactionRequest 13)]; [ToMempool 13; AdjustScore 50]; [];
  [Say (TransactionRequest 20)]; [Say (TransactionRequest 21)]; [];
  []; []; [Say (TransactionRequest 20)];
  []].
Lemma example_lived n : exists p, lived example_positions true 2 1000000000000
  (map (fun x : (env unit * event) * list output => {| h_env := x.1.1; h_event := x.1.2; h_out := x.2 |}) (take n (zip example_steps example_outs))) p.
Proof.
  destruct (play_new_lived example_positions true 2 1000000000000 tt 1000000000000 5000000000 example_steps example_outs) as [p L].
  { vm_compute. reflexivity. }
  rewrite <- firstn_map. eapply lived_app. rewrite take_drop. exact L.
Qed.

Section Properties.
  Context {Seed : Type} (positions : Seed -> N -> list nat) (service : bool) (max : N).
  Notation lived := (lived positions service max).
  Notation turn := (turn positions service max).

  (** Whatever happens, the task that talks to the peer does not panic. *)
  Theorem C96_runs time :
    (forall s0 s1 s2 now delay, exists p : peer Seed, peer_new s0 s1 s2 time now delay = Ok p) /\
    (forall l p, lived time l p -> forall e ev, exists p' out, turn p e ev = Ok (p', out)).
  Proof.
    split.
    - intros s0 s1 s2 now delay. destruct (BloomProofs.new_ok positions FILTER_SIZE s0 s1 s2 size_pos) as (r & E & _).
      unfold peer_new. rewrite E. cbn [rbind]. eauto.
    - intros l p L e ev. exact (inv_runs positions service max l p e ev (inv_lived _ _ _ _ _ _ L)).
  Qed.

  (** The node asks for a transaction exactly when the peer tells of it, out of the initial download, if both exchange transactions,
      and it is neither asked for already nor in the mempool, and not too many are asked for. *)
  Theorem C96_asks time l p x p' id : lived time l p -> turn p (h_env x) (h_event x) = Ok (p', h_out x) ->
    Say (TransactionRequest id) ∈ h_out x <-> h_event x = Heard (NewTransaction id) /\ e_ibd (h_env x) = false /\ service = true /\
      t_requested p !! id = None /\ N.of_nat (size (t_requested p)) < max /\ id ∉ e_pool (h_env x).
  Proof. intros L T. exact (asks_wanted positions service max l p x p' id (inv_lived _ _ _ _ _ _ L) T). Qed.

  (** The requests it remembers are the ones that wait for their answer: all of them for an hour, *)
  Theorem C96_remembered time l p : lived time l p ->
    (forall id t, t_requested p !! id = Some t -> waiting l id t) /\ (forall id t, waiting_for_less_than_an_hour l id t -> t_requested p !! id = Some t).
  Proof. intros L. apply inv_lived in L. split; apply L. Qed.

  (** and none for longer than that and the five seconds between two looks at the clock. *)
  Theorem C96_forgotten time l x p id t : lived time (l ++ [x]) p -> clock_from time (l ++ [x]) -> t_requested p !! id = Some t ->
    e_purge_time (h_env x) < t + 3605 * 1000000000.
  Proof.
    intros L C R. destruct (clock_inv _ _ _ _ _ _ L C) as (_ & J2 & J3). apply J3 in R. assert (l ++ [x] <> []) as N by (by destruct l).
    apply J2 in N. unfold clock_at in N. rewrite last_snoc in N. unfold EXPIRY_PERIOD, PURGE_INTERVAL in R. lia.
  Qed.

  (** Not more than the allowed number of requests wait for their answers. *)
  Theorem C96_bounded time l p ids : lived time l p -> NoDup ids -> (forall id, id ∈ ids -> exists t, waiting_for_less_than_an_hour l id t) ->
    N.of_nat (length ids) <= max.
  Proof.
    intros L ND W. apply inv_lived in L. pose proof (i_size _ _ _ _ _ L) as S. assert (length ids <= size (t_requested p))%nat; [|lia].
    rewrite <- (size_list_to_set (C := gset N) ids ND), <- size_dom. apply subseteq_size. intros id I. apply elem_of_list_to_set in I.
    apply W in I as (t & I). apply (i_kept _ _ _ _ _ L) in I. apply elem_of_dom. eauto.
  Qed.

  (** A transaction is asked for again only after the peer has answered, or after an hour. *)
  Theorem C96_asked_again time l1 x l2 y p id : lived time (l1 ++ x :: l2 ++ [y]) p -> asks id x -> asks id y ->
    Exists (answers id) l2 \/ Exists (fun z => e_time (h_env x) + 3600 * 1000000000 < e_purge_time (h_env z)) (x :: l2).
  Proof.
    intros L A B. replace (l1 ++ x :: l2 ++ [y]) with ((l1 ++ x :: l2) ++ [y]) in L by (rewrite <- app_assoc; done).
    apply lived_snoc in L as (q & _ & I & T). apply (asks_wanted _ _ _ _ _ _ _ _ I T) in B as (_ & _ & _ & R & _).
    assert (forall z : entry Seed, Decision (answers id z)) as AD.
    { intros z. unfold answers. destruct (h_event z) as [[j|j|j|j]|j|js|]; try (right; intros [?|?]; discriminate);
        (destruct (decide (j = id)) as [->|N]; [left; auto|right; intros [E|E]; congruence]). }
    destruct (decide (Exists (answers id) l2)) as [E|NE]; [left; done|]. right.
    destruct (decide (Exists (fun z => e_time (h_env x) + 3600 * 1000000000 < e_purge_time (h_env z)) (x :: l2))) as [E'|NE']; [done|]. exfalso.
    rewrite (i_kept _ _ _ _ _ I id (e_time (h_env x))) in R; [discriminate|]. exists l1, x, l2. split_and!; try done.
    - apply Forall_Exists_neg in NE. exact NE.
    - apply Forall_Exists_neg in NE'. eapply Forall_impl; [exact NE'|]. cbn. intros z Z. lia.
  Qed.

  (** The mempool is given what the peer sends only if the peer was asked for it and this is the first answer, *)
  Theorem C96_taken time l x p id : lived time (l ++ [x]) p -> ToMempool id ∈ h_out x ->
    h_event x = Heard (Found id) /\ exists t, waiting l id t.
  Proof.
    intros L M. apply lived_snoc in L as (q & _ & I & T). destruct (inv_turn _ _ _ _ _ _ _ I T) as (p1 & o1 & p2 & said & O & H & _ & A & _).
    rewrite O, elem_of_app in M. destruct M as [M|M]; [|apply (announced_out _ _ _ _ _ _ A) in M as (? & ? & _); discriminate].
    destruct H as (_ & _ & H). destruct (h_event x) as [[j|j|j|j]|j|js|].
    - destruct H as (_ & H). destruct (decide (wanted _ _ _ _ _)); destruct H as (_ & ->); [|destruct (_ || _)]; set_solver.
    - destruct H as (_ & ->). destruct service; [destruct (decide _)|]; set_solver.
    - destruct H as (_ & _ & _ & ->). destruct (t_requested q !! j) as [t|] eqn:R; [|by apply elem_of_nil in M].
      assert (j = id) as ->. { unfold reaction in M. destruct (e_verdict (h_env x) j); [| | | |destruct (0 <? score)]; clear - M; set_solver. }
      split; [done|]. exists t. by apply (i_waiting _ _ _ _ _ I).
    - destruct H as (_ & _ & _ & ->). by apply elem_of_nil in M.
    - destruct H as (_ & ->). by apply elem_of_nil in M.
    - destruct H as (_ & ->). by apply elem_of_nil in M.
    - destruct H as (_ & ->). by apply elem_of_nil in M.
  Qed.

  (** and then it is, for an hour; the mempool's verdict decides what the peer manager hears. *)
  Theorem C96_taken_when_asked time l x p id t : lived time (l ++ [x]) p -> waiting_for_less_than_an_hour l id t -> h_event x = Heard (Found id) ->
    ToMempool id ∈ h_out x /\
    (ValidReceived id ∈ h_out x <-> e_verdict (h_env x) id = InMempool) /\
    (forall n, AdjustScore n ∈ h_out x <-> e_verdict (h_env x) id = Refused n /\ 0 < n).
  Proof.
    intros L W E. apply lived_snoc in L as (q & _ & I & T). destruct (inv_turn _ _ _ _ _ _ _ I T) as (p1 & o1 & p2 & said & O & H & _ & A & _).
    assert (forall o, o ∈ h_out x <-> o ∈ o1 \/ o ∈ said) as O' by (intros; rewrite O, elem_of_app; done).
    assert (forall o, o ∈ said -> exists id, o = Say (NewTransaction id)) as S by (intros o B; apply (announced_out _ _ _ _ _ _ A) in B as (j & -> & _); eauto).
    apply (i_kept _ _ _ _ _ I) in W. destruct H as (_ & _ & H). rewrite E in H. destruct H as (_ & _ & _ & H). rewrite W in H. unfold reaction in H.
    assert (forall n, AdjustScore n ∉ said) as S1 by (intros n B; apply S in B as (? & ?); discriminate).
    assert (ValidReceived id ∉ said) as S2 by (intros B; apply S in B as (? & ?); discriminate).
    repeat setoid_rewrite O'. clear - H S1 S2. destruct (e_verdict (h_env x) id) as [| | | |n] eqn:V; [subst o1..|destruct (0 <? n) eqn:D; subst o1]; split_and!;
      intros; try split; rewrite ?elem_of_cons, ?elem_of_nil; try intros [[?|?]|?]; try intros [? ?]; try naive_solver (try lia); try set_solver.
  Qed.

  (** A request of the peer is answered once: with the transaction if it is in the mempool, without it otherwise. Nothing else is an
      answer. The sync manager is told of a transaction exactly if the peer is given it. *)
  Theorem C96_answers time l x p : lived time (l ++ [x]) p ->
    said_answers (h_out x) = match h_event x with
      | Heard (TransactionRequest id) => if service then [Say (if decide (id ∈ e_pool (h_env x)) then Found id else NotFound id)] else []
      | _ => []
      end /\
    (forall id, SentNotice id ∈ h_out x <-> Say (Found id) ∈ h_out x).
  Proof.
    intros L. apply lived_snoc in L as (q & _ & I & T). destruct (inv_turn _ _ _ _ _ _ _ I T) as (p1 & o1 & p2 & said & O & H & _ & A & _).
    rewrite O. assert (forall o, o ∈ said -> exists id, o = Say (NewTransaction id)) as S by (intros o B; apply (announced_out _ _ _ _ _ _ A) in B as (j & -> & _); eauto).
    clear - H S. unfold said_answers. rewrite filter_app.
    assert (filter is_answer said = []) as ->. { clear - S. induction said as [|o said IH]; [done|]. rewrite filter_cons, decide_False, IH; [done| |].
      - intros o' B. apply S. by apply elem_of_list_further.
      - destruct (S o) as (j & ->); [apply elem_of_list_here|]. cbn. tauto. }
    rewrite app_nil_r.
    assert (forall id, (SentNotice id ∈ o1 ++ said <-> Say (Found id) ∈ o1 ++ said) <-> (SentNotice id ∈ o1 <-> Say (Found id) ∈ o1)) as J.
    { intros id. rewrite !elem_of_app. assert (SentNotice id ∉ said) by (intros B; apply S in B as (? & ?); discriminate).
      assert (Say (Found id) ∉ said) by (intros B; apply S in B as (? & ?); discriminate). tauto. }
    setoid_rewrite J. clear J S. destruct H as (_ & _ & H). destruct (h_event x) as [[j|j|j|j]|j|js|].
    - destruct H as (_ & H). destruct (decide (wanted _ _ _ _ _)); destruct H as (_ & ->); [|destruct (_ || _)]; (split; [done|]); intros; set_solver.
    - destruct H as (_ & ->). destruct service; [destruct (decide _)|]; (split; [done|]); intros; set_solver.
    - destruct H as (_ & _ & _ & ->). destruct (t_requested q !! j); [|split; [done|set_solver]]. unfold reaction.
      destruct (e_verdict (h_env x) j); [| | | |destruct (0 <? score)]; (split; [done|]); intros; set_solver.
    - destruct H as (_ & _ & _ & ->). split; [done|set_solver].
    - destruct H as (_ & ->). split; [done|set_solver].
    - destruct H as (_ & ->). split; [done|set_solver].
    - destruct H as (_ & ->). split; [done|set_solver].
  Qed.

  (** The peer is reported for nothing but a message of a kind that was not agreed on, or a transaction that the node had asked for
      and the mempool refuses. *)
  Theorem C96_blamed time l x p n : lived time (l ++ [x]) p ->
    AdjustScore n ∈ h_out x <->
      (service = false /\ n = 20 /\ ((exists id, h_event x = Heard (TransactionRequest id)) \/ (e_ibd (h_env x) = false /\ exists id, h_event x = Heard (NewTransaction id)))) \/
      (exists id, h_event x = Heard (Found id) /\ ToMempool id ∈ h_out x /\ e_verdict (h_env x) id = Refused n /\ 0 < n).
  Proof.
    intros L. apply lived_snoc in L as (q & _ & I & T). destruct (inv_turn _ _ _ _ _ _ _ I T) as (p1 & o1 & p2 & said & O & H & _ & A & _).
    assert (forall o, o ∈ said -> exists id, o = Say (NewTransaction id)) as S by (intros o B; apply (announced_out _ _ _ _ _ _ A) in B as (j & -> & _); eauto).
    rewrite O. setoid_rewrite elem_of_app. clear - H S. assert (AdjustScore n ∉ said) as S1 by (intros B; apply S in B as (? & ?); discriminate).
    assert (forall id, ToMempool id ∉ said) as S2 by (intros id B; apply S in B as (? & ?); discriminate). clear S.
    destruct H as (_ & _ & H). destruct (h_event x) as [[j|j|j|j]|j|js|].
    - destruct H as (_ & H). destruct (decide (wanted _ _ _ _ _)) as [W|W]; destruct H as (_ & ->).
      + destruct W as (_ & W & _). split; [intros [B|B]; [set_solver|done]|]. intros [(? & _)|(? & ? & _)]; congruence.
      + destruct (e_ibd (h_env x)) eqn:B; cbn [orb].
        * split; [intros [?|?]; [set_solver|done]|]. intros [(_ & _ & [[? ?]|[? _]])|(? & ? & _)]; congruence.
        * destruct service eqn:Sv.
          -- split; [intros [?|?]; [set_solver|done]|]. intros [(? & _)|(? & ? & _)]; congruence.
          -- split; [|intros [(_ & -> & _)|(? & ? & _)]; [left; by apply elem_of_list_singleton|congruence]].
             intros [Z|?]; [|done]. apply elem_of_list_singleton in Z. injection Z as ->. left. split_and!; eauto.
    - destruct H as (_ & ->). destruct service.
      + split; [destruct (decide _); intros [?|?]; [set_solver|done|set_solver|done]|]. intros [(? & _)|(? & ? & _)]; congruence.
      + split; [|intros [(_ & -> & _)|(? & ? & _)]; [left; by apply elem_of_list_singleton|congruence]].
        intros [Z|?]; [|done]. apply elem_of_list_singleton in Z. injection Z as ->. left. split_and!; eauto.
    - destruct H as (_ & _ & _ & ->). split.
      + intros [Z|Z]; [|done]. right. exists j. destruct (t_requested q !! j); [|by apply elem_of_nil in Z]. unfold reaction in *.
        destruct (e_verdict (h_env x) j) as [| | | |k]; [set_solver..|]. destruct (0 <? k) eqn:D; [|set_solver].
        assert (n = k) as -> by set_solver. split_and!; [done| |done|lia]. left. set_solver.
      + intros [(_ & _ & [[? ?]|[_ [? ?]]])|(id & E & M & V & P)]; [congruence..|]. injection E as <-. destruct M as [M|M]; [|by apply S2 in M].
        left. destruct (t_requested q !! j); [|by apply elem_of_nil in M]. unfold reaction. rewrite V. rewrite (proj2 (N.ltb_lt _ _)) by done. set_solver.
    - destruct H as (_ & _ & _ & ->). split; [intros [?|?]; [set_solver|done]|]. intros [(_ & _ & [[? ?]|[_ [? ?]]])|(? & ? & _)]; congruence.
    - destruct H as (_ & ->). split; [intros [?|?]; [set_solver|done]|]. intros [(_ & _ & [[? ?]|[_ [? ?]]])|(? & ? & _)]; congruence.
    - destruct H as (_ & ->). split; [intros [?|?]; [set_solver|done]|]. intros [(_ & _ & [[? ?]|[_ [? ?]]])|(? & ? & _)]; congruence.
    - destruct H as (_ & ->). split; [intros [?|?]; [set_solver|done]|]. intros [(_ & _ & [[? ?]|[_ [? ?]]])|(? & ? & _)]; congruence.
  Qed.

  (** The peer is told of a transaction only if the node wanted that, at a time when it was not among the last 50000 transactions
      that either side had told the other of; only once since then; and only if it is in the mempool at that moment. *)
  Theorem C96_announced time l y p id : lived time (l ++ [y]) p -> tells id y ->
    id ∈ e_pool_later (h_env y) /\ service = true /\
    exists l1 x l2, l ++ [y] = l1 ++ x :: l2 /\ relays id x /\ id ∉ last_of (N.to_nat 50000) (mentions l1) /\
      forall l2', x :: l2 = l2' ++ [y] -> Forall (fun z => ~ tells id z) l2'.
  Proof.
    intros L B. apply lived_snoc in L as (q & _ & I & T). apply (announce_step _ _ _ _ _ _ _ I T) in B as (Q & P & _). split; [done|].
    change (N.to_nat 50000) with FILTER_SIZE. destruct Q as [Q|(R & S & C)].
    - destruct (i_announce _ _ _ _ _ I _ Q) as (S & l1 & x & l2 & -> & R & N & F). split; [done|]. exists l1, x, (l2 ++ [y]). rewrite <- app_assoc.
      split_and!; try done. intros l2' E. rewrite app_comm_cons in E. apply app_inj_tail in E as [<- _]. done.
    - split; [done|]. exists l, y, []. split_and!; try done.
      + intros B. apply (knows_recent positions _ _ _ (i_known _ _ _ _ _ I)) in B. congruence.
      + intros l2' E. destruct l2' as [|? [|? ?]]; [constructor|discriminate..].
  Qed.

  (** When announcements are due, all that waits to be announced and still is in the mempool is announced, each transaction once,
      and nothing waits any more; until then it waits. *)
  Theorem C96_announced_when_due time l p x p' : lived time l p -> turn p (h_env x) (h_event x) = Ok (p', h_out x) ->
    exists ids, omap (fun o => match o with Say (NewTransaction id) => Some id | _ => None end) (h_out x) = ids /\ NoDup ids /\
    (forall id, id ∈ ids <-> t_next p <= e_now (h_env x) /\ id ∈ e_pool_later (h_env x) /\
      (id ∈ t_announce p \/ (relays id x /\ service = true /\ rolling_contains positions (t_known p) id = false))) /\
    (forall id, id ∈ t_announce p' <-> e_now (h_env x) < t_next p /\
      (id ∈ t_announce p \/ (relays id x /\ service = true /\ rolling_contains positions (t_known p) id = false))).
  Proof.
    intros L T. apply inv_lived in L as I. eexists. split; [reflexivity|].
    assert (forall id, id ∈ omap (fun o => match o with Say (NewTransaction id) => Some id | _ => None end) (h_out x) <-> tells id x) as M.
    { intros id. rewrite elem_of_list_omap. unfold tells. split; [|eauto]. intros ([[j|j|j|j]| | | |] & J & E); try discriminate. injection E as ->. done. }
    split_and!.
    - destruct (inv_turn _ _ _ _ _ _ _ I T) as (p1 & o1 & p2 & said & O & H & _ & A & _). rewrite O, omap_app, (omap_handled _ _ _ _ _ _ _ _ H). cbn [app].
      destruct A as (_ & _ & A). destruct (t_next p2 <=? e_now (h_env x)); destruct A as (_ & -> & _); [|constructor]. rewrite omap_said. apply batch_nodup.
    - intros id. rewrite M. destruct (announce_step _ _ _ _ _ _ _ I T id) as [-> _]. unfold queued. tauto.
    - intros id. destruct (announce_step _ _ _ _ _ _ _ I T id) as [_ ->]. unfold queued. tauto.
  Qed.
End Properties.

(** * The transactions of the node's own user *)

(** The node keeps announcing a transaction of its user from the time it is accepted until a peer has fetched it or it has left the
    mempool. *)
Theorem C97_kept l id : id ∈ sync_run l <-> exists l1 ev l2, l = l1 ++ ev :: l2 /\ submitted id ev /\ Forall (fun ev' => ~ done_with id ev') l2.
Proof.
  unfold sync_run. induction l as [|ev l IH] using rev_ind.
  - cbn. split; [set_solver|]. intros (l1 & ev & l2 & E & _). by destruct l1.
  - rewrite fold_left_app. cbn [fold_left]. set (u := fold_left _ l ∅) in *.
    assert (id ∈ (sync_turn u ev).1 <-> submitted id ev \/ (id ∈ u /\ ~ done_with id ev)) as S.
    { clear. destruct ev as [j o r relay|q j|pool]; cbn [sync_turn submitted done_with].
      - unfold handle_transaction_processed. destruct r, o, relay; cbn [fst]; set_solver.
      - cbn [fst]. set_solver.
      - unfold requeue_unconfirmed_local_transactions. cbn [fst]. rewrite elem_of_filter. destruct (decide (id ∈ pool)); tauto. }
    rewrite S, IH. clear S IH u. split.
    + intros [S|((l1 & x & l2 & -> & S & F) & N)].
      * exists l, ev, []. done.
      * exists l1, x, (l2 ++ [ev]). rewrite <- app_assoc. split_and!; try done. apply Forall_app. split; [done|]. by constructor.
    + intros (l1 & x & l2 & E & S & F). apply snoc_split in E as [(-> & -> & ->)|(l2' & -> & ->)]; [left; done|]. right.
      apply Forall_app in F as [F N]. apply Forall_inv in N. split; [|done]. eauto 10.
Qed.

(** What all peers are told, and which peer is reported *)
Theorem C97_told l ev : let out := (sync_turn (sync_run l) ev).2 in
  (forall id, RelayToPeers id ∈ out <-> exists o r, ev = TxProcessed id o r true /\ (r = ProcessedNew \/ (r = ProcessedDuplicate /\ o = LocalOrigin))) /\
  (forall ids, ReannounceToPeers ids ∈ out -> ids <> [] /\ NoDup ids) /\
  (forall id, (exists ids, ReannounceToPeers ids ∈ out /\ id ∈ ids) <-> id ∈ sync_run l /\ exists pool, ev = RequeueDue pool /\ id ∈ pool) /\
  (forall q n, ScorePeer q n ∈ out <-> exists id relay, ev = TxProcessed id (RemoteOrigin q) (ProcessedError n) relay /\ 0 < n).
Proof.
  cbn zeta. set (u := sync_run l). clearbody u. destruct ev as [j o r relay|q j|pool]; cbn [sync_turn].
  - unfold handle_transaction_processed. destruct r as [| |k], o as [|q], relay; cbn [snd]; try destruct (0 <? k) eqn:D; split_and!; intros;
      rewrite ?elem_of_cons, ?elem_of_nil; try (split; intros); naive_solver (try set_solver; try lia).
  - cbn [snd]. split_and!; intros; rewrite ?elem_of_nil; try (split; intros); set_solver.
  - unfold requeue_unconfirmed_local_transactions. cbn [snd]. set (v := filter (fun id => id ∈ pool) u).
    assert (forall id, id ∈ v <-> id ∈ u /\ id ∈ pool) as V by (intros id; unfold v; rewrite elem_of_filter; tauto). clearbody v.
    case_bool_decide as B; split_and!; intros.
    + rewrite elem_of_nil. naive_solver.
    + set_solver.
    + split; [set_solver|]. intros (U & pool' & E & P). injection E as <-. exfalso. assert (id ∈ v) by (apply V; done). set_solver.
    + rewrite elem_of_nil. naive_solver.
    + rewrite elem_of_list_singleton. naive_solver.
    + apply elem_of_list_singleton in H. injection H as ->. split; [|apply NoDup_elements]. intros E. apply elements_empty_inv in E. apply B, leibniz_equiv, E.
    + split.
      * intros (ids & E & M). apply elem_of_list_singleton in E. injection E as ->. apply elem_of_elements, V in M as [M P]. eauto.
      * intros (U & pool' & E & P). injection E as <-. eexists. split; [apply elem_of_list_singleton; reflexivity|]. apply elem_of_elements, V. done.
    + rewrite elem_of_list_singleton. naive_solver.
Qed.

(** * Non-trivial cases *)

(** A peer that asks, is asked, is told, is refused, does not answer and is asked again an hour later *)
Example C96_case : exists p, lived example_positions true 2 1000000000000
  (map (fun x : (env unit * event) * list output => {| h_env := x.1.1; h_event := x.1.2; h_out := x.2 |}) (zip example_steps example_outs)) p.
Proof. destruct (example_lived 19) as [p L]. exists p. exact L. Qed.

(** Two requests wait, as many as are allowed. *)
Example C96_bounded_case : exists l p, lived example_positions true 2 1000000000000 l p /\
  waiting_for_less_than_an_hour l 20 1010000000000 /\ waiting_for_less_than_an_hour l 21 1010000000000.
Proof.
  destruct (example_lived 16) as [p L]. eexists _, p. split; [exact L|]. cbn [take zip_with map example_steps example_outs fst snd]. split.
  - eexists [_;_;_;_;_;_;_;_;_;_;_;_], _, [_;_;_]. split; [reflexivity|]. unfold asks. cbn. split_and!; [set_solver|done| |].
    + repeat constructor; unfold answers; cbn; intros [?|?]; discriminate.
    + repeat constructor; cbn; lia.
  - eexists [_;_;_;_;_;_;_;_;_;_;_;_;_], _, [_;_]. split; [reflexivity|]. unfold asks. cbn. split_and!; [set_solver|done| |].
    + repeat constructor; unfold answers; cbn; intros [?|?]; discriminate.
    + repeat constructor; cbn; lia.
Qed.

(** The clock of the example does not turn back. *)
Example C96_forgotten_case : clock_from 1000000000000 (map (fun x : (env unit * event) * list output => {| h_env := x.1.1; h_event := x.1.2; h_out := x.2 |}) (zip example_steps example_outs)).
Proof. cbn. lia. Qed.

(** Announcements wait for a random time, and what the peer tells the node meanwhile does not stop them: the peer is told of a
    transaction it has told the node of before. *)
Theorem C96_never_told_back_refuted : exists l1 x l2 y p, lived example_positions true 2 1000000000000 (l1 ++ x :: l2 ++ [y]) p /\
  h_event x = Heard (NewTransaction 8) /\ tells 8 y.
Proof.
  destruct (example_lived 7) as [p L]. eexists [_;_;_;_;_], _, [], _, p. split; [exact L|]. split; [done|]. unfold tells. cbn. set_solver.
Qed.

Example C97_case :
  sync_run [TxProcessed 4 LocalOrigin ProcessedNew true; TxProcessed 5 LocalOrigin ProcessedDuplicate true; TxProcessed 6 (RemoteOrigin 1) ProcessedNew true;
    TxProcessed 7 LocalOrigin ProcessedNew true; TxSent 1 4; RequeueDue {[5; 8]}] = {[5]} /\
  (sync_turn {[5; 9]} (RequeueDue {[5; 8]})).2 = [ReannounceToPeers [5]] /\
  (sync_turn ∅ (TxProcessed 3 (RemoteOrigin 2) (ProcessedError 50) true)).2 = [ScorePeer 2 50].
Proof. split_and!; [|vm_compute; reflexivity..]. apply leibniz_equiv. intros id. rewrite C97_kept. split.
  - intros (l1 & ev & l2 & E & S & F).
    do 6 (destruct l1 as [|? l1]; [injection E as <- <-; cbn in S; try done; subst; rewrite ?Forall_cons in F; cbn in F; set_solver|injection E as <- E]).
    by destruct l1.
  - intros ->%elem_of_singleton. eexists [_], _, _. split; [reflexivity|]. cbn. split; [done|]. repeat constructor; cbn; try tauto; try lia. clear. set_solver.
Qed.

Print Assumptions C96_runs.
Print Assumptions C96_asks.
Print Assumptions C96_remembered.
Print Assumptions C96_forgotten.
Print Assumptions C96_bounded.
Print Assumptions C96_asked_again.
Print Assumptions C96_taken.
Print Assumptions C96_taken_when_asked.
Print Assumptions C96_answers.
Print Assumptions C96_blamed.
Print Assumptions C96_announced.
Print Assumptions C96_announced_when_due.
Print Assumptions C96_never_told_back_refuted.
Print Assumptions C97_kept.
Print Assumptions C97_told.
