From Verif Require Import Base BloomModel BloomSpec TxRelayModel TxRelaySpec TxRelayProofs.
From stdpp Require Import sorting.
Local Open Scope N_scope.
Opaque FILTER_SIZE.

Lemma map_subseteq_size (m1 m2 : gmap N N) : m1 ⊆ m2 -> (size m1 <= size m2)%nat.
Proof. intros S. rewrite <- !size_dom. apply subseteq_size, subseteq_dom. done. Qed.

Section History.
  Context {Seed : Type} (positions : Seed -> N -> list nat) (service : bool) (max : N).
  Notation lived := (lived positions service max).
  Notation handled := (handled positions service max).
  Notation wanted := (wanted service max).

  Record inv (l : list (entry Seed)) (p : peer Seed) : Prop := {
    i_known : knows positions (t_known p) (mentions l);
    i_purge : EXPIRY_PERIOD <= t_purge p;
    i_size : N.of_nat (size (t_requested p)) <= max;
    i_waiting : forall id t, t_requested p !! id = Some t -> waiting l id t;
    i_kept : forall id t, waiting_for_less_than_an_hour l id t -> t_requested p !! id = Some t;
    i_announce : forall id, id ∈ t_announce p -> service = true /\ exists l1 x l2, l = l1 ++ x :: l2 /\ relays id x /\
      id ∉ last_of FILTER_SIZE (mentions l1) /\ Forall (fun y => ~ tells id y) (x :: l2)
  }.

  Lemma omap_said (ids : list N) : omap (fun o => match o with Say (NewTransaction id) => Some id | _ => None end) (map (fun id => Say (NewTransaction id)) ids) = ids.
  Proof. induction ids as [|id ids IH]; [done|]. cbn. f_equal. exact IH. Qed.
  Lemma omap_handled p e ev p1 o1 : handled p e ev p1 o1 -> omap (fun o => match o with Say (NewTransaction id) => Some id | _ => None end) o1 = [].
  Proof.
    intros (_ & _ & H). destruct ev as [[id|id|id|id]|id|ids|].
    - destruct H as (_ & H). destruct (decide _); [by destruct H as (_ & ->)|]. destruct H as (_ & ->). by destruct (_ || _).
    - destruct H as (_ & ->). destruct service; [|done]. by destruct (decide _).
    - destruct H as (_ & _ & _ & ->). destruct (t_requested p !! id); [|done]. unfold reaction. destruct (e_verdict e id); try done. by destruct (0 <? score).
    - by destruct H as (_ & _ & _ & ->).
    - by destruct H as (_ & ->).
    - by destruct H as (_ & ->).
    - by destruct H as (_ & ->).
  Qed.
  Lemma handled_say_new p e ev p1 o1 id : handled p e ev p1 o1 -> Say (NewTransaction id) ∉ o1.
  Proof.
    intros H I. apply omap_handled in H. assert (id ∈ omap (fun o => match o with Say (NewTransaction id) => Some id | _ => None end) o1) as J.
    { apply elem_of_list_omap. eauto. }
    rewrite H in J. by apply elem_of_nil in J.
  Qed.
  Lemma announced_out (p p' : peer Seed) e said o : announced positions p p' e said -> o ∈ said -> exists id, o = Say (NewTransaction id) /\ id ∈ batch p e /\ t_next p <= e_now e.
  Proof.
    intros (_ & _ & H) I. destruct (t_next p <=? e_now e) eqn:D.
    - destruct H as (_ & -> & _). apply elem_of_list_fmap in I as (id & -> & I). exists id. split_and!; try done. lia.
    - destruct H as (_ & -> & _). by apply elem_of_nil in I.
  Qed.

  (** A turn of a reachable state *)
  Lemma inv_turn l p x p' : inv l p -> turn positions service max p (h_env x) (h_event x) = Ok (p', h_out x) ->
    exists p1 o1 p2 said, h_out x = o1 ++ said /\ handled p (h_env x) (h_event x) p1 o1 /\ purged p1 p2 (e_purge_time (h_env x)) /\
      announced positions p2 p' (h_env x) said /\ knows positions (t_known p1) (mentions l ++ heard_of (h_event x)).
  Proof.
    intros I T. destruct (turn_ok positions service max p (h_env x) (h_event x) (mentions l) (i_known _ _ I) (i_purge _ _ I))
      as (p1 & o1 & p2 & p'' & said & T' & H). rewrite T in T'. injection T' as <- ->. exists p1, o1, p2, said. done.
  Qed.
  Lemma inv_runs l p e ev : inv l p -> exists p' out, turn positions service max p e ev = Ok (p', out).
  Proof.
    intros I. destruct (turn_ok positions service max p e ev (mentions l) (i_known _ _ I) (i_purge _ _ I))
      as (p1 & o1 & p2 & p'' & said & T' & H). eauto.
  Qed.

  (** What the node asks for *)
  Lemma asks_wanted l p x p' id : inv l p -> turn positions service max p (h_env x) (h_event x) = Ok (p', h_out x) ->
    asks id x <-> h_event x = Heard (NewTransaction id) /\ wanted p (h_env x) id.
  Proof.
    intros I T. destruct (inv_turn _ _ _ _ I T) as (p1 & o1 & p2 & said & O & H & _ & A & _). unfold asks. rewrite O, elem_of_app.
    split.
    - intros [J|J]; [|apply (announced_out _ _ _ _ _ A) in J as (? & ? & _); discriminate].
      destruct H as (_ & _ & H). destruct (h_event x) as [[j|j|j|j]|j|js|].
      + destruct H as (_ & H). destruct (decide (wanted p (h_env x) j)) as [W|W].
        * destruct H as (_ & ->). apply elem_of_list_singleton in J. injection J as ->. done.
        * destruct H as (_ & ->). destruct (_ || _); [by apply elem_of_nil in J|]. apply elem_of_list_singleton in J. discriminate.
      + destruct H as (_ & ->). destruct service; [destruct (decide _)|]; set_solver.
      + destruct H as (_ & _ & _ & ->). destruct (t_requested p !! j); [|by apply elem_of_nil in J]. unfold reaction in J.
        destruct (e_verdict (h_env x) j); try (set_solver). destruct (0 <? score); set_solver.
      + destruct H as (_ & _ & _ & ->). by apply elem_of_nil in J.
      + destruct H as (_ & ->). by apply elem_of_nil in J.
      + destruct H as (_ & ->). by apply elem_of_nil in J.
      + destruct H as (_ & ->). by apply elem_of_nil in J.
    - intros (E & W). left. rewrite E in H. destruct H as (_ & _ & _ & H). rewrite decide_True in H by done. destruct H as (_ & ->). apply elem_of_list_singleton. done.
  Qed.

  (** What waits after a turn *)
  Lemma requested_step l p x p' : inv l p -> turn positions service max p (h_env x) (h_event x) = Ok (p', h_out x) -> forall id t,
    t_requested p' !! id = Some t <->
      ((asks id x /\ t = e_time (h_env x)) \/ (t_requested p !! id = Some t /\ ~ answers id x)) /\
      (t_purge p <= e_purge_time (h_env x) -> e_purge_time (h_env x) - EXPIRY_PERIOD <= t).
  Proof.
    intros I T id t. pose proof (asks_wanted l p x p' id I T) as AW. destruct (inv_turn _ _ _ _ I T) as (p1 & o1 & p2 & said & O & H & G & A & _).
    assert (t_requested p1 !! id = Some t <-> (asks id x /\ t = e_time (h_env x)) \/ (t_requested p !! id = Some t /\ ~ answers id x)) as R1.
    { clear - H AW. destruct H as (_ & _ & H). unfold answers. destruct (h_event x) as [[j|j|j|j]|j|js|].
      - destruct H as (_ & H). destruct (decide (wanted p (h_env x) j)) as [W|W]; destruct H as (-> & _).
        + rewrite lookup_insert_Some. split.
          * intros [[-> ->]|[N E]]; [left; split; [apply AW; done|done]|right; split; [done|intros [?|?]; discriminate]].
          * intros [[B ->]|[E _]].
            -- apply AW in B as [B _]. injection B as ->. left. done.
            -- right. split; [|done]. intros ->. destruct W as (_ & _ & W & _). congruence.
        + split; [intros E; right; split; [done|intros [?|?]; discriminate]|]. intros [[B _]|[E _]]; [|done].
          apply AW in B as [B W']. injection B as ->. done.
      - destruct H as (-> & _). split; [intros E; right; split; [done|intros [?|?]; discriminate]|]. intros [[B _]|[E _]]; [|done]. apply AW in B as [B _]. discriminate.
      - destruct H as (_ & _ & -> & _). rewrite lookup_delete_Some. split.
        + intros [N E]. right. split; [done|]. intros [B|B]; [injection B as ->|]; done.
        + intros [[B _]|[E N]]; [apply AW in B as [B _]; discriminate|]. split; [|done]. intros ->. apply N. left. done.
      - destruct H as (_ & _ & -> & _). rewrite lookup_delete_Some. split.
        + intros [N E]. right. split; [done|]. intros [B|B]; [|injection B as ->]; done.
        + intros [[B _]|[E N]]; [apply AW in B as [B _]; discriminate|]. split; [|done]. intros ->. apply N. right. done.
      - destruct H as (-> & _). rewrite enqueue_spec. cbn [with_announce t_requested].
        split; [intros E; right; split; [done|intros [?|?]; discriminate]|]. intros [[B _]|[E _]]; [|done]. apply AW in B as [B _]. discriminate.
      - destruct H as (-> & _). rewrite enqueue_spec. cbn [with_announce t_requested].
        split; [intros E; right; split; [done|intros [?|?]; discriminate]|]. intros [[B _]|[E _]]; [|done]. apply AW in B as [B _]. discriminate.
      - destruct H as (-> & _). split; [intros E; right; split; [done|intros [?|?]; discriminate]|]. intros [[B _]|[E _]]; [|done]. apply AW in B as [B _]. discriminate. }
    assert (t_purge p1 = t_purge p) as P1 by apply H. destruct A as (-> & _). destruct G as (_ & _ & _ & G). rewrite P1 in G. rewrite <- R1.
    destruct (t_purge p <=? e_purge_time (h_env x)) eqn:D.
    - destruct G as (-> & _). rewrite map_filter_lookup_Some. cbn [snd]. split; [intros [E L]; split; [done|intros _; done]|intros [E L]; split; [done|apply L; lia]].
    - destruct G as (-> & _). split; [intros E; split; [done|intros; lia]|intros [E _]; done].
  Qed.

  Lemma purge_step l p x p' : inv l p -> turn positions service max p (h_env x) (h_event x) = Ok (p', h_out x) ->
    t_purge p' = if t_purge p <=? e_purge_time (h_env x) then e_purge_time (h_env x) + PURGE_INTERVAL else t_purge p.
  Proof.
    intros I T. destruct (inv_turn _ _ _ _ I T) as (p1 & o1 & p2 & said & O & H & G & A & _).
    assert (t_purge p1 = t_purge p) as P1 by apply H. destruct A as (_ & -> & _). destruct G as (_ & _ & _ & G). rewrite P1 in G.
    destruct (t_purge p <=? e_purge_time (h_env x)); apply G.
  Qed.

  (** What waits to be announced, before the announcements of the turn *)
  Definition queued (p : peer Seed) (x : entry Seed) (id : N) : Prop :=
    id ∈ t_announce p \/ (relays id x /\ service = true /\ rolling_contains positions (t_known p) id = false).
  Lemma handled_queue p e ev p1 o1 out id : handled p e ev p1 o1 -> id ∈ t_announce p1 <-> queued p {| h_env := e; h_event := ev; h_out := out |} id.
  Proof.
    intros (_ & _ & H). unfold queued, relays. cbn [h_event]. destruct ev as [[j|j|j|j]|j|js|].
    - destruct H as (-> & _). tauto.
    - destruct H as (-> & _). tauto.
    - destruct H as (_ & -> & _). tauto.
    - destruct H as (_ & -> & _). tauto.
    - destruct H as (-> & _). rewrite enqueue_spec. cbn [with_announce t_announce]. destruct service; [|split; [tauto|intros [?|(_ & ? & _)]; [done|discriminate]]].
      rewrite elem_of_union, elem_of_list_to_set, elem_of_list_filter, elem_of_list_singleton.
      split; [intros [[? ->]|?]; tauto|intros [?|(-> & _ & ?)]; tauto].
    - destruct H as (-> & _). rewrite enqueue_spec. cbn [with_announce t_announce]. destruct service; [|split; [tauto|intros [?|(_ & ? & _)]; [done|discriminate]]].
      rewrite elem_of_union, elem_of_list_to_set, elem_of_list_filter.
      split; [intros [[? ?]|?]; tauto|intros [?|(? & _ & ?)]; tauto].
    - destruct H as (-> & _). tauto.
  Qed.
  Lemma announce_step l p x p' : inv l p -> turn positions service max p (h_env x) (h_event x) = Ok (p', h_out x) -> forall id,
    (tells id x <-> queued p x id /\ id ∈ e_pool_later (h_env x) /\ t_next p <= e_now (h_env x)) /\
    (id ∈ t_announce p' <-> queued p x id /\ e_now (h_env x) < t_next p).
  Proof.
    intros I T id. destruct (inv_turn _ _ _ _ I T) as (p1 & o1 & p2 & said & O & H & G & A & _).
    assert (id ∈ t_announce p2 <-> queued p x id) as Q.
    { rewrite (proj1 (proj2 G)). rewrite (handled_queue _ _ _ _ _ (h_out x) id H). destruct x. done. }
    assert (t_next p2 = t_next p) as N2. { rewrite (proj1 (proj2 (proj2 G))). apply H. }
    unfold tells. rewrite O, elem_of_app. assert (Say (NewTransaction id) ∉ o1) as NO by (eapply handled_say_new; exact H).
    destruct A as (_ & _ & A). rewrite N2 in A. destruct (t_next p <=? e_now (h_env x)) eqn:D.
    - destruct A as (-> & -> & _). rewrite <- Q. split.
      + rewrite elem_of_list_fmap. setoid_rewrite batch_elem. split.
        * intros [?|(j & E & J)]; [done|]. injection E as ->. split_and!; try apply J. lia.
        * intros (? & ? & _). right. eauto.
      + split; [intros ?; exfalso; set_solver|intros (_ & ?); lia].
    - destruct A as (-> & -> & _). rewrite <- Q. split.
      + split; [intros [?|?]; [done|by apply elem_of_nil in H0]|intros (_ & _ & ?); lia].
      + split; [intros ?; split; [done|lia]|tauto].
  Qed.
  Lemma mentions_snoc (l : list (entry Seed)) x : mentions (l ++ [x]) = mentions l ++ mentioned x.
  Proof. unfold mentions. rewrite flat_map_app. cbn. rewrite app_nil_r. done. Qed.
  Lemma known_step l p x p' : inv l p -> turn positions service max p (h_env x) (h_event x) = Ok (p', h_out x) -> knows positions (t_known p') (mentions (l ++ [x])).
  Proof.
    intros I T. destruct (inv_turn _ _ _ _ I T) as (p1 & o1 & p2 & said & O & H & G & A & K). rewrite mentions_snoc. unfold mentioned. rewrite O.
    rewrite omap_app, (omap_handled _ _ _ _ _ H). cbn [app].
    assert (knows positions (t_known p2) (mentions l ++ heard_of (h_event x))) as K2 by (destruct G as (-> & _); done).
    destruct A as (_ & _ & A). fold (heard_of (h_event x)). rewrite app_assoc. destruct (t_next p2 <=? e_now (h_env x)).
    - destruct A as (_ & -> & A). rewrite omap_said. apply A. done.
    - destruct A as (_ & -> & ->). cbn. rewrite app_nil_r. done.
  Qed.
  Lemma size_step l p x p' : inv l p -> turn positions service max p (h_env x) (h_event x) = Ok (p', h_out x) -> N.of_nat (size (t_requested p')) <= max.
  Proof.
    intros I T. pose proof (i_size _ _ I) as S. destruct (inv_turn _ _ _ _ I T) as (p1 & o1 & p2 & said & O & H & G & A & K).
    assert (N.of_nat (size (t_requested p1)) <= max) as S1.
    { destruct H as (_ & _ & H). destruct (h_event x) as [[j|j|j|j]|j|js|].
      - destruct H as (_ & H). destruct (decide (wanted p (h_env x) j)) as [W|W]; destruct H as (-> & _); [|done].
        destruct W as (_ & _ & W & L & _). rewrite map_size_insert_None by done. lia.
      - by destruct H as (-> & _).
      - destruct H as (_ & _ & -> & _). pose proof (map_subseteq_size _ _ (delete_subseteq (t_requested p) j)). lia.
      - destruct H as (_ & _ & -> & _). pose proof (map_subseteq_size _ _ (delete_subseteq (t_requested p) j)). lia.
      - destruct H as (-> & _). rewrite enqueue_spec. done.
      - destruct H as (-> & _). rewrite enqueue_spec. done.
      - by destruct H as (-> & _). }
    destruct A as (-> & _). destruct G as (_ & _ & _ & G). destruct (t_purge p1 <=? e_purge_time (h_env x)); destruct G as (-> & _); [|done].
    pose proof (map_subseteq_size _ _ (map_filter_subseteq (fun kt : N * N => e_purge_time (h_env x) - EXPIRY_PERIOD <= kt.2) (t_requested p1))). lia.
  Qed.

  Lemma snoc_split {A} (l : list A) (y : A) l1 x l2 : l ++ [y] = l1 ++ x :: l2 -> (l1 = l /\ x = y /\ l2 = []) \/ exists l2', l2 = l2' ++ [y] /\ l = l1 ++ x :: l2'.
  Proof.
    destruct l2 as [|z l2 _] using rev_ind; intros E.
    - apply app_inj_tail in E as [-> ->]. left. done.
    - right. replace (l1 ++ x :: l2 ++ [z]) with ((l1 ++ x :: l2) ++ [z]) in E by (rewrite <- app_assoc; done).
      apply app_inj_tail in E as [-> ->]. eauto.
  Qed.
  Lemma asks_not_answers l p x p' id : inv l p -> turn positions service max p (h_env x) (h_event x) = Ok (p', h_out x) -> asks id x -> ~ answers id x.
  Proof. intros I T A. apply (asks_wanted _ _ _ _ _ I T) in A as [E _]. unfold answers. rewrite E. intros [?|?]; discriminate. Qed.

  Lemma inv_step l p x p' : inv l p -> turn positions service max p (h_env x) (h_event x) = Ok (p', h_out x) -> inv (l ++ [x]) p'.
  Proof.
    intros I T. constructor.
    - exact (known_step _ _ _ _ I T).
    - rewrite (purge_step _ _ _ _ I T). destruct (t_purge p <=? e_purge_time (h_env x)) eqn:D; [|apply I]. pose proof (i_purge _ _ I). lia.
    - exact (size_step _ _ _ _ I T).
    - intros id t R. apply (requested_step _ _ _ _ I T) in R as [[[A ->]|[R N]] _].
      + exists l, x, []. done.
      + destruct (i_waiting _ _ I _ _ R) as (l1 & y & l2 & -> & A & E & F). exists l1, y, (l2 ++ [x]). rewrite <- app_assoc. split_and!; try done.
        apply Forall_app. split; [done|]. constructor; done.
    - intros id t (l1 & y & l2 & E & A & T' & F & Y). apply (requested_step _ _ _ _ I T).
      apply snoc_split in E as [(-> & -> & ->)|(l2' & -> & ->)].
      + split; [left; done|]. intros _. apply Forall_inv in Y. unfold EXPIRY_PERIOD. lia.
      + apply Forall_app in F as [F1 F2]. rewrite app_comm_cons in Y. apply Forall_app in Y as [Y1 Y2]. split.
        * right. split; [|by apply Forall_inv in F2]. apply (i_kept _ _ I). exists l1, y, l2'. done.
        * intros _. apply Forall_inv in Y2. unfold EXPIRY_PERIOD. lia.
    - intros id A. destruct (announce_step _ _ _ _ I T id) as [TL AN]. apply AN in A as [[Q|(R & S & C)] D].
      + destruct (i_announce _ _ I _ Q) as (S & l1 & y & l2 & -> & R & L & F). split; [done|]. exists l1, y, (l2 ++ [x]). rewrite <- app_assoc. split_and!; try done.
        rewrite app_comm_cons. apply Forall_app. split; [done|]. constructor; [|done]. intros B. apply TL in B as (_ & _ & B). lia.
      + split; [done|]. exists l, x, []. split_and!; try done.
        * intros B. apply (knows_recent positions _ _ _ (i_known _ _ I)) in B. congruence.
        * constructor; [|done]. intros B. apply TL in B as (_ & _ & B). lia.
  Qed.
  Lemma inv_lived time l p : lived time l p -> inv l p.
  Proof.
    induction 1 as [s0 s1 s2 now delay p E|l p x p' _ I T]; [|exact (inv_step _ _ _ _ I T)].
    unfold peer_new in E. destruct (rolling_new FILTER_SIZE s0 s1 s2) as [k| |] eqn:K; cbn [rbind] in E; [|discriminate..]. injection E as <-.
    constructor; cbn [t_known t_requested t_purge t_announce].
    - exists s0, s1, s2, []. split; [|done]. unfold filled. rewrite K. done.
    - lia.
    - rewrite map_size_empty. lia.
    - intros id t R. rewrite lookup_empty in R. discriminate.
    - intros id t (l1 & x & l2 & E & _). by destruct l1.
    - intros id A. exfalso. clear - A. exact (not_elem_of_empty (C := gset N) id A).
  Qed.
  Lemma lived_snoc time l x p' : lived time (l ++ [x]) p' -> exists p, lived time l p /\ inv l p /\ turn positions service max p (h_env x) (h_event x) = Ok (p', h_out x).
  Proof.
    inversion 1 as [? ? ? ? ? ? E F|l' p y p'' L T E F].
    - by destruct l.
    - apply app_inj_tail in E as [-> ->]. exists p. split_and!; try done. by eapply inv_lived.
  Qed.
  Lemma lived_app time l1 l2 p : lived time (l1 ++ l2) p -> exists p1, lived time l1 p1.
  Proof.
    revert p. induction l2 as [|x l2 IH] using rev_ind; intros p L; [rewrite app_nil_r in L; eauto|].
    rewrite app_assoc in L. apply lived_snoc in L as (q & L & _). eauto.
  Qed.

  (** The clock *)
  Definition clock_at (t : N) (l : list (entry Seed)) : N := match last l with Some x => e_purge_time (h_env x) | None => t end.
  Lemma clock_snoc t l x : clock_from t (l ++ [x]) <-> clock_from t l /\ clock_at t l <= e_time (h_env x) /\ e_time (h_env x) <= e_purge_time (h_env x).
  Proof.
    revert t. induction l as [|y l IH]; intros t; cbn [clock_from app].
    - unfold clock_at. cbn. tauto.
    - rewrite IH. unfold clock_at. destruct l as [|z l]; [cbn; tauto|]. rewrite last_cons_cons. destruct (last (z :: l)) eqn:L; [tauto|].
      apply last_None in L. discriminate.
  Qed.
  Lemma clock_inv time l p : lived time l p -> clock_from time l ->
    t_purge p <= clock_at time l + EXPIRY_PERIOD + PURGE_INTERVAL /\ (l <> [] -> clock_at time l < t_purge p) /\
    forall id t, t_requested p !! id = Some t -> t_purge p <= t + EXPIRY_PERIOD + PURGE_INTERVAL.
  Proof.
    induction 1 as [s0 s1 s2 now delay p E|l p x p' L IH T]; intros C.
    - unfold peer_new in E. destruct (rolling_new FILTER_SIZE s0 s1 s2) as [k| |] eqn:K; cbn [rbind] in E; [|discriminate..]. injection E as <-.
      clear K. cbn [t_purge t_requested]. unfold clock_at. cbn [last]. split_and!; [lia|intros B; by destruct B|]. intros id t R. rewrite lookup_empty in R. discriminate.
    - apply inv_lived in L as I. apply clock_snoc in C as (C & C1 & C2). destruct (IH C) as (J1 & J2 & J3). clear IH.
      unfold clock_at at 1 2. rewrite last_snoc. pose proof (purge_step _ _ _ _ I T) as P. pose proof (i_purge _ _ I) as P0.
      assert (0 < PURGE_INTERVAL) as P5 by done.
      destruct (t_purge p <=? e_purge_time (h_env x)) eqn:D; rewrite P; split_and!; try (intros; lia).
      + intros id t R. apply (requested_step _ _ _ _ I T) in R as [_ R]. specialize (R ltac:(lia)). lia.
      + intros id t R. apply (requested_step _ _ _ _ I T) in R as [[[_ ->]|[R _]] _]; [lia|]. apply J3 in R. lia.
  Qed.
End History.
