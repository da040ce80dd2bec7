From Verif Require Import Base PeerTableModel PeerDbModel PeerDbSpec PeerDbProofs PeerDbSteps PeerDbBans PeerDbBook PeerManagerModel PeerManagerSpec PeerManagerProofs PeerManagerSteps PeerManagerRun PeerManagerLedger PeerManagerFinal PeerManagerCalls PeerManagerSpare.
From Verif Require EvictionModel EvictionSpec EvictionProperties PeerDbProperties.

(** * C92: the connections of a node *)

(** The node starts, and handles everything that happens. *)
Theorem C92_starts c networking reserved_nodes boot_nodes now z :
  good_config (p_db c) -> good_clock now -> good_rnd z ->
  exists m, start c networking reserved_nodes boot_nodes now z = Ok m /\ execution c [] m.
Proof. intros Hc Hnow Hz. destruct (start_ok' c networking reserved_nodes boot_nodes now z Hc Hz) as (m & Hm & _). exists m. split; [done|]. by eapply first_start. Qed.
Theorem C92_no_panic c l m now z e :
  execution c l m -> good_clock now -> good_rnd z -> good_event l m e -> room m (calls_for e) ->
  exists m', step c now z m e = Ok m' /\ execution c (l ++ [e]) m'.
Proof. apply execution_step. Qed.
(** The database of peers is used as the properties C90 and C91 demand. *)
Theorem C92_database c l m : execution c l m -> exists reserved_nodes boot_nodes now, history (p_db c) reserved_nodes boot_nodes now (m_calls m) (m_db m).
Proof. intros Hex. apply (execution_inv c l m Hex). Qed.

Theorem C92_inbound_bounded c l m : execution c l m -> staying_inbound m <= p_max_inbound c.
Proof. intros Hex. rewrite staying_count. apply (execution_inv c l m Hex). Qed.
Theorem C92_outbound_bounded c l m : execution c l m ->
  number_of m OutboundFullRelay <= EvictionModel.full_relay_count (p_evict c) + p_full_extra c /\
  number_of m OutboundBlockRelay <= EvictionModel.block_relay_count (p_evict c) + p_block_extra c /\
  number_of m Feeler <= 1.
Proof. intros Hex. destruct (v_book _ _ (proj1 (execution_inv c l m Hex))) as (H1 & H2 & H3 & _). done. Qed.
(** No two automatic connections go to the same group of addresses. *)
Theorem C92_groups c l m : execution c l m -> NoDup (automatic_groups c m).
Proof. intros Hex. apply (v_book _ _ (proj1 (execution_inv c l m Hex))). Qed.
Theorem C92_one_connection c l m i j x y : execution c l m -> connected m i x -> connected m j y ->
  x_role x <> Inbound -> x_role x <> Feeler -> x_role y <> Inbound -> x_role y <> Feeler -> x_address x = x_address y -> i = j.
Proof. intros Hex Hi Hj H1 H2 H3 H4 He. by apply (v_unique _ _ (proj1 (execution_inv c l m Hex)) i j x y). Qed.
(** The anchors of the next start are in different groups, and no more than the block relay connections. *)
Theorem C92_anchors c l m : execution c l m ->
  size (d_anchors (m_db m)) <= EvictionModel.block_relay_count (p_evict c) /\ NoDup (map (group c) (elements (d_anchors (m_db m)))).
Proof. intros Hex. apply (v_anchors _ _ (proj1 (execution_inv c l m Hex))). Qed.

(** Who is let in. *)
Theorem C92_inbound_accepted c l m now z a bind i m' :
  execution c l m -> good_clock now -> good_rnd z -> room m (calls_for (InboundAccepted a bind i)) ->
  step c now z m (InboundAccepted a bind i) = Ok m' ->
  (acceptable c m a i /\ room_for_inbound c m a ->
     (exists x, m_peers m' = <[i_id i := x]> (m_peers m) /\ x_address x = a /\ x_role x = Inbound /\ x_score x = 0%N) /\ told m m' (CAccept (i_id i))) /\
  (~ (acceptable c m a i /\ room_for_inbound c m a) -> m_peers m' = m_peers m /\ told m m' (CDisconnect (i_id i))).
Proof.
  intros Hex Hnow Hz Hroom Hs. pose proof (execution_inv c l m Hex) as HI.
  destruct (finish_spec c now z m a bind Inbound None i m') as [H1 H2]; try done; [unfold room, calls_for in *; lia|apply book_inbound, HI|].
  assert (Hiff : accepted_if c m a Inbound i <-> acceptable c m a i /\ room_for_inbound c m a).
  { unfold accepted_if, services_for. split; [intros (?&_&Hr&_); by auto|intros [??]; split_and!; done]. }
  rewrite <- Hiff. split.
  - intros Ha. destruct (H1 Ha) as (Hp & Ht & _). split; [|done]. by eexists.
  - intros Ha. by destruct (H2 Ha) as (Hp & Ht & _).
Qed.
Theorem C92_outbound_accepted c l m now z a bind i m' t :
  execution c l m -> good_clock now -> good_rnd z -> room m (calls_for (OutboundAccepted a bind i)) ->
  m_pending m !! a = Some t -> step c now z m (OutboundAccepted a bind i) = Ok m' ->
  let fine := acceptable c m a i /\ services_for c (role_of t) i /\
              (t = FeelerType \/ forall p, p ∈ connections (without_attempt m a) -> compatible c a (role_of t) p) in
  (fine -> (exists x, m_peers m' = <[i_id i := x]> (m_peers m) /\ x_address x = a /\ x_role x = role_of t /\ x_score x = 0%N) /\
           told m m' (CAccept (i_id i)) /\ (forall q, t = Manual q -> told m m' (Answer q true)) /\ (t = FeelerType -> leaving m' (i_id i))) /\
  (~ fine -> m_peers m' = m_peers m /\ told m m' (CDisconnect (i_id i)) /\ (forall q, t = Manual q -> told m m' (Answer q false))).
Proof.
  intros Hex Hnow Hz Hroom Hp Hs fine. pose proof (execution_inv c l m Hex) as HI.
  cbn [step] in Hs. unfold accept_outbound in Hs. rewrite Hp in Hs. cbn [expect rbind] in Hs.
  destruct (finish_spec c now z (without_attempt m a) a bind (role_of t) (request_of t) i m') as [H1 H2]; try done; [by apply drop_inv with t|unfold room, calls_for in *; cbn; lia| |].
  { apply book_perm with (addresses m); [by rewrite (drop_pending m a t Hp)|apply HI]. }
  assert (Hiff : accepted_if c (without_attempt m a) a (role_of t) i <-> fine).
  { unfold accepted_if, fine. change (acceptable c (without_attempt m a) a i) with (acceptable c m a i). destruct (decide (t = FeelerType)) as [->|Hne].
    - cbn. split; [intros (?&_&_&?); auto|intros (?&?&_); split_and!; done].
    - rewrite already_spec by by destruct t. split; [intros (?&?&_&?); auto|intros (?&?&[?|?]); [done|]]. split_and!; try done; by destruct t. }
  rewrite <- Hiff. split.
  - intros Ha. destruct (H1 Ha) as (Hq & Ht & Hr & Hf). split_and!; [by eexists|done|intros q ->; by apply Hr|intros ->; by apply Hf].
  - intros Ha. destruct (H2 Ha) as (Hq & Ht & Hr). split_and!; [done..|]. intros q ->. by apply Hr.
Qed.
(** Who has to go for a new guest: a peer whose ip is banned or discouraged, if there is one; else one that is not among the quickest, nor among those that brought the
    newest blocks or the newest transactions. *)
Theorem C92_spared c l m now z a bind i m' j :
  execution c l m -> good_rnd z -> step c now z m (InboundAccepted a bind i) = Ok m' ->
  m_peers m' <> m_peers m -> leaving m' j -> ~ leaving m j ->
  exists x, connected m j x /\ x_role x = Inbound /\
    (bad c m x \/
     (forall k y, connected m k y -> x_role y = Inbound -> ~ leaving m k -> ~ bad c m y) /\
     EvictionModel.preserved_ping (p_evict c) < number_staying m Inbound (fun y => (slowness y <= slowness x)%Z) /\
     EvictionModel.preserved_new_blocks (p_evict c) < number_staying m Inbound (fun y => EvictionSpec.at_least_as_late (x_last_tip x) (x_last_tip y)) /\
     EvictionModel.preserved_new_transactions (p_evict c) < number_staying m Inbound (fun y => EvictionSpec.at_least_as_late (x_last_tx x) (x_last_tx y))).
Proof. intros Hex Hz Hs. pose proof (execution_inv c l m Hex) as HI. cbn [step] in Hs. by apply spared with now z a bind i. Qed.
(** The heartbeat gives up a peer only if there are more of its kind than wanted; first one whose ip is banned or discouraged, else one that had the time to prove itself. *)
Theorem C92_given_up c l m now z m' j :
  execution c l m -> good_rnd z -> room m (calls_for HeartbeatDue) -> step c now z m HeartbeatDue = Ok m' -> leaving m' j -> ~ leaving m j ->
  exists x r, (r = OutboundBlockRelay \/ r = OutboundFullRelay) /\ connected m j x /\ x_role x = r /\ EvictionSpec.wanted r (p_evict c) < number_staying m r (fun _ => True) /\
    (bad c m' x \/ (forall k y, connected m k y -> x_role y = r -> ~ leaving m k -> ~ bad c m' y) /\ (EvictionSpec.min_age r (p_evict c) <= now - x_created x)%N).
Proof.
  intros Hex Hz Hroom Hs. pose proof (execution_inv c l m Hex) as HI. cbn [step] in Hs. apply heartbeat_given_up with z; try done. unfold room, calls_for in *. lia.
Qed.
(** It calls more full relay peers than usual only if no new tip came for long, and feelers only at their times. *)
Theorem C92_called c l m now z m' :
  execution c l m -> good_rnd z -> room m (calls_for HeartbeatDue) -> step c now z m HeartbeatDue = Ok m' ->
  let usual := EvictionModel.full_relay_count (p_evict c) in
  (number_of m OutboundFullRelay < number_of m' OutboundFullRelay ->
     number_of m' OutboundFullRelay <= usual \/
     number_of m' OutboundFullRelay <= usual + p_full_extra c /\ (p_stale c < now - match m_tip m with Some t => t | None => m_init m end)%N) /\
  (number_of m OutboundBlockRelay < number_of m' OutboundBlockRelay -> number_of m' OutboundBlockRelay <= EvictionModel.block_relay_count (p_evict c) + p_block_extra c) /\
  (number_of m Feeler < number_of m' Feeler -> p_feelers c = true /\ (m_feeler m <= now)%N).
Proof.
  intros Hex Hz Hroom Hs. pose proof (execution_inv c l m Hex) as HI. cbn [step] in Hs. destruct (heartbeat_count c now z m m') as (H1 & H2 & H3); try done; [unfold room, calls_for in *; lia|].
  change (cnt ?r (addresses ?m)) with (number_of m r) in *. split_and!; [|lia|done].
  intros Hlt. unfold tip_is_stale in H1. destruct (N.ltb_spec (p_stale c) (now - default (m_init m) (m_tip m))) as [Hst|_]; [right|left; lia]. split; [lia|]. by destruct (m_tip m).
Qed.
(** What the database of peers is told. *)
Theorem C92_calls c l m now z e m' : execution c l m -> room m (calls_for e) -> step c now z m e = Ok m' ->
  exists k, m_calls m' = m_calls m ++ k /\ expected_calls c now (r_jitter z) m m' e k.
Proof. intros Hex Hroom Hs. apply step_calls; [by eapply execution_inv| |done]. unfold room in *. destruct e; cbn in *; lia. Qed.

(** * C93: misbehaviour *)

(** A peer with a banned ip is on its way out, and so is one with too bad a score. *)
Theorem C93_banned c l m id x : execution c l m -> connected m id x -> is_Some (d_banned (m_db m) !! ip c (x_address x)) -> leaving m id.
Proof. intros Hex. apply (execution_inv c l m Hex). Qed.
Theorem C93_score c l m id x : execution c l m -> connected m id x -> (0 < x_score x)%N -> (p_threshold c <= x_score x)%N -> leaving m id.
Proof. intros Hex. apply (execution_inv c l m Hex). Qed.
Theorem C93_trusted c l m id x : execution c l m -> connected m id x -> trusted c (x_role x) (x_address x) -> x_score x = 0%N.
Proof. intros Hex. apply (execution_inv c l m Hex). Qed.
(** The backend was told, and the peer stays on its way out until it is gone. *)
Theorem C93_leaving c l m id : execution c l m -> leaving m id -> (exists x, connected m id x) /\ CDisconnect id ∈ m_out m.
Proof. intros Hex Hl. destruct (v_leaving _ _ (proj1 (execution_inv c l m Hex)) id Hl) as [[x Hx] ?]. by split; [exists x|]. Qed.
Theorem C93_leaving_stays c l m now z e m' id : execution c l m -> step c now z m e = Ok m' -> leaving m id ->
  e <> ConnectionClosed id -> is_node_restart e = false -> leaving m' id.
Proof.
  intros Hex Hs Hl He Hr. destruct (switches e) eqn:Hsw.
  - destruct e as [| | | | | | | | | | | |enable| | | | | | | | | | |]; try done. cbn [step] in Hs. unfold enable_networking in Hs.
    destruct (bool_decide _); [by injection Hs as <-|]. destruct enable; [|by injection Hs as <-].
    apply (moves_heartbeat None any any_quiet) in Hs. by apply (mv_leave _ _ _ _ _ _ Hs).
  - apply (mv_leave _ _ _ _ _ _ (moves_step c now z m e m' Hs Hsw)); [|done]. destruct e; cbn; congruence.
Qed.
(** A peer with too bad a score is punished: its ip is discouraged, and all peers from there have to go. *)
Theorem C93_punished c l m now z e m' id s x :
  execution c l m -> good_clock now -> room m (calls_for e) -> (p_threshold c <= U32_MAX)%N ->
  e = Misbehaved id s \/ e = AdjustScore id s -> step c now z m e = Ok m' ->
  connected m id x -> ~ trusted c (x_role x) (x_address x) -> (p_threshold c <= x_score x + s)%N ->
  is_Some (d_discouraged (m_db m') !! ip c (x_address x)) /\
  forall j y, connected m' j y -> ip c (x_address y) = ip c (x_address x) -> leaving m' j.
Proof.
  intros Hex Hnow Hroom Hu He Hs Hx Ht Hsc. destruct (step_punished c now m id x s) as (m1 & Hm1 & H1 & H2); try done; [by eapply execution_inv|unfold room, calls_for in *; lia|].
  assert (m' = m1) as -> by (destruct He as [-> | ->]; cbn [step] in Hs; congruence). done.
Qed.
(** Otherwise the score only grows by what was reported. *)
Theorem C93_unpunished c l m now z e m' id s :
  execution c l m -> e = Misbehaved id s \/ e = AdjustScore id s -> step c now z m e = Ok m' ->
  (forall x, connected m id x -> trusted c (x_role x) (x_address x) \/ (x_score x + s < p_threshold c)%N) ->
  m_db m' = m_db m /\ m_disconnecting m' = m_disconnecting m /\ m_out m' = m_out m /\
  forall j, (forall x, connected m j x -> j = id -> ~ trusted c (x_role x) (x_address x) ->
               exists x', connected m' j x' /\ x_score x' = N.min U32_MAX (x_score x + s) /\ x_role x' = x_role x /\ x_address x' = x_address x) /\
            (j <> id \/ (exists x, connected m j x /\ trusted c (x_role x) (x_address x)) -> m_peers m' !! j = m_peers m !! j).
Proof.
  intros Hex He Hs Hx. assert (Hs' : adjust_peer_score c now m id s = Ok m') by (destruct He as [-> | ->]; done). clear He Hs. unfold adjust_peer_score in Hs'. unfold connected in *.
  destruct (m_peers m !! id) as [x|] eqn:Hp; [|injection Hs' as <-; split_and!; try done; intros j; split; [intros x' Hj ->; congruence|done]].
  specialize (Hx x eq_refl). destruct (is_whitelisted_node c (x_role x) (x_address x)) eqn:Hw.
  - injection Hs' as <-. split_and!; try done. intros j. split; [|done]. intros x' Hj -> Ht. apply whitelisted_spec in Hw. rewrite Hp in Hj. by injection Hj as <-.
  - assert (Ht : ~ trusted c (x_role x) (x_address x)) by (rewrite <- whitelisted_spec; congruence). destruct Hx as [?|Hx]; [done|].
    destruct (N.leb_spec (p_threshold c) (N.min U32_MAX (x_score x + s))) as [?|_]; [lia|]. injection Hs' as <-. split_and!; try done. cbn. intros j. split.
    + intros x' Hj -> _. rewrite Hp in Hj. injection Hj as <-. eexists. by rewrite lookup_insert.
    + intros [Hne|(x' & Hj & Ht')]; [by rewrite lookup_insert_ne|]. destruct (decide (j = id)) as [->|Hne]; [|by rewrite lookup_insert_ne]. rewrite Hp in Hj. by injection Hj as <-.
Qed.
(** A ban by the user works at once. *)
Theorem C93_ban c l m now z m' b duration :
  execution c l m -> good_clock now -> room m (calls_for (UserBan b duration)) -> step c now z m (UserBan b duration) = Ok m' ->
  is_Some (d_banned (m_db m') !! b) /\ forall j y, connected m' j y -> ip c (x_address y) = b -> leaving m' j.
Proof.
  intros Hex Hnow Hroom Hs. pose proof (execution_inv c l m Hex) as HI. destruct (ban_spec c now m b duration HI ltac:(unfold room, calls_for in *; lia)) as (d & Hd & HI' & He & _).
  cbn [step] in Hs. rewrite Hd in Hs. injection Hs as <-. destruct (partings_spec c m d (Ban b duration now) b) as [H1 H2]. split.
  - rewrite (dc_db _ _ H1). cbn [m_db with_call]. rewrite He. cbn. rewrite decide_True by done. by eexists.
  - intros j y. unfold connected. rewrite (dc_peers _ _ H1). apply H2.
Qed.
(** Nobody is punished without a reason: only a peer that is to blame is discouraged, and only the user bans. *)
Theorem C93_justified c l m now z e m' b till :
  execution c l m -> good_clock now -> good_rnd z -> good_event l m e -> room m (calls_for e) -> step c now z m e = Ok m' ->
  (d_discouraged (m_db m') !! b = Some till -> d_discouraged (m_db m) !! b = Some till \/ blamed c m e b) /\
  (d_banned (m_db m') !! b = Some till -> d_banned (m_db m) !! b = Some till \/ exists duration, e = UserBan b duration).
Proof.
  intros Hex Hnow Hz Hg Hroom Hs. assert (Hex' : execution c (l ++ [e]) m') by by eapply next_event.
  pose proof (execution_inv _ _ _ Hex) as HI. pose proof (execution_inv _ _ _ Hex') as HI'. split; intros Hd; [by eapply step_discouraged|by eapply step_banned].
Qed.

(** * C94: requests and the backend *)

(** Each request of the user has one answer, or waits for the end of an attempt or of a connection. *)
Theorem C94_answered c l m q : execution c l m -> answers m q + waiting m q = since_start (requests q) l.
Proof. intros Hex. destruct (ledger c l m Hex) as [_ HL]. specialize (HL q). unfold W in HL. lia. Qed.
(** The attempts under way are those for which the backend was asked and that have no result yet. *)
Theorem C94_attempts c l m a : execution c l m -> asked m a = since_start (result_of a) l + (if decide (is_Some (m_pending m !! a)) then 1 else 0).
Proof. intros Hex. destruct (ledger c l m Hex) as [HL _]. specialize (HL a). unfold D, pend in HL. destruct (decide (is_Some (m_pending m !! a))); lia. Qed.
Theorem C94_connect c l m now z a q m' : execution c l m -> step c now z m (UserConnect a q) = Ok m' ->
  (may_dial c m a -> told m m' (CConnect a false) /\ m_pending m' = <[a := Manual q]> (m_pending m)) /\
  (~ may_dial c m a -> told m m' (Answer q false) /\ m_pending m' = m_pending m).
Proof.
  intros Hex [= <-]. unfold connect. cbn [role_of].
  assert (Hiff : try_connect c m a OutboundManual = true <-> may_dial c m a).
  { unfold try_connect, may_dial, is_address_banned, is_address_discouraged. rewrite !andb_true_iff, !orb_true_iff, !negb_true_iff, already_spec, !bool_decide_eq_true, !bool_decide_eq_false by done.
    rewrite <- !eq_None_not_Some. tauto. }
  rewrite <- Hiff. destruct (try_connect c m a OutboundManual); (split; intros H; [|try done]); try done; (split; [|done]).
  - exists [], []. done.
  - exists [], []. done.
Qed.
Theorem C94_disconnect c l m now z id remove q m' : execution c l m -> step c now z m (UserDisconnect id remove q) = Ok m' ->
  ((exists x, connected m id x) /\ ~ leaving m id -> told m m' (CDisconnect id) /\ m_disconnecting m' = <[id := (remove, Some q)]> (m_disconnecting m)) /\
  (~ ((exists x, connected m id x) /\ ~ leaving m id) -> told m m' (Answer q false) /\ m_disconnecting m' = m_disconnecting m).
Proof.
  intros Hex [= <-]. unfold disconnect, connected, leaving. destruct (m_disconnecting m !! id) as [v|] eqn:Hd; [|destruct (m_peers m !! id) as [x|] eqn:Hp].
  - split; [intros [_ H]; exfalso; apply H; by eexists|]. intros _. split; [by exists [], []|done].
  - split; [intros _; split; [by exists [], []|done]|]. intros H. exfalso. apply H. split; [by eexists|]. by intros [? ?].
  - split; [by intros [[? ?] _]|]. intros _. split; [by exists [], []|done].
Qed.
(** When a connection ends, so do its peer and the request to end it. *)
Theorem C94_closed c l m now z id m' : execution c l m -> step c now z m (ConnectionClosed id) = Ok m' ->
  m_peers m' = delete id (m_peers m) /\ m_disconnecting m' = delete id (m_disconnecting m) /\
  forall remove q, m_disconnecting m !! id = Some (remove, Some q) -> told m m' (Answer q true).
Proof.
  intros Hex Hs. cbn [step] in Hs. unfold connection_closed in Hs. destruct (m_peers m !! id) as [x|] eqn:Hp.
  - bind Hs m1 E1. assert (H1 : m_peers m1 = delete id (m_peers m) /\ m_out m1 = m_out m /\ m_disconnecting m1 = m_disconnecting m) by (destruct (is_outbound _); [by apply call_frame in E1 as (-> & -> & -> & _)|by injection E1 as <-]).
    destruct H1 as (H1 & H2 & H3). rewrite H3 in Hs. destruct (m_disconnecting m !! id) as [[remove q]|] eqn:Hd.
    + bind Hs m2 E2. injection Hs as <-. assert (H4 : m_peers m2 = m_peers m1 /\ m_out m2 = m_out m1 /\ m_disconnecting m2 = delete id (m_disconnecting m)).
      { destruct (remove && is_outbound _); [by apply call_frame in E2 as (-> & -> & -> & _)|by injection E2 as <-]. }
      destruct H4 as (H4 & H5 & H6). split; [by destruct q; cbn; rewrite H4|]. split; [by destruct q|]. intros remove' q' [= <- ->]. exists [], []. cbn. by rewrite H5, H2.
    + injection Hs as <-. split; [done|]. split; [by rewrite H3, delete_notin|done].
  - injection Hs as <-. assert (Hd : m_disconnecting m !! id = None).
    { apply eq_None_not_Some. intros Hl. destruct (v_leaving _ _ (proj1 (execution_inv c l m Hex)) id Hl) as [[? ?] _]. congruence. }
    rewrite !delete_notin by done. split_and!; try done. congruence.
Qed.
Theorem C94_failed c l m now z a m' t : execution c l m -> step c now z m (ConnectionError a) = Ok m' -> m_pending m !! a = Some t ->
  m_pending m' = delete a (m_pending m) /\ m_peers m' = m_peers m /\ forall q, t = Manual q -> told m m' (Answer q false).
Proof.
  intros Hex Hs Hp. cbn [step] in Hs. unfold handle_outbound_error in Hs. bind Hs m1 E1. apply call_frame in E1 as (H1 & H2 & H3 & H4). rewrite H4, Hp in Hs. cbn [expect rbind] in Hs. injection Hs as <-.
  split_and!; [by destruct t; cbn; rewrite ?H4|by destruct t|]. intros q ->. exists [], []. cbn. by rewrite H2.
Qed.
(** While networking is switched off, nobody is connected to and nobody is let in; only the user switches it. *)
Theorem C94_off c l m now z e m' x : execution c l m -> step c now z m e = Ok m' -> m_networking m = false ->
  is_node_restart e = false -> e <> UserNetworking true ->
  m_networking m' = false /\ ((exists a b, x = CConnect a b) \/ (exists id, x = CAccept id) -> ~ told m m' x).
Proof.
  intros Hex Hs Hn Hr He.
  assert (Hk : m_networking m' = false /\ exists l, m_out m' = m_out m ++ l /\ Forall (fun x => dials x = false) l).
  { destruct (switches e) eqn:Hsw.
    - destruct e as [| | | | | | | | | | | |enable| | | | | | | | | | |]; try done. destruct enable; [done|]. cbn [step] in Hs. unfold enable_networking in Hs. rewrite Hn in Hs. cbn in Hs. injection Hs as <-.
      split; [done|]. exists []. by rewrite app_nil_r.
    - pose proof (moves_step c now z m e m' Hs Hsw) as Hm. split; [by rewrite (mv_net _ _ _ _ _ _ Hm)|]. by apply (mv_off _ _ _ _ _ _ Hm). }
  destruct Hk as (Hk & k & Ho & Hf). split; [done|]. intros Hx (l1 & l2 & Ht). rewrite Ho in Ht. apply app_inv_head in Ht as ->. rewrite Forall_forall in Hf. specialize (Hf x).
  destruct Hx as [(a & b & ->)|(id & ->)]; discriminate (Hf ltac:(apply elem_of_app; right; by left)).
Qed.
Theorem C94_networking c l m now z e m' : execution c l m -> step c now z m e = Ok m' -> is_node_restart e = false ->
  m_networking m' = match e with UserNetworking b => b | _ => m_networking m end.
Proof.
  intros Hex Hs Hr. destruct (switches e) eqn:Hsw.
  - destruct e as [| | | | | | | | | | | |enable| | | | | | | | | | |]; try done. cbn [step] in Hs. unfold enable_networking in Hs.
    destruct (bool_decide (m_networking m = enable)) eqn:Hb; [apply bool_decide_eq_true in Hb; by injection Hs as <-|].
    destruct enable; [|by injection Hs as <-]. apply (moves_heartbeat None any any_quiet) in Hs. by rewrite (mv_net _ _ _ _ _ _ Hs).
  - rewrite (mv_net _ _ _ _ _ _ (moves_step c now z m e m' Hs Hsw)). by destruct e.
Qed.

(** * Cases *)

(** Two ports for each ip, ten addresses in a group; five inbound peers, four of whom are protected. *)
Definition db0 : PeerDbModel.config := PeerDbModel.Config PeerDbProperties.h1 PeerDbProperties.h1 8 8 16 1000 (fun a => a / 2)%N.
Lemma db0_good : good_config db0. Proof. repeat split; cbn; unfold U32_MAX; lia. Qed.
Definition c0 : settings := Settings db0 EvictionProperties.cfg1 id (fun a => a mod 2)%N 5 1 1 1000 true false 100 {[ 50%N ]} 7 3 (fun _ => true) 1000.
Definition z0 : rnd := Rnd EvictionProperties.isort 0 PeerDbProperties.firsts (fun _ => true) PeerDbProperties.plain 10 (fun i => i).
Lemma z0_good : good_rnd z0.
Proof. split_and!; [apply EvictionProperties.isort_sorts|apply PeerDbProperties.firsts_good|intros d; change (r_jitter z0 d) with d; lia]. Qed.

Definition good_eventb (l : list event) (m : mgr) (e : event) : bool :=
  match e with
  | OutboundAccepted a _ _ | ConnectionError a => (since_start (result_of a) l <? asked m a)%nat
  | ExpectingBlocks _ (Some t) => (t <=? 9223372036854775807 * 1000)%N
  | _ => true
  end.
Lemma good_eventb_spec l m e : good_eventb l m e = true -> good_event l m e.
Proof. destruct e as [| | | | |id since| | | | | | | | | |a bind i| |a| | | | | |]; try done; unfold good_eventb, good_event, good_clock; [destruct since; [apply N.leb_le|done]|apply Nat.ltb_lt..]. Qed.
Fixpoint play_on (c : settings) (past : list event) (m : mgr) (l : list (N * event)) : option mgr :=
  match l with
  | [] => Some m
  | (now, e) :: l =>
    if good_eventb past m e && (N.of_nat (length (m_calls m) + calls_for e) <? U32_MAX)%N && (now <=? 9223372036854775807 * 1000)%N then
      match step c now z0 m e with Ok m' => play_on c (past ++ [e]) m' l | _ => None end
    else None
  end.
Definition play (c : settings) (boot : gset N) (l : list (N * event)) : option mgr :=
  match start c true ∅ boot 0 z0 with Ok m => play_on c [] m l | _ => None end.
Lemma play_on_ok c l : forall past m m', execution c past m -> play_on c past m l = Some m' -> execution c (past ++ map snd l) m'.
Proof.
  induction l as [|[now e] l IH]; intros past m m' Hex; cbn [play_on map]; [intros [= <-]; by rewrite app_nil_r|].
  destruct (good_eventb past m e) eqn:E1; [|done]. destruct (N.ltb_spec (N.of_nat (length (m_calls m) + calls_for e)) U32_MAX) as [E2|]; [|done].
  destruct (N.leb_spec now (9223372036854775807 * 1000)) as [E3|]; [|done]. cbn [andb]. destruct (step c now z0 m e) as [m1| |] eqn:E4; try done. intros Hp.
  apply IH in Hp; [by rewrite <- app_assoc in Hp|]. eapply next_event; eauto using z0_good, good_eventb_spec.
Qed.
(** An execution of a list of events, with a decidable fact about its end. *)
Lemma by_play c boot l (test : mgr -> bool) : good_config (p_db c) ->
  match play c boot l with Some m => test m | None => false end = true -> exists m, execution c (map snd l) m /\ test m = true.
Proof.
  intros Hc Hr. destruct (play c boot l) as [m|] eqn:E; [|done]. exists m. split; [|done]. unfold play in E. destruct (start c true ∅ boot 0 z0) as [m0| |] eqn:Es; try done.
  apply (play_on_ok c l [] m0 m); [|done]. apply (first_start c true ∅ boot 0 z0 m0); [done|unfold good_clock; lia|apply z0_good|done].
Qed.
Definition peer_info (id : N) : info := Info id true 7 false.
Global Instance command_eq_dec : EqDecision command.
Proof. solve_decision. Defined.
Definition waits (m : mgr) (id : N) : bool := bool_decide (leaving m id).

(** Six guests come; the sixth is let in, and the third has to go. The node dials an address that it was given. *)
Definition guests : list (N * event) :=
  map (fun k => (10 + k, InboundAccepted (100 + 20 * k) 0 (peer_info k))%N) [1; 2; 3; 4; 5; 6]%N ++ [(20%N, HeartbeatDue)].
Example C92_case : exists m, execution c0 (map snd guests) m /\
  (size (m_peers m) =? 6) && (staying_inbound m =? 5) && (number_of m OutboundFullRelay =? 1) && (number_of m OutboundBlockRelay =? 1) = true.
Proof. apply by_play with (boot := {[ 18; 36 ]}%N); [apply db0_good|]. vm_compute. reflexivity. Qed.
Example C92_spared_case : exists m m', execution c0 (map snd (take 5 guests)) m /\ step c0 16 z0 m (InboundAccepted 220 0 (peer_info 6)) = Ok m' /\
  m_peers m' <> m_peers m /\ leaving m' 1 /\ ~ leaving m 1.
Proof.
  destruct (by_play c0 ∅ (take 5 guests) (fun m => negb (waits m 1) && bool_decide (m_peers m !! 6%N = None) &&
    match step c0 16 z0 m (InboundAccepted 220 0 (peer_info 6)) with Ok m' => waits m' 1 && bool_decide (is_Some (m_peers m' !! 6%N)) | _ => false end)) as (m & Hex & Ht); [apply db0_good|vm_compute; reflexivity|].
  destruct (step c0 16 z0 m (InboundAccepted 220 0 (peer_info 6))) as [m'| |] eqn:Hs; [|by rewrite andb_false_r in Ht..]. exists m, m'. unfold waits in Ht.
  rewrite !andb_true_iff, negb_true_iff, bool_decide_eq_false, !bool_decide_eq_true in Ht. destruct Ht as ((H1 & H2) & H3 & H4). split_and!; try done. intros He. rewrite He, H2 in H4. by destruct H4.
Qed.
(** When no tip came for long, one more full relay peer is called; later one has to go. *)
Definition stale : list (N * event) :=
  [(2000, HeartbeatDue); (2001, OutboundAccepted 72 0 (peer_info 1)); (2002, OutboundAccepted 18 0 (peer_info 2)); (2003, OutboundAccepted 36 0 (peer_info 3))]%N.
Example C92_given_up_case : exists m m', execution c0 (map snd stale) m /\ room m (calls_for HeartbeatDue) /\ step c0 9000 z0 m HeartbeatDue = Ok m' /\
  number_of m OutboundFullRelay = 2 /\ leaving m' 2 /\ ~ leaving m 2.
Proof.
  destruct (by_play c0 {[ 18; 36; 54; 72 ]}%N stale (fun m => negb (waits m 2) && (length (m_calls m) <? 100)%nat && (number_of m OutboundFullRelay =? 2)%nat &&
    match step c0 9000 z0 m HeartbeatDue with Ok m' => waits m' 2 | _ => false end)) as (m & Hex & Ht); [apply db0_good|vm_compute; reflexivity|].
  destruct (step c0 9000 z0 m HeartbeatDue) as [m'| |] eqn:Hs; [|by rewrite andb_false_r in Ht..]. exists m, m'. unfold waits in Ht.
  rewrite !andb_true_iff, negb_true_iff, bool_decide_eq_false, bool_decide_eq_true, Nat.ltb_lt, Nat.eqb_eq in Ht. destruct Ht as (((H1 & H2) & H3) & H4). split_and!; try done. unfold room, U32_MAX, calls_for. lia.
Qed.
(** Before the tip is stale, one full relay peer is called; afterwards, two. *)
Example C92_called_case : (exists m, execution c0 [HeartbeatDue] m /\ (number_of m OutboundFullRelay =? 1)%nat = true) /\ (exists m, execution c0 [HeartbeatDue] m /\ (number_of m OutboundFullRelay =? 2)%nat = true).
Proof.
  split.
  - apply (by_play c0 {[ 18; 36; 54; 72 ]}%N [(900, HeartbeatDue)]%N); [apply db0_good|vm_compute; reflexivity].
  - apply (by_play c0 {[ 18; 36; 54; 72 ]}%N [(2000, HeartbeatDue)]%N); [apply db0_good|vm_compute; reflexivity].
Qed.
(** The hypotheses of the theorems about those who are let in: the sixth guest finds room, one of a banned ip does not. *)
Example C92_inbound_accepted_case : exists m, execution c0 (map snd (take 5 guests ++ [(20%N, UserBan 75 1000)])) m /\
  acceptable c0 m 220 (peer_info 6) /\ room_for_inbound c0 m 220 /\ ~ acceptable c0 m 150 (peer_info 6) /\
  room m (calls_for (InboundAccepted 220 0 (peer_info 6))) /\ room m (calls_for (InboundAccepted 150 0 (peer_info 6))).
Proof.
  destruct (by_play c0 ∅ (take 5 guests ++ [(20%N, UserBan 75 1000)]) (fun m =>
    m_networking m && bool_decide (m_peers m !! 6%N = None) && bool_decide (d_banned (m_db m) !! 110%N = None) && bool_decide (d_discouraged (m_db m) !! 110%N = None) &&
    (4 <? staying_inbound m)%nat && bool_decide (is_Some (d_banned (m_db m) !! 75%N)) && (length (m_calls m) <? 100)%nat)) as (m & Hex & Ht); [apply db0_good|vm_compute; reflexivity|].
  rewrite !andb_true_iff, !bool_decide_eq_true, !Nat.ltb_lt in Ht. destruct Ht as ((((((H1 & H2) & H3) & H4) & H5) & [till H6]) & H7). exists m. split; [done|]. unfold acceptable, room_for_inbound, room.
  change (ip c0 220) with 110%N. change (ip c0 150) with 75%N. change (i_id (peer_info 6)) with 6%N. change (EvictionModel.total_preserved_inbound_count (p_evict c0)) with 4. split_and!; try done.
  - right. split; [done|lia].
  - intros (_ & _ & _ & Hb & _). congruence.
  - unfold U32_MAX, calls_for. lia.
  - unfold U32_MAX, calls_for. lia.
Qed.
Definition calling : list (N * event) := [(10, UserConnect 20 77); (11, UserConnect 20 78)]%N.
Example C92_outbound_accepted_case : exists m, execution c0 (map snd calling) m /\ m_pending m !! 20%N = Some (Manual 77) /\ acceptable c0 m 20 (peer_info 1) /\
  connections (without_attempt m 20) = [] /\ room m (calls_for (OutboundAccepted 20 0 (peer_info 1))) /\ good_event (map snd calling) m (OutboundAccepted 20 0 (peer_info 1)) /\
  answers m 78 = 1 /\ waiting m 77 = 1.
Proof.
  destruct (by_play c0 ∅ calling (fun m =>
    m_networking m && bool_decide (m_peers m !! 1%N = None) && bool_decide (d_banned (m_db m) !! 10%N = None) && bool_decide (m_pending m !! 20%N = Some (Manual 77)) &&
    bool_decide (connections (without_attempt m 20) = []) && (length (m_calls m) <? 100)%nat && good_eventb (map snd calling) m (OutboundAccepted 20 0 (peer_info 1)) &&
    (answers m 78 =? 1) && (waiting m 77 =? 1))) as (m & Hex & Ht); [apply db0_good|vm_compute; reflexivity|].
  rewrite !andb_true_iff, !bool_decide_eq_true, !Nat.eqb_eq, Nat.ltb_lt in Ht. destruct Ht as ((((((((H1 & H2) & H3) & H4) & H5) & H6) & H7) & H8) & H9). exists m. split; [done|]. unfold acceptable, room.
  change (ip c0 20) with 10%N. change (i_id (peer_info 1)) with 1%N. split_and!; try done.
  - unfold U32_MAX, calls_for. lia.
  - by apply good_eventb_spec.
Qed.
(** Two guests with the same ip; one of them misbehaves twice. The third is trusted. *)
Definition trouble : list (N * event) :=
  [(10, InboundAccepted 20 0 (peer_info 1)); (11, InboundAccepted 21 0 (peer_info 2)); (12, InboundAccepted 101 0 (peer_info 3)); (13, Misbehaved 1 60); (14, Misbehaved 3 100)]%N.
Example C93_punished_case : exists m x, execution c0 (map snd trouble) m /\ connected m 1 x /\ ~ trusted c0 (x_role x) (x_address x) /\ (p_threshold c0 <= x_score x + 40)%N /\
  room m (calls_for (Misbehaved 1 40)) /\ ~ leaving m 1 /\ ~ leaving m 2 /\ ~ leaving m 3.
Proof.
  destruct (by_play c0 ∅ trouble (fun m => match m_peers m !! 1%N with Some x => negb (is_whitelisted_node c0 (x_role x) (x_address x)) && (100 <=? x_score x + 40)%N | None => false end &&
    (length (m_calls m) <? 100)%nat && negb (waits m 1) && negb (waits m 2) && negb (waits m 3))) as (m & Hex & Ht); [apply db0_good|vm_compute; reflexivity|].
  unfold waits in Ht. rewrite !andb_true_iff, !negb_true_iff, !bool_decide_eq_false, Nat.ltb_lt in Ht. destruct Ht as ((((H1 & H2) & H3) & H4) & H5). destruct (m_peers m !! 1%N) as [x|] eqn:Hp; [|done].
  rewrite andb_true_iff, negb_true_iff, N.leb_le in H1. destruct H1 as [H1 H1']. exists m, x. split_and!; try done.
  - rewrite <- whitelisted_spec. congruence.
  - unfold room, U32_MAX, calls_for. lia.
Qed.
Example C93_punished_result : exists m, execution c0 (map snd (trouble ++ [(15%N, Misbehaved 1 40)])) m /\
  waits m 1 && waits m 2 && negb (waits m 3) && bool_decide (d_discouraged (m_db m) !! 10%N = Some 1015%N) = true.
Proof. apply by_play with (boot := {[ 18; 36 ]}%N); [apply db0_good|]. vm_compute. reflexivity. Qed.
(** A peer that leaves, its bad score and its ban. *)
Example C93_leaving_case : exists m x, execution c0 (map snd (trouble ++ [(15%N, Misbehaved 1 40); (16%N, UserBan 10 1000)])) m /\
  connected m 1 x /\ leaving m 1 /\ (0 < x_score x)%N /\ (p_threshold c0 <= x_score x)%N /\ is_Some (d_banned (m_db m) !! ip c0 (x_address x)).
Proof.
  destruct (by_play c0 ∅ (trouble ++ [(15%N, Misbehaved 1 40); (16%N, UserBan 10 1000)]) (fun m => match m_peers m !! 1%N with
    Some x => (100 <=? x_score x)%N && bool_decide (is_Some (d_banned (m_db m) !! ip c0 (x_address x))) && waits m 1 | None => false end)) as (m & Hex & Ht); [apply db0_good|vm_compute; reflexivity|].
  destruct (m_peers m !! 1%N) as [x|] eqn:Hp; [|done]. unfold waits in Ht. rewrite !andb_true_iff, !bool_decide_eq_true, N.leb_le in Ht. destruct Ht as [[H1 H2] H3]. exists m, x. split_and!; try done. lia.
Qed.
(** Requests: one that failed, one that ended well, one that waits; and networking is switched off. *)
Definition wishes : list (N * event) :=
  [(10, UserConnect 20 71); (11, ConnectionError 20); (12, UserConnect 40 72); (13, OutboundAccepted 40 0 (peer_info 1)); (14, UserDisconnect 1 true 73); (15, UserConnect 60 74);
   (16, UserNetworking false); (17, UserConnect 80 75)]%N.
Example C94_case : exists m, execution c0 (map snd wishes) m /\
  bool_decide (Answer 71 false ∈ m_out m) && bool_decide (Answer 72 true ∈ m_out m) && (waiting m 73 =? 1) && (waiting m 74 =? 1) && bool_decide (Answer 75 false ∈ m_out m) &&
  (asked m 20 =? 1) && (asked m 60 =? 1) && negb (m_networking m) = true.
Proof. apply by_play with (boot := {[ 18; 36 ]}%N); [apply db0_good|]. vm_compute. reflexivity. Qed.

(** * What does not hold *)

(** A node that the user reserved, but whose ip is banned, is called although the call can only be refused (C92_outbound_accepted). *)
Theorem C94_no_vain_call_refuted :
  ~ forall c l m a t, execution c l m -> m_pending m !! a = Some t -> d_banned (m_db m) !! ip c a = None.
Proof.
  intros H. destruct (by_play c0 ∅ [(10, UserBan 10 1000); (11, UserAddReserved 20)]%N (fun m =>
    bool_decide (m_pending m !! 20%N = Some Reserved) && bool_decide (is_Some (d_banned (m_db m) !! 10%N)))) as (m & Hex & Ht); [apply db0_good|vm_compute; reflexivity|].
  rewrite andb_true_iff, !bool_decide_eq_true in Ht. destruct Ht as [H1 [till H2]]. specialize (H _ _ _ _ _ Hex H1). change (ip c0 20) with 10%N in H. congruence.
Qed.
(** Peers that the user trusts lose their connections when another peer with their ip misbehaves. *)
Theorem C93_trusted_stay_refuted :
  ~ forall c l m now z id s m' j x, execution c l m -> good_clock now -> good_rnd z -> room m (calls_for (Misbehaved id s)) ->
    step c now z m (Misbehaved id s) = Ok m' -> connected m j x -> trusted c (x_role x) (x_address x) -> ~ leaving m j -> ~ leaving m' j.
Proof.
  intros H. set (l := [(10, UserConnect 20 71); (11, OutboundAccepted 20 0 (peer_info 1)); (12, InboundAccepted 21 0 (peer_info 2))]%N).
  destruct (by_play c0 ∅ l (fun m => match m_peers m !! 1%N with Some x => is_whitelisted_node c0 (x_role x) (x_address x) | None => false end && (length (m_calls m) <? 100)%nat && negb (waits m 1) &&
    match step c0 13 z0 m (Misbehaved 2 100) with Ok m' => waits m' 1 | _ => false end)) as (m & Hex & Ht); [apply db0_good|vm_compute; reflexivity|].
  unfold waits in Ht. rewrite !andb_true_iff, negb_true_iff, bool_decide_eq_false, Nat.ltb_lt in Ht. destruct Ht as (((H1 & H2) & H3) & H4).
  destruct (m_peers m !! 1%N) as [x|] eqn:Hp; [|done]. destruct (step c0 13 z0 m (Misbehaved 2 100)) as [m'| |] eqn:Hs; [|done|done]. rewrite bool_decide_eq_true in H4.
  refine (H _ _ _ 13%N z0 2%N 100%N m' 1%N x Hex _ z0_good _ Hs Hp _ H3 H4); [unfold good_clock; lia|unfold room, U32_MAX, calls_for; lia|by apply whitelisted_spec].
Qed.

Print Assumptions C92_starts.
Print Assumptions C92_no_panic.
Print Assumptions C92_database.
Print Assumptions C92_inbound_bounded.
Print Assumptions C92_outbound_bounded.
Print Assumptions C92_groups.
Print Assumptions C92_one_connection.
Print Assumptions C92_anchors.
Print Assumptions C92_inbound_accepted.
Print Assumptions C92_outbound_accepted.
Print Assumptions C92_spared.
Print Assumptions C92_given_up.
Print Assumptions C92_called.
Print Assumptions C92_calls.
Print Assumptions C93_banned.
Print Assumptions C93_score.
Print Assumptions C93_trusted.
Print Assumptions C93_leaving.
Print Assumptions C93_leaving_stays.
Print Assumptions C93_punished.
Print Assumptions C93_unpunished.
Print Assumptions C93_ban.
Print Assumptions C93_justified.
Print Assumptions C94_answered.
Print Assumptions C94_attempts.
Print Assumptions C94_connect.
Print Assumptions C94_disconnect.
Print Assumptions C94_closed.
Print Assumptions C94_failed.
Print Assumptions C94_off.
Print Assumptions C94_networking.
Print Assumptions C94_no_vain_call_refuted.
Print Assumptions C93_trusted_stay_refuted.
