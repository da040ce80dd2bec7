From Verif Require Import Base PeerTableModel PeerDbModel PeerDbSpec PeerDbProofs PeerManagerModel PeerManagerSpec PeerManagerProofs PeerManagerSteps PeerManagerRun PeerManagerFinal PeerManagerTalkSpec PeerManagerTalk PeerManagerTalkSteps.
From Verif Require PeerManagerProperties.

(** * C95: pings and lists of addresses *)

(** Pings go to peers without one under way, when it is time; responses to those who pinged; lists of addresses to inbound peers who ask for the first time. *)
Theorem C95_said c h m now z e m' x : execution c h m -> step c now z m e = Ok m' -> is_node_restart e = false -> told m m' x ->
  match x with
  | SendPing id n => e = PingCheckDue /\ n = r_nonce z id /\ exists y, connected m id y /\ x_ping y = None
  | SendPong id n => e = MessageFrom id (PingRequest n) /\ exists y, connected m id y
  | SendAddresses id l => e = MessageFrom id AddrListRequest /\ exists y, connected m id y /\ x_role y = Inbound /\ x_request y = false
  | _ => True
  end.
Proof. intros _. apply step_says. Qed.
Theorem C95_pong c h m now z id x n m' : execution c h m -> connected m id x -> step c now z m (MessageFrom id (PingRequest n)) = Ok m' -> told m m' (SendPong id n).
Proof.
  intros _ Hx Hs. cbn [step] in Hs. apply quiet_message in Hs. unfold connected in Hx. rewrite Hx in Hs. destruct Hs as (m1 & _ & _ & O & _ & ->). exists [], []. cbn. by rewrite O.
Qed.
(** What the node remembers of a peer while it is connected, and of a new one. *)
Theorem C95_remembered c h m now z e m' id x :
  execution c h m -> step c now z m e = Ok m' -> is_node_restart e = false -> (forall j, e = ConnectionClosed j -> j <> id) -> connected m id x ->
  exists x', connected m' id x' /\ x_address x' = x_address x /\ x_bind x' = x_bind x /\ x_role x' = x_role x /\
    (x_ping x', x_ping_min x') = pings_after now (r_nonce z id) id x e /\
    (x_request x' = true <-> x_request x = true \/ e = MessageFrom id AddrListRequest /\ x_role x = Inbound) /\
    (x_response x = true -> x_response x' = true) /\ (x_response x' = true -> x_response x = true \/ exists l, e = MessageFrom id (AddrListResponse l)).
Proof. intros _. apply step_remembers. Qed.
Theorem C95_new c h m now z e m' id x' : execution c h m -> step c now z m e = Ok m' -> is_node_restart e = false -> m_peers m !! id = None -> connected m' id x' ->
  x_ping x' = None /\ x_ping_min x' = None /\ x_request x' = false /\ x_response x' = false.
Proof. intros _. apply step_new. Qed.
(** All peers without a ping under way get one; exactly those whose ping waits for too long have to go. *)
Theorem C95_ping_check c h m now z m' : execution c h m -> step c now z m PingCheckDue = Ok m' ->
  (forall id x, connected m id x -> x_ping x = None -> told m m' (SendPing id (r_nonce z id))) /\
  (forall id, leaving m' id <-> leaving m id \/ exists x n t, connected m id x /\ x_ping x = Some (n, t) /\ (t + p_ping_timeout c <= now)%N).
Proof.
  intros _ Hs. cbn [step] in Hs. injection Hs as <-. destruct (ping_spec c now z m) as (_ & (l & Ho & _) & _ & Hl). split; [|done]. intros id x Hx Hp.
  assert (Hin : SendPing id (r_nonce z id) ∈ map (fun p => SendPing p.1 (r_nonce z p.1)) (filter (fun p => x_ping p.2 = None) (map_to_list (m_peers m)))).
  { apply elem_of_list_fmap. exists (id, x). split; [done|]. apply elem_of_list_filter. split; [done|]. by apply elem_of_map_to_list. }
  apply elem_of_list_split in Hin as (a & b & Hab). exists a, (b ++ l). rewrite Ho, Hab, <- app_assoc. done.
Qed.
(** An inbound peer that asks for the first time gets a list that is not too long, of addresses that can be reached by others. They are known and their ips are neither banned nor
    discouraged, unless the list was made for another peer before and is still remembered. *)
Theorem C95_addresses c h m now z id x m' : execution c h m -> good_rnd z -> connected m id x -> x_role x = Inbound -> x_request x = false ->
  step c now z m (MessageFrom id AddrListRequest) = Ok m' ->
  exists l, told m m' (SendAddresses id l) /\ length l <= p_max_list c /\ (forall a, a ∈ l -> p_discoverable c a = true) /\
    ((forall a, a ∈ l -> worth_telling c m a) \/ exists t, m_cache m !! x_bind x = Some (l, t) /\ (now < t)%N).
Proof.
  intros Hex (_ & Hsample & _) Hx Hi Hf Hs. cbn [step] in Hs. apply request_spec in Hs. unfold connected in Hx. rewrite Hx, decide_True in Hs by done. destruct Hs as ([l t] & _ & Ho & Hl & _ & Hs). cbn in *.
  exists l. split; [exists [], []; done|]. split; [done|]. destruct Hs as [[Hk Ht]|(_ & _ & ->)].
  - split; [by eapply execution_cache|]. right. by exists t.
  - assert (Hw : forall a, a ∈ r_sample z (filter (fun a => p_discoverable c a = true /\ is_address_banned_or_discouraged (m_db m) (ip c a) = false) (map fst (map_to_list (d_addresses (m_db m))))) (p_max_list c) -> worth_telling c m a).
    { intros a Ha. apply Hsample in Ha. apply elem_of_list_filter in Ha as [[Hd Hb] ([k v] & -> & Hin)%elem_of_list_fmap]. apply elem_of_map_to_list in Hin.
      unfold is_address_banned_or_discouraged, is_address_banned, is_address_discouraged in Hb. apply orb_false_iff in Hb as [Hb1 Hb2]. rewrite bool_decide_eq_false in Hb1, Hb2. apply eq_None_not_Some in Hb1, Hb2.
      split_and!; done. }
    split; [intros a Ha; by apply Hw|by left].
Qed.
(** It is told at most one list during a connection. *)
Theorem C95_once c h m id x l m' : execution c h m -> connected m id x -> x_request x = true -> run c m l = Ok m' -> no_restart l -> stays id l ->
  forall k, ~ told m m' (SendAddresses id k).
Proof. intros _ Hx Hq Hl Hr Hs. by apply (run_once c id l m m' x). Qed.
(** For a while, all who ask at the same address of the node are told the same list, so that they cannot tell how its knowledge changes. *)
Theorem C95_same_list c h m now z id x k m1 : execution c h m -> (0 < r_delay z)%N -> connected m id x ->
  step c now z m (MessageFrom id AddrListRequest) = Ok m1 -> told m m1 (SendAddresses id k) ->
  exists t, (now < t)%N /\ (m_cache m !! x_bind x = None -> t = now + r_delay z)%N /\
    forall l m2 now2 z2 j y k2 m3, run c m1 l = Ok m2 -> no_restart l -> Forall (fun s => (s.1.1 < t)%N) l -> (now2 < t)%N ->
      connected m2 j y -> x_bind y = x_bind x -> step c now2 z2 m2 (MessageFrom j AddrListRequest) = Ok m3 -> told m2 m3 (SendAddresses j k2) -> k2 = k.
Proof.
  intros Hex Hd Hx Hs Ht. assert (Hone : forall m m' i k e, m_out m' = m_out m ++ [SendAddresses i e] -> told m m' (SendAddresses i k) -> k = e).
  { intros a b i k0 e Hy (l1 & l2 & Hl). rewrite Hy in Hl. apply app_inv_head in Hl. destruct l1 as [|q l1]; [by injection Hl|]. injection Hl as _ Hl. by destruct l1. }
  pose proof (step_says _ _ _ _ _ _ _ Hs eq_refl Ht) as (_ & x0 & Hx0 & Hi & Hf). unfold connected in Hx, Hx0. rewrite Hx in Hx0. injection Hx0 as <-.
  cbn [step] in Hs. apply request_spec in Hs. rewrite Hx, decide_True in Hs by done. destruct Hs as ([l0 t] & _ & Ho & _ & Hc & Hs). cbn [fst snd] in *. apply (Hone _ _ _ _ _ Ho) in Ht as ->.
  exists t. split; [destruct Hs as [[_ ?]|(_ & -> & _)]; lia|]. split; [intros Hn; destruct Hs as [[Hk _]|(_ & -> & _)]; [congruence|done]|].
  intros l m2 now2 z2 j y k2 m3 Hl Hr Htimes Hn2 Hy Hb Hs2 Ht2. assert (Hc1 : m_cache m1 !! x_bind x = Some (l0, t)) by by rewrite Hc, lookup_insert.
  pose proof (run_cache c (x_bind x) l0 t l m1 m2 Hr Htimes Hl Hc1) as Hc2. pose proof (step_says _ _ _ _ _ _ _ Hs2 eq_refl Ht2) as (_ & y0 & Hy0 & Hi2 & Hf2). unfold connected in Hy, Hy0. rewrite Hy in Hy0. injection Hy0 as <-.
  cbn [step] in Hs2. apply request_spec in Hs2. rewrite Hy, decide_True in Hs2 by done. destruct Hs2 as ([l2 t2] & _ & Ho2 & _ & _ & Hs2). cbn in *. apply (Hone _ _ _ _ _ Ho2) in Ht2 as ->. rewrite Hb in Hs2.
  destruct Hs2 as [[Hk _]|(Hk & _)]; [congruence|]. specialize (Hk l0 t Hc2). lia.
Qed.

(** * Cases *)

Import PeerManagerProperties.
(** Two guests are pinged; one responds. The other has to go when its time is over. Both ask for addresses, one of them twice. *)
Definition chatter : list (N * event) :=
  [(10, InboundAccepted 20 0 (peer_info 1)); (11, InboundAccepted 41 0 (peer_info 2)); (12, PingCheckDue); (13, MessageFrom 1 (PingResponse 1)); (14, MessageFrom 1 (PingRequest 9));
   (15, MessageFrom 1 AddrListRequest); (16, MessageFrom 1 AddrListRequest)]%N.
Example C95_case : exists m x y, execution c0 (map snd chatter) m /\ connected m 1 x /\ connected m 2 y /\ x_role x = Inbound /\ x_role y = Inbound /\ x_request x = true /\ x_request y = false /\
  x_ping x = None /\ x_ping_min x = Some 1%N /\ x_ping y = Some (2, 12)%N /\ x_bind x = x_bind y /\ ~ leaving m 2 /\
  exists m', step c0 1012 z0 m PingCheckDue = Ok m' /\ leaving m' 2.
Proof.
  destruct (by_play c0 {[ 18; 36 ]}%N chatter (fun m => match m_peers m !! 1%N, m_peers m !! 2%N with Some x, Some y =>
    bool_decide (x_role x = Inbound) && bool_decide (x_role y = Inbound) && x_request x && negb (x_request y) && bool_decide (x_ping x = None) && bool_decide (x_ping_min x = Some 1%N) &&
    bool_decide (x_ping y = Some (2, 12)%N) && bool_decide (x_bind x = x_bind y) && negb (waits m 2) && match step c0 1012 z0 m PingCheckDue with Ok m' => waits m' 2 | _ => false end
    | _, _ => false end)) as (m & Hex & Ht); [apply db0_good|vm_compute; reflexivity|].
  destruct (m_peers m !! 1%N) as [x|] eqn:Hx; [|done]. destruct (m_peers m !! 2%N) as [y|] eqn:Hy; [|done]. destruct (step c0 1012 z0 m PingCheckDue) as [m'| |] eqn:Hs; [|by rewrite andb_false_r in Ht..].
  unfold waits in Ht. rewrite !andb_true_iff, !negb_true_iff, bool_decide_eq_false, !bool_decide_eq_true in Ht. destruct Ht as (((((((((H1 & H2) & H3) & H4) & H5) & H6) & H7) & H8) & H9) & H10).
  exists m, x, y. split_and!; try done. by exists m'.
Qed.
(** The first of them was told a list of two addresses, once; now the second gets the same, although the node knows another address. *)
Definition saw (m : mgr) (id : N) : list (list N) := omap (fun x => match x with SendAddresses j l => if (j =? id)%N then Some l else None | _ => None end) (m_out m).
Example C95_addresses_case : exists m, execution c0 (map snd (chatter ++ [(17, AddressesFound [72]); (18, MessageFrom 2 AddrListRequest)])%N) m /\
  bool_decide (saw m 1 = saw m 2) && bool_decide (map length (saw m 1) = [2]) && bool_decide (is_Some (d_addresses (m_db m) !! 72%N)) = true.
Proof. apply by_play with (boot := {[ 18; 36 ]}%N); [apply db0_good|]. vm_compute. reflexivity. Qed.
(** A longer run between the two requests, for the hypotheses of the theorems about runs. *)
Example C95_run_case : exists m m', execution c0 (map snd (take 6 chatter)) m /\ run c0 m [(16, z0, MessageFrom 1 AddrListRequest); (17, z0, AddressesFound [72]); (18, z0, HeartbeatDue)]%N = Ok m' /\
  exists x, connected m 1 x /\ x_request x = true.
Proof.
  destruct (by_play c0 {[ 18; 36 ]}%N (take 6 chatter) (fun m => match m_peers m !! 1%N with Some x => x_request x | None => false end &&
    match run c0 m [(16, z0, MessageFrom 1 AddrListRequest); (17, z0, AddressesFound [72]); (18, z0, HeartbeatDue)]%N with Ok _ => true | _ => false end)) as (m & Hex & Ht); [apply db0_good|vm_compute; reflexivity|].
  destruct (m_peers m !! 1%N) as [x|] eqn:Hx; [|done]. destruct (run c0 m _) as [m'| |] eqn:Hs; [|by rewrite andb_false_r in Ht..]. rewrite andb_true_r in Ht. exists m, m'. split_and!; try done. by exists x.
Qed.

(** The list of another peer may name an address whose ip was banned since it was made. *)
Theorem C95_never_banned_refuted :
  ~ (forall c h m now z id m' l a, execution c h m -> good_rnd z -> step c now z m (MessageFrom id AddrListRequest) = Ok m' -> told m m' (SendAddresses id l) -> a ∈ l ->
       d_banned (m_db m) !! ip c a = None).
Proof.
  intros H. destruct (by_play c0 {[ 18; 36 ]}%N (chatter ++ [(17, UserBan 9 1000)])%N (fun m => bool_decide (is_Some (d_banned (m_db m) !! 9%N)) &&
    match step c0 18 z0 m (MessageFrom 2 AddrListRequest) with Ok m' => bool_decide (drop (length (m_out m)) (m_out m') = [SendAddresses 2 [36; 18]%N]) && bool_decide (take (length (m_out m)) (m_out m') = m_out m) | _ => false end))
    as (m & Hex & Ht); [apply db0_good|vm_compute; reflexivity|].
  destruct (step c0 18 z0 m (MessageFrom 2 AddrListRequest)) as [m'| |] eqn:Hs; [|by rewrite andb_false_r in Ht..]. rewrite !andb_true_iff, !bool_decide_eq_true in Ht. destruct Ht as [[till Hb] [Hd Hk]].
  assert (Hn : d_banned (m_db m) !! ip c0 18 = None).
  { apply (H c0 _ m 18%N z0 2%N m' [36; 18]%N 18%N Hex z0_good Hs); [|right; by left]. exists [], []. rewrite <- (take_drop (length (m_out m)) (m_out m')), Hk, Hd. done. }
  change (ip c0 18) with 9%N in Hn. congruence.
Qed.

Print Assumptions C95_never_banned_refuted.
Print Assumptions C95_said.
Print Assumptions C95_pong.
Print Assumptions C95_remembered.
Print Assumptions C95_new.
Print Assumptions C95_ping_check.
Print Assumptions C95_addresses.
Print Assumptions C95_once.
Print Assumptions C95_same_list.
