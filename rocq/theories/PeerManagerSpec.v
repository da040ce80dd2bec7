(** What the management of connections is to achieve, written in terms of connections, attempts, requests and commands. *)
From Verif Require Import Base PeerTableModel PeerDbModel PeerDbSpec PeerManagerModel.
From Verif Require EvictionModel EvictionSpec.

(** * What the environment provides *)

(** Clocks are before the year 294 000. *)
Definition good_clock (now : N) : Prop := (now <= 9223372036854775807 * 1000)%N.
Definition good_rnd (z : rnd) : Prop :=
  EvictionSpec.sorts (r_sort z) /\ good_sample (r_sample z) /\ good_jitter (r_jitter z).

(** How often a connection to [a] was asked of the backend since the node was started, and how many results were reported. *)
Definition is_connect (a : N) (x : command) : Prop := exists b, x = CConnect a b.
Global Instance is_connect_dec a x : Decision (is_connect a x).
Proof.
  destruct x as [b u| | | | | | | |]; [destruct (decide (b = a)) as [->|H]; [left; by exists u|right; intros [? [= ?]]; done]|right; by intros [? ?]..].
Defined.
Definition asked (m : mgr) (a : N) : nat := length (filter (is_connect a) (m_out m)).

Definition result_of (a : N) (e : event) : bool :=
  match e with OutboundAccepted b _ _ | ConnectionError b => bool_decide (b = a) | _ => false end.
Definition is_node_restart (e : event) : bool := match e with NodeRestart _ _ _ => true | _ => false end.
(** The number of events of a kind since the node was last started. *)
Definition since_start (P : event -> bool) (l : list event) : nat :=
  foldl (fun n e => if is_node_restart e then 0 else if P e then S n else n) 0 l.

(** What the backend reports: the result of a connection it was asked for, once for each time it was asked. Blocks are not
    expected since after the end of time. *)
Definition good_event (l : list event) (m : mgr) (e : event) : Prop :=
  match e with
  | OutboundAccepted a _ _ | ConnectionError a => since_start (result_of a) l < asked m a
  | ExpectingBlocks _ (Some t) => good_clock t
  | _ => True
  end.
(** At most this many calls of the database come from an event. *)
Definition calls_for (e : event) : nat :=
  4 + match e with MessageFrom _ (AddrListResponse l) | AddressesFound l => length l | _ => 0 end.
Definition room (m : mgr) (n : nat) : Prop := (N.of_nat (length (m_calls m) + n) < U32_MAX)%N.

(** A node that was started for the first time and then got the events [l]. *)
Inductive execution (c : settings) : list event -> mgr -> Prop :=
| first_start networking reserved_nodes boot_nodes now z m :
    good_config (p_db c) -> good_clock now -> good_rnd z ->
    start c networking reserved_nodes boot_nodes now z = Ok m -> execution c [] m
| next_event l m now z e m' :
    execution c l m -> good_clock now -> good_rnd z -> good_event l m e -> room m (calls_for e) ->
    step c now z m e = Ok m' -> execution c (l ++ [e]) m'.

(** * Connections *)

Definition connected (m : mgr) (id : N) (x : ctx) : Prop := m_peers m !! id = Some x.
(** A peer whose disconnection was asked of the backend, but not yet reported. *)
Definition leaving (m : mgr) (id : N) : Prop := is_Some (m_disconnecting m !! id).
Global Instance leaving_dec m id : Decision (leaving m id).
Proof. unfold leaving. apply _. Defined.

(** All connections, and all attempts to connect: the addresses and their roles. *)
Definition connections (m : mgr) : list (N * role) :=
  map (fun p => (x_address p.2, x_role p.2)) (map_to_list (m_peers m)) ++
  map (fun p => (p.1, role_of p.2)) (map_to_list (m_pending m)).
Definition number_of (m : mgr) (r : role) : nat := length (filter (fun p => p.2 = r) (connections m)).
(** Those that the node makes by itself. *)
Definition automatic (r : role) : Prop := r = OutboundFullRelay \/ r = OutboundBlockRelay.
Global Instance automatic_dec r : Decision (automatic r) := or_dec _ _.
Definition automatic_groups (c : settings) (m : mgr) : list Z :=
  map (fun p => group c p.1) (filter (fun p => automatic p.2) (connections m)).

(** The inbound peers that are to stay. *)
Definition staying_inbound (m : mgr) : nat :=
  length (filter (fun p => x_role p.2 = Inbound /\ ~ leaving m p.1) (map_to_list (m_peers m))).

(** Nothing prevents a new outbound connection to [a] beside what there is: no connection or attempt to the same ip and port,
    and none from the same ip, unless the user asks for it or the configuration allows it. *)
Definition compatible (c : settings) (a : N) (r : role) (p : N * role) : Prop :=
  ip c p.1 = ip c a -> p_port c p.1 <> p_port c a /\ (p_same_ip c = true \/ p.2 <> Inbound \/ r = OutboundManual).

(** When a connection is accepted. *)
Definition acceptable (c : settings) (m : mgr) (a : N) (i : info) : Prop :=
  m_networking m = true /\ i_same_network i = true /\ m_peers m !! i_id i = None /\ d_banned (m_db m) !! ip c a = None /\
  i_services i <> 0%N /\ i_outdated i = false.
Definition room_for_inbound (c : settings) (m : mgr) (a : N) : Prop :=
  staying_inbound m < p_max_inbound c \/
  d_discouraged (m_db m) !! ip c a = None /\ EvictionModel.total_preserved_inbound_count (p_evict c) < staying_inbound m.
Definition services_for (c : settings) (r : role) (i : info) : Prop :=
  (r = OutboundFullRelay -> i_services i = p_needed c) /\ (r = OutboundBlockRelay -> i_services i = SERVICE_BLOCKS).

(** Who has to go for a new guest, or for being one too many: [bad] peers, whose ip is banned or discouraged, go first. *)
Definition bad (c : settings) (m : mgr) (x : ctx) : Prop :=
  is_Some (d_banned (m_db m) !! ip c (x_address x)) \/ is_Some (d_discouraged (m_db m) !! ip c (x_address x)).
Definition number_staying (m : mgr) (r : role) (P : ctx -> Prop) `{forall x, Decision (P x)} : nat :=
  length (filter (fun p => (x_role p.2 = r /\ ~ leaving m p.1) /\ P p.2) (map_to_list (m_peers m))).
(** The ping in microseconds; those who never answered are the slowest. *)
Definition slowness (x : ctx) : Z := match x_ping_min x with None => I64_MAX | Some d => Z.of_N (d / 1000) end.

(** A command that was given while an event was handled. *)
Definition told (m m' : mgr) (x : command) : Prop := exists l1 l2, m_out m' = m_out m ++ l1 ++ x :: l2.
(** The manager without the attempt to connect to [a]. *)
Definition without_attempt (m : mgr) (a : N) : mgr := with_pending m (delete a (m_pending m)).

(** When the user's wish to connect to [a] is followed. *)
Definition may_dial (c : settings) (m : mgr) (a : N) : Prop :=
  m_networking m = true /\ m_pending m !! a = None /\ (forall p, p ∈ connections m -> compatible c a OutboundManual p) /\
  (a ∈ d_reserved (m_db m) \/ d_banned (m_db m) !! ip c a = None /\ d_discouraged (m_db m) !! ip c a = None).

(** * Misbehaviour *)

(** Peers that the user trusts: those they connected to themselves and those with ips they listed. *)
Definition trusted (c : settings) (r : role) (a : N) : Prop :=
  r = OutboundReserved \/ r = OutboundManual \/ ip c a ∈ p_whitelisted c.

(** Peer [id], of ip [b], gets [score] more, and that is too much. *)
Definition guilty (c : settings) (m : mgr) (id score b : N) : Prop :=
  exists x, connected m id x /\ ip c (x_address x) = b /\ ~ trusted c (x_role x) (x_address x) /\ (p_threshold c <= x_score x + score)%N.
(** Lists of addresses that are too long cost 100; those nobody asked for, 20. *)
Definition odd_response (c : settings) (m : mgr) (id : N) (l : list N) (s : N) : Prop :=
  exists x, connected m id x /\
    (p_max_list c < length l /\ s = 100%N \/ (should_load_addresses_from (x_role x) = false \/ x_response x = true) /\ s = 20%N).
(** An event is the fault of an ip. Outdated software costs 100. *)
Definition blamed (c : settings) (m : mgr) (e : event) (b : N) : Prop :=
  match e with
  | AdjustScore id s | Misbehaved id s => guilty c m id s b
  | MessageFrom id (AddrListResponse l) => exists s, odd_response c m id l s /\ guilty c m id s b
  | MisbehavedOnHandshake a s =>
    ip c a = b /\ (p_threshold c <= s)%N /\ ~ trusted c (match m_pending m !! a with Some t => role_of t | None => Inbound end) a
  | InboundAccepted a _ i =>
    ip c a = b /\ ~ trusted c Inbound a /\ (p_threshold c = 0%N \/ i_outdated i = true /\ (p_threshold c <= 100)%N)
  | OutboundAccepted a _ i =>
    exists t, m_pending m !! a = Some t /\ ip c a = b /\ ~ trusted c (role_of t) a /\
              (p_threshold c = 0%N \/ i_outdated i = true /\ (p_threshold c <= 100)%N)
  | _ => False
  end.

(** * What the database of peers is told *)

(** Of each event, in order: [l] are the calls that come from [e], which was handled at [now]. *)
Definition punishment (c : settings) (now : N) (l : list op) : Prop := l = [] \/ exists b, l = [Discourage b now].
Definition is_farewell (msg : message) : bool := match msg with WillDisconnect => true | _ => false end.
Definition expected_calls (c : settings) (now : N) (j : N -> N) (m m' : mgr) (e : event) (l : list op) : Prop :=
  match e with
  | UserBan b duration => l = [Ban b duration now]
  | UserUnban b => l = [Unban b]
  | UserUndiscourage b => l = [Undiscourage b]
  | UserAddReserved a => l = [AddReserved a now j]
  | UserRemoveReserved a => l = [RemoveReserved a now]
  | HeartbeatDue => l = [Heartbeat now]
  | UserNetworking b => l = (if decide (b = true /\ m_networking m = false) then [Heartbeat now] else [])
  | AddressesFound found => l = map (fun a => Discovered a now) found
  | ConnectionError a => l = [Failed a now j]
  | ConnectionClosed id =>
    match m_peers m !! id with
    | Some x =>
      l = (if decide (x_role x = Inbound) then []
           else Disconnected (x_address x) now j ::
                match m_disconnecting m !! id with Some (true, _) => [RemoveAddress (x_address x)] | _ => [] end)
    | None => l = []
    end
  | InboundAccepted a _ _ => l = [] \/ m_peers m' = m_peers m /\ l = [Discourage (ip c a) now]
  | OutboundAccepted a _ _ =>
    exists t o, m_pending m !! a = Some t /\ as_outbound (role_of t) = Some o /\
      (m_peers m' = m_peers m -> l = [Failed a now j] \/ l = [Discourage (ip c a) now; Failed a now j]) /\
      (m_peers m' <> m_peers m ->
         if decide (t = AutoBlock) then
           exists A, l = [Connected a o now; SetAnchors A] /\
             (* the block relay peers with the smallest ids *)
             forall b, b ∈ A <-> exists id x, connected m' id x /\ x_role x = OutboundBlockRelay /\ x_address x = b /\
               length (filter (fun q => (q.1 < id)%N /\ x_role q.2 = OutboundBlockRelay) (map_to_list (m_peers m'))) < EvictionModel.block_relay_count (p_evict c)
         else l = [Connected a o now])
  | MessageFrom id msg =>
    match m_peers m !! id with
    | Some x =>
      exists k, l = (if decide (x_role x = Inbound \/ is_farewell msg = true) then [] else [Activity (x_address x) now]) ++ k /\
        match msg with
        | AnnounceAddr a limited => k = (if p_discoverable c a && negb limited then [Discovered a now] else [])
        | AddrListResponse sent =>
          if decide (length sent <= p_max_list c /\ should_load_addresses_from (x_role x) = true /\ x_response x = false)
          then k = map (fun a => Discovered a now) (filter (fun a => p_discoverable c a = true) sent)
          else punishment c now k
        | _ => k = []
        end
    | None => l = []
    end
  | AdjustScore _ _ | Misbehaved _ _ | MisbehavedOnHandshake _ _ => punishment c now l
  | NodeRestart networking reserved_nodes boot_nodes =>
    l = Restart reserved_nodes boot_nodes now :: (if decide (networking = true /\ d_anchors (m_db m) = ∅) then [Heartbeat now] else [])
  | _ => l = []
  end.

(** * Requests *)

Definition requests (q : N) (e : event) : bool :=
  match e with UserConnect _ q' | UserDisconnect _ _ q' => bool_decide (q' = q) | _ => false end.
Definition is_answer (q : N) (x : command) : Prop := exists ok, x = Answer q ok.
Global Instance is_answer_dec q x : Decision (is_answer q x).
Proof.
  destruct x as [| | | | | | | |q' ok]; [right; by intros [? ?]..|]. destruct (decide (q' = q)) as [->|H]; [left; by exists ok|right; intros [? [= ?]]; done].
Defined.
Definition answers (m : mgr) (q : N) : nat := length (filter (is_answer q) (m_out m)).
(** Requests that wait for the end of an attempt or for the end of a connection. *)
Definition waiting (m : mgr) (q : N) : nat :=
  length (filter (fun p => p.2 = Manual q) (map_to_list (m_pending m))) +
  length (filter (fun p => p.2.2 = Some q) (map_to_list (m_disconnecting m))).
