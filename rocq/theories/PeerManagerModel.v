(** The peer manager, which decides about all connections of a node: p2p/src/peer_manager/mod.rs, with
    addr_list_response_cache.rs, on top of the database of peers (PeerDbModel.v) and the choice of peers to give up
    (EvictionModel.v).

    Each event is handled in one go, as in the code, and reads the clock once (the code reads it several times). What the
    manager tells the networking backend, and its answers to requests of the user, are appended to [m_out]. Sending to the
    backend does not fail (it fails only when the backend is gone). [debug_assert] and [debug_panic_or_log] do nothing, as
    in a release build. Not modelled: the node's own address, the relay of announced addresses, dns queries themselves and
    the times at which the main loop starts heartbeats, pings and dns queries (here these are events of their own). *)
From Verif Require Import Base PeerTableModel PeerDbModel.
From Verif Require EvictionModel.

(** net/types.rs:40-60 *)
Notation role := EvictionModel.role.
Notation Inbound := EvictionModel.Inbound.
Notation OutboundFullRelay := EvictionModel.OutboundFullRelay.
Notation OutboundBlockRelay := EvictionModel.OutboundBlockRelay.
Notation OutboundReserved := EvictionModel.OutboundReserved.
Notation OutboundManual := EvictionModel.OutboundManual.
Notation Feeler := EvictionModel.Feeler.

(** net/types.rs:63-72 *)
Definition as_outbound (r : role) : option out_role :=
  match r with
  | Inbound => None
  | OutboundFullRelay => Some OFullRelay
  | OutboundBlockRelay => Some OBlockRelay
  | OutboundReserved => Some OReserved
  | OutboundManual => Some OManual
  | Feeler => Some OFeeler
  end.
(** net/types.rs:74-87 *)
Definition is_outbound (r : role) : bool := bool_decide (is_Some (as_outbound r)).
Definition is_outbound_manual (r : role) : bool := match r with OutboundManual => true | _ => false end.

(** peer_manager/mod.rs:100-155: [OutboundConnectType]. A request of the user has a number, to which the answer goes. *)
Inductive ctype := AutoFull | AutoBlock | Reserved | Manual (q : N) | FeelerType.
Global Instance ctype_eq_dec : EqDecision ctype.
Proof. solve_decision. Defined.
Definition role_of (t : ctype) : role :=
  match t with
  | AutoFull => OutboundFullRelay | AutoBlock => OutboundBlockRelay | Reserved => OutboundReserved
  | Manual _ => OutboundManual | FeelerType => Feeler
  end.
Definition request_of (t : ctype) : option N := match t with Manual q => Some q | _ => None end.

(** peer_context.rs:34-83. [x_ping] is the nonce and the time of a ping without response. *)
Record ctx := Ctx {
  x_address : N; x_bind : N; x_role : role; x_created : N; x_score : N; x_ping : option (N * N); x_ping_min : option N;
  x_request : bool; x_response : bool; x_last_tip : option N; x_last_tx : option N; x_expecting : option N }.

(** net/types.rs:149-170: what the handshake tells about a peer. [i_same_network]: the magic bytes are ours; [i_services] are
    the bits of the common services; [i_outdated]: the software is ours and older than [min_peer_software_version]. *)
Record info := Info { i_id : N; i_same_network : bool; i_services : N; i_outdated : bool }.

(** What goes out. *)
Inductive command :=
| CConnect (a : N) (blocks_only : bool)
| CAccept (id : N)
| CDisconnect (id : N)
| CEnableNetworking (b : bool)
| SendPing (id nonce : N)
| SendPong (id nonce : N)
| AskAddresses (id : N)
| SendAddresses (id : N) (l : list N)
| Answer (q : N) (ok : bool).

(** peer_manager/mod.rs:165-228. [m_calls] are the calls of the database so far, since the first start of the node. *)
Record mgr := Mgr {
  m_networking : bool; m_pending : gmap N ctype; m_disconnecting : gmap N (bool * option N); m_peers : gmap N ctx;
  m_db : db; m_cache : gmap N (list N * N); m_init : N; m_tip : option N; m_feeler : N;
  m_out : list command; m_calls : list op }.
Definition with_networking m x := Mgr x (m_pending m) (m_disconnecting m) (m_peers m) (m_db m) (m_cache m) (m_init m) (m_tip m) (m_feeler m) (m_out m) (m_calls m).
Definition with_pending m x := Mgr (m_networking m) x (m_disconnecting m) (m_peers m) (m_db m) (m_cache m) (m_init m) (m_tip m) (m_feeler m) (m_out m) (m_calls m).
Definition with_disconnecting m x := Mgr (m_networking m) (m_pending m) x (m_peers m) (m_db m) (m_cache m) (m_init m) (m_tip m) (m_feeler m) (m_out m) (m_calls m).
Definition with_peers m x := Mgr (m_networking m) (m_pending m) (m_disconnecting m) x (m_db m) (m_cache m) (m_init m) (m_tip m) (m_feeler m) (m_out m) (m_calls m).
Definition with_cache m x := Mgr (m_networking m) (m_pending m) (m_disconnecting m) (m_peers m) (m_db m) x (m_init m) (m_tip m) (m_feeler m) (m_out m) (m_calls m).
Definition with_tip m x := Mgr (m_networking m) (m_pending m) (m_disconnecting m) (m_peers m) (m_db m) (m_cache m) (m_init m) x (m_feeler m) (m_out m) (m_calls m).
Definition with_feeler m x := Mgr (m_networking m) (m_pending m) (m_disconnecting m) (m_peers m) (m_db m) (m_cache m) (m_init m) (m_tip m) x (m_out m) (m_calls m).
Definition emit m x := Mgr (m_networking m) (m_pending m) (m_disconnecting m) (m_peers m) (m_db m) (m_cache m) (m_init m) (m_tip m) (m_feeler m) (m_out m ++ [x]) (m_calls m).
Definition answer (m : mgr) (q : option N) (ok : bool) : mgr := match q with Some q => emit m (Answer q ok) | None => m end.

(** The settings: config.rs:49-130, ban_config.rs and p2p/src/config.rs. [p_port] is the port of a socket address; its ip is
    [c_bannable_of]. [p_whitelisted] are ips. [p_key] is [peer_eviction_random_state]. [p_needed] are the services of the
    node's type. *)
Record settings := Settings {
  p_db : PeerDbModel.config; p_evict : EvictionModel.config; p_key : Z -> Z; p_port : N -> N;
  p_max_inbound : nat; p_full_extra : nat; p_block_extra : nat; p_stale : N; p_feelers : bool; p_same_ip : bool;
  p_threshold : N; p_whitelisted : gset N; p_needed : N; p_max_list : nat; p_discoverable : N -> bool; p_ping_timeout : N }.
Definition ip (c : settings) (a : N) : N := c_bannable_of (p_db c) a.
Definition group (c : settings) (a : N) : Z := group_of (c_hash_new (p_db c)) a.

(** The random choices made while an event is handled. *)
Record rnd := Rnd {
  r_sort : EvictionModel.sorting; r_pick : nat; r_sample : list N -> nat -> list N; r_coins : nat -> bool;
  r_jitter : N -> N; r_delay : N; r_nonce : N -> N }.

(** A call of the database. *)
Definition with_call m d o := Mgr (m_networking m) (m_pending m) (m_disconnecting m) (m_peers m) d (m_cache m) (m_init m) (m_tip m) (m_feeler m) (m_out m) (m_calls m ++ [o]).
Definition call (c : settings) (m : mgr) (o : op) : res unit mgr :=
  let? d := step (p_db c) (m_db m) o in Ok (with_call m d o).

(** * Connections *)

(** mod.rs:1374-1382: [peer_addresses_iter] *)
Definition addresses (m : mgr) : list (N * role) :=
  map (fun p => (x_address p.2, x_role p.2)) (map_to_list (m_peers m)) ++
  map (fun p => (p.1, role_of p.2)) (map_to_list (m_pending m)).

(** mod.rs:2095-2129: [may_allow_outbound_connection_to_existing_ip] *)
Definition may_allow (c : settings) (existing_port : N) (existing : role) (new_port : N) (new : role) : bool :=
  if (existing_port =? new_port)%N then false
  else if p_same_ip c then true
  else if is_outbound existing then true
  else is_outbound_manual new.

(** mod.rs:2014-2061: [maybe_reject_because_already_connected] *)
Definition already_connected (c : settings) (m : mgr) (a : N) (r : role) : bool :=
  match r with
  | Inbound | Feeler => false
  | _ => existsb (fun p => (ip c p.1 =? ip c a)%N && negb (may_allow c (p_port c p.1) p.2 (p_port c a) r)) (addresses m)
  end.

(** mod.rs:679-722: [try_connect] *)
Definition try_connect (c : settings) (m : mgr) (a : N) (r : role) : bool :=
  m_networking m && negb (bool_decide (is_Some (m_pending m !! a))) && negb (already_connected c m a r) &&
  (negb (is_address_banned (m_db m) (ip c a)) || bool_decide (a ∈ d_reserved (m_db m))) &&
  (negb (is_address_discouraged (m_db m) (ip c a)) || bool_decide (a ∈ d_reserved (m_db m))).

(** mod.rs:724-767: [connect]. The assertion of line 751 holds: line 696 has just checked it. *)
Definition connect (c : settings) (m : mgr) (a : N) (t : ctype) : mgr :=
  if try_connect c m a (role_of t) then
    with_pending (emit m (CConnect a (match t with AutoBlock => true | _ => false end))) (<[a := t]> (m_pending m))
  else answer m (request_of t) false.

(** mod.rs:769-789, 791-823: [try_disconnect], [disconnect] *)
Definition disconnect (m : mgr) (id : N) (remove : bool) (q : option N) : mgr :=
  match m_disconnecting m !! id, m_peers m !! id with
  | None, Some _ => with_disconnecting (emit m (CDisconnect id)) (<[id := (remove, q)]> (m_disconnecting m))
  | _, _ => answer m q false
  end.
Definition disconnect_all (m : mgr) (l : list N) : mgr := foldl (fun m id => disconnect m id false None) m l.

(** mod.rs:2132-2139 *)
Definition inbound_peer_count (m : mgr) : nat :=
  length (filter (fun p => is_outbound (x_role p.2) = false /\ m_disconnecting m !! p.1 = None) (map_to_list (m_peers m))).

(** What the choice of peers to give up sees of the peers (mod.rs:944-962). *)
Definition seen (c : settings) (m : mgr) : list EvictionModel.peer :=
  map (fun p => EvictionModel.Peer p.1 (x_created p.2) (group c (x_address p.2)) (x_ping_min p.2) (x_role p.2)
                  (x_last_tip p.2) (x_last_tx p.2) (x_expecting p.2)
                  (is_address_banned_or_discouraged (m_db m) (ip c (x_address p.2)))
                  (bool_decide (is_Some (m_disconnecting m !! p.1)))) (map_to_list (m_peers m)).

(** p2p/types/src/services.rs:22-24 *)
Definition SERVICE_BLOCKS : N := 2.

(** mod.rs:828-942: [validate_connection]. The result is the ban score of the error (error.rs:229-332), if there is one. *)
Definition validate_connection (c : settings) (now : N) (z : rnd) (m : mgr) (a : N) (r : role) (i : info)
    : res unit (mgr * option N) :=
  if negb (m_networking m) then Ok (m, Some 0%N)
  else if negb (i_same_network i) then Ok (m, Some 0%N)
  else if bool_decide (is_Some (m_peers m !! i_id i)) then Ok (m, Some 0%N)
  else if already_connected c m a r then Ok (m, Some 0%N)
  else if is_address_banned (m_db m) (ip c a) then Ok (m, Some 0%N)
  else if (i_services i =? 0)%N then Ok (m, Some 0%N)
  else if i_outdated i then Ok (m, Some 100%N)
  else
    match r with
    | Inbound =>
      if (p_max_inbound c <=? inbound_peer_count m)%nat then
        if is_address_discouraged (m_db m) (ip c a) then Ok (m, Some 0%N)
        else
          let? o := EvictionModel.evict_inbound (r_sort z) (p_key c) (r_pick z) (p_evict c) now (seen c m) in
          match o with
          | Some id => Ok (disconnect m id false None, None)
          | None => Ok (m, Some 0%N)
          end
      else Ok (m, None)
    | OutboundReserved | OutboundManual | Feeler => Ok (m, None)
    | OutboundFullRelay => Ok (m, if (i_services i =? p_needed c)%N then None else Some 0%N)
    | OutboundBlockRelay => Ok (m, if (i_services i =? SERVICE_BLOCKS)%N then None else Some 0%N)
    end.

(** mod.rs:1028-1050 *)
Definition should_load_addresses_from (r : role) : bool :=
  match r with OutboundFullRelay | OutboundReserved | OutboundManual => true | _ => false end.
Definition should_send_addresses_to (r : role) : bool := match r with Inbound => true | _ => false end.

(** mod.rs:1136-1159: the anchors, the block relay peers with the smallest ids ([take] from the ordered map). *)
Definition block_relay_peers (m : mgr) : list (N * ctx) := filter (fun p => x_role p.2 = OutboundBlockRelay) (map_to_list (m_peers m)).
Definition anchors (c : settings) (m : mgr) : gset N :=
  list_to_set (map (fun p => x_address p.2) (filter (fun p =>
    length (filter (fun q => (q.1 < p.1)%N) (block_relay_peers m)) < EvictionModel.block_relay_count (p_evict c)) (block_relay_peers m))).

(** mod.rs:1052-1172: [try_accept_connection]. The assertion of line 1137 holds: line 844 has checked it. *)
Definition try_accept_connection (c : settings) (now : N) (z : rnd) (m : mgr) (a bind : N) (r : role) (i : info)
    : res unit (mgr * option N) :=
  let? (m, e) := validate_connection c now z m a r i in
  match e with
  | Some s => Ok (m, Some s)
  | None =>
    let m := emit m (CAccept (i_id i)) in
    let m := if should_load_addresses_from r then emit m (AskAddresses (i_id i)) else m in
    let m := with_peers m (<[i_id i := Ctx a bind r now 0 None None false false None None None]> (m_peers m)) in
    let? m := match as_outbound r with Some o => call c m (Connected a o now) | None => Ok m end in
    let? m := if decide (r = OutboundBlockRelay) then call c m (SetAnchors (anchors c m)) else Ok m in
    Ok (m, None)
  end.

(** * Misbehaviour *)

(** mod.rs:464-475 *)
Definition is_whitelisted_node (c : settings) (r : role) (a : N) : bool :=
  match r with
  | OutboundReserved | OutboundManual => true
  | _ => bool_decide (ip c a ∈ p_whitelisted c)
  end.

(** mod.rs:615-626 *)
Definition bannable_peers_for_addr (c : settings) (m : mgr) (b : N) : list N :=
  map fst (filter (fun p => ip c (x_address p.2) = b) (map_to_list (m_peers m))).
(** mod.rs:628-651, 653-677 *)
Definition ban (c : settings) (now : N) (m : mgr) (b duration : N) : res unit mgr :=
  let l := bannable_peers_for_addr c m b in
  let? m := call c m (Ban b duration now) in Ok (disconnect_all m l).
Definition discourage (c : settings) (now : N) (m : mgr) (b : N) : res unit mgr :=
  let l := bannable_peers_for_addr c m b in
  let? m := call c m (Discourage b now) in Ok (disconnect_all m l).

Definition set_score (x : ctx) (s : N) : ctx :=
  Ctx (x_address x) (x_bind x) (x_role x) (x_created x) s (x_ping x) (x_ping_min x) (x_request x) (x_response x)
      (x_last_tip x) (x_last_tx x) (x_expecting x).

(** mod.rs:476-521: [adjust_peer_score] *)
Definition adjust_peer_score (c : settings) (now : N) (m : mgr) (id score : N) : res unit mgr :=
  match m_peers m !! id with
  | None => Ok m
  | Some x =>
    if is_whitelisted_node c (x_role x) (x_address x) then Ok m else
    let s := N.min U32_MAX (x_score x + score) in
    let m := with_peers m (<[id := set_score x s]> (m_peers m)) in
    if (p_threshold c <=? s)%N then discourage c now m (ip c (x_address x)) else Ok m
  end.

(** mod.rs:523-592: [adjust_peer_score_on_failed_connection_attempt] *)
Definition adjust_on_failed_connection (c : settings) (now : N) (m : mgr) (a : N) (r : role) (score : N) : res unit mgr :=
  if (score <? p_threshold c)%N then Ok m
  else if is_whitelisted_node c r a then Ok m
  else discourage c now m (ip c a).
(** mod.rs:594-613: [adjust_peer_score_on_failed_handshake] *)
Definition adjust_on_failed_handshake (c : settings) (now : N) (m : mgr) (a score : N) : res unit mgr :=
  adjust_on_failed_connection c now m a (match m_pending m !! a with Some t => role_of t | None => Inbound end) score.

(** * Ends of connections *)

(** mod.rs:1174-1254: [accept_connection], for a connection whose role and pending request are known. *)
Definition finish_accept (c : settings) (now : N) (z : rnd) (m : mgr) (a bind : N) (r : role) (q : option N) (i : info)
    : res unit mgr :=
  let? (m, e) := try_accept_connection c now z m a bind r i in
  let? m := match e with
            | Some s =>
              let? m := adjust_on_failed_connection c now m a r s in
              let m := emit m (CDisconnect (i_id i)) in
              if is_outbound r then call c m (Failed a now (r_jitter z)) else Ok m
            | None => Ok (if decide (r = Feeler) then disconnect m (i_id i) false None else m)
            end in
  Ok (answer m q (bool_decide (e = None))).
Definition accept_inbound (c : settings) (now : N) (z : rnd) (m : mgr) (a bind : N) (i : info) : res unit mgr :=
  finish_accept c now z m a bind Inbound None i.
Definition accept_outbound (c : settings) (now : N) (z : rnd) (m : mgr) (a bind : N) (i : info) : res unit mgr :=
  let? t := expect (m_pending m !! a) in
  finish_accept c now z (with_pending m (delete a (m_pending m))) a bind (role_of t) (request_of t) i.

(** mod.rs:1256-1288: [handle_outbound_error] *)
Definition handle_outbound_error (c : settings) (now : N) (z : rnd) (m : mgr) (a : N) : res unit mgr :=
  let? m := call c m (Failed a now (r_jitter z)) in
  let? t := expect (m_pending m !! a) in
  Ok (answer (with_pending m (delete a (m_pending m))) (request_of t) false).

(** mod.rs:1290-1335: [connection_closed] *)
Definition connection_closed (c : settings) (now : N) (z : rnd) (m : mgr) (id : N) : res unit mgr :=
  match m_peers m !! id with
  | None => Ok m
  | Some x =>
    let m := with_peers m (delete id (m_peers m)) in
    let? m := if is_outbound (x_role x) then call c m (Disconnected (x_address x) now (r_jitter z)) else Ok m in
    match m_disconnecting m !! id with
    | None => Ok m
    | Some (remove, q) =>
      let m := with_disconnecting m (delete id (m_disconnecting m)) in
      let? m := if remove && is_outbound (x_role x) then call c m (RemoveAddress (x_address x)) else Ok m in
      Ok (answer m q true)
    end
  end.

(** * The heartbeat *)

(** mod.rs:2185-2191 *)
Definition tip_is_stale (c : settings) (now : N) (m : mgr) : bool := (p_stale c <? now - default (m_init m) (m_tip m))%N.

(** mod.rs:2063-2093: [allow_new_outbound_connection]; [existing] maps ips and ports to roles. *)
Definition allow_new_outbound_connection (c : settings) (existing : gmap (N * N) role) (r : role) (a : N) : bool :=
  forallb (fun p => negb (p.1.1 =? ip c a)%N || may_allow c p.1.2 p.2 (p_port c a) r) (map_to_list existing).
Definition existing_connections (c : settings) (m : mgr) : gmap (N * N) role :=
  foldl (fun e p => <[(ip c p.1, p_port c p.1) := p.2]> e) ∅ (addresses m).
Definition count_role (m : mgr) (r : role) : nat := length (filter (fun p => p.2 = r) (addresses m)).
(** The groups of all outbound connections that are not feelers (mod.rs:1420-1451). *)
Definition outbound_groups (c : settings) (m : mgr) : list Z :=
  map (fun p => group c p.1) (filter (fun p => p.2 <> Inbound /\ p.2 <> Feeler) (addresses m)).
Definition connect_all (c : settings) (m : mgr) (l : list N) (t : ctype) : mgr := foldl (fun m a => connect c m a t) m l.

(** mod.rs:1419-1571: [establish_new_connections]. [r_coins] serves both selections; that of the block relay peers uses the odd
    places. The overflow check of the next time for a feeler is left out. *)
Definition establish_new_connections (c : settings) (now : N) (z : rnd) (m : mgr) : res unit mgr :=
  let groups := outbound_groups c m in
  let existing := existing_connections c m in
  let needed_full := (EvictionModel.full_relay_count (p_evict c) + (if tip_is_stale c now m then p_full_extra c else 0)
                      - count_role m OutboundFullRelay)%nat in
  let needed_block := (EvictionModel.block_relay_count (p_evict c) + p_block_extra c - count_role m OutboundBlockRelay)%nat in
  let feelers := count_role m Feeler in
  let new_full := select_non_reserved_outbound_addresses (p_db c) (r_sample z) (fun n => r_coins z (2 * n)) (m_db m) groups
                    (allow_new_outbound_connection c existing OutboundFullRelay) needed_full now in
  let m := connect_all c m new_full AutoFull in
  let new_block := select_non_reserved_outbound_addresses (p_db c) (r_sample z) (fun n => r_coins z (2 * n + 1)) (m_db m)
                     (map (group c) new_full ++ groups)
                     (allow_new_outbound_connection c existing OutboundBlockRelay) needed_block now in
  let m := connect_all c m new_block AutoBlock in
  let? new_reserved := select_reserved_outbound_addresses (m_db m) (fun a =>
                         negb (bool_decide (is_Some (m_pending m !! a))) &&
                         allow_new_outbound_connection c existing OutboundReserved a) now in
  let m := connect_all c m new_reserved Reserved in
  if p_feelers c && bool_decide (new_full = []) && (feelers =? 0)%nat && (m_feeler m <=? now)%N then
    match select_from_new_table (p_db c) (m_db m) (r_pick z) now with
    | Some a => Ok (with_feeler (connect c m a FeelerType) (now + r_delay z))
    | None => Ok m
    end
  else Ok m.

Definition give_up (m : mgr) (o : option N) : mgr := match o with Some id => disconnect m id false None | None => m end.

(** mod.rs:1401-1417: [heartbeat], with [evict_block_relay_peer] and [evict_full_relay_peer] (mod.rs:989-1027). *)
Definition heartbeat (c : settings) (now : N) (z : rnd) (m : mgr) : res unit mgr :=
  let? m := call c m (Heartbeat now) in
  if m_networking m then
    let? m := establish_new_connections c now z m in
    let? o := EvictionModel.evict_block_relay (r_sort z) (p_key c) (r_pick z) (p_evict c) now (seen c m) in
    let m := give_up m o in
    let? o := EvictionModel.evict_full_relay (r_sort z) (p_key c) (r_pick z) (p_evict c) now (seen c m) in
    Ok (give_up m o)
  else Ok m.

(** * Messages *)

Definition set_ping (x : ctx) p pmin : ctx :=
  Ctx (x_address x) (x_bind x) (x_role x) (x_created x) (x_score x) p pmin (x_request x) (x_response x)
      (x_last_tip x) (x_last_tx x) (x_expecting x).
Definition set_flags (x : ctx) request response : ctx :=
  Ctx (x_address x) (x_bind x) (x_role x) (x_created x) (x_score x) (x_ping x) (x_ping_min x) request response
      (x_last_tip x) (x_last_tx x) (x_expecting x).
Definition set_times (x : ctx) tip tx expecting : ctx :=
  Ctx (x_address x) (x_bind x) (x_role x) (x_created x) (x_score x) (x_ping x) (x_ping_min x) (x_request x) (x_response x)
      tip tx expecting.
Definition discover_all (c : settings) (now : N) (m : mgr) (l : list N) : res unit mgr :=
  rfold (fun m a => call c m (Discovered a now)) l m.

(** mod.rs:1664-1713: [handle_addr_list_request], with [get_or_create] of addr_list_response_cache.rs:52-83. The key of the
    cache is a hash of the peer's bind address; here it is [x_bind]. [r_delay] is the time of expiration (54 to 66 minutes). *)
Definition handle_addr_list_request (c : settings) (now : N) (z : rnd) (m : mgr) (id : N) (x : ctx) : res unit mgr :=
  if negb (should_send_addresses_to (x_role x)) || x_request x then Ok m else
  let m := with_peers m (<[id := set_flags x true (x_response x)]> (m_peers m)) in
  let fresh := r_sample z (filter (fun a => p_discoverable c a = true /\
                 is_address_banned_or_discouraged (m_db m) (ip c a) = false) (map fst (map_to_list (d_addresses (m_db m))))) (p_max_list c) in
  let e := match m_cache m !! x_bind x with
           | Some (l, expiration) => if (expiration <=? now)%N then (fresh, (now + r_delay z)%N) else (l, expiration)
           | None => (fresh, (now + r_delay z)%N)
           end in
  let m := with_cache m (<[x_bind x := e]> (m_cache m)) in
  if (length e.1 <=? p_max_list c)%nat then Ok (emit m (SendAddresses id e.1)) else Panic.

(** mod.rs:1715-1758: [handle_addr_list_response]; an unexpected response costs 20, one that is too long 100 (error.rs:280-301). *)
Definition handle_addr_list_response (c : settings) (now : N) (m : mgr) (id : N) (x : ctx) (l : list N) : res unit mgr :=
  if negb (length l <=? p_max_list c)%nat then adjust_peer_score c now m id 100
  else if negb (should_load_addresses_from (x_role x)) then adjust_peer_score c now m id 20
  else if x_response x then adjust_peer_score c now m id 20
  else
    let m := with_peers m (<[id := set_flags x (x_request x) true]> (m_peers m)) in
    discover_all c now m (filter (fun a => p_discoverable c a = true) l).

(** mod.rs:1768-1796: [handle_ping_response] *)
Definition handle_ping_response (now : N) (m : mgr) (id : N) (x : ctx) (nonce : N) : mgr :=
  match x_ping x with
  | Some (n, t) =>
    if (n =? nonce)%N then
      let last := (now - t)%N in
      let pmin := match x_ping_min x with Some p => N.min p last | None => last end in
      with_peers m (<[id := set_ping x None (Some pmin)]> (m_peers m))
    else m
  | None => m
  end.

(** mod.rs:2141-2183: [ping_check]. The time out fits (both times are local). *)
Definition ping_check (c : settings) (now : N) (z : rnd) (m : mgr) : mgr :=
  let l := map_to_list (m_peers m) in
  let dead := map fst (filter (fun p => match x_ping p.2 with Some (_, t) => (t + p_ping_timeout c <=? now)%N | None => false end = true) l) in
  let m := foldl (fun m p => match x_ping p.2 with
                             | Some _ => m
                             | None => with_peers (emit m (SendPing p.1 (r_nonce z p.1)))
                                         (<[p.1 := set_ping p.2 (Some (r_nonce z p.1, now)) (x_ping_min p.2)]> (m_peers m))
                             end) m l in
  disconnect_all m dead.

Inductive message :=
| AddrListRequest
| AnnounceAddr (a : N) (limited : bool)    (* [limited]: the verdict of the rate limiter *)
| PingRequest (nonce : N)
| AddrListResponse (l : list N)
| PingResponse (nonce : N)
| WillDisconnect
| FirstSyncMessage.

(** mod.rs:1573-1633: [handle_incoming_message] *)
Definition handle_message (c : settings) (now : N) (z : rnd) (m : mgr) (id : N) (msg : message) : res unit mgr :=
  match m_peers m !! id with
  | None => Ok m
  | Some x =>
    let? m := match msg with
              | WillDisconnect => Ok m
              | _ => if is_outbound (x_role x) then call c m (Activity (x_address x) now) else Ok m
              end in
    match msg with
    | AddrListRequest => handle_addr_list_request c now z m id x
    (* mod.rs:1635-1662 *)
    | AnnounceAddr a limited => if p_discoverable c a && negb limited then call c m (Discovered a now) else Ok m
    (* mod.rs:1760-1766 *)
    | PingRequest nonce => Ok (emit m (SendPong id nonce))
    | AddrListResponse l => handle_addr_list_response c now m id x l
    | PingResponse nonce => Ok (handle_ping_response now m id x nonce)
    (* mod.rs:1798-1807 *)
    | WillDisconnect => Ok (disconnect m id false None)
    | FirstSyncMessage => Ok m
    end
  end.

(** * The main loop *)

Inductive event :=
(* control events *)
| UserConnect (a q : N)
| UserDisconnect (id : N) (remove : bool) (q : N)
| AdjustScore (id score : N)
| NewTipReceived (id : N)
| NewTransactionReceived (id : N)
| ExpectingBlocks (id : N) (since : option N)
| NewChainstateTip
| UserAddReserved (a : N)
| UserRemoveReserved (a : N)
| UserBan (b duration : N)
| UserUnban (b : N)
| UserUndiscourage (b : N)
| UserNetworking (enable : bool)
(* events of the backend *)
| MessageFrom (id : N) (msg : message)
| InboundAccepted (a bind : N) (i : info)
| OutboundAccepted (a bind : N) (i : info)
| ConnectionClosed (id : N)
| ConnectionError (a : N)
| Misbehaved (id score : N)
| MisbehavedOnHandshake (a score : N)
(* what the main loop does by itself *)
| HeartbeatDue
| PingCheckDue
| AddressesFound (l : list N)       (* from the dns seeds or the list of predefined addresses *)
(* the node stops and starts again *)
| NodeRestart (networking : bool) (reserved_nodes boot_nodes : gset N).

Definition update_peer (m : mgr) (id : N) (f : ctx -> ctx) : mgr :=
  match m_peers m !! id with Some x => with_peers m (<[id := f x]> (m_peers m)) | None => m end.

(** mod.rs:2333-2356: the beginning of [run_internal]. *)
Definition begin_run (c : settings) (now : N) (z : rnd) (m : mgr) : res unit mgr :=
  if m_networking m then
    if decide (d_anchors (m_db m) = ∅) then heartbeat c now z m
    else Ok (connect_all c m (elements (d_anchors (m_db m))) AutoBlock)
  else Ok m.

(** mod.rs:2289-2312 *)
Definition enable_networking (c : settings) (now : N) (z : rnd) (m : mgr) (enable : bool) : res unit mgr :=
  if bool_decide (m_networking m = enable) then Ok m else
  let m := emit (with_networking m enable) (CEnableNetworking enable) in
  if enable then heartbeat c now z m else Ok m.

(** mod.rs:1809-1918 [handle_control_event], 1920-1973 [handle_connectivity_event] and 2374-2449. *)
Definition step (c : settings) (now : N) (z : rnd) (m : mgr) (e : event) : res unit mgr :=
  match e with
  | UserConnect a q => Ok (connect c m a (Manual q))
  | UserDisconnect id remove q => Ok (disconnect m id remove (Some q))
  | AdjustScore id score => adjust_peer_score c now m id score
  | NewTipReceived id => Ok (update_peer m id (fun x => set_times x (Some now) (x_last_tx x) (x_expecting x)))
  | NewTransactionReceived id => Ok (update_peer m id (fun x => set_times x (x_last_tip x) (Some now) (x_expecting x)))
  | ExpectingBlocks id since => Ok (update_peer m id (fun x => set_times x (x_last_tip x) (x_last_tx x) since))
  | NewChainstateTip => Ok (with_tip m (Some now))
  | UserAddReserved a =>
    let? m := call c m (AddReserved a now (r_jitter z)) in
    Ok (if m_networking m then connect c m a Reserved else m)
  | UserRemoveReserved a => call c m (RemoveReserved a now)
  | UserBan b duration => ban c now m b duration
  | UserUnban b => call c m (Unban b)
  | UserUndiscourage b => call c m (Undiscourage b)
  | UserNetworking enable => enable_networking c now z m enable
  | MessageFrom id msg => handle_message c now z m id msg
  | InboundAccepted a bind i => accept_inbound c now z m a bind i
  | OutboundAccepted a bind i => accept_outbound c now z m a bind i
  | ConnectionClosed id => connection_closed c now z m id
  | ConnectionError a => handle_outbound_error c now z m a
  | Misbehaved id score => adjust_peer_score c now m id score
  | MisbehavedOnHandshake a score => adjust_on_failed_handshake c now m a score
  | HeartbeatDue => heartbeat c now z m
  | PingCheckDue => Ok (ping_check c now z m)
  | AddressesFound l => discover_all c now m l
  | NodeRestart networking reserved_nodes boot_nodes =>
    let? d := PeerDbModel.step (p_db c) (m_db m) (Restart reserved_nodes boot_nodes now) in
    begin_run c now z (Mgr networking ∅ ∅ ∅ d ∅ now None (now + r_delay z) [] (m_calls m ++ [Restart reserved_nodes boot_nodes now]))
  end.

(** mod.rs:259-320: [new_generic], on an empty storage, and the beginning of [run_internal]. *)
Definition start (c : settings) (networking : bool) (reserved_nodes boot_nodes : gset N) (now : N) (z : rnd) : res unit mgr :=
  let? d := PeerDbModel.start (p_db c) reserved_nodes boot_nodes now in
  begin_run c now z (Mgr networking ∅ ∅ ∅ d ∅ now None (now + r_delay z) [] []).
Definition run (c : settings) (m : mgr) (l : list (N * rnd * event)) : res unit mgr :=
  rfold (fun m x => step c x.1.1 x.1.2 m x.2) l m.
