(** The node's database of peer addresses, bans and discouragements: p2p/src/peer_manager/peerdb/mod.rs, with
    address_data/mod.rs, storage_load.rs and storage_impl.rs.

    Socket addresses and bannable addresses (ips) are numbers, times and durations are nanoseconds. The random factor of
    the delay between connection attempts is a parameter of the operations that draw it. A transaction on the storage either
    succeeds or panics (the [expect]s on [update_db]); the storage states that were ever committed are kept in [d_commits],
    so that a crash between two transactions can be talked about. *)
From Verif Require Import Base PeerTableModel.

Definition SECOND : N := 1000000000.
Definition DURATION_MAX : N := 18446744073709551615999999999.
(** address_data/mod.rs:25, 28, 31, 35, 38 *)
Definition MAX_DELAY_RESERVED : N := 360 * SECOND.
Definition MAX_DELAY_REACHABLE : N := 3600 * SECOND.
Definition PURGE_UNREACHABLE_TIME : N := 3600 * SECOND.
Definition PURGE_REACHABLE_FAIL_COUNT : N := 672.

(** net/types.rs:91-119: [OutboundPeerRole]. *)
Inductive out_role := OFullRelay | OBlockRelay | OReserved | OManual | OFeeler.
Definition is_message_exchange_expected (r : out_role) : bool := match r with OFeeler => false | _ => true end.
Definition is_manual (r : out_role) : bool := match r with OManual => true | _ => false end.

(** address_data/mod.rs:44-71: [AddressState]. *)
Inductive addr_state :=
| SConnected (had_activity : bool) (r : out_role)
| SDisconnected (was_reachable : bool) (fail_count : N) (next_connect_after : N)
| SUnreachable (erase_after : N).

(** address_data/mod.rs:84-92: [AddressData]. *)
Record addr_data := AddrData { ad_state : addr_state; ad_reserved : bool; ad_no_activity : N }.

(** address_data/mod.rs:95-105: [AddressData::new]. *)
Definition addr_data_new (was_reachable reserved : bool) (now : N) : addr_data :=
  AddrData (SDisconnected was_reachable 0 now) reserved 0.

(** address_data/mod.rs:125-143 *)
Definition connect_now (d : addr_data) (now : N) : bool :=
  match ad_state d with SConnected _ _ => false | SDisconnected _ _ next => (next <=? now)%N | SUnreachable _ => false end.
(** address_data/mod.rs:146-159 *)
Definition retain (d : addr_data) (now : N) : bool :=
  match ad_state d with SUnreachable erase_after => (now <? erase_after)%N | _ => true end.
(** address_data/mod.rs:165-167 *)
Definition is_unreachable (d : addr_data) : bool := match ad_state d with SUnreachable _ => true | _ => false end.

(** address_data/mod.rs:169-181: [next_connect_delay]; the multiplication of at most 2^32 - 1 with ten seconds is far from
    the greatest duration. *)
Definition next_connect_delay (fail_count : N) (reserved : bool) : N :=
  N.min (10 * SECOND * N.min (2 ^ fail_count) U32_MAX) (if reserved then MAX_DELAY_RESERVED else MAX_DELAY_REACHABLE).

(** address_data/mod.rs:183-198: [next_connect_time]; [jitter] multiplies with the random factor. *)
Definition next_connect_time (now fail_count no_activity : N) (reserved : bool) (jitter : N -> N) : res unit N :=
  expect (checked_add DURATION_MAX now (jitter (next_connect_delay (N.max fail_count no_activity) reserved))).

(** address_data/mod.rs:74-81: [AddressStateTransitionTo]. *)
Inductive transition := ToConnected (r : out_role) | ToHadActivity | ToDisconnected | ToConnectionFailed | ToSetReserved | ToUnsetReserved.

(** [x + 1] of a [u32]; overflow checks are on (Cargo.toml:324). *)
Definition incr (x : N) : res unit N := expect (checked_add U32_MAX x 1).

(** address_data/mod.rs:200-442: [transition_to]. [debug_panic_or_log!] only logs in a release build. *)
Definition transition_to (d : addr_data) (tr : transition) (now : N) (jitter : N -> N) : res unit addr_data :=
  let keep st := AddrData st (ad_reserved d) (ad_no_activity d) in
  match tr with
  | ToConnected r =>
    match ad_state d with
    | SConnected _ _ => Ok d
    | _ => Ok (keep (SConnected false r))
    end
  | ToHadActivity =>
    match ad_state d with
    | SConnected _ r => Ok (keep (SConnected true r))
    | _ => Ok d
    end
  | ToDisconnected =>
    match ad_state d with
    | SConnected had_activity r =>
      let? n := if had_activity then Ok 0%N
                else if is_message_exchange_expected r && negb (is_manual r) then incr (ad_no_activity d)
                else Ok (ad_no_activity d) in
      let? next := next_connect_time now 0 n (ad_reserved d) jitter in
      Ok (AddrData (SDisconnected true 0 next) (ad_reserved d) n)
    | _ => Ok d
    end
  | ToConnectionFailed =>
    match ad_state d with
    | SConnected _ _ => Ok d
    | SDisconnected was_reachable fail_count _ =>
      if ad_reserved d then
        let? f := incr fail_count in
        let? next := next_connect_time now f (ad_no_activity d) (ad_reserved d) jitter in
        Ok (keep (SDisconnected was_reachable f next))
      else if negb was_reachable then
        let? e := expect (checked_add DURATION_MAX now PURGE_UNREACHABLE_TIME) in
        Ok (keep (SUnreachable e))
      else
        let? f := incr fail_count in
        if (PURGE_REACHABLE_FAIL_COUNT <=? f)%N then Ok (keep (SUnreachable now))
        else
          let? next := next_connect_time now f (ad_no_activity d) (ad_reserved d) jitter in
          Ok (keep (SDisconnected was_reachable f next))
    | SUnreachable _ => Ok d
    end
  | ToSetReserved =>
    match ad_state d with
    | SConnected h r => Ok (AddrData (SConnected h r) true (ad_no_activity d))
    | SDisconnected was_reachable fail_count _ =>
      let? next := next_connect_time now fail_count (ad_no_activity d) true jitter in
      Ok (AddrData (SDisconnected was_reachable fail_count next) true (ad_no_activity d))
    | SUnreachable _ =>
      let? next := next_connect_time now 0 (ad_no_activity d) true jitter in
      Ok (AddrData (SDisconnected false 0 next) true (ad_no_activity d))
    end
  | ToUnsetReserved => Ok (AddrData (ad_state d) false (ad_no_activity d))
  end.

(** storage.rs:27-32: [KnownAddressState]. *)
Inductive known_state := KNew | KTried.

(** storage_impl.rs:38-58: the tables of the storage. The addresses are stored as text. The version and the salt are
    written once, by [init_storage]; the salt is part of the hashes here. *)
Record store := Store { s_known : gmap N known_state; s_banned : gmap N N; s_discouraged : gmap N N; s_anchors : gset N }.

(** peerdb/mod.rs:63-96: [PeerDb]. *)
Record db := Db {
  d_addresses : gmap N addr_data; d_reserved : gset N; d_tables : tables;
  d_banned : gmap N N; d_discouraged : gmap N N; d_anchors : gset N;
  d_store : store; d_commits : list store }.

(** What does not change between the starts of a node: the hashes (the salt is in the storage), the sizes of the tables
    (peerdb/config.rs:21-23) and the duration of discouragements (ban_config.rs:20-24). [bannable_of] is [as_bannable]. *)
Record config := Config {
  c_hash_new : hashes; c_hash_tried : hashes; c_new_rows : N; c_tried_rows : N; c_cols : N;
  c_discouragement : N; c_bannable_of : N -> N }.

Definition set_addresses d x := Db x (d_reserved d) (d_tables d) (d_banned d) (d_discouraged d) (d_anchors d) (d_store d) (d_commits d).
Definition set_reserved d x := Db (d_addresses d) x (d_tables d) (d_banned d) (d_discouraged d) (d_anchors d) (d_store d) (d_commits d).
Definition set_tables d x := Db (d_addresses d) (d_reserved d) x (d_banned d) (d_discouraged d) (d_anchors d) (d_store d) (d_commits d).
Definition set_banned d x := Db (d_addresses d) (d_reserved d) (d_tables d) x (d_discouraged d) (d_anchors d) (d_store d) (d_commits d).
Definition set_discouraged d x := Db (d_addresses d) (d_reserved d) (d_tables d) (d_banned d) x (d_anchors d) (d_store d) (d_commits d).
Definition set_anchors_field d x := Db (d_addresses d) (d_reserved d) (d_tables d) (d_banned d) (d_discouraged d) x (d_store d) (d_commits d).

(** peerdb_common/storage.rs:56-84: [update_db] with one transaction that succeeds. *)
Definition update_db (d : db) (f : store -> store) : db :=
  Db (d_addresses d) (d_reserved d) (d_tables d) (d_banned d) (d_discouraged d) (d_anchors d) (f (d_store d)) (f (d_store d) :: d_commits d).
Definition with_known (f : gmap N known_state -> gmap N known_state) (s : store) : store :=
  Store (f (s_known s)) (s_banned s) (s_discouraged s) (s_anchors s).
Definition with_banned (f : gmap N N -> gmap N N) (s : store) : store :=
  Store (s_known s) (f (s_banned s)) (s_discouraged s) (s_anchors s).
Definition with_discouraged (f : gmap N N -> gmap N N) (s : store) : store :=
  Store (s_known s) (s_banned s) (f (s_discouraged s)) (s_anchors s).
Definition with_anchors (f : gset N -> gset N) (s : store) : store :=
  Store (s_known s) (s_banned s) (s_discouraged s) (f (s_anchors s)).

(** peerdb/mod.rs:99-198: [PeerDb::new] on a storage that was initialised (storage_load.rs:64-109); [init_storage]
    leaves an empty one. The loops go through the addresses in their order in the code, here in that of the finite maps. *)
Definition load_known (reserved : gset N) (now : N) (p : tables * gmap N addr_data) (x : N * known_state)
    : res unit (tables * gmap N addr_data) :=
  let? ts := match x.2 with KTried => force_add_to_tried p.1 x.1 | KNew => force_add_to_new p.1 x.1 end in
  Ok (ts, <[x.1 := addr_data_new (match x.2 with KTried => true | KNew => false end) (bool_decide (x.1 ∈ reserved)) now]> p.2).
Definition load_boot (now : N) (p : tables * gmap N addr_data) (a : N) : res unit (tables * gmap N addr_data) :=
  match p.2 !! a with
  | Some _ => Ok p
  | None => let? ts := force_add_to_new p.1 a in Ok (ts, <[a := addr_data_new false false now]> p.2)
  end.
Definition load_reserved (now : N) (m : gmap N addr_data) (a : N) : gmap N addr_data :=
  match m !! a with Some _ => m | None => <[a := addr_data_new false true now]> m end.
Definition load (c : config) (s : store) (reserved_nodes boot_nodes : gset N) (now : N) : res unit db :=
  let? ts := tables_new (c_hash_new c) (c_hash_tried c) (c_new_rows c) (c_tried_rows c) (c_cols c) in
  let? p := rfold (load_known reserved_nodes now) (map_to_list (s_known s)) (ts, ∅) in
  let? p := rfold (load_boot now) (elements (boot_nodes ∖ reserved_nodes)) p in
  let m := foldl (load_reserved now) p.2 (elements reserved_nodes) in
  Ok (Db m reserved_nodes p.1 (s_banned s) (s_discouraged s) (s_anchors s) s [s]).

(** peerdb/mod.rs:513-522: [remove_from_addresses_if_some_non_reserved] *)
Definition remove_if_non_reserved (d : db) (o : option N) : db :=
  match o with
  | Some a => if decide (a ∈ d_reserved d) then d
              else update_db (set_addresses d (delete a (d_addresses d))) (with_known (delete a))
  | None => d
  end.

(** peerdb/mod.rs:524-550: [change_address_state] *)
Definition change_address_state (d : db) (a : N) (tr : transition) (now : N) (jitter : N -> N) : res unit db :=
  let ad := default (addr_data_new false false now) (d_addresses d !! a) in
  let? ad := transition_to ad tr now jitter in
  Ok (set_addresses d (<[a := ad]> (d_addresses d))).

(** peerdb/mod.rs:444-468: [move_addr_to_tried] *)
Definition move_addr_to_tried (d : db) (a : N) : res unit db :=
  let? (ts, r) := PeerTableModel.move_to_tried (d_tables d) a in
  let d := update_db (set_tables d ts) (with_known (fun k =>
             let k := <[a := KTried]> k in
             match r with Some (p, _) => <[p := KNew]> k | None => k end)) in
  Ok (remove_if_non_reserved d (match r with Some (_, q) => q | None => None end)).

(** peerdb/mod.rs:489-510: [can_discard_addr_in_new] *)
Definition can_discard_addr_in_new (m : gmap N addr_data) (a : N) : bool :=
  match m !! a with Some ad => ad_reserved ad || is_unreachable ad | None => true end.

(** peerdb/mod.rs:470-487: [add_addr_to_new] *)
Definition add_addr_to_new (d : db) (a : N) : res unit (db * bool) :=
  let? (ts, o) := PeerTableModel.move_to_new (d_tables d) a (can_discard_addr_in_new (d_addresses d)) in
  let d := set_tables d ts in
  match o with
  | Succeeded prev => Ok (remove_if_non_reserved (update_db d (with_known (<[a := KNew]>))) prev, true)
  | Cancelled => Ok (d, false)
  end.

(** peerdb/mod.rs:333-369: [heartbeat], its three loops. *)
Definition forget_address (d : db) (a : N) : res unit db :=
  let? ts := tables_remove (d_tables d) a in
  Ok (update_db (set_tables (set_addresses d (delete a (d_addresses d))) ts) (with_known (delete a))).
Definition heartbeat_addresses (d : db) (now : N) : res unit db :=
  rfold forget_address (map fst (filter (fun p => retain p.2 now = false) (map_to_list (d_addresses d)))) d.
Definition heartbeat_banned (d : db) (now : N) : db :=
  let d := foldl (fun d b => update_db d (with_banned (delete b))) d
             (map fst (filter (fun p => (p.2 <= now)%N) (map_to_list (d_banned d)))) in
  set_banned d (filter (fun p => (now < p.2)%N) (d_banned d)).
Definition heartbeat_discouraged (d : db) (now : N) : db :=
  let d := foldl (fun d b => update_db d (with_discouraged (delete b))) d
             (map fst (filter (fun p => (p.2 <= now)%N) (map_to_list (d_discouraged d)))) in
  set_discouraged d (filter (fun p => (now < p.2)%N) (d_discouraged d)).

(** The calls that change the database. *)
Inductive op :=
| Heartbeat (now : N)
| Discovered (a : N) (now : N)
| Failed (a : N) (now : N) (jitter : N -> N)
| Connected (a : N) (r : out_role) (now : N)
| Disconnected (a : N) (now : N) (jitter : N -> N)
| Activity (a : N) (now : N)
| RemoveAddress (a : N)
| AddReserved (a : N) (now : N) (jitter : N -> N)
| RemoveReserved (a : N) (now : N)
| Ban (b : N) (duration : N) (now : N)
| Unban (b : N)
| Discourage (b : N) (now : N)
| Undiscourage (b : N)
| SetAnchors (l : gset N)
| Restart (reserved_nodes boot_nodes : gset N) (now : N).

Definition no_jitter (d : N) : N := d.

(** [Time::saturating_duration_add], common/src/primitives/time.rs:97-101. *)
Definition saturating_duration_add (t d : N) : N := N.min DURATION_MAX (t + d).

Definition step (c : config) (d : db) (o : op) : res unit db :=
  match o with
  (* peerdb/mod.rs:333-369 *)
  | Heartbeat now =>
    let? d := heartbeat_addresses d now in
    Ok (heartbeat_discouraged (heartbeat_banned d now) now)
  (* peerdb/mod.rs:372-392: [peer_discovered] *)
  | Discovered a now =>
    match d_addresses d !! a with
    | Some _ => Ok d
    | None => let? (d, added) := add_addr_to_new d a in
              Ok (if added : bool then set_addresses d (<[a := addr_data_new false false now]> (d_addresses d)) else d)
    end
  (* peerdb/mod.rs:398-405: [report_outbound_failure] *)
  | Failed a now j => change_address_state d a ToConnectionFailed now j
  (* peerdb/mod.rs:410-422: [outbound_peer_connected] *)
  | Connected a r now => let? d := change_address_state d a (ToConnected r) now no_jitter in move_addr_to_tried d a
  (* peerdb/mod.rs:425-427: [outbound_peer_disconnected] *)
  | Disconnected a now j => change_address_state d a ToDisconnected now j
  (* peerdb/mod.rs:430-432: [outbound_peer_had_activity] *)
  | Activity a now => change_address_state d a ToHadActivity now no_jitter
  (* peerdb/mod.rs:434-442: [remove_address] *)
  | RemoveAddress a =>
    let d := if decide (a ∈ d_reserved d) then d else set_addresses d (delete a (d_addresses d)) in
    let? ts := tables_remove (d_tables d) a in
    Ok (update_db (set_tables d ts) (with_known (delete a)))
  (* peerdb/mod.rs:560-563: [add_reserved_node] *)
  | AddReserved a now j =>
    let? d := change_address_state d a ToSetReserved now j in Ok (set_reserved d ({[a]} ∪ d_reserved d))
  (* peerdb/mod.rs:565-568: [remove_reserved_node] *)
  | RemoveReserved a now =>
    let? d := change_address_state d a ToUnsetReserved now no_jitter in Ok (set_reserved d (d_reserved d ∖ {[a]}))
  (* peerdb/mod.rs:580-589: [ban] *)
  | Ban b dur now =>
    let till := saturating_duration_add now dur in
    let d := update_db d (with_banned (<[b := till]>)) in Ok (set_banned d (<[b := till]> (d_banned d)))
  (* peerdb/mod.rs:591-596: [unban] *)
  | Unban b => let d := update_db d (with_banned (delete b)) in Ok (set_banned d (delete b (d_banned d)))
  (* peerdb/mod.rs:608-620: [discourage] *)
  | Discourage b now =>
    let till := saturating_duration_add now (c_discouragement c) in
    let d := update_db d (with_discouraged (<[b := till]>)) in Ok (set_discouraged d (<[b := till]> (d_discouraged d)))
  (* peerdb/mod.rs:622-627: [undiscourage] *)
  | Undiscourage b => let d := update_db d (with_discouraged (delete b)) in Ok (set_discouraged d (delete b (d_discouraged d)))
  (* peerdb/mod.rs:637-654: [set_anchors] *)
  | SetAnchors l =>
    if decide (d_anchors d = l) then Ok d else
    Ok (set_anchors_field (update_db d (with_anchors (fun s => (s ∖ (d_anchors d ∖ l)) ∪ (l ∖ d_anchors d)))) l)
  (* The node stops and starts again with the same storage. *)
  | Restart reserved_nodes boot_nodes now => load c (d_store d) reserved_nodes boot_nodes now
  end.

(** A node that starts on an empty storage and then gets these calls. *)
Definition empty_store : store := Store ∅ ∅ ∅ ∅.
Definition start (c : config) (reserved_nodes boot_nodes : gset N) (now : N) : res unit db := load c empty_store reserved_nodes boot_nodes now.
Definition run (c : config) (d : db) (l : list op) : res unit db := rfold (step c) l d.

(** * Queries *)

(** peerdb/mod.rs:571-573, 599-601, 629-631 *)
Definition is_address_banned (d : db) (b : N) : bool := bool_decide (is_Some (d_banned d !! b)).
Definition is_address_discouraged (d : db) (b : N) : bool := bool_decide (is_Some (d_discouraged d !! b)).
Definition is_address_banned_or_discouraged (d : db) (b : N) : bool := is_address_banned d b || is_address_discouraged d b.

(** peerdb/mod.rs:233-250: the filter of [select_non_reserved_outbound_addresses]. *)
Definition select_filter (c : config) (d : db) (groups : list Z) (extra : N -> bool) (now : N) (a : N) : bool :=
  match d_addresses d !! a with
  | Some ad => connect_now ad now && negb (ad_reserved ad) && negb (bool_decide (group_of (c_hash_new c) a ∈ groups))
               && negb (bool_decide (is_Some (d_banned d !! c_bannable_of c a)))
               && negb (bool_decide (is_Some (d_discouraged d !! c_bannable_of c a))) && extra a
  | None => false
  end.

(** peerdb/mod.rs:262-286: the loop that merges the two samples. [m] maps groups to addresses; [coins] are the random bits. *)
Fixpoint select_loop (c : config) (fuel : nat) (coins : nat -> bool) (count : nat) (news trieds : list N) (m : gmap Z N) : gmap Z N :=
  match fuel with
  | O => m
  | S fuel =>
    if (count <=? size m)%nat then m else
    let use a := <[group_of (c_hash_new c) a := a]> m in
    match news, trieds with
    | [], [] => m
    | a :: news, [] => select_loop c fuel coins count news [] (use a)
    | [], a :: trieds => select_loop c fuel coins count [] trieds (use a)
    | a :: news', b :: trieds' =>
      if coins fuel then select_loop c fuel coins count news' trieds (use a) else select_loop c fuel coins count news trieds' (use b)
    end
  end.

(** peerdb/mod.rs:220-289: [select_non_reserved_outbound_addresses]. [sample] stands for [sample] and [shuffle] of rand. Each
    turn of the loop uses up an element of the two samples. *)
Definition select_non_reserved_outbound_addresses (c : config) (sample : list N -> nat -> list N) (coins : nat -> bool) (d : db)
    (groups : list Z) (extra : N -> bool) (count : nat) (now : N) : list N :=
  if (count =? 0)%nat then [] else
  let ok a := select_filter c d groups extra now a = true in
  let news := sample (filter ok (table_addresses (new_table (d_tables d)))) count in
  let trieds := sample (filter ok (table_addresses (tried_table (d_tables d)))) count in
  map snd (map_to_list (select_loop c (length news + length trieds) coins count news trieds ∅)).

(** peerdb/mod.rs:291-312: [select_non_reserved_outbound_address_from_new_addr_table]; [r] is the random number. *)
Definition select_from_new_table (c : config) (d : db) (r : nat) (now : N) : option N :=
  let l := filter (fun a => match d_addresses d !! a with
                            | Some ad => connect_now ad now && negb (ad_reserved ad) &&
                                         negb (is_address_banned_or_discouraged d (c_bannable_of c a))
                            | None => false
                            end = true) (table_addresses (new_table (d_tables d))) in
  l !! (r mod length l)%nat.

(** peerdb/mod.rs:315-330: [select_reserved_outbound_addresses] *)
Definition select_reserved_outbound_addresses (d : db) (extra : N -> bool) (now : N) : res unit (list N) :=
  rfold (fun l a => let? ad := expect (d_addresses d !! a) in
                    Ok (if connect_now ad now && extra a then l ++ [a] else l)) (elements (d_reserved d)) [].
