(** Model of the crawler of the dns server, which tests the addresses of nodes and tells the dns server what to serve:
    dns-server/src/crawler_p2p/crawler/address_data.rs, crawler/mod.rs and, for what becomes of its commands,
    crawler_manager/mod.rs 360-470 and dns_server/mod.rs 420-445.

    Times are in seconds and never overflow; the crawler's clock only advances ([Timer]), so a difference of times never fails.
    Counters do not overflow. The rate limit of announcements, the compatibility of a peer, the score of an error and the random
    sample of a heartbeat are parts of the event. *)
From Verif Require Import Base.

(** address_data.rs 66-72: [ConnectionInfo] *)
Record info := { i_software : N; i_asked : option N }.
(** address_data.rs 74-124 *)
Inductive astate :=
| Connecting (fail_count : N) (last : option info)
| Connected (i : info)
| Disconnecting (fail_count : N) (last : option info)
| Disconnected (fail_count : N) (last : option info) (disconnected_at : N)
| Unreachable (fail_count : N) (last : option info) (erase_after : N).
(** address_data.rs 126-133 *)
Record adata := { d_state : astate; d_reserved : bool }.
(** address_data.rs 44-57 *)
Inductive transition := ToConnecting | ToConnected (software : N) (will_request_addr_list_now : bool) | ToDisconnecting | ToDisconnected.

(** address_data.rs 59-64 *)
Definition PURGE_UNREACHABLE_TIME : N := 3600.
Definition PURGE_REACHABLE_FAIL_COUNT : N := 35.
(** crawler/mod.rs 57 *)
Definition MAX_CONNECTS_PER_HEARTBEAT : nat := 25.

(** address_data.rs 136-158 *)
Definition fail_count (s : astate) : N :=
  match s with Connecting f _ | Disconnecting f _ | Disconnected f _ _ | Unreachable f _ _ => f | Connected _ => 0 end.
(** address_data.rs 235-257 *)
Definition connection_info (s : astate) : option info :=
  match s with Connecting _ l | Disconnecting _ l | Disconnected _ l _ | Unreachable _ l _ => l | Connected i => Some i end.
(** address_data.rs 160-182 *)
Definition was_reachable (s : astate) : bool :=
  match s with Connected _ => true | Connecting _ l | Disconnecting _ l | Disconnected _ l _ | Unreachable _ l _ => bool_decide (is_Some l) end.
(** address_data.rs 185-207 *)
Definition is_reachable (s : astate) : bool := match s with Connected _ => true | _ => false end.
(** address_data.rs 210-233 *)
Definition is_persistent (s : astate) : bool :=
  match s with
  | Connecting _ l | Disconnecting _ l | Disconnected _ l _ => bool_decide (is_Some l)
  | Connected _ => true
  | Unreachable _ _ _ => false
  end.

(** address_data.rs 262-310 *)
Definition connect_now (d : adata) (now : N) : bool :=
  match d_state d with
  | Disconnected f last at_ =>
    let age := (now - at_)%N in
    if d_reserved d then
      match f with 0 => true | 1 => 60 <? age | 2 => 360 <? age | _ => 3600 <? age end%N
    else match last with
      | Some _ =>
        match f with
        | 0 => true | 1 => 60 <? age | 2 => 360 <? age | 3 => 3600 <? age | 4 => 3 * 3600 <? age | 5 => 6 * 3600 <? age
        | 6 => 12 * 3600 <? age | _ => 24 * 3600 <? age
        end%N
      | None => (f =? 0)%N
      end
  | _ => false
  end.
(** address_data.rs 313-323 *)
Definition retain (d : adata) (now : N) : bool :=
  match d_state d with Unreachable _ _ erase_after => negb (now <=? erase_after)%N | _ => true end.
(** address_data.rs 325-402; [None] is a failed assertion *)
Definition transition_to (d : adata) (t : transition) (now : N) : option astate :=
  let s := d_state d in
  match t with
  | ToConnecting => match s with Disconnected _ _ _ => Some (Connecting (fail_count s) (connection_info s)) | _ => None end
  | ToConnected software will =>
    match s with
    | Connecting _ _ =>
      Some (Connected {| i_software := software; i_asked := if will : bool then Some now else i ← connection_info s; i_asked i |})
    | _ => None
    end
  | ToDisconnecting =>
    match s with Connecting _ _ | Connected _ => Some (Disconnecting (fail_count s) (connection_info s)) | _ => None end
  | ToDisconnected =>
    match s with
    | Connecting _ _ | Connected _ | Disconnecting _ _ =>
      Some (match d_reserved d, was_reachable s with
            | false, false => Unreachable (fail_count s + 1) (connection_info s) (now + PURGE_UNREACHABLE_TIME)
            | false, true =>
              if (PURGE_REACHABLE_FAIL_COUNT <=? fail_count s + 1)%N then Unreachable (fail_count s + 1) (connection_info s) now
              else Disconnected (fail_count s + 1) (connection_info s) now
            | true, _ => Disconnected (fail_count s + 1) (connection_info s) now
            end)
    | _ => None
    end
  end.

(** crawler/mod.rs 104-109 without the rate limiter *)
Record cpeer := { p_address : N; p_score : N; p_expecting : bool }.
(** crawler/mod.rs 79-102 *)
Record crawler := { now : N; addresses : gmap N adata; banned : gmap N N; peers : gmap N cpeer }.
(** crawler/mod.rs 112-146; the numbers and flags after the code's own fields are as said above *)
Inductive event :=
| Timer (period : N) (sample : list N)
| AddressAnnouncement (address sender : N) (within_rate : bool)
| AddressListResponse (l : list N) (sender : N)
| PeerConnected (address peer_id software : N) (compatible : bool)
| PeerDisconnected (peer_id : N)
| ConnectionError (address : N)
| Misbehaved (peer_id score : N)
| MisbehavedOnHandshake (address score : N).
(** crawler/mod.rs 148-170 *)
Inductive command :=
| Connect (address : N)
| RequestAddresses (peer_id : N)
| Disconnect (peer_id : N)
| UpdateAddress (address : N) (old_state new_state : astate)
| MarkAsBanned (b until : N)
| RemoveBannedStatus (b : N).

Section Crawler.
  (** crawler/mod.rs 54-73: the settings, and p2p's [as_bannable]: the address without the port *)
  Context (ban_threshold ban_duration addr_list_request_interval : N) (bannable : N -> N).
  Definition step_res := res unit (crawler * list command).

  Definition set_addresses (c : crawler) m := {| now := now c; addresses := m; banned := banned c; peers := peers c |}.
  Definition set_peers (c : crawler) m := {| now := now c; addresses := addresses c; banned := banned c; peers := m |}.
  Definition set_banned (c : crawler) m := {| now := now c; addresses := addresses c; banned := m; peers := peers c |}.

  (** crawler/mod.rs 173-233 *)
  Definition new (now : N) (loaded : gmap N info) (loaded_banned : gmap N N) (reserved : gset N) : crawler :=
    let known := (fun i => {| d_state := Disconnected 0 (Some i) now; d_reserved := false |}) <$> loaded in
    {| now := now;
       addresses := set_fold (fun a m => <[a := match m !! a with
                                                  | Some d => {| d_state := d_state d; d_reserved := true |}
                                                  | None => {| d_state := Disconnected 0 None now; d_reserved := true |}
                                                  end]> m) known reserved;
       banned := loaded_banned; peers := ∅ |}.

  (** crawler/mod.rs 392-411; a command is appended to what was said before *)
  Definition change_address_state (st : crawler * list command) (a : N) (t : transition) : step_res :=
    let? d := expect (addresses st.1 !! a) in
    let? s := expect (transition_to d t (now st.1)) in
    Ok (set_addresses st.1 (<[a := {| d_state := s; d_reserved := d_reserved d |}]> (addresses st.1)),
        st.2 ++ [UpdateAddress a (d_state d) s]).
  Definition say (st : crawler * list command) (x : command) : crawler * list command := (st.1, st.2 ++ [x]).

  (** crawler/mod.rs 520-540 *)
  Definition disconnect_peer (st : crawler * list command) (pa : N * N) : step_res := change_address_state (say st (Disconnect pa.1)) pa.2 ToDisconnecting.
  (** crawler/mod.rs 325-345 *)
  Definition disconnect_all (st : crawler * list command) (b : N) : step_res :=
    rfold disconnect_peer (omap (fun kp : N * cpeer => if decide (bannable (p_address kp.2) = b) then Some (kp.1, p_address kp.2) else None)
                             (map_to_list (peers st.1))) st.
  (** crawler/mod.rs 306-323, 267-276 *)
  Definition handle_new_ban_score (st : crawler * list command) (a score : N) : step_res :=
    if (ban_threshold <=? score)%N then
      let? st := disconnect_all st (bannable a) in
      Ok (set_banned st.1 (<[bannable a := (now st.1 + ban_duration)%N]> (banned st.1)), st.2 ++ [MarkAsBanned (bannable a) (now st.1 + ban_duration)])
    else Ok st.
  (** crawler/mod.rs 278-304; a score beyond u32 counts as u32::MAX in the code *)
  Definition handle_misbehaved_peer (st : crawler * list command) (p score : N) : step_res :=
    if (0 <? score)%N then
      let? peer := expect (peers st.1 !! p) in
      let peer' := {| p_address := p_address peer; p_score := p_score peer + score; p_expecting := p_expecting peer |} in
      handle_new_ban_score (set_peers st.1 (<[p := peer']> (peers st.1)), st.2) (p_address peer) (p_score peer')
    else Ok st.
  (** crawler/mod.rs 352-364 *)
  Definition add_new_address (c : crawler) (a : N) : crawler :=
    match addresses c !! a with
    | Some _ => c
    | None => set_addresses c (<[a := {| d_state := Disconnected 0 None (now c); d_reserved := false |}]> (addresses c))
    end.
  (** crawler/mod.rs 434-518 *)
  Definition create_outbound_peer (st : crawler * list command) (p a software : N) (compatible : bool) : step_res :=
    match peers st.1 !! p with
    | Some _ => Panic
    | None =>
      let c := set_peers st.1 (<[p := {| p_address := a; p_score := 0; p_expecting := false |}]> (peers st.1)) in
      if compatible then
        let? d := expect (addresses c !! a) in
        let last := default 0%N (i ← connection_info (d_state d); i_asked i) in
        let need := (last + addr_list_request_interval <=? now c)%N in
        let? st := change_address_state (c, st.2) a (ToConnected software need) in
        if need then
          Ok (say (set_peers st.1 (<[p := {| p_address := a; p_score := 0; p_expecting := true |}]> (peers st.1)), st.2) (RequestAddresses p))
        else Ok st
      else disconnect_peer (c, st.2) (p, a)
    end.
  (** crawler/mod.rs 543-571 *)
  Definition remove_outbound_peer (st : crawler * list command) (p : N) : step_res :=
    let? peer := expect (peers st.1 !! p) in
    change_address_state (set_peers st.1 (delete p (peers st.1)), st.2) (p_address peer) ToDisconnected.

  (** crawler/mod.rs 576-609; the bans that end are reported in the order of [map_to_list] *)
  Definition may_connect (c : crawler) (a : N) : bool :=
    match addresses c !! a with Some d => connect_now d (now c) && bool_decide (banned c !! bannable a = None) | None => false end.
  Definition start_connecting (st : crawler * list command) (a : N) : step_res :=
    let? st := change_address_state st a ToConnecting in Ok (say st (Connect a)).
  Definition heartbeat (c : crawler) (sample : list N) : step_res :=
    let over := filter (fun bt : N * N => ~ (now c < bt.2)%N) (map_to_list (banned c)) in
    let c := set_banned c (filter (fun bt : N * N => (now c < bt.2)%N) (banned c)) in
    let chosen := take MAX_CONNECTS_PER_HEARTBEAT (filter (fun a => may_connect c a) (remove_dups sample)) in
    let? st := rfold start_connecting chosen (c, (fun bt => RemoveBannedStatus bt.1) <$> over) in
    Ok (set_addresses st.1 (filter (fun ad : N * adata => retain ad.2 (now st.1)) (addresses st.1)), st.2).

  (** crawler/mod.rs 612-655, with 235-265, 347-350 and 366-388 *)
  Definition step (c : crawler) (e : event) : step_res :=
    match e with
    | Timer period sample =>
      if (period <=? 24 * 3600)%N then
        heartbeat {| now := (now c + period)%N; addresses := addresses c; banned := banned c; peers := peers c |} sample
      else Panic
    | AddressAnnouncement a sender within_rate =>
      let? _ := expect (peers c !! sender) in
      Ok (if within_rate then add_new_address c a else c, [])
    | AddressListResponse l sender =>
      let? peer := expect (peers c !! sender) in
      let c := set_peers c (<[sender := {| p_address := p_address peer; p_score := p_score peer; p_expecting := false |}]> (peers c)) in
      Ok (if p_expecting peer then fold_left add_new_address l c else c, [])
    | PeerConnected a p software compatible => create_outbound_peer (c, []) p a software compatible
    | PeerDisconnected p => remove_outbound_peer (c, []) p
    | ConnectionError a => change_address_state (c, []) a ToDisconnected
    | Misbehaved p score => handle_misbehaved_peer (c, []) p score
    | MisbehavedOnHandshake a score => handle_new_ban_score (c, []) a score
    end.

  (** crawler_manager/mod.rs 360-377: the ip under which an address is served, if it is *)
  Context (get_dns_ip : N -> option N).
  (** What the dns server serves, and the two tables of the storage *)
  Record world := { w_dns : gmap N N; w_known : gmap N info; w_banned : gmap N N }.
  (** crawler_manager/mod.rs 402-438 with dns_server/mod.rs 420-445 *)
  Definition update_dns (dns : gmap N N) (a : N) (old_state new_state : astate) : gmap N N :=
    match get_dns_ip a, is_reachable old_state, is_reachable new_state with
    | Some ip, false, true => match connection_info new_state with Some i => <[ip := i_software i]> dns | None => dns end
    | Some ip, true, false => delete ip dns
    | _, _, _ => dns
    end.
  (** crawler_manager/mod.rs 440-459 *)
  Definition update_known (known : gmap N info) (a : N) (old_state new_state : astate) : gmap N info :=
    if is_persistent new_state then match connection_info new_state with Some i => <[a := i]> known | None => known end
    else if is_persistent old_state then delete a known else known.
  (** crawler_manager/mod.rs 379-470; the other commands go to the network *)
  Definition handle_crawler_cmd (w : world) (x : command) : world :=
    match x with
    | UpdateAddress a o n => {| w_dns := update_dns (w_dns w) a o n; w_known := update_known (w_known w) a o n; w_banned := w_banned w |}
    | MarkAsBanned b until => {| w_dns := w_dns w; w_known := w_known w; w_banned := <[b := until]> (w_banned w) |}
    | RemoveBannedStatus b => {| w_dns := w_dns w; w_known := w_known w; w_banned := delete b (w_banned w) |}
    | Connect _ | RequestAddresses _ | Disconnect _ => w
    end.
  (** crawler_manager/mod.rs 472-487 *)
  Definition send_crawler_event (cw : crawler * world) (e : event) : res unit (crawler * world) :=
    let? (c, cmds) := step cw.1 e in Ok (c, fold_left handle_crawler_cmd cmds cw.2).
End Crawler.
