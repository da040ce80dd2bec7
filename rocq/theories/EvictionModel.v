(** Choosing a peer to disconnect: p2p/src/peer_manager/peers_eviction/mod.rs and the code of
    p2p/src/peer_manager/mod.rs that builds the list of candidates.

    Times and durations are numbers of nanoseconds ([Time] is a [Duration] since the epoch). Sorting is a parameter:
    the code sorts with [sort_unstable_by_key], whose order among equal keys is not specified. Random choices are
    parameters too. The keyed hash of an address group (SipHash with random keys) is a parameter [key]. *)
From Verif Require Import Base.

(** p2p/src/net/types.rs: [PeerRole]. *)
Inductive role := Inbound | OutboundFullRelay | OutboundBlockRelay | OutboundReserved | OutboundManual | Feeler.
Global Instance role_eq_dec : EqDecision role.
Proof. solve_decision. Defined.

(** p2p/src/peer_manager/peer_context.rs:34-83: the fields of [PeerContext] that matter here; [p_group] is the group of
    the peer's address (address_groups.rs:24-60). The last two fields are what the peer manager knows about the peer:
    whether its address is banned or discouraged, and whether its disconnection is under way. *)
Record peer := Peer {
  p_id : N; p_created : N; p_group : Z; p_ping_min : option N; p_role : role;
  p_last_tip : option N; p_last_tx : option N; p_expecting : option N;
  p_banned_or_discouraged : bool; p_disconnecting : bool }.

(** peers_eviction/mod.rs:48-73: [EvictionCandidate]. *)
Record cand := Cand {
  c_id : N; c_age : N; c_group : Z; c_ping : Z; c_role : role;
  c_last_tip : option N; c_last_tx : option N; c_expecting : option N; c_banned : bool }.

(** [x as i64] of an unsigned number. *)
Definition as_i64 (x : N) : Z :=
  let m := (Z.of_N x mod 18446744073709551616)%Z in if (m <=? I64_MAX)%Z then m else (m - 18446744073709551616)%Z.

(** peers_eviction/mod.rs:90-111: [EvictionCandidate::new]; [as_micros] divides the nanoseconds by a thousand. *)
Definition cand_new (key : Z -> Z) (now : N) (p : peer) : cand :=
  Cand (p_id p) (now - p_created p)%N (key (p_group p))
       (match p_ping_min p with None => I64_MAX | Some d => as_i64 (d / 1000) end)
       (p_role p) (p_last_tip p) (p_last_tx p) (p_expecting p) (p_banned_or_discouraged p).

(** peer_manager/mod.rs:944-962: [eviction_candidates]. *)
Definition eviction_candidates (key : Z -> Z) (now : N) (r : role) (ps : list peer) : list cand :=
  map (cand_new key now) (filter (fun p => p_role p = r /\ p_disconnecting p = false) ps).

(** peer_manager/config.rs:49-96: the settings used here. *)
Record config := Config {
  preserved_address_group : nat; preserved_ping : nat; preserved_new_blocks : nat; preserved_new_transactions : nat;
  full_relay_count : nat; block_relay_count : nat; block_relay_min_age : N; full_relay_min_age : N }.
(** peer_manager/config.rs:136-141 *)
Definition total_preserved_inbound_count (c : config) : nat :=
  preserved_address_group c + preserved_ping c + preserved_new_blocks c + preserved_new_transactions c.

(** [Ord] of [Option<Time>]: [None] is the least. *)
Definition opt_leb (a b : option N) : bool :=
  match a, b with None, _ => true | Some _, None => false | Some x, Some y => (x <=? y)%N end.

Notation sorting := (forall A : Type, (A -> A -> bool) -> list A -> list A).

(** [candidates.sort_unstable_by_key(..); candidates.truncate(candidates.len().saturating_sub(count))] *)
Definition drop_last (sort : sorting) (leb : cand -> cand -> bool) (l : list cand) (n : nat) : list cand :=
  take (length l - n) (sort cand leb l).

(** peers_eviction/mod.rs:114-120 *)
Definition filter_mature_peers (l : list cand) (age : N) : list cand := filter (fun c => (age <= c_age c)%N) l.
(** peers_eviction/mod.rs:124-131 *)
Definition filter_address_group (sort : sorting) (l : list cand) (n : nat) : list cand :=
  drop_last sort (fun a b => (c_group a <=? c_group b)%Z) l n.
(** peers_eviction/mod.rs:135-142. [-peer.ping_min] overflows for [i64::MIN]. *)
Definition filter_fast_ping (sort : sorting) (l : list cand) (n : nat) : res unit (list cand) :=
  if existsb (fun c => (c_ping c =? I64_MIN)%Z) l then Panic
  else Ok (drop_last sort (fun a b => (- c_ping a <=? - c_ping b)%Z) l n).
(** peers_eviction/mod.rs:145-152 *)
Definition filter_by_last_tip_block_time (sort : sorting) (l : list cand) (n : nat) : list cand :=
  drop_last sort (fun a b => opt_leb (c_last_tip a) (c_last_tip b)) l n.
(** peers_eviction/mod.rs:155-162 *)
Definition filter_by_last_transaction_time (sort : sorting) (l : list cand) (n : nat) : list cand :=
  drop_last sort (fun a b => opt_leb (c_last_tx a) (c_last_tx b)) l n.

(** [max_by_key]: the last of the greatest elements. *)
Fixpoint max_by_key {A} (f : A -> N) (l : list A) : option A :=
  match l with
  | [] => None
  | x :: l' => match max_by_key f l' with
               | None => Some x
               | Some y => if (f x <=? f y)%N then Some y else Some x
               end
  end.
(** [min_by]: the first of the least elements. *)
Fixpoint min_by {A} (leb : A -> A -> bool) (l : list A) : option A :=
  match l with
  | [] => None
  | x :: l' => match min_by leb l' with
               | None => Some x
               | Some y => if leb x y then Some x else Some y
               end
  end.

(** The entries of [counts], a [BTreeMap] from the groups to the number of their candidates, in the order of the keys
    (peers_eviction/mod.rs:170-173). *)
Definition group_counts (sort : sorting) (l : list cand) : list (Z * N) :=
  map (fun g => (g, N.of_nat (length (filter (fun c => c_group c = g) l))))
      (sort Z Z.leb (remove_dups (map c_group l))).

(** peers_eviction/mod.rs:164-187 *)
Definition find_group_most_connections (sort : sorting) (l : list cand) : res unit (option N) :=
  match l with
  | [] => Ok None
  | _ => let? gc := expect (max_by_key snd (group_counts sort l)) in
         let? p := expect (max_by_key c_id (filter (fun c => c_group c = gc.1) l)) in
         Ok (Some (c_id p))
  end.

(** [iter().filter(|ec| ec.is_banned_or_discouraged).choose(rng)]; [r] is the random number. *)
Definition choose_banned (r : nat) (l : list cand) : option cand :=
  let b := filter (fun c => c_banned c = true) l in b !! (r mod length b)%nat.

(** peers_eviction/mod.rs:195-224. [total_preserved_inbound_count] does not overflow for counts of memory objects. *)
Definition select_for_eviction_inbound (sort : sorting) (r : nat) (l : list cand) (cfg : config) : res unit (option N) :=
  if (length l <=? total_preserved_inbound_count cfg)%nat then Ok None else
  match choose_banned r l with
  | Some c => Ok (Some (c_id c))
  | None =>
    let l := filter_address_group sort l (preserved_address_group cfg) in
    let? l := filter_fast_ping sort l (preserved_ping cfg) in
    let l := filter_by_last_tip_block_time sort l (preserved_new_blocks cfg) in
    let l := filter_by_last_transaction_time sort l (preserved_new_transactions cfg) in
    find_group_most_connections sort l
  end.

(** The greatest [Duration]: [u64::MAX] seconds and 999999999 nanoseconds. *)
Definition DURATION_MAX : N := 18446744073709551615999999999.
(** peers_eviction/mod.rs:266: five seconds. *)
Definition BLOCK_EXPECTATION_MAX_DURATION : N := 5000000000.

(** peers_eviction/mod.rs:277-293: [EvictionCandidateExtOutbound::new]. *)
Definition ext_new (now : N) (c : cand) : res unit (cand * option N) :=
  match c_expecting c with
  | Some e => let? t := expect (checked_add DURATION_MAX e BLOCK_EXPECTATION_MAX_DURATION) in
              Ok (c, if (now <=? t)%N then Some now else c_last_tip c)
  | None => Ok (c, c_last_tip c)
  end.

(** peers_eviction/mod.rs:295-345. *)
Definition select_for_eviction_outbound (sort : sorting) (r : nat) (l : list cand) (min_age : N) (max_count : nat)
    (now : N) : res unit (option N) :=
  if (length l <=? max_count)%nat then Ok None else
  match choose_banned r l with
  | Some c => Ok (Some (c_id c))
  | None =>
    let l := filter_mature_peers l min_age in
    if (length l <=? max_count)%nat then Ok None else
    let? l := rmapM (ext_new now) l in
    let l := sort _ (fun a b => (c_age a.1 <=? c_age b.1)%N) l in
    match List.find (fun p => bool_decide (p.2 = None)) l with
    | Some p => Ok (Some (c_id p.1))
    | None => Ok (option_map (fun p => c_id p.1) (min_by (fun a b => opt_leb a.2 b.2) l))
    end
  end.
(** peers_eviction/mod.rs:227-241 *)
Definition select_for_eviction_block_relay (sort : sorting) (r : nat) (l : list cand) (cfg : config) (now : N) :=
  select_for_eviction_outbound sort r l (block_relay_min_age cfg) (block_relay_count cfg) now.
(** peers_eviction/mod.rs:244-262 *)
Definition select_for_eviction_full_relay (sort : sorting) (r : nat) (l : list cand) (cfg : config) (now : N) :=
  select_for_eviction_outbound sort r l (full_relay_min_age cfg) (full_relay_count cfg) now.

(** peer_manager/mod.rs:967-987: the peer that [try_evict_random_inbound_connection] disconnects. *)
Definition evict_inbound (sort : sorting) (key : Z -> Z) (r : nat) (cfg : config) (now : N) (ps : list peer) :=
  select_for_eviction_inbound sort r (eviction_candidates key now Inbound ps) cfg.
(** peer_manager/mod.rs:989-1007: the peer that [evict_block_relay_peer] disconnects. *)
Definition evict_block_relay (sort : sorting) (key : Z -> Z) (r : nat) (cfg : config) (now : N) (ps : list peer) :=
  select_for_eviction_block_relay sort r (eviction_candidates key now OutboundBlockRelay ps) cfg now.
(** peer_manager/mod.rs:1009-1027: the peer that [evict_full_relay_peer] disconnects. *)
Definition evict_full_relay (sort : sorting) (key : Z -> Z) (r : nat) (cfg : config) (now : N) (ps : list peer) :=
  select_for_eviction_full_relay sort r (eviction_candidates key now OutboundFullRelay ps) cfg now.
