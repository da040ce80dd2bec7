(** What the database of peers is for, written without its tables and without its storage. *)
From Verif Require Import Base PeerTableModel PeerDbModel.

(** * What the environment provides *)

(** The tables have at least one slot and no more than fit an index of 32 bits (the defaults are 1024, 256 and 64). *)
Definition good_config (c : config) : Prop :=
  (0 < c_new_rows c)%N /\ (0 < c_tried_rows c)%N /\ (0 < c_cols c)%N /\
  (c_new_rows c * c_cols c <= U32_MAX)%N /\ (c_tried_rows c * c_cols c <= U32_MAX)%N.
(** Clocks are some hours before the end of representable time, and the random factor of a delay is below 37
    (EXPONENTIAL_RAND_UPPER_LIMIT). *)
Definition good_time (now : N) : Prop := (now + 37 * 3600 * SECOND <= DURATION_MAX)%N.
Definition good_jitter (j : N -> N) : Prop := forall d, (j d <= 37 * d)%N.
Definition good_op (o : op) : Prop :=
  match o with
  | Failed _ now j | Disconnected _ now j | AddReserved _ now j => good_time now /\ good_jitter j
  | Connected _ _ now | Activity _ now | RemoveReserved _ now => good_time now
  | _ => True
  end.
(** A node with an empty storage was started and got fewer than 2^32 calls. *)
Definition history (c : config) (reserved boot : gset N) (now : N) (l : list op) (d : db) : Prop :=
  good_config c /\ Forall good_op l /\ (N.of_nat (length l) < U32_MAX)%N /\
  exists d0, start c reserved boot now = Ok d0 /\ run c d0 l = Ok d.

(** * Bans and discouragements *)

(** The time of the end of the ban of [b], if it is banned after the calls in [l]: the last call of [ban] for it counts,
    unless it was followed by [unban] or by a heartbeat at or after the end of the ban. *)
Definition calls_off (b : N) (o : op) : bool :=
  match o with Ban b' _ _ | Unban b' => bool_decide (b' = b) | _ => false end.
Definition calls_off_discouraged (b : N) (o : op) : bool :=
  match o with Discourage b' _ | Undiscourage b' => bool_decide (b' = b) | _ => false end.
Definition banned_until (l : list op) (b till : N) : Prop :=
  exists before dur now after, l = before ++ Ban b dur now :: after /\ till = N.min DURATION_MAX (now + dur) /\
    forall o, o ∈ after -> calls_off b o = false /\ forall t, o = Heartbeat t -> (t < till)%N.
Definition discouraged_until (c : config) (l : list op) (b till : N) : Prop :=
  exists before now after, l = before ++ Discourage b now :: after /\ till = N.min DURATION_MAX (now + c_discouragement c) /\
    forall o, o ∈ after -> calls_off_discouraged b o = false /\ forall t, o = Heartbeat t -> (t < till)%N.

(** * The known addresses *)

Definition known (d : db) (a : N) : Prop := is_Some (d_addresses d !! a).
Definition in_new (d : db) (a : N) : Prop := a ∈ table_addresses (new_table (d_tables d)).
Definition in_tried (d : db) (a : N) : Prop := a ∈ table_addresses (tried_table (d_tables d)).
Definition in_tables (d : db) (a : N) : Prop := in_new d a \/ in_tried d a.

(** Addresses the user or the node itself named, rather than heard of from a peer: reserved nodes, boot nodes and the
    addresses connections were made to or tried with. *)
Definition named_by (o : op) : gset N :=
  match o with
  | Failed a _ _ | Connected a _ _ | Disconnected a _ _ | Activity a _ | AddReserved a _ _ | RemoveReserved a _ => {[a]}
  | Restart r b _ => r ∪ b
  | _ => ∅
  end.
Definition named (reserved boot : gset N) (l : list op) : gset N := reserved ∪ boot ∪ ⋃ (named_by <$> l).

Definition is_restart (o : op) : bool := match o with Restart _ _ _ => true | _ => false end.

(** The reserved nodes are those that the user named last. *)
Definition reserved_after (r : gset N) (o : op) : gset N :=
  match o with AddReserved a _ _ => {[a]} ∪ r | RemoveReserved a _ => r ∖ {[a]} | Restart r' _ _ => r' | _ => r end.

(** The boot nodes of all the starts. *)
Definition boot_after (b : gset N) (o : op) : gset N := match o with Restart _ b' _ => b ∪ b' | _ => b end.

(** The anchors are those set last. *)
Definition anchors_of (cur : gset N) (o : op) : gset N := match o with SetAnchors l => l | _ => cur end.

(** [sample] of rand: it takes elements of a list, at most [n], and not none if there are some and [n] is positive. *)
Definition good_sample (sample : list N -> nat -> list N) : Prop :=
  forall l n, (forall x, x ∈ sample l n -> x ∈ l) /\ length (sample l n) <= n /\ (l <> [] -> n <> 0 -> sample l n <> []).

(** The node is not connected to the address, did not give it up, and its time of waiting is over. *)
Definition may_call (ad : addr_data) (now : N) : Prop :=
  exists was_reachable failures next, ad_state ad = SDisconnected was_reachable failures next /\ (next <= now)%N.
(** The address was given up, and the time to remember it is over. *)
Definition outlived (ad : addr_data) (now : N) : Prop := exists till, ad_state ad = SUnreachable till /\ (till <= now)%N.

(** An address to connect to at time [now]: it is known, its time of waiting is over, the user did not reserve it, and neither
    a ban nor a discouragement of its ip is in force. *)
Definition eligible (c : config) (d : db) (now : N) (a : N) : Prop :=
  (exists ad, d_addresses d !! a = Some ad /\ may_call ad now) /\ a ∉ d_reserved d /\
  d_banned d !! c_bannable_of c a = None /\ d_discouraged d !! c_bannable_of c a = None.

(** The only ways to forget a known address [a], short of a restart. *)
Definition forgotten_by (d : db) (o : op) (a : N) : Prop :=
  a ∉ d_reserved d /\
  match o with
  | Heartbeat now => exists ad, d_addresses d !! a = Some ad /\ outlived ad now
  | Discovered b _ => b <> a /\ ~ known d b /\ in_new d a /\ exists ad, d_addresses d !! a = Some ad /\ is_unreachable ad = true
  | Connected b _ _ => b <> a /\ in_new d a /\ exists p, in_tried d p
  | RemoveAddress b => a = b
  | _ => False
  end.


(** Attempts to connect to [a] that fail, one after the other. *)
Definition failures (a : N) (ts : list (N * (N -> N))) : list op := map (fun p => Failed a p.1 p.2) ts.
