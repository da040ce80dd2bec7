(** What choosing a peer to disconnect means, independently of how it is done. *)
From Coq Require Import Permutation Sorted.
From Verif Require Import Base EvictionModel.

(** A sorting function gives back what it was given, in order. Nothing is said of elements that compare equal. *)
Definition sorts (sort : sorting) : Prop :=
  forall (A : Type) (leb : A -> A -> bool) (l : list A),
    (forall x y, leb x y = true \/ leb y x = true) -> (forall x y z, leb x y = true -> leb y z = true -> leb x z = true) ->
    Permutation (sort A leb l) l /\ StronglySorted (fun x y => leb x y = true) (sort A leb l).

(** The peers that can be disconnected for being too many of their kind. *)
Definition of_kind (r : role) (p : peer) : Prop := p_role p = r /\ p_disconnecting p = false.
Global Instance of_kind_dec r p : Decision (of_kind r p) := and_dec _ _.
Definition number (P : peer -> Prop) `{forall p, Decision (P p)} (ps : list peer) : nat := length (filter P ps).

Definition distinct_ids (ps : list peer) : Prop := NoDup (map p_id ps).
(** The keyed hash tells the groups of these peers apart. *)
Definition groups_told_apart (key : Z -> Z) (ps : list peer) : Prop :=
  forall p q, p ∈ ps -> q ∈ ps -> key (p_group p) = key (p_group q) -> p_group p = p_group q.

(** The ping in whole microseconds; a peer that never answered counts as the slowest. *)
Definition ping_micros (p : peer) : Z := match p_ping_min p with None => I64_MAX | Some d => Z.of_N (d / 1000) end.
(** No ping took more than 292 thousand years. *)
Definition sane_pings (ps : list peer) : Prop := forall p, p ∈ ps -> (ping_micros p <= I64_MAX)%Z.
(** The moments at which blocks were asked for are far from the end of time. *)
Definition sane_times (ps : list peer) : Prop :=
  forall p e, p ∈ ps -> p_expecting p = Some e -> (e + 5000000000 <= DURATION_MAX)%N.

(** [at_least_as_late a b]: [b] is not earlier than [a]; "never" is the earliest. *)
Definition at_least_as_late (a b : option N) : Prop :=
  match a, b with None, _ => True | Some _, None => False | Some x, Some y => (x <= y)%N end.
Global Instance at_least_as_late_dec a b : Decision (at_least_as_late a b).
Proof. destruct a, b; cbn; apply _. Defined.

(** The moment of the last new tip that a peer gave; one that is to give blocks for at most five seconds counts as giving
    one now. *)
Definition last_tip (now : N) (p : peer) : option N :=
  match p_expecting p with
  | Some e => if decide (now <= e + 5000000000)%N then Some now else p_last_tip p
  | None => p_last_tip p
  end.
(** Connected for at least [age]. *)
Definition connected_for (now age : N) (p : peer) : Prop := (age <= now - p_created p)%N.

(** The two kinds of automatic outbound connections, how many of each are wanted, and how long one is left alone. *)
Definition wanted (r : role) (cfg : config) : nat :=
  match r with OutboundBlockRelay => block_relay_count cfg | _ => full_relay_count cfg end.
Definition min_age (r : role) (cfg : config) : N :=
  match r with OutboundBlockRelay => block_relay_min_age cfg | _ => full_relay_min_age cfg end.
Definition evict_outbound (r : role) := match r with OutboundBlockRelay => evict_block_relay | _ => evict_full_relay end.
Global Instance connected_for_dec now age p : Decision (connected_for now age p).
Proof. unfold connected_for. apply _. Defined.
