(** What can be seen of the exchange of transactions with a peer. *)
From Verif Require Import Base BloomModel TxRelayModel.
From stdpp Require Import sorting.
Local Open Scope N_scope.

(** A turn of the loop that happened: what the world decided, what came in and what went out *)
Record entry {Seed : Type} := { h_env : env Seed; h_event : event; h_out : list output }.
Arguments entry : clear implicits.

Definition is_answer (o : output) : Prop := match o with Say (Found _) | Say (NotFound _) => True | _ => False end.
Global Instance answer_dec o : Decision (is_answer o).
Proof. destruct o as [[]| | | |]; cbn; apply _. Defined.

Section Spec.
  Context {Seed : Type} (positions : Seed -> N -> list nat) (service : bool) (max : N).

  (** The turns since the connection, at [time], oldest first, and the state they lead to *)
  Inductive lived (time : N) : list (entry Seed) -> peer Seed -> Prop :=
  | lived_new s0 s1 s2 now delay p : peer_new s0 s1 s2 time now delay = Ok p -> lived time [] p
  | lived_turn l p x p' : lived time l p -> turn positions service max p (h_env x) (h_event x) = Ok (p', h_out x) -> lived time (l ++ [x]) p'.

  (** The node asks the peer for the transaction. *)
  Definition asks (id : N) (x : entry Seed) : Prop := Say (TransactionRequest id) ∈ h_out x.
  (** The peer answers, with the transaction or without it. *)
  Definition answers (id : N) (x : entry Seed) : Prop := h_event x = Heard (Found id) \/ h_event x = Heard (NotFound id).
  (** The node tells the peer of the transaction. *)
  Definition tells (id : N) (x : entry Seed) : Prop := Say (NewTransaction id) ∈ h_out x.
  (** The node wants its peers to hear of the transaction. *)
  Definition relays (id : N) (x : entry Seed) : Prop := match h_event x with RelayableTx j => id = j | Reannouncement js => id ∈ js | _ => False end.

  (** The transaction was asked for at [t], and has not been answered since. *)
  Definition waiting (l : list (entry Seed)) (id t : N) : Prop :=
    exists l1 x l2, l = l1 ++ x :: l2 /\ asks id x /\ e_time (h_env x) = t /\ Forall (fun y => ~ answers id y) l2.
  (** The same, and at no turn since has the clock shown more than an hour later. *)
  Definition waiting_for_less_than_an_hour (l : list (entry Seed)) (id t : N) : Prop :=
    exists l1 x l2, l = l1 ++ x :: l2 /\ asks id x /\ e_time (h_env x) = t /\ Forall (fun y => ~ answers id y) l2 /\
      Forall (fun y => e_purge_time (h_env y) <= t + 3600 * 1000000000) (x :: l2).

  (** The transactions either side has told the other of, in this order. *)
  Definition mentioned (x : entry Seed) : list N :=
    match h_event x with Heard (NewTransaction id) => [id] | _ => [] end ++
    omap (fun o => match o with Say (NewTransaction id) => Some id | _ => None end) (h_out x).
  Definition mentions (l : list (entry Seed)) : list N := flat_map mentioned l.
  Definition last_of (n : nat) (l : list N) : list N := drop (length l - n) l.

  (** The answers among what the node says. *)
  Definition said_answers (out : list output) : list output :=
    filter is_answer out.

  (** The clock does not turn back: neither from turn to turn nor within one. *)
  Fixpoint clock_from (t : N) (l : list (entry Seed)) : Prop :=
    match l with
    | [] => True
    | x :: l' => t <= e_time (h_env x) /\ e_time (h_env x) <= e_purge_time (h_env x) /\ clock_from (e_purge_time (h_env x)) l'
    end.
End Spec.


(** * The sync manager *)

Definition sync_run (l : list sync_event) : gset N := fold_left (fun u ev => (sync_turn u ev).1) l ∅.
(** The transaction of the node's own user is accepted, or found to be there already, and may be relayed. *)
Definition submitted (id : N) (ev : sync_event) : Prop :=
  match ev with TxProcessed j LocalOrigin (ProcessedNew | ProcessedDuplicate) true => j = id | _ => False end.
(** A peer has been given the transaction, or it is no longer in the mempool when it would be announced again. *)
Definition done_with (id : N) (ev : sync_event) : Prop :=
  match ev with TxSent _ j => j = id | RequeueDue pool => id ∉ pool | _ => False end.
