From Verif Require Import Base PeerManagerModel PeerManagerSpec.

(** * What the peers say, and what the node remembers of it *)

(** The ping that waits for its response, with its nonce and its time, and the shortest time to a response. *)
Definition pings_after (now : N) (nonce : N) (id : N) (x : ctx) (e : event) : option (N * N) * option N :=
  match e with
  | PingCheckDue => (match x_ping x with None => Some (nonce, now) | Some p => Some p end, x_ping_min x)
  | MessageFrom j (PingResponse n) =>
    match x_ping x with
    | Some (n', t) =>
      if decide (j = id /\ n = n') then (None, Some (match x_ping_min x with Some p => N.min p (now - t) | None => now - t end)%N)
      else (x_ping x, x_ping_min x)
    | None => (x_ping x, x_ping_min x)
    end
  | _ => (x_ping x, x_ping_min x)
  end.
Definition no_restart (l : list (N * rnd * event)) : Prop := Forall (fun s => match s.2 with NodeRestart _ _ _ => False | _ => True end) l.
Definition stays (id : N) (l : list (N * rnd * event)) : Prop := Forall (fun s => match s.2 with ConnectionClosed j => j <> id | _ => True end) l.
(** An address that is worth telling: others can reach it, it is known and its ip is neither banned nor discouraged. *)
Definition worth_telling (c : settings) (m : mgr) (a : N) : Prop :=
  p_discoverable c a = true /\ is_Some (PeerDbModel.d_addresses (m_db m) !! a) /\
  PeerDbModel.d_banned (m_db m) !! ip c a = None /\ PeerDbModel.d_discouraged (m_db m) !! ip c a = None.
