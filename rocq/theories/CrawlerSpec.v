(** What a user of the dns server relies on. *)
From Verif Require Import Base CrawlerModel.

(** The node at [a] is connected and runs [software]. *)
Definition connected (c : crawler) (a software : N) : Prop :=
  exists d i, addresses c !! a = Some d /\ d_state d = Connected i /\ i_software i = software.
(** What is known of the last time the node at [a] was reached, unless it has been given up since. *)
Definition last_met (c : crawler) (a : N) : option info :=
  match addresses c !! a with
  | None => None
  | Some d => match d_state d with
              | Connected i => Some i
              | Connecting _ l | Disconnecting _ l | Disconnected _ l _ => l
              | Unreachable _ _ _ => None
              end
  end.
(** How long to wait after the last failure; [None]: no more attempts. After no failure there is no wait. *)
Definition pause (reserved met : bool) (failures : N) : option N :=
  if (failures =? 0)%N then Some 0%N
  else if negb reserved && negb met then None
  else Some (if failures =? 1 then 60 else if failures =? 2 then 360 else if reserved then 3600
             else if failures =? 3 then 3600 else if failures =? 4 then 10800 else if failures =? 5 then 21600
             else if failures =? 6 then 43200 else 86400)%N.
(** At [t] it is time to call an address. *)
Definition time_to_call (d : adata) (t : N) : Prop :=
  exists failures last since wait, d_state d = Disconnected failures last since /\
    pause (d_reserved d) (bool_decide (is_Some last)) failures = Some wait /\ (failures = 0 \/ since + wait < t)%N.

(** Whom the crawler calls *)
Definition calls (cmds : list command) : list N := omap (fun x => match x with Connect a => Some a | _ => None end) cmds.

Section CrawlerSpec.
  Context (ban_threshold ban_duration interval : N) (bannable : N -> N) (get_dns_ip : N -> option N).
  (** A history: the server starts with what is in its storage and serves nothing; then events come in any order. *)
  Inductive history (reserved : gset N) : crawler * world -> Prop :=
  | history_start t known bans :
      history reserved (new t known bans reserved, {| w_dns := ∅; w_known := known; w_banned := bans |})
  | history_step cw e cw' : history reserved cw -> send_crawler_event ban_threshold ban_duration interval bannable get_dns_ip cw e = Ok cw' ->
      history reserved cw'.
  (** What a list of events leads to *)
  Definition run (cw : crawler * world) (es : list event) : res unit (crawler * world) :=
    rfold (send_crawler_event ban_threshold ban_duration interval bannable get_dns_ip) es cw.
End CrawlerSpec.
