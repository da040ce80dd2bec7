(** C100, continued: what becomes of an address when a call succeeds or fails, and when a connection ends. *)
From Verif Require Import Base CrawlerModel CrawlerSpec.

(** After [failures] failed calls in a row (the last one now), with [met] known of the node. *)
Definition after_failure (reserved : bool) (met : option info) (failures now : N) (s : astate) : Prop :=
  (reserved = true -> s = Disconnected failures met now) /\
  (reserved = false -> is_Some met -> (failures < 35)%N -> s = Disconnected failures met now) /\
  (reserved = false -> is_Some met -> (35 <= failures)%N -> s = Unreachable failures met now) /\
  (reserved = false -> met = None -> s = Unreachable failures None (now + 3600)).

Lemma to_disconnected (d : adata) (now : N) f (met : option info) :
  match d_state d with Connecting f' l | Disconnecting f' l => f = f' /\ met = l | Connected i => f = 0%N /\ met = Some i | _ => False end ->
  exists s, transition_to d ToDisconnected now = Some s /\ after_failure (d_reserved d) met (f + 1) now s.
Proof.
  intros H. unfold transition_to. destruct (d_state d) as [f' l|i|f' l| |] eqn:S; try done; destruct H as [-> ->]; (eexists; split; [reflexivity|]);
    unfold after_failure, was_reachable, fail_count, connection_info, PURGE_REACHABLE_FAIL_COUNT, PURGE_UNREACHABLE_TIME; destruct (d_reserved d).
  all: try (split_and!; [done|intros; discriminate..]).
  all: try destruct l as [i|].
  all: try match goal with |- context [bool_decide ?P] => first [rewrite (bool_decide_eq_true_2 P) by eauto|rewrite (bool_decide_eq_false_2 P) by (intros [? ?]; discriminate)] end.
  all: try match goal with |- context [(?x <=? ?y)%N] => destruct (N.leb_spec x y) end; split_and!; try done; intros; try done; try lia.
  all: try match goal with H : is_Some None |- _ => destruct H as [? H]; discriminate end.
Qed.

(** C100, failed: a call that fails counts one failure more. *)
Theorem C100_failed (threshold duration interval : N) (bannable : N -> N) (c : crawler) (a : N) (d : adata) (f : N) (met : option info) :
  addresses c !! a = Some d -> d_state d = Connecting f met ->
  exists c' cmds d', step threshold duration interval bannable c (ConnectionError a) = Ok (c', cmds) /\ addresses c' = <[a := d']> (addresses c) /\
    d_reserved d' = d_reserved d /\ after_failure (d_reserved d) met (f + 1) (now c) (d_state d') /\ now c' = now c /\ peers c' = peers c /\ banned c' = banned c.
Proof.
  intros A S. cbn [step]. unfold change_address_state. cbn [fst snd]. rewrite A. cbn [expect rbind].
  destruct (to_disconnected d (now c) f met) as (s & -> & H); [by rewrite S|]. cbn [expect rbind]. eexists _, _, _. split_and!; [reflexivity|reflexivity|done..].
Qed.
(** C100, closed: the end of a connection counts as the first failure after it; if the connection never came about, as one more; the peer is gone. *)
Theorem C100_closed (threshold duration interval : N) (bannable : N -> N) (c : crawler) (p : N) (peer : cpeer) (d : adata) (f : N) (met : option info) :
  peers c !! p = Some peer -> addresses c !! p_address peer = Some d ->
  ((exists i, d_state d = Connected i /\ f = 0%N /\ met = Some i) \/ d_state d = Disconnecting f met) ->
  exists c' cmds d', step threshold duration interval bannable c (PeerDisconnected p) = Ok (c', cmds) /\ addresses c' = <[p_address peer := d']> (addresses c) /\
    d_reserved d' = d_reserved d /\ after_failure (d_reserved d) met (f + 1) (now c) (d_state d') /\ now c' = now c /\ peers c' = delete p (peers c) /\ banned c' = banned c.
Proof.
  intros P A S. cbn [step]. unfold remove_outbound_peer, change_address_state. cbn [fst snd]. rewrite P. cbn [expect rbind]. cbn [addresses set_peers now fst]. rewrite A. cbn [expect rbind].
  destruct (to_disconnected d (now c) f met) as (s & -> & H); [destruct S as [(i & -> & -> & ->)| ->]; done|].
  cbn [expect rbind]. eexists _, _, _. split_and!; [reflexivity|reflexivity|done..].
Qed.
(** C100, connected: a compatible node that was called is connected, is asked for addresses exactly if it was not for the set interval, and its answer is expected then. *)
Theorem C100_connected (threshold duration interval : N) (bannable : N -> N) (c : crawler) (a p software : N) (d : adata) (f : N) (met : option info) :
  peers c !! p = None -> addresses c !! a = Some d -> d_state d = Connecting f met ->
  exists c' cmds d' peer i, step threshold duration interval bannable c (PeerConnected a p software true) = Ok (c', cmds) /\
    addresses c' = <[a := d']> (addresses c) /\ d_reserved d' = d_reserved d /\ d_state d' = Connected i /\ i_software i = software /\
    peers c' = <[p := peer]> (peers c) /\ p_address peer = a /\ p_score peer = 0%N /\
    (let asked := i ← met; i_asked i in
     ((exists t, asked = Some t /\ (now c < t + interval)%N) \/ (asked = None /\ (now c < interval)%N) -> RequestAddresses p ∉ cmds /\ p_expecting peer = false /\ i_asked i = asked) /\
     ((exists t, asked = Some t /\ (t + interval <= now c)%N) \/ (asked = None /\ (interval <= now c)%N) -> RequestAddresses p ∈ cmds /\ p_expecting peer = true /\ i_asked i = Some (now c))).
Proof.
  intros P A S. cbn [step]. unfold create_outbound_peer. cbn [fst snd]. rewrite P. cbn [addresses set_peers now]. rewrite A. cbn [expect rbind].
  unfold change_address_state. cbn [fst snd addresses set_peers now]. rewrite A. cbn [expect rbind]. unfold transition_to. rewrite S. cbn [expect rbind connection_info].
  destruct (N.leb_spec (default 0%N (i ← met; i_asked i) + interval) (now c)) as [L|L].
  - eexists _, _, _, _, _. split; [reflexivity|]. cbn [say fst snd addresses peers set_peers set_addresses d_reserved d_state]. split; [reflexivity|]. split; [reflexivity|]. split; [reflexivity|].
    split; [reflexivity|]. split; [apply insert_insert|]. split; [reflexivity|]. split; [reflexivity|]. cbn [i_software i_asked p_address p_score p_expecting].
    cbv zeta. split.
    + intros [(t & Q & R)|[Q R]]; rewrite Q in L; cbn in L; lia.
    + intros _. split_and!; try done. right. by left.
  - eexists _, _, _, _, _. split; [reflexivity|]. cbn [say fst snd addresses peers set_peers set_addresses d_reserved d_state]. split; [reflexivity|]. split; [reflexivity|]. split; [reflexivity|].
    split; [reflexivity|]. split; [reflexivity|]. split; [reflexivity|]. split; [reflexivity|]. cbn [i_software i_asked p_address p_score p_expecting].
    cbv zeta. split.
    + intros _. split_and!; try done. intros [B|B]%elem_of_cons; [discriminate|by apply elem_of_nil in B].
    + intros [(t & Q & R)|[Q R]]; rewrite Q in L; cbn in L; lia.
Qed.
(** C100, incompatible: an incompatible node is told to go and is not connected. *)
Theorem C100_incompatible (threshold duration interval : N) (bannable : N -> N) (c : crawler) (a p software : N) (d : adata) (f : N) (met : option info) :
  peers c !! p = None -> addresses c !! a = Some d -> d_state d = Connecting f met ->
  exists c' cmds d', step threshold duration interval bannable c (PeerConnected a p software false) = Ok (c', cmds) /\
    addresses c' = <[a := d']> (addresses c) /\ d_reserved d' = d_reserved d /\ d_state d' = Disconnecting f met /\ Disconnect p ∈ cmds /\ is_Some (peers c' !! p).
Proof.
  intros P A S. cbn [step]. unfold create_outbound_peer. cbn [fst snd]. rewrite P. unfold disconnect_peer, change_address_state, say. cbn [fst snd addresses set_peers now]. rewrite A. cbn [expect rbind].
  unfold transition_to. rewrite S. cbn [expect rbind connection_info fail_count]. eexists _, _, _. split_and!; [reflexivity|reflexivity|done|done|left|]. cbn. rewrite lookup_insert. eauto.
Qed.
(** C100, announced: an address a peer announces within its rate is new and may be called at once, unless it is known; beyond the rate nothing happens. *)
Theorem C100_announced (threshold duration interval : N) (bannable : N -> N) (c : crawler) (a p : N) (within_rate : bool) :
  is_Some (peers c !! p) ->
  exists c', step threshold duration interval bannable c (AddressAnnouncement a p within_rate) = Ok (c', []) /\
    (within_rate = false \/ is_Some (addresses c !! a) -> c' = c) /\
    (within_rate = true -> addresses c !! a = None -> exists d, addresses c' = <[a := d]> (addresses c) /\ d_reserved d = false /\ time_to_call d (now c)).
Proof.
  intros [peer P]. cbn [step]. rewrite P. cbn [expect rbind]. eexists. split; [reflexivity|]. unfold add_new_address. split.
  - intros [->|[d D]]; [done|]. rewrite D. by destruct within_rate.
  - intros -> D. rewrite D. eexists. split; [reflexivity|]. split; [done|]. exists 0%N, None, (now c), 0%N. split_and!; [done|done|by left].
Qed.

(** A case: 1 is being called, has been met; 2 is connected as peer 7 *)
Definition case_crawler : crawler :=
  {| now := 200000; addresses := list_to_map [(1%N, {| d_state := Connecting 34 (Some {| i_software := 5; i_asked := Some 150000%N |}); d_reserved := false |});
                                            (2%N, {| d_state := Connected {| i_software := 6; i_asked := None |}; d_reserved := false |})];
     banned := ∅; peers := {[7%N := {| p_address := 2; p_score := 0; p_expecting := false |}]} |}.
Example C100_case_outcomes : exists d1 d2 f met i peer, addresses case_crawler !! 1%N = Some d1 /\ d_state d1 = Connecting f met /\ peers case_crawler !! 8%N = None /\
  peers case_crawler !! 7%N = Some peer /\ addresses case_crawler !! p_address peer = Some d2 /\ d_state d2 = Connected i /\
  (exists t, (i ← met; i_asked i) = Some t /\ (now case_crawler < t + 86400)%N) /\ addresses case_crawler !! 3%N = None.
Proof. eexists _, _, _, _, _, _. split_and!; try (vm_compute; reflexivity). exists 150000%N. split; vm_compute; reflexivity. Qed.

Print Assumptions C100_failed.
Print Assumptions C100_closed.
Print Assumptions C100_connected.
Print Assumptions C100_incompatible.
Print Assumptions C100_announced.
