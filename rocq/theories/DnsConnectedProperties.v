(** C101, continued: with the crawler. An answer sends its reader to connected nodes. *)
From Verif Require Import Base CrawlerModel CrawlerSpec CrawlerProperties DnsAnswerModel DnsAnswerProperties.

(** C101, connected: whatever has happened to the server, each ip in an answer is that of a node that is connected at that moment; no ip is
    there twice; and as long as a node with an ip that can be served is connected, an answer with any place in it is not empty. *)
Theorem C101_connected (threshold duration interval : N) (bannable : N -> N) (get_dns_ip : N -> option N) (reserved : gset N) (cw : crawler * world)
  (pick_same pick_other : nat -> list N -> list N) (own_version : N) (count preferred : nat) :
  (forall a b ip, get_dns_ip a = Some ip -> get_dns_ip b = Some ip -> a = b) ->
  history threshold duration interval bannable get_dns_ip reserved cw ->
  sampler pick_same -> sampler pick_other ->
  exists l, select_addresses pick_same pick_other (w_dns cw.2) own_version count preferred = Some l /\ NoDup l /\ length l <= count /\
    (forall ip, ip ∈ l -> exists a software, get_dns_ip a = Some ip /\ connected cw.1 a software) /\
    (0 < count -> (exists a ip software, get_dns_ip a = Some ip /\ connected cw.1 a software) -> l <> []).
Proof.
  intros I H S1 S2. destruct (C101_answer pick_same pick_other (w_dns cw.2) own_version count preferred S1 S2) as (l & E & ND & IN & LEN & _).
  exists l. split_and!; [done|done|lia| |].
  - intros ip M. apply IN in M as [software M]. apply (C99_served threshold duration interval bannable get_dns_ip reserved cw ip software I H) in M as (a & A & B). eauto.
  - intros C (a & ip & software & A & B) ->. cbn in LEN.
    assert (w_dns cw.2 !! ip = Some software) as M by (apply (C99_served threshold duration interval bannable get_dns_ip reserved cw ip software I H); eauto).
    assert (size (w_dns cw.2) <> 0) as N; [|lia]. intros Z. apply map_size_empty_iff in Z. rewrite Z, lookup_empty in M. discriminate.
Qed.

(** A case: the history of [C99_case], in which the node at 1 is connected, is answered with its ip *)
Example C101_case_connected : exists cw, history 100 86400 86400 case_bannable case_ip {[4%N]} cw /\ (exists a ip software, case_ip a = Some ip /\ connected cw.1 a software) /\
  select_addresses take take (w_dns cw.2) 6 3 2 = Some [11%N].
Proof.
  eexists. split; [apply (case_history case_events); vm_compute; reflexivity|]. split; [|vm_compute; reflexivity].
  exists 1%N, 11%N, 6%N. split; [vm_compute; reflexivity|]. eexists _, _. split_and!; [vm_compute; reflexivity|reflexivity|reflexivity].
Qed.

Print Assumptions C101_connected.
