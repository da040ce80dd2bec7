(** C99: what the dns server serves and remembers. C100: whom its crawler calls, bans, keeps and forgets. *)
From Verif Require Import Base CrawlerModel CrawlerSpec CrawlerProofs CrawlerMoves.

(** C99, served: at every point of every history, an ip is served exactly if the node at it is connected, with the software that node runs. *)
Theorem C99_served (threshold duration interval : N) (bannable : N -> N) (get_dns_ip : N -> option N) (reserved : gset N) (cw : crawler * world) (ip software : N) :
  (forall a b ip, get_dns_ip a = Some ip -> get_dns_ip b = Some ip -> a = b) ->
  history threshold duration interval bannable get_dns_ip reserved cw ->
  w_dns cw.2 !! ip = Some software <-> exists a, get_dns_ip a = Some ip /\ connected cw.1 a software.
Proof. intros I H. apply (g_dns get_dns_ip). by eapply history_agrees. Qed.

(** C99, stored: the storage holds, of every address, what was last learnt from the node at it, unless it was given up; and exactly the bans in force. *)
Theorem C99_stored (threshold duration interval : N) (bannable : N -> N) (get_dns_ip : N -> option N) (reserved : gset N) (cw : crawler * world) :
  (forall a b ip, get_dns_ip a = Some ip -> get_dns_ip b = Some ip -> a = b) ->
  history threshold duration interval bannable get_dns_ip reserved cw ->
  (forall a, w_known cw.2 !! a = last_met cw.1 a) /\ w_banned cw.2 = banned cw.1.
Proof. intros I H. destruct (history_agrees threshold duration interval bannable get_dns_ip I reserved cw H) as [_ A B]. done. Qed.

(** C100, called: nobody is called but at a heartbeat; there at most 25 addresses, each once, that are known, not banned and due. *)
Theorem C100_called (threshold duration interval : N) (bannable : N -> N) (c : crawler) (e : event) (c' : crawler) (cmds : list command) :
  step threshold duration interval bannable c e = Ok (c', cmds) ->
  length (calls cmds) <= 25 /\ NoDup (calls cmds) /\
  forall a, a ∈ calls cmds -> exists period sample d, e = Timer period sample /\ a ∈ sample /\ addresses c !! a = Some d /\
    time_to_call d (now c + period) /\ (forall until, banned c !! bannable a = Some until -> (until <= now c + period)%N).
Proof.
  intros E. destruct e as [period sample|a sender wr|l sender|a p sw cp|p|a|p n|a n].
  2-8: apply step_spec in E as (_ & _ & E); cbn [snd] in E; rewrite E; split_and!; [cbn; lia|constructor|intros x X; by apply elem_of_nil in X].
  cbn [step] in E. destruct (_ <=? _)%N; [|discriminate]. apply heartbeat_spec in E as (_ & _ & E). cbn [snd] in E. rewrite E. clear E. split_and!.
  - rewrite take_length. unfold MAX_CONNECTS_PER_HEARTBEAT. lia.
  - match goal with |- NoDup (take ?n ?l) => assert (NoDup l) as ND by apply NoDup_filter, NoDup_remove_dups; rewrite <- (take_drop n l) in ND; apply NoDup_app in ND as [ND _]; exact ND end.
  - intros a A. apply elem_of_take in A as (i & A & _). apply elem_of_list_lookup_2, elem_of_list_filter in A as [A S]. apply (proj1 (elem_of_remove_dups _ _)) in S.
    unfold may_connect in A. cbn [addresses set_banned now banned] in A. destruct (addresses c !! a) as [d|] eqn:D; [|done].
    apply Is_true_eq_true, andb_true_iff in A as [A B]. apply bool_decide_eq_true in B. exists period, sample, d. split_and!; try done.
    + by apply connect_now_spec.
    + intros u U. apply map_filter_lookup_None in B as [B|B]; [congruence|]. specialize (B u U). cbn in B. lia.
Qed.

(** C100, due: an address the sample of a heartbeat offers is called if it is known, due and not banned any more, when the sample is not too large. *)
Theorem C100_due (threshold duration interval : N) (bannable : N -> N) (c : crawler) (period : N) (sample : list N) (c' : crawler) (cmds : list command) (a : N) (d : adata) :
  step threshold duration interval bannable c (Timer period sample) = Ok (c', cmds) -> length sample <= 25 -> a ∈ sample ->
  addresses c !! a = Some d -> time_to_call d (now c + period) -> (forall until, banned c !! bannable a = Some until -> (until <= now c + period)%N) ->
  a ∈ calls cmds.
Proof.
  intros E L S D T B. cbn [step] in E. destruct (_ <=? _)%N; [|discriminate]. apply heartbeat_spec in E as (_ & _ & E). cbn [snd] in E. rewrite E. clear E.
  rewrite take_ge.
  - apply elem_of_list_filter. split; [|by apply elem_of_remove_dups]. unfold may_connect. cbn [addresses set_banned now banned]. rewrite D.
    apply connect_now_spec in T. rewrite T. cbn [andb]. apply Is_true_eq_left, bool_decide_eq_true. apply map_filter_lookup_None. right. intros u U. cbn. specialize (B u U). lia.
  - etransitivity; [|exact L]. etransitivity; [apply filter_length|]. clear. induction sample as [|x s IH]; [done|]. cbn [remove_dups]. destruct (decide_rel _ _ _); cbn; lia.
Qed.

(** C100, reserved: the addresses the operator gave are never forgotten or given up. *)
Theorem C100_reserved (threshold duration interval : N) (bannable : N -> N) (get_dns_ip : N -> option N) (reserved : gset N) (cw : crawler * world) (a : N) :
  history threshold duration interval bannable get_dns_ip reserved cw -> a ∈ reserved ->
  exists d, addresses cw.1 !! a = Some d /\ d_reserved d = true /\ forall f l e, d_state d <> Unreachable f l e.
Proof.
  intros H A. induction H as [t known bans|[c w] e cw' _ IH E].
  - cbn [fst]. rewrite new_lookup. destruct (known !! a).
    + eexists. split; [reflexivity|]. cbn. rewrite bool_decide_eq_true_2 by done. done.
    + rewrite decide_True by done. eexists. split; [reflexivity|]. done.
  - unfold send_crawler_event in E. destruct (step _ _ _ _ _ _) as [[c' cmds]| |] eqn:S; try discriminate. injection E as <-. cbn [fst] in *.
    apply step_spec in S as (_ & S & _). by eapply moves_reserved.
Qed.

Lemma disconnect_all_same (bannable : N -> N) st b st' : disconnect_all bannable st b = Ok st' ->
  banned st'.1 = banned st.1 /\ now st'.1 = now st.1 /\ peers st'.1 = peers st.1 /\ (forall x, x ∈ st.2 -> x ∈ st'.2) /\
  forall q peer, peers st.1 !! q = Some peer -> bannable (p_address peer) = b -> Disconnect q ∈ st'.2.
Proof.
  unfold disconnect_all. intros E.
  assert (forall l st st', rfold disconnect_peer l st = Ok st' -> banned st'.1 = banned st.1 /\ now st'.1 = now st.1 /\ peers st'.1 = peers st.1 /\ (forall x, x ∈ st.2 -> x ∈ st'.2) /\ forall pa, pa ∈ l -> Disconnect pa.1 ∈ st'.2) as H.
  { clear. induction l as [|pa l IH]; intros st st' E; cbn [rfold] in E; [injection E as <-; split_and!; try done; intros pa B; by apply elem_of_nil in B|].
    destruct (disconnect_peer st pa) as [st1| |] eqn:D; try discriminate. destruct (IH _ _ E) as (A & B & C & F & G). unfold disconnect_peer, change_address_state in D.
    destruct (addresses _ !! _) as [d|]; [|discriminate]. cbn [expect rbind] in D. destruct (transition_to _ _ _) as [s|]; [|discriminate]. injection D as <-. cbn in A, B, C, F.
    split_and!; try done.
    - intros x X. apply F, elem_of_app. left. apply elem_of_app. by left.
    - intros x [->|X]%elem_of_cons; [|by apply G]. apply F, elem_of_app. left. apply elem_of_app. right. by apply elem_of_list_singleton. }
  destruct (H _ _ _ E) as (A & B & C & D & G). split_and!; try done. intros q peer Q W. apply (G (q, p_address peer)).
  apply elem_of_list_omap. exists (q, peer). split; [by apply elem_of_map_to_list|]. cbn [fst snd]. rewrite decide_True by done. done.
Qed.
(** C100, banned: a host whose node misbehaves in the handshake, or by and by as a peer, up to the threshold, is banned for the set time, and all its connections are closed. *)
Theorem C100_banned (threshold duration interval : N) (bannable : N -> N) (c : crawler) (e : event) (c' : crawler) (cmds : list command) (a : N) :
  step threshold duration interval bannable c e = Ok (c', cmds) ->
  ((exists score, e = MisbehavedOnHandshake a score /\ (threshold <= score)%N) \/
   (exists p peer score, e = Misbehaved p score /\ peers c !! p = Some peer /\ p_address peer = a /\ (0 < score)%N /\ (threshold <= p_score peer + score)%N)) ->
  banned c' !! bannable a = Some (now c + duration)%N /\
  forall q peer, peers c !! q = Some peer -> bannable (p_address peer) = bannable a -> Disconnect q ∈ cmds.
Proof.
  intros E H.
  assert (forall c1 score c' cmds, handle_new_ban_score threshold duration bannable (c1, []) a score = Ok (c', cmds) -> (threshold <= score)%N ->
    banned c' !! bannable a = Some (now c1 + duration)%N /\ forall q peer, peers c1 !! q = Some peer -> bannable (p_address peer) = bannable a -> Disconnect q ∈ cmds) as K.
  { clear. intros c1 score c' cmds E T. unfold handle_new_ban_score in E. replace (threshold <=? score)%N with true in E by lia.
    destruct (disconnect_all bannable (c1, []) (bannable a)) as [st1| |] eqn:D; try discriminate. cbn [rbind] in E. injection E as <- <-.
    apply disconnect_all_same in D as (A & B & C & _ & F). cbn [fst snd] in *. split; [cbn; rewrite lookup_insert, B; done|].
    intros q peer Q W. apply elem_of_app. left. by eapply F. }
  destruct H as [(score & -> & T)|(p & peer & score & -> & P & PA & S & T)].
  - by eapply K.
  - cbn [step] in E. unfold handle_misbehaved_peer in E. replace (0 <? score)%N with true in E by lia. cbn [fst snd] in E. rewrite P in E. cbn [expect rbind] in E. rewrite PA in E.
    apply K in E as [A B]; [|done]. split; [exact A|]. intros q peer' Q W. cbn [peers set_peers] in B. destruct (decide (p = q)) as [->|N].
    + eapply B; [apply lookup_insert|]. cbn. congruence.
    + eapply B; [rewrite lookup_insert_ne by done; exact Q|done].
Qed.
(** C100, counted: below the threshold nobody is banned, and what a peer did wrong is remembered. *)
Theorem C100_counted (threshold duration interval : N) (bannable : N -> N) (c : crawler) (p score : N) (peer : cpeer) :
  peers c !! p = Some peer -> (p_score peer + score < threshold)%N ->
  exists c' peer', step threshold duration interval bannable c (Misbehaved p score) = Ok (c', []) /\ banned c' = banned c /\ addresses c' = addresses c /\
    peers c' !! p = Some peer' /\ p_score peer' = (p_score peer + score)%N /\ p_address peer' = p_address peer.
Proof.
  intros P T. cbn [step]. unfold handle_misbehaved_peer. cbn [fst snd]. destruct (0 <? score)%N eqn:Z.
  - rewrite P. cbn [expect rbind]. unfold handle_new_ban_score. cbn [p_score]. replace (threshold <=? p_score peer + score)%N with false by lia.
    eexists _, _. split_and!; [reflexivity|done|done|apply lookup_insert|done|done].
  - eexists _, peer. split_and!; [reflexivity|done|done|done|lia|done].
Qed.
(** C100, bans last: whoever is banned stays so until the time is over. *)
Theorem C100_ban_kept (threshold duration interval : N) (bannable : N -> N) (c : crawler) (e : event) (c' : crawler) (cmds : list command) (b until : N) :
  step threshold duration interval bannable c e = Ok (c', cmds) -> banned c !! b = Some until -> (until <= now c')%N \/ is_Some (banned c' !! b).
Proof.
  intros E B. assert (forall st a t st', change_address_state st a t = Ok st' -> banned st'.1 = banned st.1) as CH.
  { clear. intros st a t st' E. unfold change_address_state in E. destruct (addresses _ !! _) as [d|]; [|discriminate]. cbn [expect rbind] in E.
    destruct (transition_to _ _ _) as [s|]; [|discriminate]. injection E as <-. done. }
  assert (forall c1 a score st', handle_new_ban_score threshold duration bannable (c1, []) a score = Ok st' -> is_Some (banned c1 !! b) -> is_Some (banned st'.1 !! b)) as SC.
  { clear. intros c1 a score st' E S. unfold handle_new_ban_score in E. destruct (_ <=? _)%N; [|injection E as <-; done].
    destruct (disconnect_all bannable (c1, []) (bannable a)) as [st1| |] eqn:D; try discriminate. cbn [rbind] in E. injection E as <-.
    apply disconnect_all_same in D as (A & _). cbn [fst banned set_banned]. destruct (decide (bannable a = b)) as [<-|N]; [rewrite lookup_insert; eauto|].
    rewrite lookup_insert_ne, A by done. done. }
  destruct e as [period sample|a sender wr|l sender|a p sw cp|p|a|p n|a n]; cbn [step] in E.
  - destruct (_ <=? _)%N; [|discriminate]. unfold heartbeat in E. cbv zeta in E. destruct (rfold _ _ _) as [st1| |] eqn:F; try discriminate. cbn [rbind] in E. injection E as <- <-.
    cbn [now set_addresses banned]. assert (forall l st st', rfold start_connecting l st = Ok st' -> banned st'.1 = banned st.1 /\ now st'.1 = now st.1) as H.
    { clear - CH. induction l as [|a l IH]; intros st st' E; cbn [rfold] in E; [by injection E as <-|]. unfold start_connecting in E at 1.
      destruct (change_address_state st a ToConnecting) as [st1| |] eqn:D; try discriminate. cbn [rbind] in E. apply IH in E as [A B].
      pose proof (quiet_change _ _ _ _ D) as [[N _] _]. apply CH in D. cbn in A, B. split; congruence. }
    apply H in F as [F1 F2]. rewrite F1, F2. cbn. destruct (decide (now c + period < until)%N) as [L|L]; [right|left; lia].
    exists until. apply map_filter_lookup_Some. done.
  - right. destruct (peers c !! sender); [|discriminate]. injection E as <- <-. destruct wr; [|eauto]. unfold add_new_address. destruct (addresses c !! a); eauto.
  - right. destruct (peers c !! sender) as [peer|]; [|discriminate]. injection E as <- <-. match goal with |- is_Some (banned (if _ then fold_left _ _ ?c1 else _) !! _) => set (c2 := c1) end.
    assert (banned c2 = banned c) as Q by done. destruct (p_expecting peer); [|rewrite Q; eauto]. revert Q. generalize c2. induction l as [|x l IH]; intros c3 Q; cbn [fold_left]; [rewrite Q; eauto|].
    apply IH. unfold add_new_address. destruct (addresses c3 !! x); done.
  - right. unfold create_outbound_peer in E. cbn [fst snd] in E. destruct (peers c !! p); [discriminate|]. destruct cp.
    + destruct (addresses _ !! a) as [d|]; [|discriminate]. cbn [expect rbind] in E. set (need := (_ <=? _)%N) in E.
      destruct (change_address_state _ a (ToConnected sw need)) as [st1| |] eqn:G; try discriminate. cbn [rbind] in E. apply CH in G. cbn in G.
      assert (banned c' = banned st1.1) as Q by (destruct need; [injection E as E1 E2; subst c'; done|injection E as E1; subst st1; done]). rewrite Q, G. eauto.
    + apply CH in E. cbn in E. rewrite E. eauto.
  - right. unfold remove_outbound_peer in E. cbn [fst snd] in E. destruct (peers c !! p) as [peer|]; [|discriminate]. apply CH in E. cbn in E. rewrite E. eauto.
  - right. apply CH in E. cbn in E. rewrite E. eauto.
  - right. unfold handle_misbehaved_peer in E. destruct (0 <? n)%N; [|injection E as <- <-; eauto]. cbn [fst snd] in E. destruct (peers c !! p) as [peer|]; [|discriminate].
    cbn [expect rbind] in E. apply SC in E; [done|]. cbn. eauto.
  - right. apply SC in E; [done|]. eauto.
Qed.

(** C100, lists: a list of addresses that was not asked for is ignored; one that was is taken whole, once. *)
Theorem C100_lists (threshold duration interval : N) (bannable : N -> N) (c : crawler) (l : list N) (p : N) (peer : cpeer) :
  peers c !! p = Some peer ->
  exists c' peer', step threshold duration interval bannable c (AddressListResponse l p) = Ok (c', []) /\ peers c' !! p = Some peer' /\ p_expecting peer' = false /\
    (p_expecting peer = false -> addresses c' = addresses c) /\
    (p_expecting peer = true -> forall a, is_Some (addresses c' !! a) <-> is_Some (addresses c !! a) \/ a ∈ l) /\
    (forall a d, addresses c !! a = Some d -> addresses c' !! a = Some d).
Proof.
  intros P. cbn [step]. rewrite P. cbn [expect rbind].
  set (c1 := set_peers c _). assert (addresses c1 = addresses c) as A1 by done.
  assert (forall l c1, peers (fold_left add_new_address l c1) = peers c1 /\ (forall a, is_Some (addresses (fold_left add_new_address l c1) !! a) <-> is_Some (addresses c1 !! a) \/ a ∈ l) /\
    (forall a d, addresses c1 !! a = Some d -> addresses (fold_left add_new_address l c1) !! a = Some d)) as F.
  { clear. induction l as [|x l IH]; intros c1; cbn [fold_left]; [split_and!; try done; intros a; rewrite elem_of_nil; tauto|].
    destruct (IH (add_new_address c1 x)) as (A & B & C). unfold add_new_address in *. destruct (addresses c1 !! x) as [d|] eqn:X.
    - split_and!; try done. intros a. rewrite B, elem_of_cons. split; [tauto|]. intros [?|[->|?]]; eauto.
    - split_and!; [done| |].
      + intros a. rewrite B, elem_of_cons. cbn. destruct (decide (x = a)) as [->|N]; [rewrite lookup_insert|rewrite lookup_insert_ne by done]; naive_solver.
      + intros a d D. apply C. cbn. rewrite lookup_insert_ne by congruence. done. }
  destruct (F l c1) as (A & B & C). eexists _, _. split_and!; [reflexivity| | | | |].
  - destruct (p_expecting peer); [rewrite A|]; apply lookup_insert.
  - done.
  - intros ->. done.
  - intros ->. intros a. rewrite B, A1. done.
  - intros a d D. destruct (p_expecting peer); [|done]. apply C. done.
Qed.

(** C100, given up for good: once the time is over at which an address that was given up was to be forgotten, it never is, and it is never called again. *)
Theorem C100_given_up_for_good (threshold duration interval : N) (bannable : N -> N) (get_dns_ip : N -> option N) (es : list event) :
  forall (cw cw' : crawler * world) (a : N) (d : adata) (f : N) (l : option info) (erase_after : N),
  addresses cw.1 !! a = Some d -> d_state d = Unreachable f l erase_after -> (erase_after < now cw.1)%N ->
  run threshold duration interval bannable get_dns_ip cw es = Ok cw' ->
  addresses cw'.1 !! a = Some d /\ forall e c cmds, step threshold duration interval bannable cw'.1 e = Ok (c, cmds) -> a ∉ calls cmds.
Proof.
  induction es as [|e es IH]; intros cw cw' a d f l er A S L E; cbn [run rfold] in E.
  - injection E as <-. split; [done|]. intros e c cmds T B. apply C100_called in T as (_ & _ & T). apply T in B as (pe & sa & d' & -> & _ & D & (x & y & z & w & Q & _) & _). congruence.
  - unfold run in E. cbn [rfold] in E. destruct (send_crawler_event _ _ _ _ _ cw e) as [cw1| |] eqn:G; try discriminate. unfold send_crawler_event in G.
    destruct (step _ _ _ _ _ _) as [[c1 cmds]| |] eqn:T; try discriminate. injection G as <-. apply step_spec in T as (N & M & _). cbn [fst] in *.
    assert (er < now c1)%N as L1 by lia. eapply (IH _ _ a d f l er); [|exact S| |exact E]; [|exact L1]. cbn [fst]. by eapply moves_stuck.
Qed.

(** ** A history with everything in it: 1 is known and connects; it announces 2 and 3, which shares its host with 1 *)
Definition case_bannable (a : N) : N := if (a =? 3)%N then 1%N else a.
Definition case_ip (a : N) : option N := if (a <=? 2)%N then Some (10 + a)%N else None.
Lemma case_ip_inj a b ip : case_ip a = Some ip -> case_ip b = Some ip -> a = b.
Proof. unfold case_ip. destruct (a <=? 2)%N, (b <=? 2)%N; try discriminate. intros A B. injection A as <-. injection B as B. lia. Qed.
Definition case_start : crawler * world :=
  (new 100000 {[1%N := {| i_software := 5; i_asked := None |}]} ∅ {[4%N]}, {| w_dns := ∅; w_known := {[1%N := {| i_software := 5; i_asked := None |}]}; w_banned := ∅ |}).
Notation case_run := (run 100 86400 86400 case_bannable case_ip case_start).
Lemma case_history es cw : case_run es = Ok cw -> history 100 86400 86400 case_bannable case_ip {[4%N]} cw.
Proof.
  assert (forall es cw0 cw, history 100 86400 86400 case_bannable case_ip {[4%N]} cw0 -> run 100 86400 86400 case_bannable case_ip cw0 es = Ok cw -> history 100 86400 86400 case_bannable case_ip {[4%N]} cw) as H.
  { clear. induction es as [|e es IH]; intros cw0 cw H E; unfold run in E; cbn [rfold] in E; [by injection E as <-|].
    destruct (send_crawler_event _ _ _ _ _ cw0 e) as [cw1| |] eqn:G; try discriminate. eapply IH; [|exact E]. by eapply history_step. }
  apply H. apply history_start.
Qed.
Definition case_events : list event := [Timer 60 [1; 4]; PeerConnected 1 7 6 true; AddressListResponse [2; 3] 7; Timer 60 [2; 3]]%N.
Definition res_ok {A} (r : res unit A) (d : A) : A := match r with Ok a => a | _ => d end.
Example C99_case : exists cw, case_run case_events = Ok cw /\ w_dns cw.2 !! 11%N = Some 6%N /\ connected cw.1 1 6 /\
  w_known cw.2 !! 1%N = Some {| i_software := 6; i_asked := Some 100060%N |} /\ w_known cw.2 !! 2%N = None.
Proof.
  eexists. split; [vm_compute; reflexivity|]. split_and!; [vm_compute; reflexivity| |vm_compute; reflexivity..].
  eexists _, _. split_and!; [vm_compute; reflexivity|reflexivity|reflexivity].
Qed.
Example C100_case : exists cw c' cmds, case_run (take 3 case_events) = Ok cw /\ step 100 86400 86400 case_bannable cw.1 (Timer 60 [2; 3; 2; 9])%N = Ok (c', cmds) /\
  calls cmds = [3; 2]%N /\ length [2; 3; 2; 9]%N <= 25.
Proof. eexists _, _, _. split; [vm_compute; reflexivity|]. cbn [fst]. split; [vm_compute; reflexivity|]. split; [vm_compute; reflexivity|cbn; lia]. Qed.
Example C100_case_banned : exists cw c' cmds, case_run case_events = Ok cw /\ step 100 86400 86400 case_bannable cw.1 (MisbehavedOnHandshake 3 100) = Ok (c', cmds) /\
  banned c' !! 1%N = Some 186520%N /\ Disconnect 7 ∈ cmds.
Proof. eexists _, _, _. split; [vm_compute; reflexivity|]. cbn [fst]. split; [vm_compute; reflexivity|]. split; [vm_compute; reflexivity|left]. Qed.

(** C100, forgotten in time, is false: what was never reached should be remembered as bad for an hour, and then be forgotten. It is forgotten at the next heartbeat within the hour, and never after it. *)
Theorem C100_forgotten_in_time_refuted :
  ~ (forall reserved cw a d f l erase_after period sample cw',
       history 100 86400 86400 case_bannable case_ip reserved cw -> addresses cw.1 !! a = Some d -> d_state d = Unreachable f l erase_after ->
       send_crawler_event 100 86400 86400 case_bannable case_ip cw (Timer period sample) = Ok cw' -> (now cw'.1 < erase_after)%N -> is_Some (addresses cw'.1 !! a)) /\
  ~ (forall reserved cw a d f l erase_after period sample cw',
       history 100 86400 86400 case_bannable case_ip reserved cw -> addresses cw.1 !! a = Some d -> d_state d = Unreachable f l erase_after ->
       send_crawler_event 100 86400 86400 case_bannable case_ip cw (Timer period sample) = Ok cw' -> (erase_after < now cw'.1)%N -> addresses cw'.1 !! a = None).
Proof.
  destruct (case_run (case_events ++ [ConnectionError 2])) as [cw| |] eqn:E; [|exfalso; vm_compute in E; discriminate..].
  assert (history 100 86400 86400 case_bannable case_ip {[4%N]} cw) as H by (by eapply case_history).
  assert (exists d, addresses cw.1 !! 2%N = Some d /\ d_state d = Unreachable 1 None 103720) as (d & A & S).
  { vm_compute in E. injection E as <-. eexists. split; [vm_compute; reflexivity|reflexivity]. }
  split; intros K.
  - destruct (send_crawler_event 100 86400 86400 case_bannable case_ip cw (Timer 60 [])) as [cw'| |] eqn:G; [|exfalso; vm_compute in E; injection E as <-; vm_compute in G; discriminate..].
    specialize (K _ _ _ _ _ _ _ _ _ _ H A S G). vm_compute in E. injection E as <-. vm_compute in G. injection G as <-.
    assert (100180 < 103720)%N as L by lia. specialize (K L). destruct K as [x X]. vm_compute in X. discriminate.
  - destruct (send_crawler_event 100 86400 86400 case_bannable case_ip cw (Timer 7200 [])) as [cw'| |] eqn:G; [|exfalso; vm_compute in E; injection E as <-; vm_compute in G; discriminate..].
    specialize (K _ _ _ _ _ _ _ _ _ _ H A S G). vm_compute in E. injection E as <-. vm_compute in G. injection G as <-.
    assert (103720 < 107320)%N as L by lia. specialize (K L). vm_compute in K. discriminate.
Qed.
(** C100, misbehaviour is survived, is false: a peer that is reported twice before its connection is closed makes the server panic. *)
Theorem C100_misbehaviour_survived_refuted :
  ~ (forall reserved cw p peer score, history 100 86400 86400 case_bannable case_ip reserved cw -> peers cw.1 !! p = Some peer ->
       send_crawler_event 100 86400 86400 case_bannable case_ip cw (Misbehaved p score) <> Panic).
Proof.
  intros K. destruct (case_run (case_events ++ [Misbehaved 7 100])) as [cw| |] eqn:E; [|exfalso; vm_compute in E; discriminate..].
  apply (K {[4%N]} cw 7%N {| p_address := 1; p_score := 100; p_expecting := false |} 1%N); [by eapply case_history|..]; vm_compute in E; injection E as <-; vm_compute; reflexivity.
Qed.
(** The hypotheses of [C100_given_up_for_good] are met by the history of the refutation *)
Example C100_case_given_up : exists cw d f l e, case_run (case_events ++ [ConnectionError 2; Timer 7200 []])%N = Ok cw /\ addresses cw.1 !! 2%N = Some d /\ d_state d = Unreachable f l e /\ (e < now cw.1)%N.
Proof. eexists _, _, _, _, _. split; [vm_compute; reflexivity|]. split; [vm_compute; reflexivity|]. split; [reflexivity|vm_compute; reflexivity]. Qed.

Print Assumptions C99_served.
Print Assumptions C99_stored.
Print Assumptions C100_called.
Print Assumptions C100_due.
Print Assumptions C100_reserved.
Print Assumptions C100_banned.
Print Assumptions C100_counted.
Print Assumptions C100_ban_kept.
Print Assumptions C100_lists.
Print Assumptions C100_given_up_for_good.
Print Assumptions C100_forgotten_in_time_refuted.
Print Assumptions C100_misbehaviour_survived_refuted.
