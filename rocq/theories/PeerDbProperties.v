(** C90 and C91: the database of peers of a node. *)
From Verif Require Import Base PeerTableModel PeerDbModel PeerDbSpec PeerDbProofs PeerDbSteps PeerDbBans PeerDbBook.

(** * C90: bans, discouragements and anchors *)

(** After any calls and restarts, an ip is banned until [till] exactly if the last ban of it says so and was neither called off
    nor seen to be over by a heartbeat. *)
Theorem C90_banned c reserved boot now l d b till :
  history c reserved boot now l d -> d_banned d !! b = Some till <-> banned_until l b till.
Proof. apply banned_history. Qed.

Theorem C90_discouraged c reserved boot now l d b till :
  history c reserved boot now l d -> d_discouraged d !! b = Some till <-> discouraged_until c l b till.
Proof. apply discouraged_history. Qed.

Theorem C90_anchors c reserved boot now l d : history c reserved boot now l d -> d_anchors d = foldl anchors_of ∅ l.
Proof. apply anchors_history. Qed.

(** A crash in the middle of a call: whichever of the storage states that were committed the node starts from again, each ip is
    banned (discouraged) as it was before the call or as it is after it, and the anchors are the old or the new ones. *)
Theorem C90_crash c reserved boot now l d o d' :
  history c reserved boot now l d -> history c reserved boot now (l ++ [o]) d' -> is_restart o = false ->
  exists committed, d_commits d' = committed ++ d_commits d /\
    forall s, s ∈ committed \/ s = d_store d -> forall reserved' boot' t, exists d2, load c s reserved' boot' t = Ok d2 /\
      (forall b, (d_banned d2 !! b = d_banned d !! b \/ d_banned d2 !! b = d_banned d' !! b) /\
                 (d_discouraged d2 !! b = d_discouraged d !! b \/ d_discouraged d2 !! b = d_discouraged d' !! b)) /\
      (d_anchors d2 = d_anchors d \/ d_anchors d2 = d_anchors d').
Proof. apply crash_bans. Qed.

(** The addresses the node chooses to connect to on its own are neither banned nor discouraged. *)
Theorem C90_not_selected c reserved boot now l d sample coins r groups extra count t a :
  history c reserved boot now l d -> good_sample sample ->
  a ∈ select_non_reserved_outbound_addresses c sample coins d groups extra count t \/ select_from_new_table c d r t = Some a ->
  (forall till, ~ banned_until l (c_bannable_of c a) till) /\ (forall till, ~ discouraged_until c l (c_bannable_of c a) till).
Proof.
  intros Hh Hs Ha. pose proof (history_inv _ _ _ _ _ _ Hh) as HI.
  assert (He : eligible c d t a).
  { destruct Ha as [Ha|Ha]; [by apply (selected _ _ _ _ _ _ _ _ _ _ HI Hs) in Ha as (_ & ? & _)|by apply (selected_from_new _ _ _ _ _ _ _ HI) in Ha as []]. }
  destruct He as (_ & _ & H1 & H2). split; intros till Hb.
  - apply (banned_history _ _ _ _ _ _ _ _ Hh) in Hb. congruence.
  - apply (discouraged_history _ _ _ _ _ _ _ _ Hh) in Hb. congruence.
Qed.

(** ** Cases *)
(** Two tables of one slot each; the address is also the ip, and ten addresses form a group. *)
Definition h1 : hashes := Hashes (fun a => Z.of_N (a / 10)) (fun a => a) (fun g k => k) (fun a i => a).
Definition tiny : config := Config h1 h1 1 1 1 1000 (fun a => a).
Definition roomy : config := Config h1 h1 8 8 16 1000 (fun a => a).
Lemma tiny_good : good_config tiny. Proof. repeat split; cbn; unfold U32_MAX; lia. Qed.
Lemma roomy_good : good_config roomy. Proof. repeat split; cbn; unfold U32_MAX; lia. Qed.

Definition result (c : config) (reserved boot : gset N) (l : list op) : option db :=
  match start c reserved boot 0 with Ok d0 => match run c d0 l with Ok d => Some d | _ => None end | _ => None end.
Lemma result_history c reserved boot l d : good_config c -> Forall good_op l -> (N.of_nat (length l) < U32_MAX)%N -> result c reserved boot l = Some d ->
  history c reserved boot 0 l d.
Proof.
  intros Hc Hg Hn Hr. unfold result in Hr. destruct (start c reserved boot 0) as [d0| |] eqn:Hs; try done. destruct (run c d0 l) as [d1| |] eqn:Hrun; try done.
  injection Hr as <-. split_and!; try done. by exists d0.
Qed.
(** A history of a list of calls, with a decidable fact about its end. *)
Lemma by_result c reserved boot l (test : db -> bool) : good_config c -> Forall good_op l -> (N.of_nat (length l) < U32_MAX)%N ->
  match result c reserved boot l with Some d => test d | None => false end = true ->
  exists d, history c reserved boot 0 l d /\ test d = true.
Proof.
  intros Hc Hg Hn Hr. destruct (result c reserved boot l) as [d|] eqn:E; [|done]. exists d. split; [|done]. by apply result_history.
Qed.
Lemma good_time_small t : (t <= 1000000000000)%N -> good_time t.
Proof. intros H. unfold good_time, SECOND, DURATION_MAX. lia. Qed.
Definition plain (d : N) : N := d.
Ltac good := repeat (apply Forall_cons; split; [cbn; repeat split; try (apply good_time_small; lia); try (intros ?; unfold plain; lia)|]); try apply Forall_nil_2.

Example C90_banned_case :
  exists d, history roomy ∅ ∅ 0 [Ban 7 100 5; Restart ∅ ∅ 50; Heartbeat 104] d /\ is_address_banned d 7 = true.
Proof. apply by_result; [apply roomy_good|good|done|]. vm_compute. reflexivity. Qed.
Example C90_ended_case :
  exists d, history roomy ∅ ∅ 0 [Ban 7 100 5; Discourage 8 5; Restart ∅ ∅ 50; Heartbeat 105] d /\ is_address_banned d 7 = false /\ is_address_discouraged d 8 = true.
Proof.
  destruct (by_result roomy ∅ ∅ [Ban 7 100 5; Discourage 8 5; Restart ∅ ∅ 50; Heartbeat 105] (fun d => negb (is_address_banned d 7) && is_address_discouraged d 8)) as (d & H1 & H2).
  { apply roomy_good. } { good. } { done. } { vm_compute. reflexivity. }
  exists d. apply andb_true_iff in H2 as [H2 H3]. apply negb_true_iff in H2. done.
Qed.
Definition firsts (l : list N) (n : nat) : list N := take n l.
Lemma firsts_good : good_sample firsts.
Proof.
  intros l n. unfold firsts. split_and!.
  - intros x Hx. by apply elem_of_take in Hx as (i & Hi & _); apply elem_of_list_lookup_2 in Hi.
  - rewrite take_length. lia.
  - intros Hl Hn. destruct l, n; done.
Qed.
Example C90_not_selected_case :
  exists d, history roomy ∅ ∅ 0 [Discovered 7 0; Discovered 18 0; Ban 7 100 5] d /\
    select_non_reserved_outbound_addresses roomy firsts (fun _ => true) d [] (fun _ => true) 5 10 = [18%N].
Proof.
  destruct (by_result roomy ∅ ∅ [Discovered 7 0; Discovered 18 0; Ban 7 100 5]
    (fun d => bool_decide (select_non_reserved_outbound_addresses roomy firsts (fun _ => true) d [] (fun _ => true) 5 10 = [18%N]))) as (d & H1 & H2).
  { apply roomy_good. } { good. } { done. } { vm_compute. reflexivity. }
  exists d. split; [done|]. by apply bool_decide_eq_true in H2.
Qed.

(** ** What does not hold *)
(** A ban is not always kept until its end: another ban of the same ip, for a shorter time, ends it earlier. *)
Theorem C90_longest_ban_refuted :
  ~ (forall c reserved boot now l1 l2 d b dur t, history c reserved boot now (l1 ++ Ban b dur t :: l2) d ->
       (forall o, o ∈ l2 -> o <> Unban b /\ forall t', o = Heartbeat t' -> (t' < N.min DURATION_MAX (t + dur))%N) -> is_address_banned d b = true).
Proof.
  intros H. destruct (by_result roomy ∅ ∅ [Ban 7 1000 0; Ban 7 10 0; Heartbeat 20] (fun d => negb (is_address_banned d 7))) as (d & H1 & H2).
  { apply roomy_good. } { good. } { done. } { vm_compute. reflexivity. }
  specialize (H roomy ∅ ∅ 0%N [] _ d 7%N 1000%N 0%N H1). rewrite H in H2; [done|].
  intros o Ho. split.
  - intros ->. rewrite !elem_of_cons, elem_of_nil in Ho. by destruct Ho as [?|[?|?]].
  - intros t' ->. rewrite !elem_of_cons, elem_of_nil in Ho. destruct Ho as [?|[[= ->]|?]]; try done.
Qed.
(** A banned ip is chosen all the same if its address is reserved (the peer manager then refuses the connection). *)
Theorem C90_reserved_not_selected_refuted :
  ~ (forall c reserved boot now l d extra t a sel, history c reserved boot now l d -> select_reserved_outbound_addresses d extra t = Ok sel -> a ∈ sel ->
       is_address_banned d (c_bannable_of c a) = false).
Proof.
  intros H. destruct (by_result roomy {[7%N]} ∅ [Ban 7 1000 0]
    (fun d => is_address_banned d 7 && match select_reserved_outbound_addresses d (fun _ => true) 1 with Ok sel => bool_decide (sel = [7%N]) | _ => false end)) as (d & H1 & H2).
  { apply roomy_good. } { good. } { done. } { vm_compute. reflexivity. }
  apply andb_true_iff in H2 as [H2 H3]. destruct (select_reserved_outbound_addresses d (fun _ => true) 1) as [sel| |] eqn:E; try done.
  apply bool_decide_eq_true in H3 as ->. specialize (H _ _ _ _ _ _ _ _ 7%N _ H1 E). change (c_bannable_of roomy 7) with 7%N in H. rewrite H in H2; [done|]. by left.
Qed.

(** * C91: the known addresses *)

(** No calls make the database panic, and the choice of reserved addresses does not either. *)
Theorem C91_no_panic c reserved boot now l :
  good_config c -> Forall good_op l -> (N.of_nat (length l) < U32_MAX)%N ->
  exists d, history c reserved boot now l d /\ forall extra t, exists sel, select_reserved_outbound_addresses d extra t = Ok sel.
Proof.
  intros Hc Hg Hn. destruct (history_total c reserved boot now l Hc Hg Hn) as (d & Hh). exists d. split; [done|]. intros extra t.
  destruct (selected_reserved _ _ _ d extra t (history_inv _ _ _ _ _ _ Hh)) as (sel & Hs & _). by exists sel.
Qed.

(** Until the node is restarted, peers cannot make it remember more addresses than its tables have slots, nor more of one
    group than sixteen buckets have, whatever they announce; addresses the user or the node named come on top. *)
Theorem C91_bounded c reserved boot now l d (L : list N) :
  history c reserved boot now l d -> Forall (fun o => is_restart o = false) l ->
  NoDup L -> (forall a, a ∈ L -> known d a /\ a ∉ named reserved boot l) ->
  length L <= N.to_nat ((c_new_rows c + c_tried_rows c) * c_cols c).
Proof.
  intros Hh Hl HN HL. apply (tables_count _ _ _ d L (history_inv _ _ _ _ _ _ Hh) HN). intros a Ha. destruct (HL a Ha). by apply (history_booked _ _ _ _ _ _ Hh Hl).
Qed.
Theorem C91_bounded_group c reserved boot now l d (L : list N) g :
  history c reserved boot now l d -> Forall (fun o => is_restart o = false) l ->
  NoDup L -> (forall a, a ∈ L -> known d a /\ a ∉ named reserved boot l /\ group_of (c_hash_new c) a = g /\ group_of (c_hash_tried c) a = g) ->
  length L <= N.to_nat (16 * c_cols c).
Proof.
  intros Hh Hl HN HL. apply (tables_group_count _ _ _ d L g (history_inv _ _ _ _ _ _ Hh) HN).
  - intros a Ha. destruct (HL a Ha) as (? & ? & _). by apply (history_booked _ _ _ _ _ _ Hh Hl).
  - intros a Ha. by destruct (HL a Ha) as (_ & _ & ?).
Qed.

(** Both tables only hold known addresses, and no address is in both. *)
Theorem C91_tables c reserved boot now l d a :
  history c reserved boot now l d -> (in_tables d a -> known d a) /\ ~ (in_new d a /\ in_tried d a).
Proof.
  intros Hh. pose proof (history_inv _ _ _ _ _ _ Hh) as HI. unfold in_tables. rewrite (in_new_inn _ _ _ _ _ HI), (in_tried_itr _ _ _ _ _ HI). split.
  - intros [Ha|Ha]; [by apply (i_new _ _ _ _ HI) in Ha as []|by apply (i_tried _ _ _ _ HI) in Ha as []].
  - intros [H1 H2]. by apply (inv_disjoint _ _ _ _ _ HI H1).
Qed.

(** The reserved nodes are those named last; they are always known, and never given up as unreachable. *)
Theorem C91_reserved c reserved boot now l d a :
  history c reserved boot now l d -> a ∈ foldl reserved_after reserved l ->
  a ∈ d_reserved d /\ exists ad, d_addresses d !! a = Some ad /\ is_unreachable ad = false.
Proof.
  intros Hh Ha. pose proof (history_inv _ _ _ _ _ _ Hh) as HI. rewrite <- (reserved_history _ _ _ _ _ _ Hh) in Ha. split; [done|].
  apply (i_reserved _ _ _ _ HI) in Ha as (ad & Ha & Hr). exists ad. split; [done|]. by apply (i_data _ _ _ _ HI) in Ha as [_ Hu]; apply Hu.
Qed.

(** Short of a restart, a known address is forgotten in the ways [forgotten_by] lists only: it is unreachable and its time is
    over, or another address is discovered that takes its place and it is unreachable, or its place in the table "new" is
    needed for an address that a connected peer's address pushes out of "tried", or it is removed by its name. *)
Theorem C91_forgotten c reserved boot now l d o d' a :
  history c reserved boot now l d -> history c reserved boot now (l ++ [o]) d' -> is_restart o = false ->
  known d a -> ~ known d' a -> forgotten_by d o a.
Proof.
  intros H1 H2 Ho Hk Hn. destruct (history_step _ _ _ _ _ _ _ _ H1 H2) as [Hs Hg].
  by apply (forgotten _ _ _ _ _ _ _ (history_inv _ _ _ _ _ _ H1) Hg (history_length _ _ _ _ _ _ H1) Ho Hs).
Qed.

(** Announcing addresses does no harm: what the node knows about another address stays, unless that one is unreachable. *)
Theorem C91_discovery c reserved boot now l d b t d' a ad :
  history c reserved boot now l d -> history c reserved boot now (l ++ [Discovered b t]) d' ->
  d_addresses d !! a = Some ad -> is_unreachable ad = false ->
  d_addresses d' !! a = Some ad /\ (in_tried d a -> in_tried d' a) /\ (a ∉ d_reserved d -> in_new d a -> in_new d' a).
Proof.
  intros H1 H2 Ha Hu. destruct (history_step _ _ _ _ _ _ _ _ H1 H2) as [Hs _]. pose proof (history_inv _ _ _ _ _ _ H1) as HI. pose proof (history_inv _ _ _ _ _ _ H2) as HI'.
  rewrite !(in_new_inn _ _ _ _ _ HI), !(in_tried_itr _ _ _ _ _ HI), !(in_new_inn _ _ _ _ _ HI'), !(in_tried_itr _ _ _ _ _ HI').
  destruct (discovered_spec _ _ _ d b t HI) as (e & He & _ & _ & Hres & Hcase). rewrite Hs in He. injection He as <-.
  destruct (d_addresses d !! b) as [adb|] eqn:Hb; [by subst d'|]. assert (Hab : a <> b) by congruence.
  destruct Hcase as [(E1 & E2 & _)|(q & Q1 & Q2 & Q3 & Q4 & _)].
  - rewrite E1. split; [done|]. by rewrite (proj1 (E2 a)), (proj2 (E2 a)).
  - assert (Hq : q = Some a -> a ∈ d_reserved d).
    { intros ->. destruct (Q1 a eq_refl) as (_ & _ & Hc). unfold can_discard_addr_in_new in Hc. rewrite Ha, Hu, orb_false_r in Hc. apply (i_reserved _ _ _ _ HI). by exists ad. }
    rewrite Q4, decide_False, decide_False by (done || (intros [X1 X2]; by apply X2, Hq)). split; [done|]. rewrite Q2, Q3. split; [done|].
    intros Hr Hn. right. split; [done|]. intros Hqa. by apply Hr, Hq.
Qed.

(** An address the node was connected to is "tried"; it stays known across a restart, as one that was reachable. Also the others
    in the tables stay, except boot nodes of an earlier start. *)
Theorem C91_connected c reserved boot now l a r t d :
  history c reserved boot now (l ++ [Connected a r t]) d -> in_tried d a.
Proof.
  intros H2. assert (exists d0, history c reserved boot now l d0) as (d0 & H1).
  { destruct H2 as (Hc & Hg & Hn & _). rewrite app_length in Hn. apply Forall_app in Hg as [Hg _]. apply history_total; try done. lia. }
  destruct (history_step _ _ _ _ _ _ _ _ H1 H2) as [Hs Hg].
  destruct (connected_spec _ _ _ d0 a r t (history_inv _ _ _ _ _ _ H1) Hg (history_length _ _ _ _ _ _ H1)) as (e & ad & p & q & He & _ & _ & _ & _ & _ & _ & H7 & _).
  rewrite Hs in He. injection He as <-. apply (in_tried_itr _ _ _ _ _ (history_inv _ _ _ _ _ _ H2)). apply H7. by left.
Qed.
Theorem C91_restart c reserved boot now l d reserved' boot' t d' :
  history c reserved boot now l d -> history c reserved boot now (l ++ [Restart reserved' boot' t]) d' ->
  (forall a, in_tables d a -> a ∉ foldl boot_after boot l -> known d' a) /\
  (forall a, in_tried d a -> exists res, d_addresses d' !! a = Some (addr_data_new true res t)) /\
  (forall a, known d' a -> known d a \/ a ∈ reserved' \/ a ∈ boot').
Proof.
  intros H1 H2. destruct (history_step _ _ _ _ _ _ _ _ H1 H2) as [Hs _]. pose proof H1 as (Hc & _).
  destruct (restart_facts _ _ _ d reserved' boot' t (history_inv _ _ _ _ _ _ H1) Hc) as (e & He & Hx). rewrite Hs in He. injection He as <-. done.
Qed.

(** Choosing addresses: each is in a table, eligible, passes the filter of the caller, and is of a group of its own that has no
    connection yet; they are not more than asked for, and some if there are any. *)
Theorem C91_selected c reserved boot now l d sample coins groups extra count t :
  history c reserved boot now l d -> good_sample sample ->
  let sel := select_non_reserved_outbound_addresses c sample coins d groups extra count t in
  (forall a, a ∈ sel -> in_tables d a /\ eligible c d t a /\ group_of (c_hash_new c) a ∉ groups /\ extra a = true) /\
  NoDup (map (group_of (c_hash_new c)) sel) /\ length sel <= count /\
  (count <> 0 -> (exists a, in_tables d a /\ eligible c d t a /\ group_of (c_hash_new c) a ∉ groups /\ extra a = true) -> sel <> []).
Proof. intros Hh Hs. apply (selected _ _ _ _ _ _ _ _ _ _ (history_inv _ _ _ _ _ _ Hh) Hs). Qed.
Theorem C91_selected_reserved c reserved boot now l d extra t sel a :
  history c reserved boot now l d -> select_reserved_outbound_addresses d extra t = Ok sel ->
  a ∈ sel <-> a ∈ foldl reserved_after reserved l /\ extra a = true /\ exists ad, d_addresses d !! a = Some ad /\ may_call ad t.
Proof.
  intros Hh Hs. rewrite <- (reserved_history _ _ _ _ _ _ Hh). destruct (selected_reserved _ _ _ d extra t (history_inv _ _ _ _ _ _ Hh)) as (sel' & Hs' & Hx).
  rewrite Hs in Hs'. by injection Hs' as <-.
Qed.

(** A heartbeat forgets exactly the addresses that were given up for long enough. *)
Theorem C91_heartbeat c reserved boot now l d t d' a ad :
  history c reserved boot now l d -> history c reserved boot now (l ++ [Heartbeat t]) d' -> d_addresses d !! a = Some ad ->
  (outlived ad t -> ~ known d' a) /\ (~ outlived ad t -> d_addresses d' !! a = Some ad).
Proof.
  intros H1 H2 Ha. destruct (history_step _ _ _ _ _ _ _ _ H1 H2) as [Hs _]. destruct (heartbeat_spec _ _ _ d t (history_inv _ _ _ _ _ _ H1)) as (e & He & _ & _ & H4 & _).
  rewrite Hs in He. injection He as <-. unfold known. rewrite H4. destruct (decide (a ∈ unretained d t)) as [Hu|Hu].
  - apply unretained_in in Hu as (ad' & Ha' & Hr). rewrite Ha in Ha'. injection Ha' as <-. apply retain_spec in Hr. split; [intros _; by intros [? ?]|done].
  - split; [|done]. intros Ho. exfalso. apply Hu, unretained_in. exists ad. split; [done|by apply retain_spec].
Qed.
(** When a connection ends, its address is remembered as one that was reachable. The next attempt waits for the random factor
    times 10 seconds, twice as long for each connection in a row that ended without any message (but the user's own
    connections and feelers do not count), at most one hour, or six minutes for reserved addresses. *)
Theorem C91_disconnected c reserved boot now l d a ad active r t j d' :
  history c reserved boot now l d -> history c reserved boot now (l ++ [Disconnected a t j]) d' ->
  d_addresses d !! a = Some ad -> ad_state ad = SConnected active r ->
  let n := if active then 0%N else match r with OManual | OFeeler => ad_no_activity ad | _ => (ad_no_activity ad + 1)%N end in
  d_addresses d' !! a = Some (AddrData (SDisconnected true 0
    (t + j (N.min (10 * SECOND * N.min (2 ^ n) U32_MAX) ((if decide (a ∈ d_reserved d) then 360 else 3600) * SECOND)))) (ad_reserved ad) n).
Proof.
  intros H1 H2 Ha Hst n. destruct (history_step _ _ _ _ _ _ _ _ H1 H2) as [Hs [Ht Hj]]. pose proof (history_inv _ _ _ _ _ _ H1) as HI.
  pose proof (history_length _ _ _ _ _ _ H1) as Hn. destruct (change_step _ _ _ d a ToDisconnected t j HI Ht Hj Hn I) as (ad' & E1 & E2 & _).
  cbn [step] in Hs. rewrite E1 in Hs. injection Hs as <-. cbn. rewrite lookup_insert. f_equal. rewrite Ha in E2. change (default _ (Some ad)) with ad in E2. unfold transition_to in E2. rewrite Hst in E2.
  assert (Hnn : (if active then Ok 0%N else if is_message_exchange_expected r && negb (is_manual r) then incr (ad_no_activity ad) else Ok (ad_no_activity ad)) = Ok n).
  { subst n. destruct active; [done|]. pose proof (proj1 (proj1 (i_data _ _ _ _ HI a ad Ha))) as Hc. rewrite (incr_ok _ _ Hc Hn). by destruct r. }
  rewrite Hnn in E2. cbn [rbind] in E2. rewrite next_time_ok in E2 by done. cbn [rbind] in E2. injection E2 as <-. rewrite N.max_0_l.
  assert (Hres : ad_reserved ad = bool_decide (a ∈ d_reserved d)).
  { pose proof (i_reserved _ _ _ _ HI a) as Hi. destruct (ad_reserved ad) eqn:E; symmetry; [apply bool_decide_eq_true|apply bool_decide_eq_false]; rewrite Hi.
    - by exists ad.
    - intros (x & Hx & ?). congruence. }
  do 3 f_equal. unfold next_connect_delay, MAX_DELAY_RESERVED, MAX_DELAY_REACHABLE. rewrite Hres. destruct (decide (a ∈ d_reserved d)) as [Hr|Hr]; [by rewrite bool_decide_true|by rewrite bool_decide_false].
Qed.

(** Failed attempts in a row, on an address with [f] failures so far: one that was reachable before is given up at the 672nd,
    one that was never reached at the first, a reserved one never. Until then the next attempt waits for the random factor
    times 10, 20, 40, ... seconds, but at most one hour, or six minutes for reserved addresses. *)
Theorem C91_failures c reserved boot now l d a ad w f next ts :
  history c reserved boot now l d -> d_addresses d !! a = Some ad -> ad_state ad = SDisconnected w f next ->
  ts <> [] -> Forall (fun p => good_time p.1 /\ good_jitter p.2) ts -> (N.of_nat (length l + length ts) < U32_MAX)%N ->
  exists d' ad', run c d (failures a ts) = Ok d' /\ d_addresses d' !! a = Some ad' /\
    let k := (f + N.of_nat (length ts))%N in
    (is_unreachable ad' = true <-> a ∉ d_reserved d /\ (w = false \/ (672 <= k)%N)) /\
    (is_unreachable ad' = false -> forall t j ts' t', ts = ts' ++ [(t, j)] ->
       may_call ad' t' <-> (t + j (N.min (10 * SECOND * N.min (2 ^ N.max k (ad_no_activity ad)) U32_MAX) ((if decide (a ∈ d_reserved d) then 360 else 3600) * SECOND)) <= t')%N).
Proof.
  intros Hh Ha Hst Hne Hg Hn. pose proof (history_inv _ _ _ _ _ _ Hh) as HI. destruct (failures_run c _ a w ts _ d f next ad HI Hg ltac:(lia) Ha Hst) as (d' & ad' & H1 & H2 & H3 & H4 & H5).
  exists d', ad'. split; [done|]. split; [done|]. cbn zeta. rewrite (bool_decide_false (length ts = 0)) in H5 by (by destruct ts). rewrite orb_false_r in H5.
  assert (Hres : ad_reserved ad = bool_decide (a ∈ d_reserved d)).
  { pose proof (i_reserved _ _ _ _ HI a) as Hi. destruct (ad_reserved ad) eqn:E; symmetry; [apply bool_decide_eq_true|apply bool_decide_eq_false]; rewrite Hi.
    - by exists ad.
    - intros (x & Hx & ?). congruence. }
  rewrite Hres in H5. destruct (bool_decide (a ∈ d_reserved d) || (w && (f + N.of_nat (length ts) <? 672)%N)) eqn:Hc.
  - destruct H5 as (x' & Hx' & Hl). split.
    + unfold is_unreachable. rewrite Hx'. split; [done|]. intros [Hr Hw]. rewrite bool_decide_false in Hc by done. cbn in Hc. apply andb_true_iff in Hc as [-> Hc].
      apply N.ltb_lt in Hc. destruct Hw; [done|lia].
    + intros _ t j ts' t' He. rewrite <- connect_now_spec. unfold connect_now. rewrite Hx'. rewrite (Hl t j ts' He), N.leb_le. unfold next_connect_delay, MAX_DELAY_RESERVED, MAX_DELAY_REACHABLE.
      destruct (decide (a ∈ d_reserved d)) as [Hr|Hr]; [rewrite bool_decide_true by done|rewrite bool_decide_false by done]; done.
  - apply orb_false_iff in Hc as [Hc1 Hc2]. apply bool_decide_eq_false in Hc1. split; [|intros Hu; congruence]. split; [|done]. intros _. split; [done|].
    destruct w; [right|by left]. cbn in Hc2. apply N.ltb_ge in Hc2. lia.
Qed.

(** ** Cases *)
Example C91_case : exists d, history roomy {[5%N]} {[6%N]} 0
   [Discovered 7 0; Discovered 18 0; Connected 18 OFullRelay 1; Activity 18 2; Disconnected 18 3 plain; Failed 7 4 plain; Restart ∅ ∅ 5; Heartbeat 6] d /\
   (known d 7 /\ known d 18 /\ ~ known d 5 /\ ~ known d 6) /\ in_tried d 18 /\ in_new d 7.
Proof.
  destruct (by_result roomy {[5%N]} {[6%N]} [Discovered 7 0; Discovered 18 0; Connected 18 OFullRelay 1; Activity 18 2; Disconnected 18 3 plain; Failed 7 4 plain; Restart ∅ ∅ 5; Heartbeat 6]
    (fun d => bool_decide (is_Some (d_addresses d !! 7%N)) && bool_decide (is_Some (d_addresses d !! 18%N)) && negb (bool_decide (is_Some (d_addresses d !! 5%N))) && negb (bool_decide (is_Some (d_addresses d !! 6%N)))
       && bool_decide (18%N ∈ table_addresses (tried_table (d_tables d))) && bool_decide (7%N ∈ table_addresses (new_table (d_tables d))))) as (d & H1 & H2).
  { apply roomy_good. } { good. } { done. } { vm_compute. reflexivity. }
  exists d. rewrite !andb_true_iff, !negb_true_iff, !bool_decide_eq_true, !bool_decide_eq_false in H2. unfold known, in_tried, in_new. tauto.
Qed.
Example C91_disconnected_case : exists d ad, history roomy ∅ ∅ 0 [Connected 18 OFullRelay 1] d /\ d_addresses d !! 18%N = Some ad /\ ad_state ad = SConnected false OFullRelay.
Proof.
  destruct (by_result roomy ∅ ∅ [Connected 18 OFullRelay 1] (fun d => match d_addresses d !! 18%N with Some (AddrData (SConnected false OFullRelay) _ _) => true | _ => false end)) as (d & H1 & H2).
  { apply roomy_good. } { good. } { done. } { vm_compute. reflexivity. }
  destruct (d_addresses d !! 18%N) as [[st re na]|] eqn:E; [|done]. exists d, (AddrData st re na). split_and!; try done. cbn. by destruct st as [[] []| |].
Qed.
Example C91_gives_up : exists d, history roomy ∅ ∅ 0 [Discovered 7 0; Failed 7 1 plain; Heartbeat (3600 * SECOND + 1)] d /\ ~ known d 7.
Proof.
  destruct (by_result roomy ∅ ∅ [Discovered 7 0; Failed 7 1 plain; Heartbeat (3600 * SECOND + 1)] (fun d => negb (bool_decide (is_Some (d_addresses d !! 7%N))))) as (d & H1 & H2).
  { apply roomy_good. } { good. } { done. } { vm_compute. reflexivity. }
  exists d. rewrite negb_true_iff, bool_decide_eq_false in H2. done.
Qed.

(** ** What does not hold *)
(** Across restarts the bound is lost: an address that a boot node pushes out of its slot at a start is no longer in a table but
    still known and still in the storage, and the slot can be filled again. *)
Theorem C91_bounded_refuted :
  ~ (forall c reserved boot now l d (L : list N), history c reserved boot now l d ->
       NoDup L -> (forall a, a ∈ L -> known d a /\ a ∉ named reserved boot l) -> length L <= N.to_nat ((c_new_rows c + c_tried_rows c) * c_cols c)).
Proof.
  intros H. set (cycle i := [Discovered i 0; Restart ∅ {[9%N]} 0; Failed 9 0 plain; Heartbeat (3600 * SECOND)]).
  destruct (by_result tiny ∅ ∅ (cycle 1%N ++ cycle 2%N ++ cycle 3%N)
    (fun d => bool_decide (is_Some (d_addresses d !! 1%N)) && bool_decide (is_Some (d_addresses d !! 2%N)) && bool_decide (is_Some (d_addresses d !! 3%N)))) as (d & H1 & H2).
  { apply tiny_good. } { subst cycle. cbn [app]. good. } { done. } { vm_compute. reflexivity. }
  rewrite !andb_true_iff, !bool_decide_eq_true in H2. specialize (H tiny ∅ ∅ 0%N _ d [1; 2; 3]%N H1).
  assert (3 <= 2); [|lia]. apply H.
  - repeat constructor; rewrite ?elem_of_cons, ?elem_of_nil; intros Hx; repeat (destruct Hx as [Hx|Hx]; [done|]); done.
  - intros a Ha. rewrite !elem_of_cons, elem_of_nil in Ha.
    assert (Hn : a ∉ named ∅ ∅ (cycle 1%N ++ cycle 2%N ++ cycle 3%N)).
    { subst cycle. unfold named. cbn. rewrite !elem_of_union, !elem_of_singleton, !elem_of_empty. destruct Ha as [-> |[-> |[-> |?]]]; try done; intros Hx; naive_solver. }
    split; [|exact Hn]. unfold known. destruct Ha as [-> |[-> |[-> |?]]]; tauto.
Qed.

(** A known address that could be connected to need not be in a table: the address of a node that is no longer reserved is
    never chosen again, never forgotten by heartbeats, and discovering it again changes nothing. *)
Theorem C91_available_refuted :
  ~ (forall c reserved boot now l d a t, history c reserved boot now l d -> eligible c d t a -> in_tables d a).
Proof.
  intros H. destruct (by_result roomy ∅ ∅ [AddReserved 7 0 plain; RemoveReserved 7 1; Discovered 7 2; Heartbeat 3]
    (fun d => match d_addresses d !! 7%N with Some ad => connect_now ad (100 * SECOND) | None => false end && negb (bool_decide (7%N ∈ d_reserved d)) && bool_decide (d_banned d !! 7%N = None) && bool_decide (d_discouraged d !! 7%N = None)
       && negb (bool_decide (7%N ∈ table_addresses (new_table (d_tables d)))) && negb (bool_decide (7%N ∈ table_addresses (tried_table (d_tables d)))))) as (d & H1 & H2).
  { apply roomy_good. } { good. } { done. } { vm_compute. reflexivity. }
  rewrite !andb_true_iff, !negb_true_iff, !bool_decide_eq_true, !bool_decide_eq_false in H2. destruct H2 as (((((E1 & E2) & E3) & E4) & E5) & E6).
  destruct (H _ _ _ _ _ _ 7%N (100 * SECOND)%N H1) as [X|X]; [|done|done].
  split_and!; try done. destruct (d_addresses d !! 7%N) as [ad|]; [exists ad; split; [done|by apply connect_now_spec]|done].
Qed.

(** The address of a peer that is connected can be forgotten: two later connections push it from "tried" to "new" and out. *)
Theorem C91_connected_known_refuted :
  ~ (forall c reserved boot now l d a, history c reserved boot now l d -> (exists r t l1 l2, l = l1 ++ Connected a r t :: l2 /\
       forall o, o ∈ l2 -> exists b r' t', o = Connected b r' t') -> known d a).
Proof.
  intros H. destruct (by_result tiny ∅ ∅ [Connected 1 OFullRelay 0; Connected 2 OFullRelay 0; Connected 3 OFullRelay 0] (fun d => negb (bool_decide (is_Some (d_addresses d !! 1%N))))) as (d & H1 & H2).
  { apply tiny_good. } { good. } { done. } { vm_compute. reflexivity. }
  rewrite negb_true_iff, bool_decide_eq_false in H2. apply H2. apply (H _ _ _ _ _ _ 1%N H1).
  exists OFullRelay, 0%N, [], [Connected 2 OFullRelay 0; Connected 3 OFullRelay 0]. split; [done|]. intros o Ho.
  rewrite !elem_of_cons, elem_of_nil in Ho. destruct Ho as [-> |[-> |?]]; [by eexists _, _, _..|done].
Qed.

Print Assumptions C90_banned.
Print Assumptions C90_discouraged.
Print Assumptions C90_anchors.
Print Assumptions C90_crash.
Print Assumptions C90_not_selected.
Print Assumptions C90_longest_ban_refuted.
Print Assumptions C90_reserved_not_selected_refuted.
Print Assumptions C91_no_panic.
Print Assumptions C91_bounded.
Print Assumptions C91_bounded_group.
Print Assumptions C91_tables.
Print Assumptions C91_reserved.
Print Assumptions C91_forgotten.
Print Assumptions C91_discovery.
Print Assumptions C91_connected.
Print Assumptions C91_restart.
Print Assumptions C91_selected.
Print Assumptions C91_selected_reserved.
Print Assumptions C91_heartbeat.
Print Assumptions C91_disconnected.
Print Assumptions C91_failures.
Print Assumptions C91_bounded_refuted.
Print Assumptions C91_available_refuted.
Print Assumptions C91_connected_known_refuted.
