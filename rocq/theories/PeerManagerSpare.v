From Verif Require Import Base PeerTableModel PeerDbModel PeerDbSpec PeerDbProofs PeerDbSteps PeerDbBans PeerDbBook PeerManagerModel PeerManagerSpec PeerManagerProofs PeerManagerSteps PeerManagerRun PeerManagerLedger PeerManagerFinal PeerManagerCalls.
From Verif Require EvictionModel EvictionSpec EvictionProperties.

(** * What the choice of peers to give up sees *)

Definition view (c : settings) (m : mgr) (p : N * ctx) : EvictionModel.peer :=
  EvictionModel.Peer p.1 (x_created p.2) (group c (x_address p.2)) (x_ping_min p.2) (x_role p.2) (x_last_tip p.2) (x_last_tx p.2) (x_expecting p.2)
    (is_address_banned_or_discouraged (m_db m) (ip c (x_address p.2))) (bool_decide (is_Some (m_disconnecting m !! p.1))).
Lemma seen_view c m : seen c m = map (view c m) (map_to_list (m_peers m)).
Proof. done. Qed.
Lemma seen_in c m p : p ∈ seen c m <-> exists id x, connected m id x /\ p = view c m (id, x).
Proof.
  rewrite seen_view, elem_of_list_fmap. split.
  - intros ([id x] & -> & Hin). apply elem_of_map_to_list in Hin. by exists id, x.
  - intros (id & x & Hx & ->). exists (id, x). split; [done|]. by apply elem_of_map_to_list.
Qed.
Lemma seen_distinct c m : EvictionSpec.distinct_ids (seen c m).
Proof. unfold EvictionSpec.distinct_ids. rewrite seen_view, map_map. change (NoDup (map fst (map_to_list (m_peers m)))). apply NoDup_fst_map_to_list. Qed.
Lemma bad_view c m id x : EvictionModel.p_banned_or_discouraged (view c m (id, x)) = true <-> bad c m x.
Proof. cbn. unfold is_address_banned_or_discouraged, is_address_banned, is_address_discouraged, bad. rewrite orb_true_iff, !bool_decide_eq_true. done. Qed.
Lemma kind_view c m r p : EvictionSpec.of_kind r (view c m p) <-> x_role p.2 = r /\ ~ leaving m p.1.
Proof. unfold EvictionSpec.of_kind, leaving. cbn. by rewrite bool_decide_eq_false. Qed.
Lemma number_view c m r (P : EvictionModel.peer -> Prop) (Q : ctx -> Prop) `{forall p, Decision (P p)} `{forall x, Decision (Q x)} :
  (forall id x, P (view c m (id, x)) <-> Q x) -> EvictionSpec.number (fun q => EvictionSpec.of_kind r q /\ P q) (seen c m) = number_staying m r Q.
Proof.
  intros Hpq. unfold EvictionSpec.number, number_staying. rewrite seen_view. apply filter_map_len. intros [id x]. by rewrite kind_view, Hpq.
Qed.
Lemma give_up_leaving m o j : leaving (give_up m o) j -> leaving m j \/ o = Some j.
Proof.
  destruct o as [id|]; [|by left]. cbn. unfold disconnect, leaving. destruct (m_disconnecting m !! id) eqn:E1; [by left|]. destruct (m_peers m !! id); [|by left]. cbn.
  destruct (decide (id = j)) as [->|Hne]; [by right|rewrite lookup_insert_ne by done; by left].
Qed.

(** * A new guest *)

Lemma finish_inbound c now z m a bind i m' j : finish_accept c now z m a bind Inbound None i = Ok m' -> m_peers m' <> m_peers m -> leaving m' j -> ~ leaving m j ->
  EvictionModel.evict_inbound (r_sort z) (p_key c) (r_pick z) (p_evict c) now (seen c m) = Ok (Some j).
Proof.
  intros H Hp Hl Hn. unfold finish_accept in H. destruct (try_accept_connection c now z m a bind Inbound i) as [[m1 e]| |] eqn:E; cbn [rbind] in H; [|done|done]. bind H m2 E2. cbn [answer] in H. injection H as ->.
  unfold try_accept_connection in E. destruct (validate_connection c now z m a Inbound i) as [[m0 e0]| |] eqn:E0; cbn [rbind] in E; [|done|done]. destruct e0 as [s|].
  { injection E as <- <-. exfalso. apply Hp. bind E2 m3 E3. apply failed_peers in E3. cbn in E2. injection E2 as <-. cbn. rewrite E3. by apply validate_frame in E0 as (_ & -> & _). }
  cbn in E. injection E as <- <-. rewrite decide_False in E2 by done. injection E2 as <-. change (leaving m0 j) in Hl. clear Hp.
  unfold validate_connection in E0. repeat match type of E0 with (if ?b then Ok (m, Some _) else _) = _ => destruct b; [done|] end.
  destruct (_ <=? _)%nat; [|injection E0 as <-; done]. destruct (is_address_discouraged _ _); [done|]. destruct (EvictionModel.evict_inbound _ _ _ _ _ _) as [[id|]| |]; cbn [rbind] in E0; [|done|done|done].
  injection E0 as <-. destruct (give_up_leaving m (Some id) j Hl) as [?|[= ->]]; done.
Qed.
Lemma spared c now z m a bind i m' j : inv c m -> good_rnd z ->
  finish_accept c now z m a bind Inbound None i = Ok m' -> m_peers m' <> m_peers m -> leaving m' j -> ~ leaving m j ->
  exists x, connected m j x /\ x_role x = Inbound /\
    (bad c m x \/
     (forall k y, connected m k y -> x_role y = Inbound -> ~ leaving m k -> ~ bad c m y) /\
     EvictionModel.preserved_ping (p_evict c) < number_staying m Inbound (fun y => (slowness y <= slowness x)%Z) /\
     EvictionModel.preserved_new_blocks (p_evict c) < number_staying m Inbound (fun y => EvictionSpec.at_least_as_late (x_last_tip x) (x_last_tip y)) /\
     EvictionModel.preserved_new_transactions (p_evict c) < number_staying m Inbound (fun y => EvictionSpec.at_least_as_late (x_last_tx x) (x_last_tx y))).
Proof.
  intros HI (Hsort & _) H Hp Hl Hn. pose proof (finish_inbound _ _ _ _ _ _ _ _ _ H Hp Hl Hn) as He. clear H Hp.
  assert (Hfound : exists p, p ∈ seen c m /\ EvictionSpec.of_kind Inbound p /\ EvictionModel.p_id p = j).
  { destruct (EvictionProperties.C89_inbound_evicted (r_sort z) (p_key c) (r_pick z) (p_evict c) now (seen c m) Hsort (seen_pings c m (proj1 HI))) as [H1 H2].
    destruct (Nat.lt_ge_cases (EvictionModel.total_preserved_inbound_count (p_evict c)) (EvictionSpec.number (EvictionSpec.of_kind Inbound) (seen c m))) as [Hlt|Hge].
    - destruct (H1 Hlt) as (p & Hin & Hk & Hx). rewrite He in Hx. injection Hx as Hx. by exists p.
    - rewrite (H2 Hge) in He. done. }
  destruct Hfound as (p & Hin & Hk & Hid). apply seen_in in Hin as (id & x & Hx & ->). cbn in Hid. subst id. exists x. split; [done|]. pose proof Hk as Hk'. apply kind_view in Hk' as [Hr _]. split; [done|].
  assert (Hv : view c m (j, x) ∈ seen c m) by (apply seen_in; by exists j, x).
  destruct (EvictionModel.p_banned_or_discouraged (view c m (j, x))) eqn:Hb; [left; by apply (bad_view c m j x)|]. right. split.
  - intros k y Hy Hry Hly Hbad. apply (bad_view c m k y) in Hbad.
    rewrite (EvictionProperties.C89_banned_first (r_sort z) (p_key c) (r_pick z) (p_evict c) now (seen c m) (view c m (j, x)) (view c m (k, y)) Hsort (seen_distinct c m) He Hv) in Hb; try done.
    + apply seen_in. by exists k, y.
    + by apply kind_view.
  - destruct (EvictionProperties.C89_protected (r_sort z) (p_key c) (r_pick z) (p_evict c) now (seen c m) (view c m (j, x)) Hsort (seen_distinct c m) (seen_pings c m (proj1 HI)) He Hv Hb) as (_ & P2 & P3 & P4).
    rewrite (number_view c m Inbound _ (fun y => (slowness y <= slowness x)%Z)) in P2 by done.
    rewrite (number_view c m Inbound _ (fun y => EvictionSpec.at_least_as_late (x_last_tip x) (x_last_tip y))) in P3 by done.
    rewrite (number_view c m Inbound _ (fun y => EvictionSpec.at_least_as_late (x_last_tx x) (x_last_tx y))) in P4 by done. done.
Qed.

(** * The heartbeat *)

Record same_peers (m m' : mgr) : Prop := SamePeers { sp_peers : m_peers m' = m_peers m; sp_disc : m_disconnecting m' = m_disconnecting m; sp_db : m_db m' = m_db m }.
Lemma same_trans m1 m2 m3 : same_peers m1 m2 -> same_peers m2 m3 -> same_peers m1 m3.
Proof. intros [A B C] [A' B' C']. split; congruence. Qed.
Lemma connect_same c m a t : same_peers m (connect c m a t).
Proof. destruct (connect_spec c m a t) as [[] _]. by split. Qed.
Lemma connect_all_same c l t : forall m, same_peers m (connect_all c m l t).
Proof. unfold connect_all. induction l as [|a l IH]; intros m; cbn; [by split|]. eapply same_trans; [apply connect_same|apply IH]. Qed.
Lemma establish_same c now z m m' : establish_new_connections c now z m = Ok m' -> same_peers m m'.
Proof.
  unfold establish_new_connections. intros H. cbn zeta in H.
  match type of H with context [connect_all c m ?l AutoFull] => pose proof (connect_all_same c l AutoFull m) as M1; set (m1 := connect_all c m l AutoFull) in * end.
  match type of H with context [connect_all c m1 ?l AutoBlock] => pose proof (connect_all_same c l AutoBlock m1) as M2; set (m2 := connect_all c m1 l AutoBlock) in * end.
  eapply same_trans; [exact M1|]. eapply same_trans; [exact M2|]. clearbody m2. clear M1 M2.
  match type of H with rbind ?x _ = _ => destruct x as [l| |] eqn:E; cbn [rbind] in H; [|done|done] end.
  match type of H with (if ?b then _ else _) = _ => destruct b end; [|injection H as <-; apply connect_all_same].
  destruct (select_from_new_table _ _ _ _) as [a|]; injection H as <-; [|apply connect_all_same].
  eapply same_trans; [apply connect_all_same|]. eapply same_trans; [apply (connect_same c _ a FeelerType)|]. by split.
Qed.
Lemma outbound_choice c now z m r j : inv c m -> good_rnd z -> r = OutboundBlockRelay \/ r = OutboundFullRelay ->
  EvictionSpec.evict_outbound r (r_sort z) (p_key c) (r_pick z) (p_evict c) now (seen c m) = Ok (Some j) ->
  exists x, connected m j x /\ x_role x = r /\ EvictionSpec.wanted r (p_evict c) < number_staying m r (fun _ => True) /\
    (bad c m x \/ (forall k y, connected m k y -> x_role y = r -> ~ leaving m k -> ~ bad c m y) /\ (EvictionSpec.min_age r (p_evict c) <= now - x_created x)%N).
Proof.
  intros HI (Hsort & _) Hr He.
  assert (Hfound : exists p, p ∈ seen c m /\ EvictionSpec.of_kind r p /\ EvictionModel.p_id p = j /\ EvictionSpec.wanted r (p_evict c) < EvictionSpec.number (EvictionSpec.of_kind r) (seen c m)).
  { destruct (EvictionProperties.C89_outbound_evicted (r_sort z) (p_key c) (r_pick z) (p_evict c) now (seen c m) r Hr Hsort (seen_times c m (proj1 HI))) as [H1 H2].
    destruct (Nat.lt_ge_cases (EvictionSpec.wanted r (p_evict c)) (EvictionSpec.number (EvictionSpec.of_kind r) (seen c m))) as [Hlt|Hge]; [|rewrite (H2 ltac:(by left)) in He; done].
    destruct (decide (Exists (fun q => EvictionSpec.of_kind r q /\ EvictionModel.p_banned_or_discouraged q = true) (seen c m))) as [Hb|Hb].
    - apply Exists_exists in Hb as (q & Hq & Hk & Hb). destruct (H1 Hlt ltac:(left; by exists q)) as (p & Hin & Hk' & Hx). rewrite He in Hx. injection Hx as Hx. by exists p.
    - assert (Hb' : ~ exists q, q ∈ seen c m /\ EvictionSpec.of_kind r q /\ EvictionModel.p_banned_or_discouraged q = true) by (intros (q & ? & ?); apply Hb, Exists_exists; by exists q).
      destruct (Nat.lt_ge_cases (EvictionSpec.wanted r (p_evict c)) (EvictionSpec.number (fun q => EvictionSpec.of_kind r q /\ EvictionSpec.connected_for now (EvictionSpec.min_age r (p_evict c)) q) (seen c m))) as [Hlt'|Hge'].
      + destruct (H1 Hlt ltac:(by right)) as (p & Hin & Hk' & Hx). rewrite He in Hx. injection Hx as Hx. by exists p.
      + rewrite (H2 ltac:(right; done)) in He. done. }
  destruct Hfound as (p & Hin & Hk & Hid & Hw). apply seen_in in Hin as (id & x & Hx & ->). cbn in Hid. subst id. exists x. split; [done|]. pose proof Hk as Hk'. apply kind_view in Hk' as [Hrx _]. split; [done|].
  assert (Hv : view c m (j, x) ∈ seen c m) by (apply seen_in; by exists j, x). split.
  - rewrite <- (number_view c m r (fun _ => True) (fun _ => True)) by done. eapply Nat.lt_le_trans; [exact Hw|]. unfold EvictionSpec.number. apply filter_len_le. auto.
  - destruct (EvictionModel.p_banned_or_discouraged (view c m (j, x))) eqn:Hb; [left; by apply (bad_view c m j x)|]. right.
    destruct (EvictionProperties.C89_outbound_choice (r_sort z) (p_key c) (r_pick z) (p_evict c) now (seen c m) r Hr (view c m (j, x)) Hsort (seen_distinct c m) He Hv Hb) as (P1 & P2 & _). split; [|exact P2].
    intros k y Hy Hry Hly Hbad. apply (bad_view c m k y) in Hbad. rewrite P1 in Hbad; [done| |by apply kind_view]. apply seen_in. by exists k, y.
Qed.

Lemma heartbeat_given_up c now z m m' j : inv c m -> room m 1 -> good_rnd z -> heartbeat c now z m = Ok m' -> leaving m' j -> ~ leaving m j ->
  exists x r, (r = OutboundBlockRelay \/ r = OutboundFullRelay) /\ connected m j x /\ x_role x = r /\ EvictionSpec.wanted r (p_evict c) < number_staying m r (fun _ => True) /\
    (bad c m' x \/ (forall k y, connected m k y -> x_role y = r -> ~ leaving m k -> ~ bad c m' y) /\ (EvictionSpec.min_age r (p_evict c) <= now - x_created x)%N).
Proof.
  intros HI Hroom Hz H Hl Hn. unfold heartbeat in H. destruct (call_quiet c m (Heartbeat now)) as (d & Hd & HI1 & _); try done. rewrite Hd in H. cbn [rbind] in H.
  set (m1 := with_call m d (Heartbeat now)) in *. assert (S1 : m_peers m1 = m_peers m /\ m_disconnecting m1 = m_disconnecting m) by done. clearbody m1. destruct S1 as [Sp Sd].
  destruct (m_networking m1); [|injection H as <-; unfold leaving in *; congruence].
  destruct (establish_ok c now z m1 HI1 Hz) as (m2 & E2 & HI2 & _). rewrite E2 in H. cbn [rbind] in H. apply establish_same in E2 as [S1 S2 _]. rewrite Sp in S1. rewrite Sd in S2. clear HI1 Sp Sd m1 Hd d.
  match type of H with rbind ?x _ = _ => destruct x as [o1| |] eqn:Eb; cbn [rbind] in H; [|done|done] end.
  match type of H with rbind ?x _ = _ => destruct x as [o2| |] eqn:Ef; cbn [rbind] in H; [|done|done] end. injection H as <-.
  assert (Hdb : forall m o, m_db (give_up m o) = m_db m /\ m_peers (give_up m o) = m_peers m).
  { intros m0 [id|]; [|done]. cbn. unfold disconnect. destruct (m_disconnecting m0 !! id), (m_peers m0 !! id); done. }
  assert (Hconn : forall i y, connected m2 i y <-> connected m i y) by (intros; unfold connected; by rewrite S1).
  assert (Hleav : forall i, leaving m2 i <-> leaving m i) by (intros; unfold leaving; by rewrite S2).
  assert (Hnum : forall r, number_staying m2 r (fun _ => True) = number_staying m r (fun _ => True)).
  { intros r. unfold number_staying. rewrite S1. f_equal. apply list_filter_iff. intros p. by rewrite Hleav. }
  assert (Hblock : forall i, o1 = Some i -> exists x, connected m2 i x /\ x_role x = OutboundBlockRelay).
  { intros i ->. destruct (outbound_choice c now z m2 OutboundBlockRelay i HI2 Hz) as (x & ? & ? & _); [by left|exact Eb|]. by exists x. }
  apply give_up_leaving in Hl as [Hl| ->].
  - apply give_up_leaving in Hl as [Hl| ->]; [by apply Hleav in Hl|].
    destruct (outbound_choice c now z m2 OutboundBlockRelay j HI2 Hz) as (x & C & R & W & D); [by left|exact Eb|]. exists x, OutboundBlockRelay. split; [by left|]. split; [by apply Hconn|]. split; [done|]. split; [by rewrite <- Hnum|].
    unfold bad in *. rewrite (proj1 (Hdb _ o2)), (proj1 (Hdb m2 _)). destruct D as [D|[D1 D2]]; [by left|right]. split; [|done]. intros k y Hk Hr Hnl. apply (D1 k y); [by apply Hconn|done|by rewrite Hleav].
  - destruct (outbound_choice c now z (give_up m2 o1) OutboundFullRelay j (give_up_inv c m2 o1 HI2) Hz) as (x & C & R & W & D); [by right|exact Ef|]. exists x, OutboundFullRelay.
    unfold connected in C. rewrite (proj2 (Hdb m2 o1)) in C. split; [by right|]. split; [by apply Hconn|]. split; [done|]. split.
    + rewrite <- Hnum. eapply Nat.lt_le_trans; [exact W|]. unfold number_staying. rewrite (proj2 (Hdb m2 o1)). apply filter_len_le. intros p _ [[Hr Hnl] _]. split; [|done]. split; [done|].
      intros Hl. apply Hnl. destruct o1 as [i|]; [|done]. cbn. unfold disconnect. destruct (m_disconnecting m2 !! i) eqn:E1; [done|]. destruct (m_peers m2 !! i); [|done]. unfold leaving in *. cbn.
      destruct (decide (i = p.1)) as [->|Hne]; [rewrite lookup_insert|rewrite lookup_insert_ne by done]; done.
    + unfold bad in *. rewrite !(proj1 (Hdb _ _)) in *. destruct D as [D|[D1 D2]]; [by left|right]. split; [|done]. intros k y Hk Hr Hnl. apply (D1 k y); [unfold connected; rewrite (proj2 (Hdb _ _)); by apply Hconn|done|].
      intros [Hl|He]%give_up_leaving; [by apply Hleav in Hl|]. destruct (Hblock k He) as (y' & Hy' & Hr'). apply Hconn in Hy'. unfold connected in *. congruence.
Qed.

(** * When more peers are called *)

Lemma cnt_connect c m a t r : cnt r (addresses (connect c m a t)) <= cnt r (addresses m) + (if decide (role_of t = r) then 1 else 0).
Proof.
  destruct (connect_spec c m a t) as [_ [->|H]]; [lia|]. rewrite (cnt_perm _ _ _ H). change ((a, role_of t) :: addresses m) with (map (fun a => (a, role_of t)) [a] ++ addresses m).
  rewrite cnt_app, cnt_map. cbn [length]. lia.
Qed.
Lemma cnt_connect_all c t r l : forall m, cnt r (addresses (connect_all c m l t)) <= cnt r (addresses m) + (if decide (role_of t = r) then length l else 0).
Proof.
  unfold connect_all. induction l as [|a l IH]; intros m; cbn [foldl length]; [lia|]. specialize (IH (connect c m a t)). pose proof (cnt_connect c m a t r). destruct (decide _); lia.
Qed.
Lemma establish_count c now z m m' : inv c m -> good_rnd z -> establish_new_connections c now z m = Ok m' ->
  (cnt OutboundFullRelay (addresses m') <= cnt OutboundFullRelay (addresses m) `max` (EvictionModel.full_relay_count (p_evict c) + if tip_is_stale c now m then p_full_extra c else 0)) /\
  (cnt OutboundBlockRelay (addresses m') <= cnt OutboundBlockRelay (addresses m) `max` (EvictionModel.block_relay_count (p_evict c) + p_block_extra c)) /\
  (cnt Feeler (addresses m) < cnt Feeler (addresses m') -> p_feelers c = true /\ (m_feeler m <= now)%N).
Proof.
  intros HI (_ & Hsample & _) H. destruct (db_inv c m (proj1 HI)) as (n & bs & Hdb). unfold establish_new_connections in H. cbn zeta in H.
  match type of H with context [connect_all c m ?l AutoFull] => set (l1 := l) in *; pose proof (connect_all_same c l1 AutoFull m) as M1; pose proof (fun r => cnt_connect_all c AutoFull r l1 m) as N1;
    assert (L1 : length l1 <= EvictionModel.full_relay_count (p_evict c) + (if tip_is_stale c now m then p_full_extra c else 0) - count_role m OutboundFullRelay) by (eapply (selected (p_db c) n bs); done);
    set (m1 := connect_all c m l1 AutoFull) in * end.
  rewrite <- (sp_db _ _ M1) in Hdb.
  match type of H with context [connect_all c m1 ?l AutoBlock] => set (l2 := l) in *; pose proof (connect_all_same c l2 AutoBlock m1) as M2; pose proof (fun r => cnt_connect_all c AutoBlock r l2 m1) as N2;
    assert (L2 : length l2 <= EvictionModel.block_relay_count (p_evict c) + p_block_extra c - count_role m OutboundBlockRelay) by (eapply (selected (p_db c) n bs); done);
    set (m2 := connect_all c m1 l2 AutoBlock) in * end.
  change (count_role m OutboundFullRelay) with (cnt OutboundFullRelay (addresses m)) in L1. change (count_role m OutboundBlockRelay) with (cnt OutboundBlockRelay (addresses m)) in L2.
  assert (Hfe : m_feeler m2 = m_feeler m).
  { assert (Hc : forall l t m, m_feeler (connect_all c m l t) = m_feeler m).
    { intros l t. unfold connect_all. induction l as [|a l IH]; intros m0; cbn; [done|]. rewrite IH. unfold connect. destruct (try_connect _ _ _ _); [done|]. by destruct t. }
    unfold m2, m1. by rewrite !Hc. }
  clearbody m1 m2. match type of H with rbind ?x _ = _ => destruct x as [l| |] eqn:E; cbn [rbind] in H; [|done|done] end.
  pose proof (fun r => cnt_connect_all c Reserved r l m2) as N3.
  assert (Hc3 : m_feeler (connect_all c m2 l Reserved) = m_feeler m2).
  { clear. unfold connect_all. revert m2. induction l as [|a l IH]; intros m0; cbn; [done|]. rewrite IH. unfold connect. by destruct (try_connect _ _ _ _). }
  set (m3 := connect_all c m2 l Reserved) in *. clearbody m3.
  pose proof (N1 OutboundFullRelay) as A1. pose proof (N2 OutboundFullRelay) as A2. pose proof (N3 OutboundFullRelay) as A3.
  pose proof (N1 OutboundBlockRelay) as B1. pose proof (N2 OutboundBlockRelay) as B2. pose proof (N3 OutboundBlockRelay) as B3.
  pose proof (N1 Feeler) as C1. pose proof (N2 Feeler) as C2. pose proof (N3 Feeler) as C3. cbn [role_of] in *.
  repeat match goal with H : context [decide (?a = ?a)] |- _ => rewrite (decide_True (P := a = a)) in H by done end.
  repeat match goal with H : context [decide (?a = ?b)] |- _ => rewrite (decide_False (P := a = b)) in H by done end.
  clear N1 N2 N3. assert (Hthree : (cnt OutboundFullRelay (addresses m3) <= cnt OutboundFullRelay (addresses m) `max` (EvictionModel.full_relay_count (p_evict c) + if tip_is_stale c now m then p_full_extra c else 0)) /\
    (cnt OutboundBlockRelay (addresses m3) <= cnt OutboundBlockRelay (addresses m) `max` (EvictionModel.block_relay_count (p_evict c) + p_block_extra c)) /\ cnt Feeler (addresses m3) <= cnt Feeler (addresses m)).
  { clear - L1 L2 A1 A2 A3 B1 B2 B3 C1 C2 C3. split_and!; lia. }
  clear L1 L2 A1 A2 A3 B1 B2 B3 C1 C2 C3. destruct Hthree as (T1 & T2 & T3).
  destruct (p_feelers c) eqn:Ep; [|injection H as <-; split_and!; [done|done|lia]]. cbn [andb] in H.
  destruct (bool_decide (l1 = []) && _ && (m_feeler m3 <=? now)%N) eqn:Eb; [|injection H as <-; split_and!; [done|done|lia]]. apply andb_prop in Eb as [_ Eb%N.leb_le].
  destruct (select_from_new_table _ _ _ _) as [a|]; injection H as <-; [|split_and!; [done|done|lia]].
  pose proof (cnt_connect c m3 a FeelerType OutboundFullRelay) as A. pose proof (cnt_connect c m3 a FeelerType OutboundBlockRelay) as B. cbn [role_of] in A, B. rewrite decide_False in A by done. rewrite decide_False in B by done.
  rewrite Nat.add_0_r in A, B. change (addresses (with_feeler (connect c m3 a FeelerType) (now + r_delay z))) with (addresses (connect c m3 a FeelerType)). split_and!; [lia|lia|]. intros _. rewrite <- Hfe, <- Hc3. done.
Qed.
Lemma heartbeat_count c now z m m' : inv c m -> room m 1 -> good_rnd z -> heartbeat c now z m = Ok m' ->
  (cnt OutboundFullRelay (addresses m') <= cnt OutboundFullRelay (addresses m) `max` (EvictionModel.full_relay_count (p_evict c) + if tip_is_stale c now m then p_full_extra c else 0)) /\
  (cnt OutboundBlockRelay (addresses m') <= cnt OutboundBlockRelay (addresses m) `max` (EvictionModel.block_relay_count (p_evict c) + p_block_extra c)) /\
  (cnt Feeler (addresses m) < cnt Feeler (addresses m') -> p_feelers c = true /\ (m_feeler m <= now)%N).
Proof.
  intros HI Hroom Hz H. unfold heartbeat in H. destruct (call_quiet c m (Heartbeat now)) as (d & Hd & HI1 & _); try done. rewrite Hd in H. cbn [rbind] in H.
  set (m1 := with_call m d (Heartbeat now)) in *. destruct (m_networking m1); [|injection H as <-; change (addresses m1) with (addresses m); split_and!; lia].
  match type of H with rbind ?x _ = _ => destruct x as [m2| |] eqn:E2; cbn [rbind] in H; [|done|done] end.
  match type of H with rbind ?x _ = _ => destruct x as [o1| |] eqn:Eb; cbn [rbind] in H; [|done|done] end.
  match type of H with rbind ?x _ = _ => destruct x as [o2| |] eqn:Ef; cbn [rbind] in H; [|done|done] end. injection H as <-.
  assert (Hdb : forall m o, addresses (give_up m o) = addresses m).
  { intros m0 [id|]; [|done]. cbn. unfold disconnect. destruct (m_disconnecting m0 !! id), (m_peers m0 !! id); done. }
  rewrite !Hdb. apply (establish_count c now z m1 m2 HI1 Hz E2).
Qed.
