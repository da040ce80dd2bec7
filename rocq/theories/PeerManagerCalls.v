From Verif Require Import Base PeerTableModel PeerDbModel PeerDbSpec PeerDbProofs PeerDbSteps PeerDbBans PeerDbBook PeerManagerModel PeerManagerSpec PeerManagerProofs PeerManagerSteps PeerManagerRun PeerManagerLedger PeerManagerFinal.
From Verif Require EvictionModel EvictionSpec.

Lemma call_calls c m o m' : call c m o = Ok m' -> m_calls m' = m_calls m ++ [o].
Proof. unfold call. destruct (PeerDbModel.step _ _ _); cbn [rbind]; [by intros [= <-]|done|done]. Qed.
Lemma connect_calls c m a t : m_calls (connect c m a t) = m_calls m.
Proof. apply (cn_calls _ _ (proj1 (connect_spec c m a t))). Qed.
Lemma connect_all_calls c l t : forall m, m_calls (connect_all c m l t) = m_calls m.
Proof. unfold connect_all. induction l as [|a l IH]; intros m; cbn; [done|]. by rewrite IH, connect_calls. Qed.
Lemma disconnect_calls m id r q : m_calls (disconnect m id r q) = m_calls m.
Proof. apply (dc_calls _ _ (proj1 (disconnect_spec m id r q))). Qed.
Lemma disconnect_all_calls m l : m_calls (disconnect_all m l) = m_calls m.
Proof. apply (dc_calls _ _ (proj1 (disconnect_all_spec l m))). Qed.
Lemma give_up_calls m o : m_calls (give_up m o) = m_calls m.
Proof. destruct o; [apply disconnect_calls|done]. Qed.
Lemma answer_calls m q ok : m_calls (answer m q ok) = m_calls m.
Proof. by destruct q. Qed.
Lemma establish_calls c now z m m' : establish_new_connections c now z m = Ok m' -> m_calls m' = m_calls m.
Proof.
  unfold establish_new_connections. intros H. cbn zeta in H.
  match type of H with context [connect_all c m ?l AutoFull] => pose proof (connect_all_calls c l AutoFull m) as M1; set (m1 := connect_all c m l AutoFull) in * end.
  match type of H with context [connect_all c m1 ?l AutoBlock] => pose proof (connect_all_calls c l AutoBlock m1) as M2; set (m2 := connect_all c m1 l AutoBlock) in * end.
  rewrite <- M1, <- M2. clearbody m2. clear M1 M2.
  match type of H with rbind ?x _ = _ => destruct x as [l| |] eqn:E; cbn [rbind] in H; [|done|done] end.
  match type of H with (if ?b then _ else _) = _ => destruct b end; [|injection H as <-; apply connect_all_calls].
  destruct (select_from_new_table _ _ _ _) as [a|]; injection H as <-; [|apply connect_all_calls]. cbn. by rewrite connect_calls, connect_all_calls.
Qed.
Lemma heartbeat_calls c now z m m' : heartbeat c now z m = Ok m' -> m_calls m' = m_calls m ++ [Heartbeat now].
Proof.
  unfold heartbeat. intros H. bind H m1 E. apply call_calls in E. destruct (m_networking m1); [|by injection H as <-].
  bind H m2 E2. apply establish_calls in E2. bind H o E3. bind H o' E4. injection H as <-. by rewrite !give_up_calls, E2.
Qed.
Lemma discover_calls c now l : forall m m', discover_all c now m l = Ok m' -> m_calls m' = m_calls m ++ map (fun a => Discovered a now) l.
Proof.
  unfold discover_all. induction l as [|a l IH]; intros m m'; cbn [rfold]; [intros [= <-]; by rewrite app_nil_r|]. intros H. destruct (call c m (Discovered a now)) as [m1| |] eqn:E; cbn [rbind] in H; [|done|done].
  apply IH in H. rewrite H, (call_calls _ _ _ _ E), <- app_assoc. done.
Qed.
Lemma discourage_calls c now m b m' : discourage c now m b = Ok m' -> m_calls m' = m_calls m ++ [Discourage b now].
Proof. unfold discourage. intros H. bind H m1 E. injection H as <-. rewrite disconnect_all_calls. by apply call_calls in E. Qed.
Lemma adjust_calls c now m id s m' : adjust_peer_score c now m id s = Ok m' -> exists l, m_calls m' = m_calls m ++ l /\ punishment c now l.
Proof.
  unfold adjust_peer_score. assert (Hn : exists l, m_calls m = m_calls m ++ l /\ punishment c now l) by (exists []; split; [by rewrite app_nil_r|by left]).
  destruct (m_peers m !! id) as [x|]; [|by intros [= <-]]. destruct (is_whitelisted_node _ _ _); [by intros [= <-]|]. cbn zeta. destruct (_ <=? _)%N; [|by intros [= <-]].
  intros H. apply discourage_calls in H. eexists. split; [exact H|]. right. by eexists.
Qed.
Lemma failed_calls c now m a r s m' : adjust_on_failed_connection c now m a r s = Ok m' -> m_calls m' = m_calls m \/ m_calls m' = m_calls m ++ [Discourage (ip c a) now].
Proof.
  unfold adjust_on_failed_connection. destruct (_ <? _)%N; [intros [= <-]; by left|]. destruct (is_whitelisted_node _ _ _); [intros [= <-]; by left|]. intros H. right. by apply discourage_calls in H.
Qed.
Lemma validate_frame c now z m a r i m' e : validate_connection c now z m a r i = Ok (m', e) -> m_calls m' = m_calls m /\ m_peers m' = m_peers m /\ (e = None -> m_peers m !! i_id i = None).
Proof.
  unfold validate_connection. assert (Hn : forall s, @Ok unit _ (m, Some s) = Ok (m', e) -> m_calls m' = m_calls m /\ m_peers m' = m_peers m /\ (e = None -> m_peers m !! i_id i = None)) by (intros s [= <- <-]; done).
  destruct (negb (m_networking m)); [apply Hn|]. destruct (negb (i_same_network i)); [apply Hn|]. destruct (bool_decide (is_Some (m_peers m !! i_id i))) eqn:Hp; [apply Hn|].
  apply bool_decide_eq_false in Hp. rewrite <- eq_None_not_Some in Hp.
  assert (Hy : @Ok unit _ (m, None) = Ok (m', e) -> m_calls m' = m_calls m /\ m_peers m' = m_peers m /\ (e = None -> m_peers m !! i_id i = None)) by (intros [= <- <-]; done).
  destruct (already_connected c m a r); [apply Hn|]. destruct (is_address_banned _ _); [apply Hn|]. destruct (_ =? _)%N; [apply Hn|]. destruct (i_outdated i); [apply Hn|].
  destruct r; try apply Hy; [|destruct (_ =? _)%N; [apply Hy|apply Hn]..].
  destruct (_ <=? _)%nat; [|apply Hy]. destruct (is_address_discouraged _ _); [apply Hn|]. destruct (EvictionModel.evict_inbound _ _ _ _ _ _) as [[id|]| |]; cbn [rbind]; [|apply Hn|done|done].
  intros [= <- <-]. rewrite disconnect_calls, (dc_peers _ _ (proj1 (disconnect_spec m id false None))). done.
Qed.
Lemma anchors_spec c m b : b ∈ anchors c m <-> exists id x, connected m id x /\ x_role x = OutboundBlockRelay /\ x_address x = b /\
  length (filter (fun q => (q.1 < id)%N /\ x_role q.2 = OutboundBlockRelay) (map_to_list (m_peers m))) < EvictionModel.block_relay_count (p_evict c).
Proof.
  unfold anchors. rewrite elem_of_list_to_set, elem_of_list_fmap.
  assert (Hf : forall id, filter (fun q : N * ctx => (q.1 < id)%N) (block_relay_peers m) = filter (fun q => (q.1 < id)%N /\ x_role q.2 = OutboundBlockRelay) (map_to_list (m_peers m))).
  { intros id. unfold block_relay_peers. by rewrite list_filter_filter. }
  split.
  - intros ([id x] & -> & Hin). apply elem_of_list_filter in Hin as [Hlt Hin]. cbn [fst snd] in *. rewrite Hf in Hlt. unfold block_relay_peers in Hin. apply elem_of_list_filter in Hin as [Hr Hin]. apply elem_of_map_to_list in Hin. by exists id, x.
  - intros (id & x & Hc & Hr & <- & Hlt). exists (id, x). split; [done|]. apply elem_of_list_filter. cbn [fst snd]. rewrite Hf. split; [done|]. unfold block_relay_peers. apply elem_of_list_filter. split; [done|]. by apply elem_of_map_to_list.
Qed.
Lemma finish_calls c now z m a bind r q i m' : finish_accept c now z m a bind r q i = Ok m' ->
  exists l, m_calls m' = m_calls m ++ l /\
    ((m_peers m' = m_peers m /\ (l = match as_outbound r with Some _ => [Failed a now (r_jitter z)] | None => [] end \/
                                 l = Discourage (ip c a) now :: match as_outbound r with Some _ => [Failed a now (r_jitter z)] | None => [] end)) \/
     (m_peers m' <> m_peers m /\ l = match as_outbound r with Some o => [Connected a o now] | None => [] end ++ (if decide (r = OutboundBlockRelay) then [SetAnchors (anchors c m')] else []))).
Proof.
  unfold finish_accept. intros H. destruct (try_accept_connection c now z m a bind r i) as [[m1 e]| |] eqn:E; cbn [rbind] in H; [|done|done]. bind H m2 E2. injection H as <-. rewrite answer_calls, answer_peers.
  assert (Ha : anchors c (answer m2 q (bool_decide (e = None))) = anchors c m2) by by destruct q. rewrite Ha. clear Ha.
  unfold try_accept_connection in E. destruct (validate_connection c now z m a r i) as [[m0 e0]| |] eqn:E0; cbn [rbind] in E; [|done|done]. apply validate_frame in E0 as (H1 & H2 & H3). destruct e0 as [s|].
  - injection E as <- <-. bind E2 m3 E3. pose proof (failed_peers _ _ _ _ _ _ _ E3) as Hp. apply failed_calls in E3.
    assert (Hx : m_peers m2 = m_peers m3 /\ m_calls m2 = m_calls m3 ++ match as_outbound r with Some _ => [Failed a now (r_jitter z)] | None => [] end).
    { unfold is_outbound in E2. destruct (as_outbound r) as [o|]; cbn in E2; [split; [by apply call_frame in E2 as [-> _]|by apply call_calls in E2]|injection E2 as <-; by rewrite app_nil_r]. }
    destruct Hx as [Hx1 Hx2]. destruct E3 as [E3|E3]; rewrite E3, H1 in Hx2; eexists; (split; [rewrite Hx2; rewrite <- ?app_assoc; reflexivity|left; split; [by rewrite Hx1, Hp|]]); [by left|by right].
  - bind E m4 E4. bind E m5 E5. injection E as <- <-. injection E2 as <-.
    match type of E4 with context [call c ?x _] => set (mm := x) in * end.
    assert (Hmm : m_calls mm = m_calls m /\ m_peers mm = <[i_id i := Ctx a bind r now 0 None None false false None None None]> (m_peers m)).
    { unfold mm. destruct (should_load_addresses_from r); cbn; by rewrite H1, H2. }
    clearbody mm. destruct Hmm as [Hm1 Hm2].
    assert (H4 : m_peers m4 = m_peers mm /\ m_calls m4 = m_calls mm ++ match as_outbound r with Some o => [Connected a o now] | None => [] end).
    { destruct (as_outbound r) as [o|]; [split; [by apply call_frame in E4 as [-> _]|by apply call_calls in E4]|injection E4 as <-; by rewrite app_nil_r]. }
    destruct H4 as [H4 H5].
    assert (H6 : m_peers m5 = m_peers m4 /\ m_calls m5 = m_calls m4 ++ (if decide (r = OutboundBlockRelay) then [SetAnchors (anchors c m4)] else [])).
    { destruct (decide (r = OutboundBlockRelay)); [split; [by apply call_frame in E5 as [-> _]|by apply call_calls in E5]|injection E5 as <-; by rewrite app_nil_r]. }
    destruct H6 as [H6 H7].
    set (m6 := if decide (r = Feeler) then _ else _).
    assert (H8 : m_calls m6 = m_calls m5 /\ m_peers m6 = m_peers m5) by (unfold m6; destruct (decide (r = Feeler)); [split; [apply disconnect_calls|apply (dc_peers _ _ (proj1 (disconnect_spec m5 (i_id i) false None)))]|done]).
    destruct H8 as [H8 H9]. eexists. split; [rewrite H8, H7, H5, Hm1, <- app_assoc; reflexivity|]. right. split.
    + rewrite H9, H6, H4, Hm2. intros He. assert (Hl : m_peers m !! i_id i = None) by by apply H3. rewrite <- He, lookup_insert in Hl. done.
    + do 2 f_equal. unfold anchors, block_relay_peers. by rewrite H9, H6.
Qed.

Lemma message_calls c now z m id msg m' : handle_message c now z m id msg = Ok m' ->
  exists l, m_calls m' = m_calls m ++ l /\ expected_calls c now (r_jitter z) m m' (MessageFrom id msg) l.
Proof.
  unfold handle_message, expected_calls. destruct (m_peers m !! id) as [x|] eqn:Hx; [|intros [= <-]; exists []; by rewrite app_nil_r]. intros H. bind H m1 E.
  set (A := if decide (x_role x = Inbound \/ is_farewell msg = true) then [] else [Activity (x_address x) now]).
  assert (H1 : m_calls m1 = m_calls m ++ A /\ m_peers m1 = m_peers m).
  { assert (Hi : is_outbound (x_role x) = false <-> x_role x = Inbound) by apply outbound_inbound. unfold A. destruct (decide (x_role x = Inbound \/ is_farewell msg = true)) as [[Hr|Hf]|Hn].
    - apply Hi in Hr. rewrite Hr, app_nil_r in *. destruct msg; by injection E as <-.
    - rewrite app_nil_r. destruct msg; try done. by injection E as <-.
    - assert (Ho : is_outbound (x_role x) = true) by (destruct (is_outbound (x_role x)); [done|]; exfalso; apply Hn; left; by apply Hi). rewrite Ho in E.
      assert (E' : call c m (Activity (x_address x) now) = Ok m1) by (destruct msg; try done; exfalso; apply Hn; by right). split; [by apply call_calls in E'|by apply call_frame in E' as [-> _]]. }
  destruct H1 as [H1 Hp]. clearbody A. clear E.
  assert (Hq : m_calls m' = m_calls m1 -> exists l, m_calls m' = m_calls m ++ l /\ exists k, l = A ++ k /\ k = []).
  { intros ->. exists A. split; [done|]. exists []. by rewrite app_nil_r. }
  destruct msg as [|a limited|nonce|sent|nonce| |].
  - apply Hq. unfold handle_addr_list_request in H. destruct (_ || _); [by injection H as <-|]. match type of H with (if ?b then _ else _) = _ => destruct b end; [|done]. by injection H as <-.
  - destruct (p_discoverable c a && negb limited); [|apply Hq; by injection H as <-]. apply call_calls in H. exists (A ++ [Discovered a now]). rewrite H, H1, <- app_assoc. split; [done|]. by eexists.
  - apply Hq. by injection H as <-.
  - unfold handle_addr_list_response in H.
    assert (Hadj : forall s, adjust_peer_score c now m1 id s = Ok m' -> exists l, m_calls m' = m_calls m ++ l /\ exists k, l = A ++ k /\ punishment c now k).
    { intros s Hs. apply adjust_calls in Hs as (k & Hk & Hpun). exists (A ++ k). rewrite Hk, H1, <- app_assoc. split; [done|]. by exists k. }
    destruct (decide (length sent <= p_max_list c /\ should_load_addresses_from (x_role x) = true /\ x_response x = false)) as [(D1 & D2 & D3)|Hn].
    + rewrite (proj2 (Nat.leb_le _ _) D1), D2, D3 in H. cbn [negb] in H. apply discover_calls in H. cbn in H. eexists. rewrite H, H1, <- app_assoc. split; [done|]. by eexists.
    + destruct (Nat.leb_spec (length sent) (p_max_list c)); cbn [negb] in H; [|by eapply Hadj]. destruct (should_load_addresses_from (x_role x)); cbn [negb] in H; [|by eapply Hadj]. destruct (x_response x); [by eapply Hadj|].
      exfalso. apply Hn. done.
  - apply Hq. injection H as <-. unfold handle_ping_response. destruct (x_ping x) as [[n t]|]; [|done]. by destruct (_ =? _)%N.
  - apply Hq. injection H as <-. apply disconnect_calls.
  - apply Hq. by injection H as <-.
Qed.
Lemma begin_calls c now z m m' : begin_run c now z m = Ok m' -> m_calls m' = m_calls m ++ (if decide (m_networking m = true /\ d_anchors (m_db m) = ∅) then [Heartbeat now] else []).
Proof.
  unfold begin_run. destruct (m_networking m); [|intros [= <-]; rewrite decide_False by (by intros []); by rewrite app_nil_r].
  destruct (decide (d_anchors (m_db m) = ∅)); [rewrite decide_True by done; apply heartbeat_calls|]. rewrite decide_False by (by intros []). rewrite app_nil_r. intros [= <-]. apply connect_all_calls.
Qed.
Lemma ping_calls c now z m : m_calls (ping_check c now z m) = m_calls m.
Proof.
  unfold ping_check. rewrite disconnect_all_calls. generalize (map_to_list (m_peers m)). intros l. revert m. induction l as [|p l IH]; intros m; [done|]. cbn [foldl]. rewrite IH. by destruct (x_ping p.2).
Qed.
Lemma step_calls c now z m e m' : inv c m -> room m 1 -> step c now z m e = Ok m' -> exists l, m_calls m' = m_calls m ++ l /\ expected_calls c now (r_jitter z) m m' e l.
Proof.
  intros HI Hroom H.
  assert (Hnone : m_calls m' = m_calls m -> exists l, m_calls m' = m_calls m ++ l /\ l = []) by (intros ->; exists []; by rewrite app_nil_r).
  destruct e as [a q|id remove q|id s|id|id|id since| |a|a|b dur|b|b|enable|id msg|a bind i|a bind i|id|a|id s|a s| | |found|networking rs bs]; cbn [step] in H; unfold expected_calls.
  - injection H as <-. apply Hnone, connect_calls.
  - injection H as <-. apply Hnone, disconnect_calls.
  - by eapply adjust_calls.
  - injection H as <-. apply Hnone. unfold update_peer. by destruct (_ !! _).
  - injection H as <-. apply Hnone. unfold update_peer. by destruct (_ !! _).
  - injection H as <-. apply Hnone. unfold update_peer. by destruct (_ !! _).
  - injection H as <-. by apply Hnone.
  - bind H m1 E. apply call_calls in E. injection H as <-. eexists. split; [|done]. destruct (m_networking m1); [by rewrite connect_calls|done].
  - apply call_calls in H. by eexists.
  - unfold ban in H. bind H m1 E. injection H as <-. apply call_calls in E. eexists. split; [|done]. by rewrite disconnect_all_calls.
  - apply call_calls in H. by eexists.
  - apply call_calls in H. by eexists.
  - unfold enable_networking in H. eexists. split; [|done]. destruct (bool_decide (m_networking m = enable)) eqn:Hb.
    + apply bool_decide_eq_true in Hb. injection H as <-. rewrite decide_False; [by rewrite app_nil_r|]. intros [-> ?]. congruence.
    + apply bool_decide_eq_false in Hb. destruct enable.
      * apply heartbeat_calls in H. rewrite decide_True; [exact H|]. split; [done|]. by destruct (m_networking m).
      * injection H as <-. rewrite decide_False by (by intros []). by rewrite app_nil_r.
  - apply message_calls in H. exact H.
  - unfold accept_inbound in H. apply finish_calls in H as (l & Hl & Hc). exists l. split; [done|]. cbn [as_outbound] in Hc. destruct Hc as [(Hp & [-> | ->])|(Hp & ->)]; [by left|by right|left]. by rewrite decide_False.
  - unfold accept_outbound in H. destruct (m_pending m !! a) as [t|] eqn:Ht; cbn [expect rbind] in H; [|done]. apply finish_calls in H as (l & Hl & Hc). cbn in Hl, Hc. exists l. split; [done|].
    destruct (as_outbound (role_of t)) as [o|] eqn:Ho; [|by destruct t]. exists t, o. split_and!; try done.
    + intros Hp. destruct Hc as [[_ ?]|[? _]]; done.
    + intros Hp. destruct Hc as [[? _]|[_ ->]]; [done|]. destruct (decide (t = AutoBlock)) as [->|Hne].
      * rewrite decide_True by done. exists (anchors c m'). split; [done|]. apply anchors_spec.
      * rewrite decide_False; [by rewrite app_nil_r|]. by destruct t.
  - unfold connection_closed in H. destruct (m_peers m !! id) as [x|] eqn:Hx; [|injection H as <-; by apply Hnone].
    assert (Hi : is_outbound (x_role x) = false <-> x_role x = Inbound) by apply outbound_inbound.
    bind H m1 E. assert (H1 : m_calls m1 = m_calls m ++ (if is_outbound (x_role x) then [Disconnected (x_address x) now (r_jitter z)] else []) /\ m_disconnecting m1 = m_disconnecting m).
    { destruct (is_outbound (x_role x)); [split; [by apply call_calls in E|by apply call_frame in E as (_ & _ & -> & _)]|injection E as <-; by rewrite app_nil_r]. }
    destruct H1 as [H1 H2]. rewrite H2 in H. eexists. split; [|reflexivity]. destruct (m_disconnecting m !! id) as [[remove q]|].
    + bind H m2 E2. injection H as <-. rewrite answer_calls.
      assert (H3 : m_calls m2 = m_calls m1 ++ (if remove && is_outbound (x_role x) then [RemoveAddress (x_address x)] else [])).
      { destruct (remove && is_outbound (x_role x)); [by apply call_calls in E2|injection E2 as <-; by rewrite app_nil_r]. }
      rewrite H3, H1, <- app_assoc. f_equal. destruct (is_outbound (x_role x)) eqn:Ho.
      * rewrite decide_False; [by destruct remove|]. intros Hr. by apply Hi in Hr.
      * rewrite decide_True by (by apply Hi). by destruct remove.
    + injection H as <-. rewrite H1. f_equal. destruct (is_outbound (x_role x)) eqn:Ho.
      * rewrite decide_False; [done|]. intros Hr. by apply Hi in Hr.
      * rewrite decide_True by (by apply Hi). done.
  - unfold handle_outbound_error in H. bind H m1 E. apply call_calls in E. bind H t E2. injection H as <-. eexists. split; [|done]. by rewrite answer_calls.
  - by eapply adjust_calls.
  - unfold adjust_on_failed_handshake in H. apply failed_calls in H as [H|H]; [exists []; rewrite app_nil_r; split; [done|by left]|]. eexists. split; [exact H|]. right. by eexists.
  - apply heartbeat_calls in H. by eexists.
  - injection H as <-. apply Hnone, ping_calls.
  - apply discover_calls in H. by eexists.
  - bind H d E. apply begin_calls in H. cbn in H. rewrite <- app_assoc in H. eexists. split; [exact H|].
    destruct (v_hist _ _ (proj1 HI)) as (r & b & t & Hh). destruct (hist_step _ r b t _ _ (Restart rs bs now) Hh) as (d' & Hd & _ & n & bs' & Hf); [done|unfold room in *; lia|]. rewrite E in Hd. injection Hd as <-.
    by rewrite (sf_anchors _ _ _ _ _ _ Hf).
Qed.
