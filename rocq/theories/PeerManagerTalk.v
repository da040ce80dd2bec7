From Verif Require Import Base PeerTableModel PeerDbModel PeerDbSpec PeerDbProofs PeerManagerModel PeerManagerSpec PeerManagerProofs PeerManagerSteps PeerManagerRun PeerManagerLedger PeerManagerFinal.
From Verif Require EvictionModel EvictionSpec.

(** * Steps that say nothing to peers and learn nothing from them *)

Definition chat (x : command) : bool := match x with SendPing _ _ | SendPong _ _ | SendAddresses _ _ => true | _ => false end.
Definition talk_of (x : ctx) := (x_address x, x_bind x, x_role x, x_ping x, x_ping_min x, (x_request x, x_response x)).
Definition fresh (x : ctx) : Prop := x_ping x = None /\ x_ping_min x = None /\ x_request x = false /\ x_response x = false.
Lemma fresh_same x y : talk_of y = talk_of x -> fresh x -> fresh y.
Proof. destruct x, y. cbn. intros [= -> -> -> -> -> -> ->]. done. Qed.
Record quiet (m m' : mgr) : Prop := Quiet {
  q_out : exists l, m_out m' = m_out m ++ l /\ Forall (fun x => chat x = false) l;
  q_cache : m_cache m' = m_cache m;
  q_keep : forall id x, m_peers m !! id = Some x -> exists x', m_peers m' !! id = Some x' /\ talk_of x' = talk_of x;
  q_new : forall id x', m_peers m !! id = None -> m_peers m' !! id = Some x' -> fresh x' }.
Lemma quiet_same m m' : m_out m' = m_out m -> m_cache m' = m_cache m -> m_peers m' = m_peers m -> quiet m m'.
Proof.
  intros H1 H2 H3. split; [exists []; by rewrite H1, app_nil_r|done| |].
  - intros id x Hx. rewrite H3. by exists x.
  - intros id x' Hn. rewrite H3, Hn. done.
Qed.
Lemma quiet_refl m : quiet m m.
Proof. by apply quiet_same. Qed.
Lemma quiet_trans m1 m2 m3 : quiet m1 m2 -> quiet m2 m3 -> quiet m1 m3.
Proof.
  intros [A1 A2 A3 A4] [B1 B2 B3 B4]. split.
  - destruct A1 as (l & He & Hl), B1 as (l' & He' & Hl'). exists (l ++ l'). rewrite He', He, app_assoc. split; [done|]. by apply Forall_app.
  - congruence.
  - intros id x Hx. destruct (A3 id x Hx) as (y & Hy & E1). destruct (B3 id y Hy) as (w & Hw & E2). exists w. split; [done|]. congruence.
  - intros id x Hn Hx. destruct (m_peers m2 !! id) as [y|] eqn:Hy; [|by apply (B4 id)]. destruct (B3 id y Hy) as (w & Hw & E2). rewrite Hx in Hw. injection Hw as <-.
    apply (fresh_same y x E2). by apply (A4 id).
Qed.
Lemma quiet_emit m x : chat x = false -> quiet m (emit m x).
Proof. intros Hx. split; [exists [x]; split; [done|]; by rewrite Forall_singleton|done|eauto|]. intros id y Hn. cbn. congruence. Qed.
Lemma quiet_answer m q ok : quiet m (answer m q ok).
Proof. destruct q; [by apply quiet_emit|apply quiet_refl]. Qed.
Lemma quiet_call c m o m' : call c m o = Ok m' -> quiet m m'.
Proof. unfold call. destruct (PeerDbModel.step _ _ _) as [d| |]; cbn [rbind]; [|done|done]. intros [= <-]. by apply quiet_same. Qed.
Lemma quiet_connect c m a t : quiet m (connect c m a t).
Proof.
  unfold connect. destruct (try_connect _ _ _ _); [|apply quiet_answer]. eapply quiet_trans; [apply (quiet_emit m); shelve|by apply quiet_same].
  Unshelve. done.
Qed.
Lemma quiet_connect_all c l t : forall m, quiet m (connect_all c m l t).
Proof. unfold connect_all. induction l as [|a l IH]; intros m; cbn; [apply quiet_refl|]. eapply quiet_trans; [apply quiet_connect|apply IH]. Qed.
Lemma quiet_disconnect m id remove q : quiet m (disconnect m id remove q).
Proof.
  unfold disconnect. destruct (m_disconnecting m !! id); [apply quiet_answer|]. destruct (m_peers m !! id); [|apply quiet_answer].
  eapply quiet_trans; [by apply (quiet_emit m (CDisconnect id))|by apply quiet_same].
Qed.
Lemma quiet_disconnect_all l : forall m, quiet m (disconnect_all m l).
Proof. unfold disconnect_all. induction l as [|a l IH]; intros m; cbn; [apply quiet_refl|]. eapply quiet_trans; [apply quiet_disconnect|apply IH]. Qed.
Lemma quiet_update m id x x' : m_peers m !! id = Some x -> talk_of x' = talk_of x -> quiet m (with_peers m (<[id := x']> (m_peers m))).
Proof.
  intros Hx He. split; [exists []; by rewrite app_nil_r|done| |]; cbn.
  - intros j y Hy. destruct (decide (j = id)) as [->|Hne]; [rewrite lookup_insert; exists x'; split; [done|congruence]|rewrite lookup_insert_ne by done; eauto].
  - intros j y Hn. destruct (decide (j = id)) as [->|Hne]; [congruence|rewrite lookup_insert_ne by done; congruence].
Qed.
Lemma quiet_discourage c now m b m' : discourage c now m b = Ok m' -> quiet m m'.
Proof. unfold discourage. intros H. bind H m1 E. injection H as <-. eapply quiet_trans; [by eapply quiet_call|apply quiet_disconnect_all]. Qed.
Lemma quiet_ban c now m b d m' : ban c now m b d = Ok m' -> quiet m m'.
Proof. unfold ban. intros H. bind H m1 E. injection H as <-. eapply quiet_trans; [by eapply quiet_call|apply quiet_disconnect_all]. Qed.
Lemma quiet_adjust c now m id s m' : adjust_peer_score c now m id s = Ok m' -> quiet m m'.
Proof.
  unfold adjust_peer_score. destruct (m_peers m !! id) as [x|] eqn:Hx; [|intros [= <-]; apply quiet_refl].
  destruct (is_whitelisted_node _ _ _); [intros [= <-]; apply quiet_refl|]. set (s' := N.min _ _).
  assert (H1 : quiet m (with_peers m (<[id := set_score x s']> (m_peers m)))) by by apply quiet_update with x.
  destruct (_ <=? _)%N; [|by intros [= <-]]. intros H. eapply quiet_trans; [exact H1|by eapply quiet_discourage].
Qed.
Lemma quiet_failed c now m a r s m' : adjust_on_failed_connection c now m a r s = Ok m' -> quiet m m'.
Proof.
  unfold adjust_on_failed_connection. destruct (_ <? _)%N; [intros [= <-]; apply quiet_refl|]. destruct (is_whitelisted_node _ _ _); [intros [= <-]; apply quiet_refl|]. apply quiet_discourage.
Qed.
Lemma quiet_validate c now z m a r i m' e : validate_connection c now z m a r i = Ok (m', e) -> quiet m m' /\ (e = None -> m_peers m' !! i_id i = None).
Proof.
  unfold validate_connection. intros H. do 2 (match type of H with (if ?b then _ else _) = _ => destruct b; [injection H as <- <-; by split; [apply quiet_refl|]|] end).
  destruct (bool_decide_reflect (is_Some (m_peers m !! i_id i))) as [|Hn%eq_None_not_Some]; [injection H as <- <-; by split; [apply quiet_refl|]|].
  do 4 (match type of H with (if ?b then _ else _) = _ => destruct b; [injection H as <- <-; by split; [apply quiet_refl|]|] end).
  destruct r; try (injection H as <- <-; by split; [apply quiet_refl|]).
  destruct (p_max_inbound c <=? inbound_peer_count m); [|injection H as <- <-; by split; [apply quiet_refl|]].
  destruct (is_address_discouraged _ _); [injection H as <- <-; by split; [apply quiet_refl|]|].
  bind H o E. destruct o as [id|]; injection H as <- <-; [|by split; [apply quiet_refl|]]. split; [apply quiet_disconnect|]. intros _.
  unfold disconnect. destruct (m_disconnecting m !! id), (m_peers m !! id); done.
Qed.
Lemma quiet_try_accept c now z m a bind r i m' e : try_accept_connection c now z m a bind r i = Ok (m', e) -> quiet m m'.
Proof.
  unfold try_accept_connection. intros H. destruct (validate_connection c now z m a r i) as [[m1 e1]| |] eqn:E; cbn [rbind] in H; [|done|done].
  apply quiet_validate in E as (E & En). destruct e1 as [s|]; [by injection H as <- <-|]. specialize (En eq_refl). eapply quiet_trans; [exact E|].
  bind H m2 E2. bind H m3 E3. injection H as <- _.
  eapply quiet_trans; [by apply (quiet_emit m1 (CAccept (i_id i)))|]. set (m4 := emit m1 _) in *.
  eapply quiet_trans; [instantiate (1 := if should_load_addresses_from r then emit m4 (AskAddresses (i_id i)) else m4); destruct (should_load_addresses_from r); [by apply quiet_emit|apply quiet_refl]|].
  set (m5 := if should_load_addresses_from r then _ else _) in *. assert (Hn5 : m_peers m5 !! i_id i = None) by (unfold m5; destruct (should_load_addresses_from r); done).
  eapply quiet_trans; [|destruct (decide _); [by eapply quiet_call|injection E3 as <-; apply quiet_refl]].
  eapply quiet_trans; [|destruct (as_outbound r); [by eapply quiet_call|injection E2 as <-; apply quiet_refl]]. clearbody m5. clear - Hn5.
  split; [exists []; by rewrite app_nil_r|done| |]; cbn.
  - intros j y Hy. rewrite lookup_insert_ne by congruence. eauto.
  - intros j y Hn. destruct (decide (j = i_id i)) as [->|Hne]; [rewrite lookup_insert; by intros [= <-]|rewrite lookup_insert_ne by done; congruence].
Qed.
Lemma quiet_finish c now z m a bind r q i m' : finish_accept c now z m a bind r q i = Ok m' -> quiet m m'.
Proof.
  unfold finish_accept. intros H. destruct (try_accept_connection c now z m a bind r i) as [[m1 e]| |] eqn:E; cbn [rbind] in H; [|done|done].
  apply quiet_try_accept in E. eapply quiet_trans; [exact E|]. bind H m2 E2. injection H as <-. eapply quiet_trans; [|apply quiet_answer]. destruct e as [s|].
  - bind E2 m3 E3. apply quiet_failed in E3. eapply quiet_trans; [exact E3|]. eapply quiet_trans; [by apply (quiet_emit m3 (CDisconnect (i_id i)))|].
    destruct (is_outbound r); [by eapply quiet_call|injection E2 as <-; apply quiet_refl].
  - injection E2 as <-. destruct (decide _); [apply quiet_disconnect|apply quiet_refl].
Qed.
Lemma quiet_accept_outbound c now z m a bind i m' : accept_outbound c now z m a bind i = Ok m' -> quiet m m'.
Proof.
  unfold accept_outbound. intros H. destruct (m_pending m !! a) as [t|]; cbn [expect rbind] in H; [|done]. apply quiet_finish in H. eapply quiet_trans; [|exact H]. by apply quiet_same.
Qed.
Lemma quiet_error c now z m a m' : handle_outbound_error c now z m a = Ok m' -> quiet m m'.
Proof.
  unfold handle_outbound_error. intros H. bind H m1 E. apply quiet_call in E. eapply quiet_trans; [exact E|]. destruct (m_pending m1 !! a) as [t|]; cbn [expect rbind] in H; [|done].
  injection H as <-. eapply quiet_trans; [|apply quiet_answer]. by apply quiet_same.
Qed.
Lemma quiet_closed c now z m id m' : connection_closed c now z m id = Ok m' -> quiet (with_peers m (delete id (m_peers m))) m'.
Proof.
  unfold connection_closed. destruct (m_peers m !! id) as [x|] eqn:Hx; [|intros [= <-]; rewrite delete_notin by done; by apply quiet_same]. set (m0 := with_peers _ _). intros H. bind H m1 E.
  eapply quiet_trans; [instantiate (1 := m1); destruct (is_outbound _); [by eapply quiet_call|injection E as <-; apply quiet_refl]|]. clear E.
  destruct (m_disconnecting m1 !! id) as [[remove q]|]; [|injection H as <-; apply quiet_refl]. bind H m2 E. injection H as <-. eapply quiet_trans; [|apply quiet_answer].
  eapply quiet_trans; [by apply (quiet_same m1 (with_disconnecting m1 (delete id (m_disconnecting m1))))|]. destruct (_ && _); [by eapply quiet_call|injection E as <-; apply quiet_refl].
Qed.
Lemma quiet_establish c now z m m' : establish_new_connections c now z m = Ok m' -> quiet m m'.
Proof.
  unfold establish_new_connections. intros H. cbn zeta in H.
  match type of H with context [connect_all c m ?l AutoFull] => pose proof (quiet_connect_all c l AutoFull m) as M1; set (m1 := connect_all c m l AutoFull) in * end.
  match type of H with context [connect_all c m1 ?l AutoBlock] => pose proof (quiet_connect_all c l AutoBlock m1) as M2; set (m2 := connect_all c m1 l AutoBlock) in * end.
  eapply quiet_trans; [exact M1|]. eapply quiet_trans; [exact M2|]. clearbody m2. clear M2.
  match type of H with rbind ?x _ = _ => destruct x as [l| |] eqn:E; cbn [rbind] in H; [|done|done] end. eapply quiet_trans; [apply (quiet_connect_all c l Reserved)|].
  match type of H with (if ?b then _ else _) = _ => destruct b end; [|injection H as <-; apply quiet_refl].
  destruct (select_from_new_table _ _ _ _) as [a|]; injection H as <-; [|apply quiet_refl].
  eapply quiet_trans; [apply (quiet_connect c _ a FeelerType)|]. by apply quiet_same.
Qed.
Lemma quiet_heartbeat c now z m m' : heartbeat c now z m = Ok m' -> quiet m m'.
Proof.
  unfold heartbeat. intros H. bind H m1 E. apply quiet_call in E. eapply quiet_trans; [exact E|]. destruct (m_networking m1); [|injection H as <-; apply quiet_refl].
  bind H m2 E2. apply quiet_establish in E2. eapply quiet_trans; [exact E2|]. bind H o E3. bind H o' E4. injection H as <-.
  assert (Hg : forall m o, quiet m (give_up m o)) by (intros m0 [j|]; [apply quiet_disconnect|apply quiet_refl]). eapply quiet_trans; apply Hg.
Qed.
Lemma quiet_begin c now z m m' : begin_run c now z m = Ok m' -> quiet m m'.
Proof.
  unfold begin_run. destruct (m_networking m); [|intros [= <-]; apply quiet_refl]. destruct (decide _); [apply quiet_heartbeat|]. intros [= <-]. apply quiet_connect_all.
Qed.
Lemma quiet_discover c now l : forall m m', discover_all c now m l = Ok m' -> quiet m m'.
Proof.
  unfold discover_all. induction l as [|a l IH]; intros m m'; cbn [rfold]; [intros [= <-]; apply quiet_refl|]. intros H. destruct (call c m (Discovered a now)) as [m1| |] eqn:E; cbn [rbind] in H; [|done|done].
  eapply quiet_trans; [by eapply quiet_call|by apply IH].
Qed.
Definition talks (e : event) : bool := match e with MessageFrom _ _ | PingCheckDue | ConnectionClosed _ | NodeRestart _ _ _ => true | _ => false end.
Lemma quiet_step c now z m e m' : talks e = false -> step c now z m e = Ok m' -> quiet m m'.
Proof.
  assert (Hu : forall id f, (forall x, talk_of (f x) = talk_of x) -> quiet m (update_peer m id f)).
  { intros id f Hf. unfold update_peer. destruct (m_peers m !! id) as [x|] eqn:Hx; [by apply quiet_update with x|apply quiet_refl]. }
  destruct e as [a q|id remove q|id score|id|id|id since| |a|a|b duration|b|b|enable|id msg|a bind i|a bind i|id|a|id score|a score| | |l|networking rs bs]; try done; intros _; cbn [step]; intros H.
  - injection H as <-. apply quiet_connect.
  - injection H as <-. apply quiet_disconnect.
  - by eapply quiet_adjust.
  - injection H as <-. by apply Hu.
  - injection H as <-. by apply Hu.
  - injection H as <-. by apply Hu.
  - injection H as <-. by apply quiet_same.
  - bind H m1 E. apply quiet_call in E. injection H as <-. eapply quiet_trans; [exact E|]. destruct (m_networking m1); [apply quiet_connect|apply quiet_refl].
  - by eapply quiet_call.
  - by eapply quiet_ban.
  - by eapply quiet_call.
  - by eapply quiet_call.
  - unfold enable_networking in H. destruct (bool_decide _); [injection H as <-; apply quiet_refl|]. set (m1 := emit _ _) in H.
    assert (H1 : quiet m m1) by (eapply quiet_trans; [|by apply quiet_emit]; by apply quiet_same). destruct enable; [|by injection H as <-]. eapply quiet_trans; [exact H1|by eapply quiet_heartbeat].
  - by eapply quiet_finish.
  - by eapply quiet_accept_outbound.
  - by eapply quiet_error.
  - by eapply quiet_adjust.
  - by eapply quiet_failed.
  - by eapply quiet_heartbeat.
  - by eapply quiet_discover.
Qed.
Lemma quiet_message c now z m id msg m' : handle_message c now z m id msg = Ok m' ->
  match msg with AnnounceAddr _ _ | WillDisconnect | FirstSyncMessage => quiet m m' | AddrListResponse _ => True
  | _ => match m_peers m !! id with None => m' = m | Some x => exists m1, quiet m m1 /\ m_peers m1 = m_peers m /\ m_out m1 = m_out m /\ (msg = AddrListRequest -> x_role x = Inbound -> m1 = m) /\ match msg with
    | AddrListRequest => handle_addr_list_request c now z m1 id x = Ok m'
    | PingRequest nonce => m' = emit m1 (SendPong id nonce)
    | PingResponse nonce => m' = handle_ping_response now m1 id x nonce
    | _ => True end end
  end.
Proof.
  unfold handle_message. destruct (m_peers m !! id) as [x|] eqn:Hx; [|intros [= <-]; destruct msg; done || apply quiet_refl]. intros H. bind H m1 E.
  assert (H1 : quiet m m1 /\ m_peers m1 = m_peers m /\ m_out m1 = m_out m /\ (x_role x = Inbound -> m1 = m)).
  { assert (Hc : forall o, call c m o = Ok m1 -> quiet m m1 /\ m_peers m1 = m_peers m /\ m_out m1 = m_out m) by (intros o Ho; split; [by eapply quiet_call|]; by apply call_frame in Ho as (? & ? & _)).
    assert (Ho : (if is_outbound (x_role x) then call c m (Activity (x_address x) now) else Ok m) = Ok m1 -> quiet m m1 /\ m_peers m1 = m_peers m /\ m_out m1 = m_out m /\ (x_role x = Inbound -> m1 = m)).
    { destruct (is_outbound (x_role x)) eqn:Er; [intros Hc'; apply Hc in Hc' as (? & ? & ?); split_and!; try done; intros Hi; by rewrite Hi in Er|intros [= <-]; split_and!; try done; apply quiet_refl]. }
    destruct msg; try (by apply Ho). injection E as <-. split_and!; try done. apply quiet_refl. }
  clear E. destruct H1 as (Q & P & O & I). destruct msg as [|a limited|nonce|l|nonce| |].
  - exists m1. split_and!; auto.
  - eapply quiet_trans; [exact Q|]. destruct (_ && _); [by eapply quiet_call|injection H as <-; apply quiet_refl].
  - injection H as <-. exists m1. split_and!; auto.
  - done.
  - injection H as <-. exists m1. split_and!; auto.
  - injection H as <-. eapply quiet_trans; [exact Q|apply quiet_disconnect].
  - by injection H as <-.
Qed.

(** * Pings *)

Definition pinged (z : rnd) (now : N) (p : N * ctx) : ctx :=
  match x_ping p.2 with None => set_ping p.2 (Some (r_nonce z p.1, now)) (x_ping_min p.2) | Some _ => p.2 end.
Lemma ping_fold (now : N) (z : rnd) l : NoDup (map fst l) -> forall m, (forall p, p ∈ l -> m_peers m !! p.1 = Some p.2) ->
  let m' := foldl (fun m p => match x_ping p.2 with
                             | Some _ => m
                             | None => with_peers (emit m (SendPing p.1 (r_nonce z p.1)))
                                         (<[p.1 := set_ping p.2 (Some (r_nonce z p.1, now)) (x_ping_min p.2)]> (m_peers m))
                             end) m l in
  m_out m' = m_out m ++ map (fun p => SendPing p.1 (r_nonce z p.1)) (filter (fun p => x_ping p.2 = None) l) /\ m_cache m' = m_cache m /\ m_disconnecting m' = m_disconnecting m /\
  (forall p, p ∈ l -> m_peers m' !! p.1 = Some (pinged z now p)) /\ (forall id, id ∉ map fst l -> m_peers m' !! id = m_peers m !! id).
Proof.
  induction l as [|p l IH]; intros Hnd m Hin; cbn [foldl].
  { cbn. rewrite app_nil_r. split_and!; try done. intros p Hp. by apply elem_of_nil in Hp. }
  cbn [map] in Hnd. apply NoDup_cons in Hnd as [Hnp Hnd].
  set (m1 := match x_ping p.2 with Some _ => m | None => _ end).
  assert (H1 : m_out m1 = m_out m ++ map (fun p => SendPing p.1 (r_nonce z p.1)) (filter (fun p => x_ping p.2 = None) [p]) /\ m_cache m1 = m_cache m /\ m_disconnecting m1 = m_disconnecting m /\
    m_peers m1 !! p.1 = Some (pinged z now p) /\ forall id, id <> p.1 -> m_peers m1 !! id = m_peers m !! id).
  { unfold m1, pinged, filter. cbn. destruct (x_ping p.2) eqn:Ep; cbn; rewrite ?app_nil_r; [split_and!; try done; apply Hin; by left|]. split_and!; try done; [by rewrite lookup_insert|]. intros id Hne. by rewrite lookup_insert_ne. }
  clearbody m1. destruct H1 as (O & C & D & P & R).
  destruct (IH Hnd m1) as (O' & C' & D' & P' & R').
  { intros q Hq. rewrite R; [apply Hin; by right|]. intros He. apply Hnp. rewrite <- He. by apply elem_of_list_fmap_1. }
  split_and!; [|congruence|congruence| |].
  - rewrite O', O, <- app_assoc, <- map_app, <- filter_app. done.
  - intros q [->|Hq]%elem_of_cons; [|by apply P']. by rewrite R'.
  - intros id [Hne Hn]%not_elem_of_cons. rewrite R' by done. by apply R.
Qed.
Lemma disconnect_all_leaving l : forall m j, leaving (disconnect_all m l) j -> leaving m j \/ j ∈ l.
Proof.
  unfold disconnect_all. induction l as [|a l IH]; intros m j; cbn [foldl]; [by left|]. intros [H|H]%IH; [|right; by right]. unfold disconnect, leaving in *.
  destruct (m_disconnecting m !! a) eqn:E1; [by left|]. destruct (m_peers m !! a); [|by left]. cbn in H. destruct (decide (a = j)) as [->|Hne]; [right; by left|rewrite lookup_insert_ne in H by done; by left].
Qed.
Lemma ping_spec c now z m : let m' := ping_check c now z m in
  m_cache m' = m_cache m /\
  (exists l, m_out m' = m_out m ++ map (fun p => SendPing p.1 (r_nonce z p.1)) (filter (fun p => x_ping p.2 = None) (map_to_list (m_peers m))) ++ l /\ Forall (fun x => chat x = false) l) /\
  (forall id, m_peers m' !! id = (fun x => pinged z now (id, x)) <$> m_peers m !! id) /\
  (forall id, leaving m' id <-> leaving m id \/ exists x n t, connected m id x /\ x_ping x = Some (n, t) /\ (t + p_ping_timeout c <= now)%N).
Proof.
  unfold ping_check. set (dead := map fst _). set (f := foldl _ _ _).
  destruct (ping_fold now z (map_to_list (m_peers m)) (NoDup_fst_map_to_list _) m) as (O & C & D & P & R).
  { intros [k y] Hp. by apply elem_of_map_to_list in Hp. }
  change (foldl _ _ _) with f in O, C, D, P, R. clearbody f.
  assert (Hp : forall id, m_peers f !! id = (fun x => pinged z now (id, x)) <$> m_peers m !! id).
  { intros id. destruct (m_peers m !! id) as [x|] eqn:Hx; cbn.
    - apply (P (id, x)). by apply elem_of_map_to_list.
    - rewrite R; [done|]. intros ([k y] & -> & Hp)%elem_of_list_fmap. apply elem_of_map_to_list in Hp. cbn in Hx. congruence. }
  destruct (disconnect_all_spec dead f) as [Hd1 Hd2]. pose proof (quiet_disconnect_all dead f) as [(l & Hl & Hf) Hc _ _]. split_and!.
  - congruence.
  - exists l. split; [|done]. rewrite Hl, O, app_assoc. done.
  - intros id. rewrite (dc_peers _ _ Hd1). apply Hp.
  - intros id. assert (Hdead : id ∈ dead <-> exists x n t, connected m id x /\ x_ping x = Some (n, t) /\ (t + p_ping_timeout c <= now)%N).
    { unfold dead. rewrite elem_of_list_fmap. split.
      - intros ([k y] & -> & [Hk Hin]%elem_of_list_filter). apply elem_of_map_to_list in Hin. cbn in *. destruct (x_ping y) as [[n t]|] eqn:Hy; [|done]. exists y, n, t. apply N.leb_le in Hk. done.
      - intros (x & n & t & Hx & Hy & Ht). exists (id, x). split; [done|]. apply elem_of_list_filter. split; [cbn; rewrite Hy; by apply N.leb_le|]. by apply elem_of_map_to_list. }
    split.
    + intros [Hl'|Hin]%disconnect_all_leaving; [left; unfold leaving in *; congruence|right; by apply Hdead].
    + intros [Hl'|Hx]; [destruct Hl' as [v Hv]; exists v; apply (dc_disc _ _ Hd1); congruence|]. apply Hd2; [by apply Hdead|]. destruct Hx as (x & n & t & Hx & _). rewrite Hp. unfold connected in Hx. rewrite Hx. by eexists.
Qed.
