From Verif Require Import Base PeerTableModel PeerDbModel PeerDbSpec PeerDbProofs PeerDbSteps PeerDbBans PeerDbBook PeerManagerModel PeerManagerSpec PeerManagerProofs PeerManagerSteps.
From Verif Require EvictionModel EvictionSpec EvictionProofs EvictionProperties.

Lemma call_db c m o d : call c m o = Ok (with_call m d o) <-> PeerDbModel.step (p_db c) (m_db m) o = Ok d.
Proof.
  unfold call. destruct (PeerDbModel.step _ _ _) as [d'| |]; cbn [rbind]; [|done|done]. split; [intros [= ->]; done|by intros [= ->]].
Qed.

Lemma closed_ok c now z m id : inv c m -> good_rnd z -> good_clock now -> room m 2 -> exists m', connection_closed c now z m id = Ok m' /\ inv c m'.
Proof.
  intros HI Hz Hnow Hroom. unfold connection_closed. destruct (m_peers m !! id) as [x|] eqn:Hx; [|by exists m].
  pose proof (close_inv c m id x HI Hx) as HI0. set (m0 := with_disconnecting _ _) in HI0.
  assert (H1 : exists m1 m2, (if is_outbound (x_role x) then call c (with_peers m (delete id (m_peers m))) (Disconnected (x_address x) now (r_jitter z)) else Ok (with_peers m (delete id (m_peers m)))) = Ok m1 /\
    m_disconnecting m1 = m_disconnecting m /\ with_disconnecting m1 (delete id (m_disconnecting m1)) = m2 /\ inv c m2 /\ length (m_calls m2) <= length (m_calls m) + 1).
  { destruct (is_outbound (x_role x)).
    - destruct (call_quiet c m0 (Disconnected (x_address x) now (r_jitter z))) as (d & Hd & HI1 & _); try done; [split; [by apply clock_time|apply Hz]|unfold room in *; cbn; lia|].
      apply call_db in Hd. eexists _, _. split; [by apply call_db|]. split; [done|]. split; [done|]. split; [exact HI1|]. cbn. rewrite app_length. cbn. lia.
    - eexists _, _. split; [done|]. split; [done|]. split; [done|]. split; [exact HI0|]. cbn. lia. }
  destruct H1 as (m1 & m2 & -> & Hdis & Hm2 & HI2 & Hl). cbn [rbind]. destruct (m_disconnecting m1 !! id) as [[remove q]|] eqn:Hd1.
  - rewrite Hm2. destruct (remove && is_outbound (x_role x)).
    + destruct (call_quiet c m2 (RemoveAddress (x_address x))) as (d & Hd & HI3 & _); try done; [unfold room in *; lia|]. rewrite Hd. cbn [rbind].
      eexists. split; [done|]. by apply answer_inv.
    + cbn [rbind]. eexists. split; [done|]. by apply answer_inv.
  - rewrite delete_notin in Hm2 by done. exists m1. split; [done|]. replace m1 with m2; [done|]. rewrite <- Hm2. by destruct m1.
Qed.

Lemma error_ok c now z m a : inv c m -> good_rnd z -> good_clock now -> room m 1 -> is_Some (m_pending m !! a) ->
  exists m', handle_outbound_error c now z m a = Ok m' /\ inv c m'.
Proof.
  intros HI Hz Hnow Hroom [t Ht]. unfold handle_outbound_error.
  destruct (call_quiet c m (Failed a now (r_jitter z))) as (d & Hd & HI1 & _); try done; [split; [by apply clock_time|apply Hz]|]. rewrite Hd. cbn [rbind].
  replace (m_pending (with_call m d (Failed a now (r_jitter z))) !! a) with (Some t) by done. cbn [expect rbind]. eexists. split; [done|]. apply answer_inv. by apply drop_inv with t.
Qed.

(** * The heartbeat *)

Lemma db_inv c m : inv0 c m -> exists n bs, PeerDbProofs.inv (p_db c) n bs (m_db m).
Proof. intros HI. destruct (v_hist _ _ HI) as (r & b & t & Hh). eexists _, _. apply (history_inv _ _ _ _ _ _ Hh). Qed.
Lemma auto_outbound c m g : g ∈ auto_groups c (addresses m) -> g ∈ outbound_groups c m.
Proof.
  unfold auto_groups, outbound_groups. intros (p & -> & [Ha Hin]%elem_of_list_filter)%elem_of_list_fmap. apply elem_of_list_fmap. exists p. split; [done|].
  apply elem_of_list_filter. split; [|done]. destruct Ha as [-> | ->]; done.
Qed.
Lemma establish_ok c now z m : inv c m -> good_rnd z ->
  exists m', establish_new_connections c now z m = Ok m' /\ inv c m' /\ m_db m' = m_db m /\ m_calls m' = m_calls m.
Proof.
  intros HI Hz. unfold establish_new_connections. destruct (db_inv c m (proj1 HI)) as (n & bs & Hdb). destruct Hz as (Hsort & Hsample & Hjit).
  set (needed_full := (_ - count_role m OutboundFullRelay)%nat). set (needed_block := (_ - count_role m OutboundBlockRelay)%nat).
  destruct (selected (p_db c) n bs (m_db m) (r_sample z) (fun n => r_coins z (2 * n)) (outbound_groups c m)
    (allow_new_outbound_connection c (existing_connections c m) OutboundFullRelay) needed_full now Hdb Hsample) as (F1 & F2 & F3 & _).
  set (new_full := select_non_reserved_outbound_addresses _ _ _ _ _ _ needed_full now) in *.
  pose proof (v_book _ _ (proj1 HI)) as (B1 & B2 & B3 & B4).
  assert (Hneed : cnt OutboundFullRelay (addresses m) = count_role m OutboundFullRelay /\ cnt OutboundBlockRelay (addresses m) = count_role m OutboundBlockRelay /\ cnt Feeler (addresses m) = count_role m Feeler) by done.
  destruct Hneed as (N1 & N2 & N3).
  assert (Hlf : cnt OutboundFullRelay (addresses m) + length new_full <= EvictionModel.full_relay_count (p_evict c) + p_full_extra c).
  { unfold needed_full in F3. destruct (tip_is_stale c now m); lia. }
  assert (Hb1 : book_ok c (map (fun a => (a, role_of AutoFull)) new_full ++ addresses m)).
  { unfold book_ok. rewrite !cnt_app, !cnt_map, groups_app, groups_map. cbn [role_of]. rewrite !(decide_True (P := OutboundFullRelay = OutboundFullRelay)) by done.
    rewrite !(decide_False (P := OutboundFullRelay = _)) by done. rewrite decide_True by by left. split_and!; [lia..|]. apply NoDup_app. split_and!; [done| |done].
    intros g (a & -> & Ha)%elem_of_list_fmap Hg. destruct (F1 a Ha) as (_ & _ & Hng & _). apply Hng. by apply auto_outbound. }
  destruct (connect_all_spec c new_full AutoFull m HI Hb1) as (HI1 & Hc1 & Hs1). set (m1 := connect_all c m new_full AutoFull) in *.
  rewrite <- (cn_db _ _ Hc1) in Hdb.
  destruct (selected (p_db c) n bs (m_db m1) (r_sample z) (fun n => r_coins z (2 * n + 1)) (map (group c) new_full ++ outbound_groups c m)
    (allow_new_outbound_connection c (existing_connections c m) OutboundBlockRelay) needed_block now Hdb Hsample) as (G1 & G2 & G3 & _).
  set (new_block := select_non_reserved_outbound_addresses _ _ _ _ _ _ needed_block now) in *.
  assert (Hb2 : book_ok c (map (fun a => (a, role_of AutoBlock)) new_block ++ addresses m1)).
  { apply book_sub with (map (fun a => (a, role_of AutoBlock)) new_block ++ map (fun a => (a, role_of AutoFull)) new_full ++ addresses m); [by apply submseteq_skips_l|].
    destruct Hb1 as (C1 & C2 & C3 & C4). unfold book_ok. rewrite !(cnt_app _ (map _ new_block)), !(cnt_map _ _ new_block), groups_app, (groups_map _ _ new_block). cbn [role_of] in *.
    rewrite !(decide_True (P := OutboundBlockRelay = OutboundBlockRelay)) by done.
    rewrite !(decide_False (P := OutboundBlockRelay = _)) by done. rewrite decide_True by by right. split_and!; [lia| |lia|].
    - rewrite cnt_app, cnt_map, decide_False by done. unfold needed_block in G3. lia.
    - apply NoDup_app. split_and!; [done| |done]. intros g (a & -> & Ha)%elem_of_list_fmap Hg. destruct (G1 a Ha) as (_ & _ & Hng & _). apply Hng.
      rewrite groups_app, groups_map in Hg. rewrite decide_True in Hg by by left. apply elem_of_app in Hg as [Hg|Hg]; apply elem_of_app; [by left|right; by apply auto_outbound]. }
  destruct (connect_all_spec c new_block AutoBlock m1 HI1 Hb2) as (HI2 & Hc2 & Hs2). set (m2 := connect_all c m1 new_block AutoBlock) in *.
  rewrite <- (cn_db _ _ Hc2) in Hdb.
  match goal with |- context [select_reserved_outbound_addresses (m_db m2) ?f now] => destruct (selected_reserved (p_db c) n bs (m_db m2) f now Hdb) as (new_reserved & Hres & _) end.
  rewrite Hres. cbn [rbind].
  assert (Hb3 : book_ok c (map (fun a => (a, role_of Reserved)) new_reserved ++ addresses m2)) by (apply book_other; [by intros [?|?]|done|apply HI2]).
  destruct (connect_all_spec c new_reserved Reserved m2 HI2 Hb3) as (HI3 & Hc3 & Hs3). set (m3 := connect_all c m2 new_reserved Reserved) in *.
  assert (Hdb3 : m_db m3 = m_db m /\ m_calls m3 = m_calls m).
  { rewrite (cn_db _ _ Hc3), (cn_db _ _ Hc2), (cn_db _ _ Hc1), (cn_calls _ _ Hc3), (cn_calls _ _ Hc2), (cn_calls _ _ Hc1). done. }
  match goal with |- context [if ?b then _ else _] => destruct b eqn:Hif end; [|exists m3; naive_solver].
  destruct (select_from_new_table (p_db c) (m_db m3) (r_pick z) now) as [a|]; [|exists m3; naive_solver].
  eexists. split; [done|]. rewrite !andb_true_iff, Nat.eqb_eq in Hif. destruct Hif as [[_ Hf] _].
  assert (Hf3 : cnt Feeler (addresses m3) = 0).
  { pose proof (cnt_sub Feeler _ _ Hs3) as D3. pose proof (cnt_sub Feeler _ _ Hs2) as D2. pose proof (cnt_sub Feeler _ _ Hs1) as D1.
    rewrite cnt_app, cnt_map, decide_False in D1 by done. rewrite cnt_app, cnt_map, decide_False in D2 by done. rewrite cnt_app, cnt_map, decide_False in D3 by done. lia. }
  assert (HI4 : inv c (connect c m3 a FeelerType)).
  { apply connect_inv; [done|]. destruct (v_book _ _ (proj1 HI3)) as (C1 & C2 & C3 & C4). unfold book_ok. cbn [role_of].
    change ((a, Feeler) :: addresses m3) with (map (fun a => (a, Feeler)) [a] ++ addresses m3).
    rewrite !cnt_app, !cnt_map, groups_app, groups_map. cbn [length]. rewrite !(decide_True (P := Feeler = Feeler)), !(decide_False (P := Feeler = _)) by done.
    rewrite decide_False by by intros [?|?]. split_and!; [lia..|done]. }
  destruct (connect_spec c m3 a FeelerType) as [Hc4 _]. split_and!.
  - apply framed_inv with (connect c m3 a FeelerType); [by split|done].
  - cbn. rewrite (cn_db _ _ Hc4). naive_solver.
  - cbn. rewrite (cn_calls _ _ Hc4). naive_solver.
Qed.

Lemma evict_ok r sort key k cfg now ps : r = OutboundBlockRelay \/ r = OutboundFullRelay -> EvictionSpec.sorts sort -> EvictionSpec.sane_times ps ->
  exists o, EvictionSpec.evict_outbound r sort key k cfg now ps = Ok o.
Proof.
  intros Hr Hs Ht. destruct (EvictionProperties.C89_outbound_evicted sort key k cfg now ps r Hr Hs Ht) as [H1 H2].
  destruct (decide (EvictionSpec.number (EvictionSpec.of_kind r) ps <= EvictionSpec.wanted r cfg)) as [Hle|Hgt]; [eexists; apply H2; by left|].
  destruct (decide (Exists (fun q => EvictionSpec.of_kind r q /\ EvictionModel.p_banned_or_discouraged q = true) ps)) as [Hb|Hb].
  { apply Exists_exists in Hb as (q & Hq & Hq1 & Hq2). destruct H1 as (p & _ & _ & Hp); [lia|left; eauto|]. by eexists. }
  match type of H1 with _ -> (_ \/ ?a < ?b) -> _ => destruct (decide (a < b)) as [Hlt|Hnlt] end.
  - destruct H1 as (p & _ & _ & Hp); [lia|by right|]. by eexists.
  - eexists. apply H2. right. split; [|lia]. intros (q & Hq & Hq1 & Hq2). apply Hb. apply Exists_exists. eauto.
Qed.
Lemma give_up_inv c m o : inv c m -> inv c (give_up m o).
Proof. destruct o; [apply disconnect_inv|done]. Qed.
Lemma heartbeat_ok c now z m : inv c m -> good_rnd z -> room m 1 -> exists m', heartbeat c now z m = Ok m' /\ inv c m'.
Proof.
  intros HI Hz Hroom. unfold heartbeat. destruct (call_quiet c m (Heartbeat now)) as (d & Hd & HI1 & _); try done. rewrite Hd. cbn [rbind].
  set (m1 := with_call m d (Heartbeat now)) in *. destruct (m_networking m1); [|eauto].
  destruct (establish_ok c now z m1 HI1 Hz) as (m2 & -> & HI2 & _). cbn [rbind].
  destruct (evict_ok OutboundBlockRelay (r_sort z) (p_key c) (r_pick z) (p_evict c) now (seen c m2)) as [o Ho]; [by left|apply Hz|apply seen_times, HI2|].
  cbn in Ho. rewrite Ho. cbn [rbind]. pose proof (give_up_inv c m2 o HI2) as HI3. set (m3 := give_up m2 o) in *.
  destruct (evict_ok OutboundFullRelay (r_sort z) (p_key c) (r_pick z) (p_evict c) now (seen c m3)) as [o' Ho']; [by right|apply Hz|apply seen_times, HI3|].
  cbn in Ho'. rewrite Ho'. cbn [rbind]. eexists. split; [done|]. by apply give_up_inv.
Qed.

(** * Messages *)

Lemma discover_ok c now l : forall m, inv c m -> room m (length l) -> exists m', discover_all c now m l = Ok m' /\ inv c m'.
Proof.
  unfold discover_all. induction l as [|a l IH]; intros m HI Hroom; [by exists m|]. cbn [rfold].
  destruct (call_quiet c m (Discovered a now)) as (d & Hd & HI1 & _); try done; [unfold room in *; cbn in *; lia|]. rewrite Hd. cbn [rbind].
  apply IH; [done|]. unfold room in *. cbn in *. rewrite app_length. cbn. lia.
Qed.
Lemma flags_inv c m id x a b : inv c m -> m_peers m !! id = Some x -> inv c (with_peers m (<[id := set_flags x a b]> (m_peers m))).
Proof. intros HI Hx. apply update_inv with x; try done. apply (v_times _ _ (proj1 HI) id x Hx). Qed.
Lemma request_ok c now z m id x : inv c m -> good_rnd z -> m_peers m !! id = Some x -> exists m', handle_addr_list_request c now z m id x = Ok m' /\ inv c m'.
Proof.
  intros HI (_ & Hs & _) Hx. unfold handle_addr_list_request. destruct (_ || _); [by exists m|]. pose proof (flags_inv c m id x true (x_response x) HI Hx) as HI1.
  set (m1 := with_peers m _) in *. match goal with |- context [r_sample z ?l ?n] => destruct (Hs l n) as (_ & Hlen & _); set (fresh := r_sample z l n) in * end.
  match goal with |- context [with_cache m1 (<[_ := ?e]> _)] => assert (He : length e.1 <= p_max_list c) end.
  { pose proof (v_cache _ _ (proj1 HI1) (x_bind x)) as Hc. destruct (m_cache m1 !! x_bind x) as [[l t]|]; [|done]. destruct (t <=? now)%N; [done|]. by apply (Hc l t). }
  match goal with |- context [with_cache m1 (<[_ := ?e]> _)] => set (e0 := e) in * end. cbn zeta. apply Nat.leb_le in He as He'. rewrite He'. eexists. split; [done|].
  apply emit_inv. destruct HI1 as [[H1 H2 H3 H4 H5 H6 H7 H8 H9] [H10 H11]]. split; [split; try done|by split]. cbn. intros b l t. destruct (decide (b = x_bind x)) as [->|Hne].
  - rewrite lookup_insert. intros [= Heq]. by rewrite Heq in He.
  - rewrite lookup_insert_ne by done. apply H9.
Qed.
Lemma response_ok c now m id x l : inv c m -> m_peers m !! id = Some x -> room m (1 + length l) -> exists m', handle_addr_list_response c now m id x l = Ok m' /\ inv c m'.
Proof.
  intros HI Hx Hroom. unfold handle_addr_list_response.
  destruct (negb (length l <=? p_max_list c)); [apply adjust_ok; [done|unfold room in *; lia]|].
  destruct (negb _); [apply adjust_ok; [done|unfold room in *; lia]|]. destruct (x_response x); [apply adjust_ok; [done|unfold room in *; lia]|].
  apply discover_ok; [by apply flags_inv|]. unfold room in *. cbn. pose proof (filter_length (fun a => p_discoverable c a = true) l). lia.
Qed.
Lemma pong_inv c now m id x nonce : inv c m -> good_clock now -> m_peers m !! id = Some x -> inv c (handle_ping_response now m id x nonce).
Proof.
  intros HI Hnow Hx. unfold handle_ping_response. destruct (x_ping x) as [[n t]|]; [|done]. destruct (n =? nonce)%N; [|done].
  apply update_inv with x; try done. destruct (v_times _ _ (proj1 HI) id x Hx) as [Ht1 Ht2]. split; [|done]. cbn. intros p [= <-]. unfold good_clock in *.
  destruct (x_ping_min x) as [q|]; [specialize (Ht1 q eq_refl)|]; lia.
Qed.
Lemma message_ok c now z m id msg : inv c m -> good_rnd z -> good_clock now -> room m (calls_for (MessageFrom id msg)) ->
  exists m', handle_message c now z m id msg = Ok m' /\ inv c m'.
Proof.
  intros HI Hz Hnow Hroom. unfold handle_message. destruct (m_peers m !! id) as [x|] eqn:Hx; [|by exists m].
  assert (H1 : exists m1, match msg with WillDisconnect => Ok m | _ => if is_outbound (x_role x) then call c m (Activity (x_address x) now) else Ok m end = Ok m1 /\
    inv c m1 /\ m_peers m1 = m_peers m /\ length (m_calls m1) <= length (m_calls m) + 1).
  { assert (Hm : exists m1, Ok m = @Ok unit mgr m1 /\ inv c m1 /\ m_peers m1 = m_peers m /\ length (m_calls m1) <= length (m_calls m) + 1) by (exists m; split_and!; [done..|lia]).
    assert (Hc : exists m1, (if is_outbound (x_role x) then call c m (Activity (x_address x) now) else Ok m) = Ok m1 /\ inv c m1 /\ m_peers m1 = m_peers m /\ length (m_calls m1) <= length (m_calls m) + 1).
    { destruct (is_outbound (x_role x)); [|done]. destruct (call_quiet c m (Activity (x_address x) now)) as (d & Hd & HI1 & _); try done; [by apply clock_time|unfold room in *; cbn in *; destruct msg; lia|].
      rewrite Hd. eexists. split_and!; try done. cbn. rewrite app_length. cbn. lia. }
    destruct msg; done. }
  destruct H1 as (m1 & -> & HI1 & Hp & Hl). cbn [rbind]. rewrite <- Hp in Hx. unfold room in Hroom. cbn in Hroom. destruct msg as [|a limited|nonce|l|nonce| |].
  - by apply request_ok.
  - destruct (_ && _); [|by exists m1]. destruct (call_quiet c m1 (Discovered a now)) as (d & Hd & HI2 & _); try done; [unfold room in *; lia|]. rewrite Hd. eauto.
  - eexists. split; [done|]. by apply emit_inv.
  - apply response_ok; try done. unfold room in *. lia.
  - eexists. split; [done|]. by apply pong_inv.
  - eexists. split; [done|]. by apply disconnect_inv.
  - by exists m1.
Qed.
Lemma ping_inv c now z m : inv c m -> inv c (ping_check c now z m).
Proof.
  intros HI. unfold ping_check. eapply disconnects_inv; [apply disconnect_all_spec|].
  assert (Hg : forall l m, NoDup (map fst l) -> (forall p, p ∈ l -> m_peers m !! p.1 = Some p.2) -> inv c m ->
    inv c (foldl (fun m (p : N * ctx) => match x_ping p.2 with Some _ => m | None => with_peers (emit m (SendPing p.1 (r_nonce z p.1))) (<[p.1 := set_ping p.2 (Some (r_nonce z p.1, now)) (x_ping_min p.2)]> (m_peers m)) end) m l)).
  { clear HI m. induction l as [|p l IH]; intros m Hnd Hl HI; [done|]. cbn [foldl map] in *. apply NoDup_cons in Hnd as [Hp Hnd]. apply IH; [done|..].
    - intros q Hq. destruct (x_ping p.2); [apply Hl; by right|]. cbn. rewrite lookup_insert_ne; [apply Hl; by right|]. intros He. apply Hp. rewrite He. apply elem_of_list_fmap. eauto.
    - destruct (x_ping p.2); [done|]. specialize (Hl p (elem_of_list_here _ _)). apply (update_inv c (emit m _) p.1 p.2); try done; [by apply emit_inv|]. apply (v_times _ _ (proj1 HI) p.1 p.2 Hl). }
  apply Hg; [apply NoDup_fst_map_to_list| |done]. intros [i x] Hi. by apply elem_of_map_to_list in Hi.
Qed.

(** * Starting *)

Lemma begin_ok c now z m : inv c m -> good_rnd z -> room m 1 -> m_peers m = ∅ -> m_pending m = ∅ -> exists m', begin_run c now z m = Ok m' /\ inv c m'.
Proof.
  intros HI Hz Hroom Hp Hq. unfold begin_run. destruct (m_networking m); [|by exists m]. destruct (decide _); [by apply heartbeat_ok|].
  eexists. split; [done|]. apply connect_all_spec; [done|]. unfold addresses. rewrite Hp, Hq. rewrite !map_to_list_empty. cbn. rewrite app_nil_r.
  destruct (v_anchors _ _ (proj1 HI)) as [H1 H2]. unfold book_ok. rewrite !cnt_map, groups_map. cbn [role_of].
  rewrite !(decide_True (P := OutboundBlockRelay = OutboundBlockRelay)), !(decide_False (P := OutboundBlockRelay = _)) by done. rewrite decide_True by by right.
  split_and!; [lia| |lia|done]. change (length (elements (d_anchors (m_db m)))) with (size (d_anchors (m_db m))). lia.
Qed.
Lemma fresh_inv c b d t f l : (exists r b t, history (p_db c) r b t l d) -> anchors_ok c (d_anchors d) -> inv c (Mgr b ∅ ∅ ∅ d ∅ t None f [] l).
Proof.
  intros Hh Ha. split; [split; cbn; try done|split]; try solve [repeat intro; cbn in *; match goal with H : ∅ !! _ = Some _ |- _ => by rewrite lookup_empty in H end].
  - intros id. unfold leaving. cbn. rewrite lookup_empty. by intros [? ?].
  - unfold inbound_peer_count. cbn. rewrite map_to_list_empty. cbn. lia.
  - unfold addresses. cbn. rewrite !map_to_list_empty. unfold book_ok, cnt, auto_groups. cbn. split_and!; [lia..|constructor].
Qed.
Lemma restart_ok c now z m networking rs bs : inv c m -> good_rnd z -> room m 2 ->
  exists m', step c now z m (NodeRestart networking rs bs) = Ok m' /\ inv c m'.
Proof.
  intros HI Hz Hroom. cbn [step]. destruct (v_hist _ _ (proj1 HI)) as (r & b & t & Hh).
  destruct (hist_step _ r b t _ _ (Restart rs bs now) Hh) as (d & Hd & Hh' & n & bs' & Hf); [done|unfold room in *; lia|]. rewrite Hd. cbn [rbind].
  apply begin_ok; try done; [|unfold room in *; cbn; rewrite app_length; cbn; lia]. apply fresh_inv; [eauto|].
  rewrite (sf_anchors _ _ _ _ _ _ Hf). apply HI.
Qed.
Lemma start_ok' c networking rs bs now z : good_config (p_db c) -> good_rnd z ->
  exists m, start c networking rs bs now z = Ok m /\ inv c m.
Proof.
  intros Hc Hz. unfold start. destruct (PeerDbSteps.start_ok (p_db c) rs bs now Hc) as (d & Hd & _). rewrite Hd. cbn [rbind].
  assert (Hh : history (p_db c) rs bs now [] d) by (split_and!; [done|constructor|done|by exists d]).
  apply begin_ok; try done. apply fresh_inv; [eauto|]. rewrite (anchors_history _ _ _ _ _ _ Hh). cbn. unfold anchors_ok. rewrite size_empty, elements_empty. split; [lia|constructor].
Qed.

(** * All events *)

Definition due (m : mgr) (e : event) : Prop :=
  match e with
  | OutboundAccepted a _ _ | ConnectionError a => is_Some (m_pending m !! a)
  | ExpectingBlocks _ (Some t) => good_clock t
  | _ => True
  end.
Lemma update_peer_inv c m id f : inv c m -> (forall x, m_peers m !! id = Some x -> times_ok (f x) /\ x_address (f x) = x_address x /\ x_role (f x) = x_role x /\ x_score (f x) = x_score x) ->
  inv c (update_peer m id f).
Proof.
  intros HI Hf. unfold update_peer. destruct (m_peers m !! id) as [x|] eqn:Hx; [|done]. destruct (Hf x eq_refl) as (? & ? & ? & ?). by apply update_inv with x.
Qed.
Lemma handled c now z m e : inv c m -> good_clock now -> good_rnd z -> due m e -> room m (calls_for e) -> exists m', step c now z m e = Ok m' /\ inv c m'.
Proof.
  intros HI Hnow Hz Hdue Hroom. pose proof (v_times _ _ (proj1 HI)) as Ht.
  assert (Hr2 : room m 2) by (unfold room, calls_for in *; lia). assert (Hr1 : room m 1) by (unfold room in *; lia).
  destruct e as [a q|id remove q|id score|id|id|id since| |a|a|b dur|b|b|enable|id msg|a bind i|a bind i|id|a|id score|a score| | |l|networking rs bs].
  - cbn [step]. eexists. split; [done|]. apply connect_other; [done|by intros [?|?]|done].
  - cbn [step]. eexists. split; [done|]. by apply disconnect_inv.
  - cbn [step]. by apply adjust_ok.
  - cbn [step]. eexists. split; [done|]. apply update_peer_inv; [done|]. intros x Hx. split_and!; try done. apply (Ht id x Hx).
  - cbn [step]. eexists. split; [done|]. apply update_peer_inv; [done|]. intros x Hx. split_and!; try done. apply (Ht id x Hx).
  - cbn [step]. eexists. split; [done|]. apply update_peer_inv; [done|]. intros x Hx. split_and!; try done. destruct (Ht id x Hx) as [H1 H2]. split; [done|]. cbn. intros e ->. done.
  - cbn [step]. eexists. split; [done|]. apply framed_inv with m; [by split|done].
  - cbn [step]. destruct (call_quiet c m (AddReserved a now (r_jitter z))) as (d & Hd & HI1 & _); try done; [split; [by apply clock_time|apply Hz]|]. rewrite Hd. cbn [rbind].
    eexists. split; [done|]. destruct (m_networking _); [|done]. apply connect_other; [done|by intros [?|?]|done].
  - cbn [step]. destruct (call_quiet c m (RemoveReserved a now)) as (d & Hd & HI1 & _); try done; [by apply clock_time|]. rewrite Hd. eauto.
  - cbn [step]. destruct (ban_spec c now m b dur HI Hr1) as (d & -> & HI1 & _). eauto.
  - cbn [step]. destruct (call_quiet c m (Unban b)) as (d & Hd & HI1 & _); try done. rewrite Hd. eauto.
  - cbn [step]. destruct (call_quiet c m (Undiscourage b)) as (d & Hd & HI1 & _); try done. rewrite Hd. eauto.
  - cbn [step]. unfold enable_networking. destruct (bool_decide _); [by exists m|].
    assert (HI1 : inv c (emit (with_networking m enable) (CEnableNetworking enable))) by (apply emit_inv; apply framed_inv with m; [by split|done]).
    destruct enable; [by apply heartbeat_ok|eauto].
  - by apply message_ok.
  - cbn [step]. unfold accept_inbound. apply finish_ok; try done. apply book_inbound, HI.
  - cbn [step]. unfold accept_outbound. destruct Hdue as [t Hp]. rewrite Hp. cbn [expect rbind]. apply finish_ok; try done; [by apply drop_inv with t|].
    apply book_perm with (addresses m); [by rewrite (drop_pending m a t Hp)|apply HI].
  - by apply closed_ok.
  - by apply error_ok.
  - cbn [step]. by apply adjust_ok.
  - cbn [step]. unfold adjust_on_failed_handshake. match goal with |- context [adjust_on_failed_connection c now m a ?r score] => destruct (failed_connection_ok c now m a r score HI Hr1) as (m' & ? & ? & _) end. eauto.
  - by apply heartbeat_ok.
  - cbn [step]. eexists. split; [done|]. by apply ping_inv.
  - cbn [step]. apply discover_ok; [done|]. unfold room, calls_for in *. lia.
  - by apply restart_ok.
Qed.
