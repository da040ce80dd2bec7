From Verif Require Import Base PeerTableModel PeerDbModel PeerDbSpec PeerDbProofs PeerDbSteps PeerDbBans PeerDbBook PeerManagerModel PeerManagerSpec PeerManagerProofs.
From Verif Require EvictionModel EvictionSpec EvictionProofs EvictionProperties.

(** * Banning and discouraging *)

Lemma bannable_spec c m b id : id ∈ bannable_peers_for_addr c m b <-> exists x, m_peers m !! id = Some x /\ ip c (x_address x) = b.
Proof.
  unfold bannable_peers_for_addr. rewrite elem_of_list_fmap. split.
  - intros ([i x] & -> & Hin). apply elem_of_list_filter in Hin as [Hb Hin%elem_of_map_to_list]. by exists x.
  - intros (x & Hx & Hb). exists (id, x). split; [done|]. apply elem_of_list_filter. split; [done|]. by apply elem_of_map_to_list.
Qed.
Definition partings (c : settings) (m : mgr) (d : db) (o : op) (b : N) : mgr := disconnect_all (with_call m d o) (bannable_peers_for_addr c m b).
Lemma partings_spec c m d o b : disconnects (with_call m d o) (partings c m d o b) /\
  forall id x, m_peers m !! id = Some x -> ip c (x_address x) = b -> leaving (partings c m d o b) id.
Proof.
  destruct (disconnect_all_spec (bannable_peers_for_addr c m b) (with_call m d o)) as [H1 H2]. split; [done|]. intros id x Hx Hb.
  apply H2; [apply bannable_spec; eauto|]. by exists x.
Qed.
Definition nearly (c : settings) (m : mgr) (b : N) : Prop :=
  inv0 c m /\ banned_ok c m /\
  (forall id x, m_peers m !! id = Some x -> (0 < x_score x)%N -> (p_threshold c <= x_score x)%N -> leaving m id \/ ip c (x_address x) = b).
Lemma inv_nearly c m b : inv c m -> nearly c m b.
Proof. intros [H1 [H2 H3]]. split_and!; try done. intros id x Hx Hp Ht. left. eauto. Qed.
Lemma partings_inv c m d o b : nearly c m b -> inv0 c (with_call m d o) ->
  (forall b', b' <> b -> is_Some (d_banned d !! b') -> is_Some (d_banned (m_db m) !! b')) -> inv c (partings c m d o b).
Proof.
  intros (HI & Hb & Hs) HI' Hd. destruct (partings_spec c m d o b) as [H1 H2]. split; [by apply disconnects_inv0 with (with_call m d o)|]. split.
  - intros id x. rewrite (dc_peers _ _ H1), (dc_db _ _ H1). cbn. intros Hx Hban. destruct (decide (ip c (x_address x) = b)) as [He|Hne]; [eauto|].
    apply (disconnects_leaving _ _ id H1). apply (Hb id x Hx). by apply Hd.
  - intros id x. rewrite (dc_peers _ _ H1). cbn. intros Hx Hp Ht. destruct (Hs id x Hx Hp Ht) as [Hl|He]; [|eauto].
    apply (disconnects_leaving _ _ id H1). done.
Qed.
Lemma discourage_spec c now m b : nearly c m b -> room m 1 ->
  exists d, discourage c now m b = Ok (partings c m d (Discourage b now) b) /\ inv c (partings c m d (Discourage b now) b) /\
    effects c (m_db m) d (Discourage b now).
Proof.
  intros Hn Hr. destruct (call_quiet0 c m (Discourage b now)) as (d & Hd & HI' & He); try done; [apply Hn|].
  exists d. unfold discourage. rewrite Hd. cbn [rbind]. split; [done|]. split; [|done]. apply partings_inv; try done.
  intros b' _. destruct He as [He _]. rewrite He. done.
Qed.
Lemma ban_spec c now m b dur : inv c m -> room m 1 ->
  exists d, ban c now m b dur = Ok (partings c m d (Ban b dur now) b) /\ inv c (partings c m d (Ban b dur now) b) /\
    effects c (m_db m) d (Ban b dur now).
Proof.
  intros HI Hr. destruct (call_spec c m (Ban b dur now)) as (d & Hd & HI' & He); try done; [apply HI|apply HI|].
  exists d. unfold ban. rewrite Hd. cbn [rbind]. split; [done|]. split; [|done]. apply partings_inv; try done; [by apply inv_nearly|].
  intros b' Hne. destruct He as [He _]. rewrite He. cbn. by rewrite decide_False.
Qed.

Lemma whitelisted_spec c r a : is_whitelisted_node c r a = true <-> trusted c r a.
Proof.
  unfold is_whitelisted_node, trusted. destruct r; try rewrite bool_decide_eq_true; split; try done; auto;
    intros [?|[?|?]]; done.
Qed.
Lemma set_score_inv0 c m id x s : inv0 c m -> m_peers m !! id = Some x -> ~ trusted c (x_role x) (x_address x) ->
  inv0 c (with_peers m (<[id := set_score x s]> (m_peers m))).
Proof. intros HI Hx Ht. apply update_inv0 with x; try done. by apply (v_times _ _ HI id x). Qed.
Lemma set_score_banned c m id x s : banned_ok c m -> m_peers m !! id = Some x -> banned_ok c (with_peers m (<[id := set_score x s]> (m_peers m))).
Proof.
  intros Hb Hx i y. cbn. destruct (decide (i = id)) as [->|Hne]; [rewrite lookup_insert; intros [= <-]; apply (Hb id x Hx)|rewrite lookup_insert_ne by done; apply Hb].
Qed.
Lemma adjust_ok c now m id score : inv c m -> room m 1 -> exists m', adjust_peer_score c now m id score = Ok m' /\ inv c m'.
Proof.
  intros HI Hr. unfold adjust_peer_score. destruct (m_peers m !! id) as [x|] eqn:Hx; [|by exists m].
  destruct (is_whitelisted_node c (x_role x) (x_address x)) eqn:Hw; [by exists m|].
  assert (Ht : ~ trusted c (x_role x) (x_address x)) by (rewrite <- whitelisted_spec; congruence). clear Hw.
  set (s := N.min U32_MAX (x_score x + score)). set (m1 := with_peers m _).
  assert (H0 : inv0 c m1) by (apply set_score_inv0; [apply HI|done..]).
  assert (H1 : banned_ok c m1) by (apply set_score_banned; [apply HI|done]).
  destruct (N.leb_spec (p_threshold c) s) as [Hle|Hlt].
  - destruct (discourage_spec c now m1 (ip c (x_address x))) as (d & Hd & HI' & _); [|done|eauto]. split_and!; try done.
    intros i y. cbn. destruct (decide (i = id)) as [->|Hne]; [rewrite lookup_insert; intros [= <-]; by right|rewrite lookup_insert_ne by done].
    intros Hy Hp Hq. left. by apply (proj2 (proj2 HI) i y).
  - exists m1. split; [done|]. split; [done|]. split; [done|]. intros i y. cbn.
    destruct (decide (i = id)) as [->|Hne]; [rewrite lookup_insert; intros [= <-]; cbn; lia|rewrite lookup_insert_ne by done].
    intros Hy Hp Hq. by apply (proj2 (proj2 HI) i y).
Qed.
Lemma failed_connection_ok c now m a r score : inv c m -> room m 1 ->
  exists m', adjust_on_failed_connection c now m a r score = Ok m' /\ inv c m' /\ length (m_calls m') <= length (m_calls m) + 1.
Proof.
  intros HI Hr. unfold adjust_on_failed_connection. destruct (score <? p_threshold c)%N; [exists m; split_and!; [done..|lia]|].
  destruct (is_whitelisted_node c r a); [exists m; split_and!; [done..|lia]|].
  destruct (discourage_spec c now m (ip c a)) as (d & Hd & HI' & _); [by apply inv_nearly|done|]. eexists. split_and!; [done..|].
  rewrite (dc_calls _ _ (proj1 (partings_spec _ _ _ _ _))). cbn. rewrite app_length. cbn. lia.
Qed.

(** * Accepting connections *)

Lemma filter_map_len {A B} (f : A -> B) (P : B -> Prop) (Q : A -> Prop) `{forall x, Decision (P x)} `{forall x, Decision (Q x)} (l : list A) :
  (forall x, P (f x) <-> Q x) -> length (filter P (map f l)) = length (filter Q l).
Proof.
  intros HPQ. induction l as [|a l IH]; [done|]. cbn [map]. rewrite !filter_cons.
  destruct (decide (P (f a))) as [Hp|Hp], (decide (Q a)) as [Hq|Hq]; cbn; rewrite ?IH; try done; exfalso; [apply Hq|apply Hp]; by apply HPQ.
Qed.
Lemma outbound_inbound r : is_outbound r = false <-> r = Inbound.
Proof. destruct r; cbn; split; intros; try done. Qed.
Lemma not_leaving m id : m_disconnecting m !! id = None <-> ~ leaving m id.
Proof. unfold leaving. apply eq_None_not_Some. Qed.
Lemma staying_count m : staying_inbound m = inbound_peer_count m.
Proof.
  unfold staying_inbound, inbound_peer_count. apply Nat.le_antisymm; apply filter_len_le; intros p _; rewrite outbound_inbound, not_leaving; done.
Qed.
Lemma seen_number c m : EvictionSpec.number (EvictionSpec.of_kind Inbound) (seen c m) = inbound_peer_count m.
Proof.
  unfold EvictionSpec.number, seen, inbound_peer_count. apply filter_map_len. intros p. unfold EvictionSpec.of_kind. cbn.
  rewrite outbound_inbound, bool_decide_eq_false, <- eq_None_not_Some. done.
Qed.
Lemma seen_spec c m p : p ∈ seen c m -> exists id x, m_peers m !! id = Some x /\ EvictionModel.p_id p = id /\ EvictionModel.p_role p = x_role x /\
  EvictionModel.p_ping_min p = x_ping_min x /\ EvictionModel.p_expecting p = x_expecting x /\
  EvictionModel.p_disconnecting p = bool_decide (leaving m id).
Proof.
  unfold seen. intros ([id x] & -> & Hin%elem_of_map_to_list)%elem_of_list_fmap. exists id, x. done.
Qed.
Lemma seen_pings c m : inv0 c m -> EvictionSpec.sane_pings (seen c m).
Proof.
  intros HI p (id & x & Hx & _ & _ & Hp & _)%seen_spec. unfold EvictionSpec.ping_micros. rewrite Hp.
  destruct (v_times _ _ HI id x Hx) as [Ht _]. destruct (x_ping_min x) as [t|]; [|done]. specialize (Ht t eq_refl). unfold good_clock in Ht.
  unfold I64_MAX. assert (t / 1000 <= 9223372036854775807)%N by (apply N.div_le_upper_bound; lia). lia.
Qed.
Lemma seen_times c m : inv0 c m -> EvictionSpec.sane_times (seen c m).
Proof.
  intros HI p e (id & x & Hx & _ & _ & _ & Hp & _)%seen_spec. rewrite Hp. intros He. destruct (v_times _ _ HI id x Hx) as [_ Ht]. specialize (Ht e He).
  unfold good_clock in Ht. unfold EvictionModel.DURATION_MAX. lia.
Qed.

Lemma already_spec c m a r : r <> Inbound -> r <> Feeler ->
  (already_connected c m a r = false <-> forall p, p ∈ connections m -> compatible c a r p).
Proof.
  intros Hi Hf.
  assert (Hx : already_connected c m a r = existsb (fun p => (ip c p.1 =? ip c a)%N && negb (may_allow c (p_port c p.1) p.2 (p_port c a) r)) (addresses m)) by by destruct r.
  rewrite Hx. clear Hx. change (connections m) with (addresses m). generalize (addresses m). intros L.
  assert (Hone : forall p, (ip c p.1 =? ip c a)%N && negb (may_allow c (p_port c p.1) p.2 (p_port c a) r) = false <-> compatible c a r p).
  { intros p. unfold compatible, may_allow. rewrite andb_false_iff, negb_false_iff, N.eqb_neq.
    destruct (N.eqb_spec (p_port c p.1) (p_port c a)) as [He|Hne].
    - split; [intros [Hip|?] Hip'; [by destruct Hip|done]|]. intros Hc. left. intros Hip. by destruct (Hc Hip).
    - destruct (p_same_ip c) eqn:Es; [split; [by auto|]; by right|]. destruct (is_outbound p.2) eqn:Eo.
      + split; [|by right]. intros _ _. split; [done|]. right. left. intros Hin. rewrite <- outbound_inbound in Hin. congruence.
      + apply outbound_inbound in Eo. rewrite Eo. split.
        * intros [Hip|Hm] Hip'; [done|]. split; [done|]. right. right. by destruct r.
        * intros Hc. destruct (decide (ip c p.1 = ip c a)) as [Hip|]; [right|by left]. destruct (Hc Hip) as [_ [?|[?|Hm]]]; [done|done|by rewrite Hm]. }
  induction L as [|p L IH]; cbn [existsb].
  - split; [|done]. intros _ p Hp. by apply elem_of_nil in Hp.
  - rewrite orb_false_iff, IH, Hone. split.
    + intros [Hp HL] q [->|Hq]%elem_of_cons; auto.
    + intros Hq. split; [apply Hq; by left|]. intros q Hin. apply Hq. by right.
Qed.

Lemma number_pos {A} (P : A -> Prop) `{forall x, Decision (P x)} (l : list A) x : x ∈ l -> P x -> 0 < length (filter P l).
Proof. intros Hin HP. assert (x ∈ filter P l) by by apply elem_of_list_filter. destruct (filter P l); [by apply not_elem_of_nil in H0|cbn; lia]. Qed.

Lemma disconnect_inbound m id x : m_peers m !! id = Some x -> x_role x = Inbound -> ~ leaving m id ->
  inbound_peer_count (disconnect m id false None) < inbound_peer_count m.
Proof.
  intros Hx Hr Hl. destruct (disconnect_spec m id false None) as [Hd Hn]. unfold inbound_peer_count. rewrite (dc_peers _ _ Hd).
  apply filter_len_lt with (id, x).
  - intros p _ [H1 H2]. split; [done|]. rewrite not_leaving in *. intros Hp. apply H2. by apply (disconnects_leaving _ _ _ Hd).
  - by apply elem_of_map_to_list.
  - cbn. split; [by apply outbound_inbound|]. by apply not_leaving.
  - cbn. intros [_ H]. rewrite not_leaving in H. apply H. apply Hn. by exists x.
Qed.

(** A new connection is validated exactly under these conditions; at most one inbound peer is given up for it. *)
Lemma validate_spec c now z m a r i : inv c m -> good_rnd z ->
  exists m' e, validate_connection c now z m a r i = Ok (m', e) /\ disconnects m m' /\
    (e = None <-> acceptable c m a i /\ already_connected c m a r = false /\ (r = Inbound -> room_for_inbound c m a) /\ services_for c r i) /\
    (e = None -> r = Inbound -> inbound_peer_count m' < p_max_inbound c) /\
    (e <> None -> m' = m).
Proof.
  intros HI (Hs & _ & _). unfold validate_connection, acceptable.
  assert (Href : forall s : N, ~ (acceptable c m a i /\ already_connected c m a r = false) ->
    exists m' e, @Ok unit _ (m, Some s) = Ok (m', e) /\ disconnects m m' /\
    (e = None <-> acceptable c m a i /\ already_connected c m a r = false /\ (r = Inbound -> room_for_inbound c m a) /\ services_for c r i) /\
    (e = None -> r = Inbound -> inbound_peer_count m' < p_max_inbound c) /\ (e <> None -> m' = m)).
  { intros s Hn. exists m, (Some s). split_and!; try done; [apply disconnects_refl|]. split; [done|]. intros (H1 & H2 & _). by destruct Hn. }
  unfold acceptable in Href.
  destruct (m_networking m) eqn:E1; cbn [negb]; [|apply Href; naive_solver].
  destruct (i_same_network i) eqn:E2; cbn [negb]; [|apply Href; naive_solver].
  destruct (bool_decide_reflect (is_Some (m_peers m !! i_id i))) as [E3|E3]; [apply Href; intros [(_ & _ & E & _) _]; rewrite E in E3; by destruct E3|]. rewrite <- eq_None_not_Some in E3.
  destruct (already_connected c m a r) eqn:E4; [apply Href; naive_solver|].
  unfold is_address_banned.
  destruct (bool_decide_reflect (is_Some (d_banned (m_db m) !! ip c a))) as [E5|E5]; [apply Href; intros [(_ & _ & _ & E & _) _]; rewrite E in E5; by destruct E5|]. rewrite <- eq_None_not_Some in E5.
  destruct (N.eqb_spec (i_services i) 0) as [E6|E6]; [apply Href; naive_solver|].
  destruct (i_outdated i) eqn:E7; [apply Href; naive_solver|]. clear Href.
  destruct r.
  - destruct (Nat.leb_spec (p_max_inbound c) (inbound_peer_count m)) as [Hle|Hlt].
    + unfold is_address_discouraged. destruct (bool_decide_reflect (is_Some (d_discouraged (m_db m) !! ip c a))) as [Ed|Ed].
      { exists m, (Some 0%N). split_and!; try done; [apply disconnects_refl|]. split; [done|]. intros (_ & _ & Hr & _).
        destruct (Hr eq_refl) as [Hr'|[Hr' _]]; [rewrite staying_count in Hr'; lia|]. rewrite Hr' in Ed. by destruct Ed. }
      rewrite <- eq_None_not_Some in Ed.
      destruct (EvictionProperties.C89_inbound_evicted (r_sort z) (p_key c) (r_pick z) (p_evict c) now (seen c m) Hs (seen_pings c m (proj1 HI))) as [H1 H2].
      rewrite seen_number in H1, H2. pose proof (v_inbound _ _ (proj1 HI)) as Hmax.
      destruct (decide (EvictionModel.total_preserved_inbound_count (p_evict c) < inbound_peer_count m)) as [Hn|Hn].
      * destruct (H1 Hn) as (p & Hp & [Hk1 Hk2] & He). rewrite He. cbn [rbind].
        apply seen_spec in Hp as (id & x & Hx & Hid & Hr & _ & _ & Hdis). rewrite Hid. rewrite Hr in Hk1. rewrite Hdis, bool_decide_eq_false in Hk2.
        eexists _, None. split; [done|]. split; [apply disconnect_spec|]. split; [|split; [|done]].
        -- split; [intros _|done]. split_and!; try done. intros _. right. rewrite staying_count. done.
        -- intros _ _. pose proof (disconnect_inbound m id x Hx Hk1 Hk2). lia.
      * rewrite H2 by lia. cbn [rbind]. exists m, (Some 0%N). split_and!; try done; [apply disconnects_refl|]. split; [done|]. intros (_ & _ & Hr & _).
        destruct (Hr eq_refl) as [Hr'|[_ Hr']]; rewrite staying_count in Hr'; lia.
    + exists m, None. split_and!; try done; [apply disconnects_refl|]. split; [intros _|done]. split_and!; try done. intros _. left. by rewrite staying_count.
  - eexists m, _. split; [done|]. split; [apply disconnects_refl|]. unfold services_for. destruct (N.eqb_spec (i_services i) (p_needed c)); split_and!; try done; (split; [done|]; try done; naive_solver).
  - eexists m, _. split; [done|]. split; [apply disconnects_refl|]. unfold services_for. destruct (N.eqb_spec (i_services i) SERVICE_BLOCKS); split_and!; try done; (split; [done|]; try done; naive_solver).
  - exists m, None. split_and!; try done; apply disconnects_refl.
  - exists m, None. split_and!; try done; apply disconnects_refl.
  - exists m, None. split_and!; try done; apply disconnects_refl.
Qed.

Definition new_peer (a bind : N) (r : role) (now : N) : ctx := Ctx a bind r now 0 None None false false None None None.
Lemma addresses_new m id x : m_peers m !! id = None -> addresses (with_peers m (<[id := x]> (m_peers m))) ≡ₚ (x_address x, x_role x) :: addresses m.
Proof. intros Hn. unfold addresses. cbn. rewrite (map_to_list_insert _ _ _ Hn). done. Qed.
Lemma add_inv c m id a bind r now : inv c m -> m_peers m !! id = None -> d_banned (m_db m) !! ip c a = None ->
  (r = Inbound -> inbound_peer_count m < p_max_inbound c) -> book_ok c ((a, r) :: addresses m) ->
  (lasting r -> forall j y, m_peers m !! j = Some y -> lasting (x_role y) -> x_address y <> a) ->
  inv c (with_peers m (<[id := new_peer a bind r now]> (m_peers m))).
Proof.
  intros [HI [Hb Hs]] Hn Hban Hin Hbook Hl. pose proof HI as [H1 H2 H3 H4 H5 H6 H7 H8 H9].
  assert (Hnl : ~ leaving m id). { intros Hx. destruct (H2 id Hx) as [[? ?] _]. congruence. }
  split; [split; try done|split].
  - intros j Hj. destruct (H2 j Hj) as [Hp Ho]. split; [|done]. cbn. destruct (decide (j = id)) as [->|Hne]; [by rewrite lookup_insert|by rewrite lookup_insert_ne].
  - unfold inbound_peer_count. cbn. rewrite (map_to_list_insert _ _ _ Hn), filter_cons. fold (inbound_peer_count m). cbn.
    destruct (decide _) as [[Hr _]|]; [|done]. apply outbound_inbound in Hr. specialize (Hin Hr). cbn. unfold inbound_peer_count in Hin. lia.
  - apply book_perm with ((a, r) :: addresses m); [by apply addresses_new|done].
  - cbn. intros j k y w. destruct (decide (j = id)) as [->|Hj], (decide (k = id)) as [->|Hk]; rewrite ?lookup_insert, ?lookup_insert_ne by done; try done.
    + intros [= <-] Hw Lr Lw He. cbn in *. by destruct (Hl Lr k w Hw Lw).
    + intros Hy [= <-] Ly Lr He. cbn in *. by destruct (Hl Lr j y Hy Ly).
    + apply H6.
  - cbn. intros j y. destruct (decide (j = id)) as [->|Hne]; [rewrite lookup_insert; by intros [= <-]|rewrite lookup_insert_ne by done; apply H7].
  - cbn. intros j y. destruct (decide (j = id)) as [->|Hne]; [rewrite lookup_insert; intros [= <-]; by split|rewrite lookup_insert_ne by done; apply H8].
  - intros j y. cbn. destruct (decide (j = id)) as [->|Hne]; [rewrite lookup_insert; intros [= <-]; cbn; rewrite Hban; by intros [? ?]|rewrite lookup_insert_ne by done; apply Hb].
  - intros j y. cbn. destruct (decide (j = id)) as [->|Hne]; [rewrite lookup_insert; intros [= <-]; cbn; lia|rewrite lookup_insert_ne by done; apply Hs].
Qed.

(** ** The anchors *)
Lemma max_key {A} (l : list (N * A)) : l <> [] -> exists p, p ∈ l /\ forall q, q ∈ l -> (q.1 <= p.1)%N.
Proof.
  induction l as [|a l IH]; [done|]. intros _. destruct l as [|b l].
  - exists a. split; [by left|]. intros q [->|Hq]%elem_of_cons; [lia|by apply elem_of_nil in Hq].
  - destruct IH as (p & Hp & Hm); [done|]. destruct (N.le_gt_cases a.1 p.1) as [Hle|Hgt].
    + exists p. split; [by right|]. intros q [->|Hq]%elem_of_cons; [done|auto].
    + exists a. split; [by left|]. intros q [->|Hq]%elem_of_cons; [lia|]. specialize (Hm q Hq). lia.
Qed.
Lemma rank_bound {A} (l : list (N * A)) n : NoDup (map fst l) ->
  length (filter (fun p => length (filter (fun q => (q.1 < p.1)%N) l) < n) l) <= n.
Proof.
  intros Hnd. set (F := filter _ l). destruct F as [|f F'] eqn:EF; [cbn; lia|]. destruct (max_key F) as (p & Hp & Hm); [by rewrite EF|]. rewrite <- EF. 
  pose proof Hp as [Hr Hin]%elem_of_list_filter.
  enough (length F <= S (length (filter (fun q => (q.1 < p.1)%N) l))) by lia. clear Hr EF f F'.
  assert (Hsub : forall q, q ∈ F -> q ∈ p :: filter (fun q => (q.1 < p.1)%N) l).
  { intros q Hq. specialize (Hm q Hq). apply elem_of_list_filter in Hq as [_ Hq]. destruct (decide (q.1 = p.1)) as [He|Hne].
    - apply elem_of_cons. left. revert Hin Hq He. clear - Hnd. induction l as [|x l IH]; [by intros H%elem_of_nil|]. cbn in Hnd. apply NoDup_cons in Hnd as [Hx Hnd].
      intros [->|H1]%elem_of_cons [->|H2]%elem_of_cons He; [done|..|by apply IH].
      + exfalso. apply Hx. rewrite <- He. apply elem_of_list_fmap. by exists q.
      + exfalso. apply Hx. rewrite He. apply elem_of_list_fmap. by exists p.
    - apply elem_of_cons. right. apply elem_of_list_filter. split; [lia|done]. }
  assert (HndF : NoDup F) by (apply NoDup_filter; by apply (NoDup_fmap_1 fst)).
  change (length F <= length (p :: filter (fun q => (q.1 < p.1)%N) l)). apply submseteq_length. by apply NoDup_submseteq.
Qed.
Lemma NoDup_map_filter {A B} (f : A -> B) (P Q : A -> Prop) `{forall x, Decision (P x)} `{forall x, Decision (Q x)} (l : list A) :
  (forall x, Q x -> P x) -> NoDup (map f (filter P l)) -> NoDup (map f (filter Q l)).
Proof.
  intros HQP. induction l as [|a l IH]; [done|]. rewrite !filter_cons. destruct (decide (Q a)) as [Hq|Hq].
  - rewrite decide_True by auto. cbn [map]. rewrite !NoDup_cons. intros [Ha Hnd]. split; [|auto]. intros Hin. apply Ha.
    apply elem_of_list_fmap in Hin as (x & He & Hx). apply elem_of_list_fmap. exists x. split; [done|].
    apply elem_of_list_filter in Hx as [? ?]. apply elem_of_list_filter. auto.
  - destruct (decide (P a)); [|done]. cbn [map]. rewrite NoDup_cons. intros [_ Hnd]. auto.
Qed.
Lemma NoDup_filter_map {A B} (f : A -> B) (Q : A -> Prop) `{forall x, Decision (Q x)} (l : list A) : NoDup (map f l) -> NoDup (map f (filter Q l)).
Proof.
  induction l as [|a l IH]; [done|]. rewrite filter_cons. cbn [map]. rewrite NoDup_cons. intros [Ha Hnd]. destruct (decide (Q a)); [|auto].
  cbn [map]. apply NoDup_cons. split; [|auto]. intros (x & He & Hx)%elem_of_list_fmap. apply Ha. apply elem_of_list_fmap. exists x. split; [done|].
  by apply elem_of_list_filter in Hx as [_ ?].
Qed.
Lemma map_filter_map {A B C} (g : A -> B) (f : B -> C) (P : B -> Prop) (Q : A -> Prop) `{forall x, Decision (P x)} `{forall x, Decision (Q x)} (l : list A) :
  (forall x, P (g x) <-> Q x) -> map f (filter P (map g l)) = map (fun x => f (g x)) (filter Q l).
Proof.
  intros HPQ. induction l as [|a l IH]; [done|]. cbn [map]. rewrite !filter_cons.
  destruct (decide (P (g a))) as [Hp|Hp], (decide (Q a)) as [Hq|Hq]; cbn; rewrite ?IH; try done; exfalso; [apply Hq|apply Hp]; by apply HPQ.
Qed.
Lemma anchors_good c m : book_ok c (addresses m) -> anchors_ok c (anchors c m).
Proof.
  intros (_ & _ & _ & Hnd). unfold addresses in Hnd. rewrite groups_app in Hnd. apply NoDup_app in Hnd as [Hnd _]. unfold auto_groups in Hnd.
  rewrite (map_filter_map _ _ _ (fun p : N * ctx => automatic (x_role p.2))) in Hnd by done. cbn in Hnd. unfold anchors.
  set (K := filter _ (block_relay_peers m)).
  assert (HK : NoDup (map (fun p => group c (x_address p.2)) K)).
  { unfold K, block_relay_peers. rewrite list_filter_filter. revert Hnd. apply NoDup_map_filter. intros x [_ Hx]. by right. }
  assert (Hlen : length K <= EvictionModel.block_relay_count (p_evict c)).
  { unfold K. apply (rank_bound (block_relay_peers m)). unfold block_relay_peers. apply NoDup_filter_map, NoDup_fst_map_to_list. }
  assert (Ha : NoDup (map (fun p : N * ctx => x_address p.2) K)). { revert HK. rewrite <- (map_map (fun p : N * ctx => x_address p.2) (group c)). apply NoDup_fmap_1. }
  split.
  - rewrite size_list_to_set by done. by rewrite map_length.
  - rewrite elements_list_to_set by done. rewrite map_map. done.
Qed.

(** ** The end of an attempt *)

Lemma role_of_outbound t : role_of t <> Inbound.
Proof. by destruct t. Qed.
Lemma book_inbound c a L : book_ok c L -> book_ok c ((a, Inbound) :: L).
Proof. apply (book_other c Inbound [a]); [by intros [?|?]|done]. Qed.
Lemma drop_pending m a t : m_pending m !! a = Some t -> addresses m ≡ₚ (a, role_of t) :: addresses (with_pending m (delete a (m_pending m))).
Proof.
  intros Ha. unfold addresses. cbn. rewrite <- (map_to_list_delete (m_pending m) a t Ha). cbn. by rewrite <- Permutation_middle.
Qed.
Lemma drop_inv c m a t : inv c m -> m_pending m !! a = Some t -> inv c (with_pending m (delete a (m_pending m))).
Proof.
  intros HI Ha. apply connects_inv with m; [by split| |done]. apply (book_app_r c [(a, role_of t)]). apply book_perm with (addresses m); [|apply HI].
  by rewrite (drop_pending m a t Ha).
Qed.

Lemma emit_inv c m x : inv c m -> inv c (emit m x).
Proof. apply framed_inv, framed_emit. Qed.
Lemma answer_inv c m q ok : inv c m -> inv c (answer m q ok).
Proof. apply framed_inv, framed_answer. Qed.
Lemma disconnects_book m m' : disconnects m m' -> addresses m' = addresses m.
Proof. intros Hd. unfold addresses. by rewrite (dc_peers _ _ Hd), (dc_pending _ _ Hd). Qed.

Lemma accept_spec c now z m a bind r i : inv c m -> good_rnd z -> good_clock now -> room m 2 -> book_ok c ((a, r) :: addresses m) ->
  exists m' e, try_accept_connection c now z m a bind r i = Ok (m', e) /\ inv c m' /\
    (e = None <-> acceptable c m a i /\ already_connected c m a r = false /\ (r = Inbound -> room_for_inbound c m a) /\ services_for c r i) /\
    (e <> None -> m' = m) /\
    (e = None -> m_peers m' = <[i_id i := new_peer a bind r now]> (m_peers m) /\ CAccept (i_id i) ∈ m_out m').
Proof.
  intros HI Hz Hnow Hroom Hbook. destruct (validate_spec c now z m a r i HI Hz) as (m1 & e & He & Hd & Hiff & Hin & Hsame).
  unfold try_accept_connection. rewrite He. cbn [rbind]. destruct e as [s|].
  { exists m1, (Some s). rewrite (Hsame ltac:(done)) in *. split_and!; try done. }
  clear Hsame. destruct (proj1 Hiff eq_refl) as ((_ & _ & Hid & Hban & _) & Hac & _ & _). specialize (Hin eq_refl).
  set (m2 := emit m1 (CAccept (i_id i))).
  set (m3 := if should_load_addresses_from r then emit m2 (AskAddresses (i_id i)) else m2).
  assert (Hf : framed m1 m3). { unfold m3, m2. destruct (should_load_addresses_from r); [eapply framed_trans|]; apply framed_emit. }
  assert (Hacc : CAccept (i_id i) ∈ m_out m3). { assert (CAccept (i_id i) ∈ m_out m2) by (cbn; apply elem_of_app; right; by left). unfold m3. destruct (should_load_addresses_from r); [cbn; apply elem_of_app; by left|done]. }
  assert (Hp3 : m_peers m3 = m_peers m) by by rewrite (f_peers _ _ Hf), (dc_peers _ _ Hd).
  assert (HI3 : inv c m3) by (apply framed_inv with m1; [done|]; by apply disconnects_inv with m).
  assert (Hc3 : m_calls m3 = m_calls m) by by rewrite (f_calls _ _ Hf), (dc_calls _ _ Hd).
  change (Ctx a bind r now 0 None None false false None None None) with (new_peer a bind r now).
  set (m4 := with_peers m3 _).
  assert (HI4 : inv c m4).
  { apply add_inv; try done.
    - by rewrite Hp3.
    - by rewrite (f_db _ _ Hf), (dc_db _ _ Hd).
    - intros Hr. specialize (Hin Hr). unfold inbound_peer_count in *. by rewrite (f_peers _ _ Hf), (f_disc _ _ Hf).
    - unfold addresses in *. by rewrite (f_peers _ _ Hf), (f_pending _ _ Hf), (dc_peers _ _ Hd), (dc_pending _ _ Hd).
    - intros [Hr1 Hr2] j y Hy [Hy1 Hy2] Hya. rewrite Hp3 in Hy. pose proof (proj1 (already_spec c m a r Hr1 Hr2) Hac) as Hac'. clear Hac. rename Hac' into Hac.
      assert (Hcn : (x_address y, x_role y) ∈ connections m). { apply elem_of_app. left. apply elem_of_list_fmap. exists (j, y). split; [done|]. by apply elem_of_map_to_list. }
      specialize (Hac _ Hcn). unfold compatible in Hac. cbn in Hac. rewrite Hya in Hac. destruct (Hac eq_refl) as [Hport _]. done. }
  assert (Hc4 : m_calls m4 = m_calls m) by done.
  assert (Hp4 : m_peers m4 = <[i_id i := new_peer a bind r now]> (m_peers m)) by (cbn; by rewrite Hp3).
  assert (Ho4 : CAccept (i_id i) ∈ m_out m4) by done.
  clearbody m4. clear Hf HI3 Hp3 Hc3 Hacc m3 m2 Hd Hin He m1.
  assert (H5 : exists m5, match as_outbound r with Some o => call c m4 (Connected a o now) | None => Ok m4 end = Ok m5 /\ inv c m5 /\
    m_peers m5 = m_peers m4 /\ m_out m5 = m_out m4 /\ length (m_calls m5) <= length (m_calls m4) + 1).
  { destruct (as_outbound r) as [o|]; [|exists m4; split_and!; [done..|lia]].
    destruct (call_quiet c m4 (Connected a o now)) as (d & Hd & HI5 & _); try done; [by apply clock_time|unfold room in *; rewrite Hc4; lia|].
    rewrite Hd. eexists. split_and!; try done. cbn. rewrite app_length. cbn. lia. }
  destruct H5 as (m5 & -> & HI5 & Hp5 & Ho5 & Hl5). cbn [rbind]. destruct (decide (r = OutboundBlockRelay)) as [Hr|Hr].
  - destruct (call_spec c m5 (SetAnchors (anchors c m5))) as (d & Hd & HI6 & He); try done; [apply HI5|unfold room in *; rewrite Hc4 in Hl5; lia|apply anchors_good, HI5|].
    rewrite Hd. cbn [rbind]. eexists _, None. split; [done|]. split; [|split; [done|split; [done|]]].
    + split; [done|]. split; [|exact (proj2 (proj2 HI5))]. intros j y Hy Hj. cbn in Hy, Hj. destruct He as [He _]. rewrite He in Hj. by apply (proj1 (proj2 HI5) j y).
    + intros _. cbn. rewrite Hp5, Ho5, Hp4. done.
  - cbn [rbind]. eexists _, None. split_and!; try done. intros _. rewrite Hp5, Ho5, Hp4. done.
Qed.
Lemma finish_ok c now z m a bind r q i : inv c m -> good_rnd z -> good_clock now -> room m 2 -> book_ok c ((a, r) :: addresses m) ->
  exists m', finish_accept c now z m a bind r q i = Ok m' /\ inv c m'.
Proof.
  intros HI Hz Hnow Hroom Hbook. destruct (accept_spec c now z m a bind r i HI Hz Hnow Hroom Hbook) as (m1 & e & He & HI1 & _ & Hsame & _).
  unfold finish_accept. rewrite He. cbn [rbind]. destruct e as [s|].
  - rewrite (Hsame ltac:(done)) in *. destruct (failed_connection_ok c now m a r s HI ltac:(unfold room in *; lia)) as (m2 & -> & HI2 & Hl2). cbn [rbind].
    destruct (is_outbound r); [|cbn [rbind]; eexists; split; [done|]; by apply answer_inv, emit_inv].
    destruct (call_quiet c (emit m2 (CDisconnect (i_id i))) (Failed a now (r_jitter z))) as (d & Hd & HI3 & _); try done; [by apply emit_inv|split; [by apply clock_time|apply Hz]|unfold room in *; cbn; lia|].
    rewrite Hd. cbn [rbind]. eexists. split; [done|]. by apply answer_inv.
  - cbn [rbind]. eexists. split; [done|]. apply answer_inv. destruct (decide (r = Feeler)); [by apply disconnect_inv|done].
Qed.

(** * Closing *)

Lemma close_inv c m id x : inv c m -> m_peers m !! id = Some x ->
  inv c (with_disconnecting (with_peers m (delete id (m_peers m))) (delete id (m_disconnecting m))).
Proof.
  intros [HI [Hb Hs]] Hx. pose proof HI as [H1 H2 H3 H4 H5 H6 H7 H8 H9]. set (m' := with_disconnecting _ _).
  assert (Hl : forall j, leaving m' j <-> j <> id /\ leaving m j).
  { intros j. unfold leaving. cbn. destruct (decide (j = id)) as [->|Hne]; [rewrite lookup_delete; split; [by intros [? ?]|by intros []]|rewrite lookup_delete_ne by done; tauto]. }
  assert (Hp : forall j y, m_peers m' !! j = Some y <-> j <> id /\ m_peers m !! j = Some y) by (intros j y; cbn; rewrite lookup_delete_Some; naive_solver).
  split; [split; try done|split].
  - intros j [Hne Hj]%Hl. destruct (H2 j Hj) as [[y Hy] Ho]. split; [|done]. exists y. by apply Hp.
  - etrans; [|exact H3]. unfold inbound_peer_count. rewrite (peers_split (m_peers m) id x Hx), filter_cons. cbn [m_peers with_peers with_disconnecting m'].
    etrans; [apply (filter_len_le _ (fun p : N * ctx => is_outbound (x_role p.2) = false /\ m_disconnecting m !! p.1 = None))|destruct (decide _); cbn; lia].
    intros [j y] Hj%elem_of_map_to_list [Hq1 Hq2]. cbn in *. split; [done|]. apply lookup_delete_Some in Hj as [Hne _]. by rewrite lookup_delete_ne in Hq2.
  - apply (book_app_r c [(x_address x, x_role x)]). apply book_perm with (addresses m); [|done]. unfold addresses. cbn.
    rewrite (peers_split (m_peers m) id x Hx). done.
  - intros j k y w [_ Hy]%Hp [_ Hw]%Hp. eauto.
  - intros j y [_ Hy]%Hp. eauto.
  - intros j y [_ Hy]%Hp. eauto.
  - intros j y [Hne Hy]%Hp Hj. apply Hl. split; [done|]. eauto.
  - intros j y [Hne Hy]%Hp Hj Ht. apply Hl. split; [done|]. eauto.
Qed.
