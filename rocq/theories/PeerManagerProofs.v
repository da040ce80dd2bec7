From Verif Require Import Base PeerTableModel PeerDbModel PeerDbSpec PeerDbProofs PeerDbSteps PeerDbBans PeerDbBook PeerManagerModel PeerManagerSpec.
From Verif Require EvictionModel EvictionSpec EvictionProofs EvictionProperties.

(** * The book of connections: numbers and groups *)

Definition cnt (r : role) (L : list (N * role)) : nat := length (filter (fun p => p.2 = r) L).
Definition auto_groups (c : settings) (L : list (N * role)) : list Z := map (fun p => group c p.1) (filter (fun p => automatic p.2) L).
Definition book_ok (c : settings) (L : list (N * role)) : Prop :=
  cnt OutboundFullRelay L <= EvictionModel.full_relay_count (p_evict c) + p_full_extra c /\
  cnt OutboundBlockRelay L <= EvictionModel.block_relay_count (p_evict c) + p_block_extra c /\
  cnt Feeler L <= 1 /\ NoDup (auto_groups c L).

Lemma cnt_app r L K : cnt r (L ++ K) = cnt r L + cnt r K.
Proof. unfold cnt. by rewrite filter_app, app_length. Qed.
Lemma groups_app c L K : auto_groups c (L ++ K) = auto_groups c L ++ auto_groups c K.
Proof. unfold auto_groups. by rewrite filter_app, map_app. Qed.
Lemma cnt_perm r L K : L ≡ₚ K -> cnt r L = cnt r K.
Proof. intros H. unfold cnt. by rewrite H. Qed.
Lemma groups_perm c L K : L ≡ₚ K -> auto_groups c L ≡ₚ auto_groups c K.
Proof. intros H. unfold auto_groups. by rewrite H. Qed.
Lemma book_perm c L K : L ≡ₚ K -> book_ok c K -> book_ok c L.
Proof. intros H (H1 & H2 & H3 & H4). unfold book_ok. rewrite !(cnt_perm _ L K), (groups_perm c L K) by done. done. Qed.
Lemma book_app_r c L K : book_ok c (L ++ K) -> book_ok c K.
Proof.
  unfold book_ok. rewrite !cnt_app, groups_app, NoDup_app. intros (H1 & H2 & H3 & _ & _ & H4). split_and!; [lia..|done].
Qed.
Lemma book_sub c L K : L ⊆+ K -> book_ok c K -> book_ok c L.
Proof.
  intros [k Hk]%submseteq_Permutation Hb. apply book_app_r with k. apply book_perm with K; [|done]. by rewrite Hk, Permutation_app_comm.
Qed.
Lemma cnt_sub r L K : L ⊆+ K -> cnt r L <= cnt r K.
Proof. intros [k Hk]%submseteq_Permutation. rewrite (cnt_perm r K (L ++ k)), cnt_app by done. lia. Qed.
Lemma cnt_map r r' (l : list N) : cnt r (map (fun a => (a, r')) l) = if decide (r' = r) then length l else 0.
Proof.
  unfold cnt. induction l as [|a l IH]; [by destruct (decide _)|]. cbn [map]. rewrite filter_cons. cbn [snd].
  destruct (decide (r' = r)); [cbn; by rewrite IH|done].
Qed.
Lemma groups_map c r (l : list N) : auto_groups c (map (fun a => (a, r)) l) = if decide (automatic r) then map (group c) l else [].
Proof.
  unfold auto_groups. induction l as [|a l IH]; [by destruct (decide _)|]. cbn [map]. rewrite filter_cons. cbn [snd].
  destruct (decide (automatic r)); [cbn; by rewrite IH|done].
Qed.
(** Connections of other kinds do not count. *)
Lemma book_other c r (l : list N) K : ~ automatic r -> r <> Feeler -> book_ok c K -> book_ok c (map (fun a => (a, r)) l ++ K).
Proof.
  intros Ha Hf. unfold book_ok. rewrite !cnt_app, !cnt_map, groups_app, groups_map, (decide_False (P := automatic r)) by done.
  rewrite !decide_False; [done|done|..]; intros ->; apply Ha; unfold automatic; auto.
Qed.
Lemma in_groups c L a r : (a, r) ∈ L -> automatic r -> group c a ∈ auto_groups c L.
Proof. intros Hin Ha. unfold auto_groups. apply elem_of_list_fmap. exists (a, r). split; [done|]. by apply elem_of_list_filter. Qed.

(** * The parts of the invariant *)

Definition anchors_ok (c : settings) (A : gset N) : Prop :=
  size A <= EvictionModel.block_relay_count (p_evict c) /\ NoDup (map (group c) (elements A)).
Definition times_ok (x : ctx) : Prop :=
  (forall p, x_ping_min x = Some p -> good_clock p) /\ (forall e, x_expecting x = Some e -> good_clock e).
Definition lasting (r : role) : Prop := r <> Inbound /\ r <> Feeler.

Record inv0 (c : settings) (m : mgr) : Prop := Inv0 {
  v_hist : exists r b t, history (p_db c) r b t (m_calls m) (m_db m);
  v_leaving : forall id, leaving m id -> is_Some (m_peers m !! id) /\ CDisconnect id ∈ m_out m;
  v_inbound : inbound_peer_count m <= p_max_inbound c;
  v_book : book_ok c (addresses m);
  v_anchors : anchors_ok c (d_anchors (m_db m));
  v_unique : forall i j x y, m_peers m !! i = Some x -> m_peers m !! j = Some y -> lasting (x_role x) -> lasting (x_role y) ->
             x_address x = x_address y -> i = j;
  v_trusted : forall id x, m_peers m !! id = Some x -> trusted c (x_role x) (x_address x) -> x_score x = 0%N;
  v_times : forall id x, m_peers m !! id = Some x -> times_ok x;
  v_cache : forall b l t, m_cache m !! b = Some (l, t) -> length l <= p_max_list c }.
Definition banned_ok (c : settings) (m : mgr) : Prop :=
  forall id x, m_peers m !! id = Some x -> is_Some (d_banned (m_db m) !! ip c (x_address x)) -> leaving m id.
Definition score_ok (c : settings) (m : mgr) : Prop :=
  forall id x, m_peers m !! id = Some x -> (0 < x_score x)%N -> (p_threshold c <= x_score x)%N -> leaving m id.
Definition inv (c : settings) (m : mgr) : Prop := inv0 c m /\ banned_ok c m /\ score_ok c m.

(** The fields that matter. *)
Record framed (m m' : mgr) : Prop := Framed {
  f_peers : m_peers m' = m_peers m; f_pending : m_pending m' = m_pending m; f_disc : m_disconnecting m' = m_disconnecting m;
  f_db : m_db m' = m_db m; f_cache : m_cache m' = m_cache m; f_calls : m_calls m' = m_calls m; f_out : forall x, x ∈ m_out m -> x ∈ m_out m' }.

Lemma framed_inv c m m' : framed m m' -> inv c m -> inv c m'.
Proof.
  intros [Hp Hq Hd Hb Hk Hc Ho] [[H1 H2 H3 H4 H5 H6 H7 H8 H11] [H9 H10]].
  assert (Hl : forall id, leaving m' id <-> leaving m id) by (intros id; unfold leaving; by rewrite Hd).
  split; [split|split].
  - by rewrite Hc, Hb.
  - intros id Hx%Hl. rewrite Hp. destruct (H2 id Hx). eauto.
  - unfold inbound_peer_count. by rewrite Hp, Hd.
  - unfold addresses. by rewrite Hp, Hq.
  - by rewrite Hb.
  - by rewrite Hp.
  - by rewrite Hp.
  - by rewrite Hp.
  - by rewrite Hk.
  - intros id x. rewrite Hp, Hb. intros Hx Hban. apply Hl. eauto.
  - intros id x. rewrite Hp. intros Hx Hs Ht. apply Hl. eauto.
Qed.
Lemma framed_inv0 c m m' : framed m m' -> inv0 c m -> inv0 c m'.
Proof.
  intros [Hp Hq Hd Hb Hk Hc Ho] [H1 H2 H3 H4 H5 H6 H7 H8 H11].
  assert (Hl : forall id, leaving m' id <-> leaving m id) by (intros id; unfold leaving; by rewrite Hd).
  split.
  - by rewrite Hc, Hb.
  - intros id Hx%Hl. rewrite Hp. destruct (H2 id Hx). eauto.
  - unfold inbound_peer_count. by rewrite Hp, Hd.
  - unfold addresses. by rewrite Hp, Hq.
  - by rewrite Hb.
  - by rewrite Hp.
  - by rewrite Hp.
  - by rewrite Hp.
  - by rewrite Hk.
Qed.
Lemma framed_refl m : framed m m.
Proof. by split. Qed.
Lemma framed_trans m1 m2 m3 : framed m1 m2 -> framed m2 m3 -> framed m1 m3.
Proof. intros [] []. split; [congruence..|auto]. Qed.
Lemma framed_emit m x : framed m (emit m x).
Proof. split; try done. intros y Hy. cbn. apply elem_of_app. by left. Qed.
Lemma framed_answer m q ok : framed m (answer m q ok).
Proof. destruct q; [apply framed_emit|apply framed_refl]. Qed.

(** * Disconnecting *)

Record disconnects (m m' : mgr) : Prop := Disconnects {
  dc_peers : m_peers m' = m_peers m; dc_pending : m_pending m' = m_pending m; dc_db : m_db m' = m_db m; dc_cache : m_cache m' = m_cache m;
  dc_calls : m_calls m' = m_calls m; dc_networking : m_networking m' = m_networking m; dc_feeler : m_feeler m' = m_feeler m;
  dc_disc : forall id v, m_disconnecting m !! id = Some v -> m_disconnecting m' !! id = Some v;
  dc_new : forall id, leaving m' id -> leaving m id \/ is_Some (m_peers m !! id) /\ CDisconnect id ∈ m_out m';
  dc_out : forall x, x ∈ m_out m -> x ∈ m_out m' }.
Lemma disconnects_refl m : disconnects m m.
Proof. split; auto. Qed.
Lemma disconnects_trans m1 m2 m3 : disconnects m1 m2 -> disconnects m2 m3 -> disconnects m1 m3.
Proof.
  intros [A1 A2 A3 A0 A4 A5 A6 A7 A8 A9] [B1 B2 B3 B0 B4 B5 B6 B7 B8 B9]. split; try congruence; auto.
  intros id Hx. destruct (B8 id Hx) as [Hy|[Hy Hz]]; [|right; by rewrite <- A1].
  destruct (A8 id Hy) as [|[? ?]]; [by left|right]. split; [done|auto].
Qed.
Lemma disconnect_spec m id remove q : disconnects m (disconnect m id remove q) /\
  (is_Some (m_peers m !! id) -> leaving (disconnect m id remove q) id).
Proof.
  unfold disconnect. destruct (m_disconnecting m !! id) as [v|] eqn:Ed; [|destruct (m_peers m !! id) as [x|] eqn:Ep].
  - split; [|intros _; unfold leaving; destruct q; cbn; by rewrite Ed]. destruct q; split; cbn; auto.
    intros y Hy. apply elem_of_app. by left.
  - split; [|intros _; unfold leaving; cbn; by rewrite lookup_insert]. split; cbn; auto.
    + intros i v Hv. rewrite lookup_insert_ne; [done|]. intros ->. congruence.
    + intros i. unfold leaving. cbn. destruct (decide (i = id)) as [->|Hne]; [|rewrite lookup_insert_ne by done; by left].
      intros _. right. rewrite Ep. split; [done|]. apply elem_of_app. right. by apply elem_of_list_singleton.
    + intros y Hy. apply elem_of_app. by left.
  - split; [|by intros [? ?]]. destruct q; split; cbn; auto. intros y Hy. apply elem_of_app. by left.
Qed.
Lemma disconnect_all_spec l : forall m, disconnects m (disconnect_all m l) /\
  forall id, id ∈ l -> is_Some (m_peers m !! id) -> leaving (disconnect_all m l) id.
Proof.
  unfold disconnect_all. induction l as [|a l IH]; intros m; cbn [foldl].
  { split; [apply disconnects_refl|]. intros id Hid. by apply elem_of_nil in Hid. }
  destruct (disconnect_spec m a false None) as [H1 H2]. destruct (IH (disconnect m a false None)) as [H3 H4].
  split; [by apply disconnects_trans with (disconnect m a false None)|]. intros id [->|Hid]%elem_of_cons Hp.
  - destruct (H2 Hp) as [v Hv]. exists v. by apply (dc_disc _ _ H3).
  - apply H4; [done|]. by rewrite (dc_peers _ _ H1).
Qed.

Lemma filter_len_le {A} (P Q : A -> Prop) `{forall x, Decision (P x)} `{forall x, Decision (Q x)} (l : list A) :
  (forall x, x ∈ l -> P x -> Q x) -> length (filter P l) <= length (filter Q l).
Proof.
  induction l as [|a l IH]; intros HPQ; [done|]. rewrite !filter_cons. specialize (IH ltac:(intros x Hx; apply HPQ; by right)).
  destruct (decide (P a)) as [Hp|Hp]; [rewrite decide_True by (apply HPQ; [by left|done]); cbn; lia|].
  destruct (decide (Q a)); cbn; lia.
Qed.
Lemma filter_len_lt {A} (P Q : A -> Prop) `{forall x, Decision (P x)} `{forall x, Decision (Q x)} (l : list A) a :
  (forall x, x ∈ l -> P x -> Q x) -> a ∈ l -> Q a -> ~ P a -> length (filter P l) < length (filter Q l).
Proof.
  induction l as [|b l IH]; intros HPQ Hin HQ HP; [by apply elem_of_nil in Hin|]. rewrite !filter_cons.
  apply elem_of_cons in Hin as [<-|Hin].
  - rewrite decide_False, decide_True by done. cbn. apply Nat.lt_succ_r, filter_len_le. intros x Hx. apply HPQ. by right.
  - specialize (IH ltac:(intros x Hx; apply HPQ; by right) Hin HQ HP).
    destruct (decide (P b)) as [Hp|Hp]; [rewrite decide_True by (apply HPQ; [by left|done]); cbn; lia|].
    destruct (decide (Q b)); cbn; lia.
Qed.

Lemma disconnects_leaving m m' id : disconnects m m' -> leaving m id -> leaving m' id.
Proof. intros Hd [v Hv]. exists v. by apply (dc_disc _ _ Hd). Qed.
Lemma disconnects_inbound m m' : disconnects m m' -> inbound_peer_count m' <= inbound_peer_count m.
Proof.
  intros Hd. unfold inbound_peer_count. rewrite (dc_peers _ _ Hd). apply filter_len_le. intros p _ [H1 H2]. split; [done|].
  destruct (m_disconnecting m !! p.1) as [v|] eqn:E; [|done]. apply (dc_disc _ _ Hd) in E. congruence.
Qed.
Lemma disconnects_inv0 c m m' : disconnects m m' -> inv0 c m -> inv0 c m'.
Proof.
  intros Hd [H1 H2 H3 H4 H5 H6 H7 H8 H11]. pose proof (disconnects_inbound m m' Hd). pose proof Hd as [A1 A2 A3 A0 A4 A5 A6 A7 A8 A9]. split.
  - by rewrite A4, A3.
  - intros id Hx. rewrite A1. destruct (A8 id Hx) as [Hy|Hy]; [|done]. destruct (H2 id Hy). eauto.
  - lia.
  - unfold addresses. by rewrite A1, A2.
  - by rewrite A3.
  - by rewrite A1.
  - by rewrite A1.
  - by rewrite A1.
  - by rewrite A0.
Qed.
Lemma disconnects_inv c m m' : disconnects m m' -> inv c m -> inv c m'.
Proof.
  intros Hd [H0 [H1 H2]]. split; [by apply disconnects_inv0 with m|]. split.
  - intros id x. rewrite (dc_peers _ _ Hd), (dc_db _ _ Hd). intros Hx Hb. apply (disconnects_leaving m m' id Hd). eauto.
  - intros id x. rewrite (dc_peers _ _ Hd). intros Hx Hb Ht. apply (disconnects_leaving m m' id Hd). eauto.
Qed.
Lemma disconnect_inv c m id remove q : inv c m -> inv c (disconnect m id remove q).
Proof. apply disconnects_inv, disconnect_spec. Qed.

(** * Calls of the database *)

Lemma clock_time now : good_clock now -> good_time now.
Proof. unfold good_clock, good_time, SECOND, DURATION_MAX. lia. Qed.

Definition effects (c : settings) (d d' : db) (o : op) : Prop :=
  (forall b, d_banned d' !! b = ban_effect b (d_banned d !! b) o) /\
  (forall b, d_discouraged d' !! b = discourage_effect (p_db c) b (d_discouraged d !! b) o) /\
  d_anchors d' = anchors_of (d_anchors d) o /\ d_reserved d' = reserved_after (d_reserved d) o.
Lemma hist_step c r b t l d o : history c r b t l d -> good_op o -> (N.of_nat (length l + 1) < U32_MAX)%N ->
  exists d', PeerDbModel.step c d o = Ok d' /\ history c r b t (l ++ [o]) d' /\ exists n bs, step_facts c n bs d d' o.
Proof.
  intros Hh Ho Hn. pose proof (history_inv _ _ _ _ _ _ Hh) as HI. pose proof Hh as (Hc & Hg & Hl & d0 & Hs & Hr).
  destruct (step_ok c _ _ d o HI Hc Ho ltac:(lia)) as (d' & Hd' & Hf). exists d'. split; [done|]. split; [|eauto].
  split_and!; [done|by apply Forall_app; rewrite Forall_singleton|rewrite app_length; cbn; lia|]. exists d0. split; [done|]. rewrite run_snoc, Hr. done.
Qed.
Lemma call_spec c m o : inv0 c m -> good_op o -> room m 1 -> anchors_ok c (anchors_of (d_anchors (m_db m)) o) ->
  exists d, call c m o = Ok (with_call m d o) /\ inv0 c (with_call m d o) /\ effects c (m_db m) d o.
Proof.
  intros [H1 H2 H3 H4 H5 H6 H7 H8 H11] Ho Hr Ha. destruct H1 as (r & b & t & Hh). destruct (hist_step _ r b t _ _ o Hh Ho Hr) as (d & Hd & Hh' & n & bs & Hf).
  exists d. unfold call. rewrite Hd. cbn [rbind]. split; [done|]. split.
  - split; cbn; try done; [by exists r, b, t|]. by rewrite (sf_anchors _ _ _ _ _ _ Hf).
  - unfold effects. split_and!; apply Hf.
Qed.

Definition quiet (o : op) : bool := match o with Ban _ _ _ | SetAnchors _ => false | _ => true end.
Lemma quiet_banned o cur b : quiet o = true -> is_Some (ban_effect b cur o) -> is_Some cur.
Proof.
  destruct o as [now|a now|a now j|a r now|a now j|a now|a|a now j|a now|b' dur now|b'|b' now|b'|l|rs boot now]; cbn; try done; intros _.
  - intros [t [Ht _]%expire_some]. by exists t.
  - destruct (decide (b' = b)); [by intros [? [=]]|done].
Qed.
Lemma quiet_anchors o A : quiet o = true -> anchors_of A o = A.
Proof. by destruct o. Qed.
Lemma call_quiet0 c m o : inv0 c m -> quiet o = true -> good_op o -> room m 1 ->
  exists d, call c m o = Ok (with_call m d o) /\ inv0 c (with_call m d o) /\ effects c (m_db m) d o.
Proof. intros HI Hq Ho Hr. apply call_spec; try done. rewrite quiet_anchors by done. apply HI. Qed.
Lemma call_quiet c m o : inv c m -> quiet o = true -> good_op o -> room m 1 ->
  exists d, call c m o = Ok (with_call m d o) /\ inv c (with_call m d o) /\ effects c (m_db m) d o.
Proof.
  intros [HI [Hb Hs]] Hq Ho Hr. destruct (call_quiet0 c m o HI Hq Ho Hr) as (d & Hd & HI' & He). exists d. split; [done|]. split; [|done].
  split; [done|]. split; [|exact Hs]. intros id x Hx Hban. cbn in Hx, Hban. apply (Hb id x Hx). destruct He as [He _]. rewrite He in Hban.
  by apply quiet_banned in Hban.
Qed.

(** * Changes of a peer that keep its address and role *)

Lemma peers_split (P : gmap N ctx) id x : P !! id = Some x -> map_to_list P ≡ₚ (id, x) :: map_to_list (delete id P).
Proof. intros H. symmetry. by apply map_to_list_delete. Qed.
Lemma peers_insert (P : gmap N ctx) id x : map_to_list (<[id := x]> P) ≡ₚ (id, x) :: map_to_list (delete id P).
Proof. rewrite <- insert_delete_insert. apply map_to_list_insert. apply lookup_delete. Qed.
Lemma perm_app_r {A} (L K M : list A) : L ≡ₚ K -> L ++ M ≡ₚ K ++ M.
Proof. by intros ->. Qed.

Lemma addresses_update m id x x' : m_peers m !! id = Some x -> x_address x' = x_address x -> x_role x' = x_role x ->
  addresses (with_peers m (<[id := x']> (m_peers m))) ≡ₚ addresses m.
Proof.
  intros Hx Ha Hr. unfold addresses. cbn. apply perm_app_r. rewrite peers_insert, (peers_split _ id x Hx). cbn. by rewrite Ha, Hr.
Qed.
Lemma inbound_update m id x x' : m_peers m !! id = Some x -> x_role x' = x_role x ->
  inbound_peer_count (with_peers m (<[id := x']> (m_peers m))) = inbound_peer_count m.
Proof.
  intros Hx Hr. unfold inbound_peer_count. cbn. rewrite peers_insert, (peers_split _ id x Hx), !filter_cons. cbn. rewrite Hr.
  by destruct (decide _).
Qed.
Lemma update_inv0 c m id x x' : inv0 c m -> m_peers m !! id = Some x -> x_address x' = x_address x -> x_role x' = x_role x -> times_ok x' ->
  (trusted c (x_role x) (x_address x) -> x_score x' = 0%N) ->
  inv0 c (with_peers m (<[id := x']> (m_peers m))).
Proof.
  intros [H1 H2 H3 H4 H5 H6 H7 H8 H11] Hx Ha Hr Ht Hs. split; try done.
  - intros i Hi. destruct (H2 i Hi) as [Hp Ho]. split; [|done]. cbn. destruct (decide (i = id)) as [->|Hne]; [by rewrite lookup_insert|by rewrite lookup_insert_ne].
  - rewrite (inbound_update m id x) by done. done.
  - apply book_perm with (addresses m); [by apply (addresses_update m id x)|done].
  - cbn. intros i j y z Hy Hz Ly Lz Eyz.
    assert (Hg : forall k w, <[id := x']> (m_peers m) !! k = Some w -> exists w', m_peers m !! k = Some w' /\ x_address w' = x_address w /\ x_role w' = x_role w).
    { intros k w. destruct (decide (k = id)) as [->|Hne]; [rewrite lookup_insert; intros [= <-]; by exists x|rewrite lookup_insert_ne by done; by exists w]. }
    destruct (Hg i y Hy) as (y' & Hy' & Ea & Er). destruct (Hg j z Hz) as (z' & Hz' & Ea' & Er'). apply (H6 i j y' z'); try done; congruence.
  - cbn. intros i y. destruct (decide (i = id)) as [->|Hne]; [|rewrite lookup_insert_ne by done; apply H7].
    rewrite lookup_insert. intros [= <-]. rewrite Ha, Hr. done.
  - cbn. intros i y. destruct (decide (i = id)) as [->|Hne]; [rewrite lookup_insert; by intros [= <-]|rewrite lookup_insert_ne by done; apply H8].
Qed.
Lemma update_inv c m id x x' : inv c m -> m_peers m !! id = Some x -> x_address x' = x_address x -> x_role x' = x_role x -> times_ok x' ->
  x_score x' = x_score x -> inv c (with_peers m (<[id := x']> (m_peers m))).
Proof.
  intros [HI [Hb Hs]] Hx Ha Hr Ht Hsc. split; [apply update_inv0 with x; try done; rewrite Hsc; by apply (v_trusted _ _ HI id)|]. split.
  - intros i y. cbn. destruct (decide (i = id)) as [->|Hne]; [rewrite lookup_insert; intros [= <-]; rewrite Ha; by apply Hb|rewrite lookup_insert_ne by done; apply Hb].
  - intros i y. cbn. destruct (decide (i = id)) as [->|Hne]; [rewrite lookup_insert; intros [= <-]; rewrite Hsc; by apply Hs|rewrite lookup_insert_ne by done; apply Hs].
Qed.

(** * Connecting *)

Lemma addresses_insert_pending m a t : m_pending m !! a = None ->
  addresses (with_pending m (<[a := t]> (m_pending m))) ≡ₚ (a, role_of t) :: addresses m.
Proof.
  intros Ha. unfold addresses. cbn. rewrite (map_to_list_insert (m_pending m) a t Ha). cbn. by rewrite <- Permutation_middle.
Qed.
Record connects (m m' : mgr) : Prop := Connects {
  cn_peers : m_peers m' = m_peers m; cn_disc : m_disconnecting m' = m_disconnecting m; cn_db : m_db m' = m_db m; cn_cache : m_cache m' = m_cache m;
  cn_calls : m_calls m' = m_calls m; cn_networking : m_networking m' = m_networking m; cn_feeler : m_feeler m' = m_feeler m;
  cn_out : forall x, x ∈ m_out m -> x ∈ m_out m' }.
Lemma connects_refl m : connects m m.
Proof. by split. Qed.
Lemma connects_trans m1 m2 m3 : connects m1 m2 -> connects m2 m3 -> connects m1 m3.
Proof. intros [] []. split; [congruence..|auto]. Qed.
Lemma connect_spec c m a t : connects m (connect c m a t) /\
  (addresses (connect c m a t) = addresses m \/ addresses (connect c m a t) ≡ₚ (a, role_of t) :: addresses m).
Proof.
  unfold connect. destruct (try_connect c m a (role_of t)) eqn:E.
  - split; [split; try done; intros x Hx; cbn; apply elem_of_app; by left|]. right. unfold try_connect in E. rewrite !andb_true_iff, negb_true_iff, bool_decide_eq_false in E.
    apply (addresses_insert_pending (emit m _) a t). cbn. apply eq_None_not_Some. apply E.
  - destruct t; cbn; split; auto using connects_refl. split; try done. intros x Hx. cbn. apply elem_of_app. by left.
Qed.
Lemma connects_inv c m m' : connects m m' -> book_ok c (addresses m') -> inv c m -> inv c m'.
Proof.
  intros [A1 A2 A3 A0 A4 A5 A6 A7] Hb' [[H1 H2 H3 H4 H5 H6 H7 H8 H11] [H9 H10]].
  assert (Hl : forall id, leaving m' id <-> leaving m id) by (intros id; unfold leaving; by rewrite A2).
  split; [split|split].
  - by rewrite A3, A4.
  - intros id Hx%Hl. rewrite A1. destruct (H2 id Hx). eauto.
  - unfold inbound_peer_count. by rewrite A1, A2.
  - done.
  - by rewrite A3.
  - by rewrite A1.
  - by rewrite A1.
  - by rewrite A1.
  - by rewrite A0.
  - intros id x. rewrite A1, A3. intros Hx Hban. apply Hl. eauto.
  - intros id x. rewrite A1. intros Hx Hs Ht. apply Hl. eauto.
Qed.
Lemma connect_inv c m a t : inv c m -> book_ok c ((a, role_of t) :: addresses m) -> inv c (connect c m a t).
Proof.
  intros HI Hb. destruct (connect_spec c m a t) as [H1 H2]. apply connects_inv with m; try done.
  destruct H2 as [->|H2]; [apply HI|by apply book_perm with ((a, role_of t) :: addresses m)].
Qed.
Lemma connect_other c m a t : inv c m -> ~ automatic (role_of t) -> t <> FeelerType -> inv c (connect c m a t).
Proof.
  intros HI Ha Hf. apply connect_inv; [done|]. apply (book_other c (role_of t) [a]); [done|by destruct t|apply HI].
Qed.
Lemma connect_all_spec c l t : forall m, inv c m -> book_ok c (map (fun a => (a, role_of t)) l ++ addresses m) ->
  inv c (connect_all c m l t) /\ connects m (connect_all c m l t) /\
  addresses (connect_all c m l t) ⊆+ map (fun a => (a, role_of t)) l ++ addresses m.
Proof.
  unfold connect_all. induction l as [|a l IH]; intros m HI Hb; cbn [foldl map app] in *; [split_and!; auto using connects_refl|].
  destruct (connect_spec c m a t) as [H1 H2].
  assert (HI' : inv c (connect c m a t)).
  { apply connect_inv; [done|]. apply book_sub with ((a, role_of t) :: map (fun a => (a, role_of t)) l ++ addresses m); [|done].
    apply submseteq_skip. apply submseteq_inserts_l. done. }
  destruct (IH (connect c m a t) HI') as (H3 & H4 & H5).
  { apply book_sub with ((a, role_of t) :: map (fun a => (a, role_of t)) l ++ addresses m); [|done].
    destruct H2 as [->|H2]; [by apply submseteq_cons|]. rewrite H2. by rewrite <- Permutation_middle. }
  split_and!; [done|by apply connects_trans with (connect c m a t)|]. etrans; [exact H5|].
  destruct H2 as [->|H2]; [by apply submseteq_cons|]. rewrite H2. by rewrite <- Permutation_middle.
Qed.
