From Verif Require Import Base PeerTableModel PeerDbModel PeerDbSpec PeerDbProofs PeerDbSteps PeerDbBans PeerDbBook PeerManagerModel PeerManagerSpec PeerManagerProofs PeerManagerSteps PeerManagerRun PeerManagerLedger.
From Verif Require EvictionModel EvictionSpec.

(** * The commands given *)

Definition any (o : op) : Prop := True.
Lemma any_quiet o : punishes o = false -> any o.
Proof. done. Qed.
Lemma told_last m m' x y : (exists l, m_out m' = m_out m ++ l) -> told m (emit m' x) y <-> told m m' y \/ y = x.
Proof.
  intros [l Hl]. unfold told. cbn. rewrite Hl. split.
  - intros (l1 & l2 & He). rewrite <- app_assoc in He. apply app_inv_head in He. destruct l2 as [|w l2 _] using rev_ind.
    + apply app_inj_tail in He as [_ <-]. by right.
    + left. exists l1, l2. rewrite app_comm_cons, app_assoc in He. apply app_inj_tail in He as [-> _]. done.
  - intros [(l1 & l2 & He)| ->].
    + apply app_inv_head in He as ->. exists l1, (l2 ++ [x]). by rewrite <- !app_assoc, <- app_comm_cons.
    + exists l, []. by rewrite <- app_assoc.
Qed.
Lemma told_later m m1 m2 x : told m m1 x -> (exists l, m_out m2 = m_out m1 ++ l) -> told m m2 x.
Proof. intros (l1 & l2 & He) [l Hl]. exists l1, (l2 ++ l). by rewrite Hl, He, <- !app_assoc, <- app_comm_cons. Qed.
Lemma told_emit m m1 x : (exists l, m_out m1 = m_out m ++ l) -> told m (emit m1 x) x.
Proof. intros H. apply told_last; [done|by right]. Qed.
Lemma call_frame c m o m' : call c m o = Ok m' -> m_peers m' = m_peers m /\ m_out m' = m_out m /\ m_disconnecting m' = m_disconnecting m /\ m_pending m' = m_pending m.
Proof. unfold call. destruct (PeerDbModel.step _ _ _); cbn [rbind]; [by intros [= <-]|done|done]. Qed.
Lemma extends_moves X P f g m m' : moves X P f g m m' -> exists l, m_out m' = m_out m ++ l.
Proof. apply mv_out. Qed.

Lemma try_accept_told c now z m a bind r i m' : try_accept_connection c now z m a bind r i = Ok (m', None) -> told m m' (CAccept (i_id i)).
Proof.
  unfold try_accept_connection. intros H. destruct (validate_connection c now z m a r i) as [[m1 e1]| |] eqn:E; cbn [rbind] in H; [|done|done].
  eapply (moves_validate None any any_quiet) in E as (E & _ & _). destruct e1 as [s|]; [done|]. bind H m2 E2. bind H m3 E3. injection H as <-.
  set (m4 := emit m1 _) in *. assert (H4 : told m m4 (CAccept (i_id i))) by (apply told_emit; by eapply extends_moves).
  set (m5 := if should_load_addresses_from r then _ else _) in *. assert (H5 : told m m5 (CAccept (i_id i))).
  { unfold m5. destruct (should_load_addresses_from r); [|done]. apply told_later with m4; [done|]. by eexists. }
  assert (H2 : m_out m2 = m_out m5) by (destruct (as_outbound r); [by apply call_frame in E2 as (_ & -> & _)|by injection E2 as <-]).
  assert (H3 : m_out m3 = m_out m2) by (destruct (decide _); [by apply call_frame in E3 as (_ & -> & _)|by injection E3 as <-]).
  destruct H5 as (l1 & l2 & He). exists l1, l2. by rewrite H3, H2.
Qed.
Lemma failed_peers c now m a r s m' : adjust_on_failed_connection c now m a r s = Ok m' -> m_peers m' = m_peers m.
Proof.
  unfold adjust_on_failed_connection. destruct (_ <? _)%N; [by intros [= <-]|]. destruct (is_whitelisted_node _ _ _); [by intros [= <-]|].
  unfold discourage. intros H. bind H m1 E. injection H as <-. rewrite (dc_peers _ _ (proj1 (disconnect_all_spec _ _))). by apply call_frame in E as [-> _].
Qed.
Definition accepted_if (c : settings) (m : mgr) (a : N) (r : role) (i : info) : Prop :=
  acceptable c m a i /\ already_connected c m a r = false /\ (r = Inbound -> room_for_inbound c m a) /\ services_for c r i.
Lemma answer_told m m1 q ok k : (exists l, m_out m1 = m_out m ++ l) -> q = Some k -> told m (answer m1 q ok) (Answer k ok).
Proof. intros H ->. by apply told_emit. Qed.
Lemma answer_extends m q ok : exists l, m_out (answer m q ok) = m_out m ++ l.
Proof. apply (extends_moves None any none (unit_of q)). by apply moves_answer. Qed.
Lemma answer_peers m q ok : m_peers (answer m q ok) = m_peers m.
Proof. by destruct q. Qed.
Lemma finish_spec c now z m a bind r q i m' : inv c m -> good_rnd z -> good_clock now -> room m 2 -> book_ok c ((a, r) :: addresses m) ->
  finish_accept c now z m a bind r q i = Ok m' ->
  (accepted_if c m a r i -> m_peers m' = <[i_id i := new_peer a bind r now]> (m_peers m) /\ told m m' (CAccept (i_id i)) /\ (forall k, q = Some k -> told m m' (Answer k true)) /\
     (r = Feeler -> leaving m' (i_id i))) /\
  (~ accepted_if c m a r i -> m_peers m' = m_peers m /\ told m m' (CDisconnect (i_id i)) /\ (forall k, q = Some k -> told m m' (Answer k false))).
Proof.
  intros HI Hz Hnow Hroom Hbook. destruct (accept_spec c now z m a bind r i HI Hz Hnow Hroom Hbook) as (m1 & e & He & HI1 & Hiff & Hsame & Hacc).
  unfold finish_accept. rewrite He. cbn [rbind]. intros H. bind H m2 E2. injection H as <-. change (acceptable c m a i /\ _) with (accepted_if c m a r i) in Hiff.
  pose proof (moves_try_accept None any any_quiet _ _ _ _ _ _ _ _ _ _ He) as [Hmv _]. destruct e as [s|].
  - split; [intros Hn; by apply Hiff in Hn|]. intros _. rewrite (Hsame ltac:(done)) in *. bind E2 m3 E3.
    pose proof (failed_peers _ _ _ _ _ _ _ E3) as Hp3. apply (moves_failed None any any_quiet) in E3; [|done].
    assert (H4 : told m (emit m3 (CDisconnect (i_id i))) (CDisconnect (i_id i))) by (apply told_emit; by eapply extends_moves).
    assert (Hx : m_peers m2 = m_peers m /\ exists l, m_out m2 = m_out (emit m3 (CDisconnect (i_id i))) ++ l).
    { destruct (is_outbound r).
      - apply call_frame in E2 as (-> & -> & _). split; [done|]. exists []. by rewrite app_nil_r.
      - injection E2 as <-. split; [done|]. exists []. by rewrite app_nil_r. }
    destruct Hx as [Hp2 Hx2]. rewrite answer_peers. split_and!; [done| |].
    + eapply told_later; [|apply answer_extends]. by eapply told_later.
    + intros k Hk. apply answer_told; [|done]. destruct Hx2 as [l Hl]. rewrite Hl. destruct (extends_moves _ _ _ _ _ _ E3) as [l' Hl']. cbn. rewrite Hl'. eexists. by rewrite <- !app_assoc.
  - split; [|intros Hn; exfalso; by apply Hn, Hiff]. intros _. injection E2 as <-. destruct (Hacc eq_refl) as [Hp _]. pose proof (try_accept_told _ _ _ _ _ _ _ _ _ He) as Ht.
    set (m2 := if decide (r = Feeler) then _ else _).
    assert (Hx : m_peers m2 = m_peers m1 /\ exists l, m_out m2 = m_out m1 ++ l).
    { unfold m2. destruct (decide (r = Feeler)); [|split; [done|exists []; by rewrite app_nil_r]]. split; [apply (dc_peers _ _ (proj1 (disconnect_spec _ _ _ _)))|].
      eapply (extends_moves None any). by apply moves_disconnect. }
    destruct Hx as [Hp2 Hx2]. rewrite answer_peers, Hp2. split_and!; [done| | |].
    + eapply told_later; [|apply answer_extends]. by eapply told_later.
    + intros k Hk. apply answer_told; [|done]. destruct (extends_moves _ _ _ _ _ _ Hmv) as [l Hl]. destruct Hx2 as [l' Hl']. rewrite Hl', Hl. eexists. by rewrite <- !app_assoc.
    + intros Hr. unfold m2. rewrite decide_True by done. assert (Hl : leaving (disconnect m1 (i_id i) false None) (i_id i)) by (apply disconnect_spec; rewrite Hp, lookup_insert; by eexists).
      by destruct q.
Qed.

(** * The calls of the database *)

Lemma calls_step c now z m e m' : step c now z m e = Ok m' -> exists l, m_calls m' = m_calls m ++ l /\ Forall (justified c m e) l.
Proof.
  intros H. destruct (switches e) eqn:Hs; [|by apply (mv_calls _ _ _ _ _ _ (moves_step c now z m e m' H Hs))].
  pose proof (justified_quiet c m e) as Hq. destruct e as [| | | | | | | | | | | |enable| | | | | | | | | | |networking rs bs]; try done; cbn [step] in H.
  - unfold enable_networking in H. destruct (bool_decide _); [injection H as <-; exists []; by rewrite app_nil_r|].
    destruct enable; [|injection H as <-; exists []; cbn; by rewrite app_nil_r]. by apply (moves_heartbeat None _ Hq) in H as [Hx _ _ _ _ _ _].
  - bind H d E. apply (moves_begin None _ Hq) in H as [(l & He & Hl) _ _ _ _ _ _]. cbn in He. eexists. rewrite He, <- app_assoc. split; [done|]. by apply Forall_cons.
Qed.
Lemma discouraged_app c L l b till : discouraged_until c (L ++ l) b till -> (forall t, Discourage b t ∉ l) -> discouraged_until c L b till.
Proof.
  induction l as [|o l IH] using rev_ind; [by rewrite app_nil_r|]. rewrite app_assoc, discouraged_until_snoc. intros [(t & -> & _)|[H _]] Hn.
  - exfalso. apply (Hn t). apply elem_of_app. right. by left.
  - apply IH; [done|]. intros t Ht. apply (Hn t). apply elem_of_app. by left.
Qed.
Lemma banned_app L l b till : banned_until (L ++ l) b till -> (forall d t, Ban b d t ∉ l) -> banned_until L b till.
Proof.
  induction l as [|o l IH] using rev_ind; [by rewrite app_nil_r|]. rewrite app_assoc, banned_until_snoc. intros [(d & t & -> & _)|[H _]] Hn.
  - exfalso. apply (Hn d t). apply elem_of_app. right. by left.
  - apply IH; [done|]. intros d t Ht. apply (Hn d t). apply elem_of_app. by left.
Qed.
Definition discourages (b : N) (o : op) : bool := match o with Discourage b' _ => bool_decide (b' = b) | _ => false end.
Definition bans_ip (b : N) (o : op) : bool := match o with Ban b' _ _ => bool_decide (b' = b) | _ => false end.
Lemma find_op (f : op -> bool) (l : list op) : (exists o, o ∈ l /\ f o = true) \/ (forall o, o ∈ l -> f o = false).
Proof.
  destruct (existsb f l) eqn:E; [left|right].
  - apply existsb_exists in E as (o & Ho & Hf). exists o. by rewrite elem_of_list_In.
  - intros o Ho. destruct (f o) eqn:Hf; [|done]. rewrite <- E. symmetry. apply existsb_exists. exists o. by rewrite <- elem_of_list_In.
Qed.
Lemma step_discouraged c now z m e m' b till : inv c m -> inv c m' -> step c now z m e = Ok m' -> d_discouraged (m_db m') !! b = Some till ->
  d_discouraged (m_db m) !! b = Some till \/ blamed c m e b.
Proof.
  intros HI HI' Hs Hd. destruct (v_hist _ _ (proj1 HI)) as (r & bs & t & Hh). destruct (v_hist _ _ (proj1 HI')) as (r' & bs' & t' & Hh').
  destruct (calls_step c now z m e m' Hs) as (l & Hc & Hl). apply (discouraged_history _ _ _ _ _ _ _ _ Hh') in Hd. rewrite Hc in Hd.
  destruct (find_op (discourages b) l) as [(o & Ho & Hf)|Hn].
  - right. rewrite Forall_forall in Hl. specialize (Hl o Ho). destruct o; try done. cbn in Hf. apply bool_decide_eq_true in Hf as ->. done.
  - left. apply (discouraged_history _ _ _ _ _ _ _ _ Hh). eapply discouraged_app; [done|]. intros t0 Ht. specialize (Hn _ Ht). cbn in Hn. by rewrite bool_decide_eq_true_2 in Hn.
Qed.
Lemma step_banned c now z m e m' b till : inv c m -> inv c m' -> step c now z m e = Ok m' -> d_banned (m_db m') !! b = Some till ->
  d_banned (m_db m) !! b = Some till \/ exists dur, e = UserBan b dur.
Proof.
  intros HI HI' Hs Hd. destruct (v_hist _ _ (proj1 HI)) as (r & bs & t & Hh). destruct (v_hist _ _ (proj1 HI')) as (r' & bs' & t' & Hh').
  destruct (calls_step c now z m e m' Hs) as (l & Hc & Hl). apply (banned_history _ _ _ _ _ _ _ _ Hh') in Hd. rewrite Hc in Hd.
  destruct (find_op (bans_ip b) l) as [(o & Ho & Hf)|Hn].
  - right. rewrite Forall_forall in Hl. specialize (Hl o Ho). destruct o; try done. cbn in Hf. apply bool_decide_eq_true in Hf as ->. by eexists.
  - left. apply (banned_history _ _ _ _ _ _ _ _ Hh). eapply banned_app; [done|]. intros d0 t0 Ht. specialize (Hn _ Ht). cbn in Hn. by rewrite bool_decide_eq_true_2 in Hn.
Qed.

(** * Punishment *)

Lemma step_punished c now m id x s : inv c m -> room m 1 -> m_peers m !! id = Some x -> ~ trusted c (x_role x) (x_address x) ->
  (p_threshold c <= x_score x + s)%N -> (p_threshold c <= U32_MAX)%N ->
  exists m', adjust_peer_score c now m id s = Ok m' /\ is_Some (d_discouraged (m_db m') !! ip c (x_address x)) /\
    forall j y, m_peers m' !! j = Some y -> ip c (x_address y) = ip c (x_address x) -> leaving m' j.
Proof.
  intros HI Hroom Hx Ht Hs Hu. unfold adjust_peer_score. rewrite Hx. destruct (is_whitelisted_node c (x_role x) (x_address x)) eqn:Hw; [exfalso; apply Ht; by apply whitelisted_spec|].
  set (s1 := N.min U32_MAX (x_score x + s)). set (m1 := with_peers m _). destruct (N.leb_spec (p_threshold c) s1) as [_|Hlt]; [|lia].
  assert (Hn : nearly c m1 (ip c (x_address x))).
  { split_and!; [apply set_score_inv0; [apply HI|done..]|apply set_score_banned; [apply HI|done]|]. intros i y. cbn.
    destruct (decide (i = id)) as [->|Hne]; [rewrite lookup_insert; intros [= <-]; by right|rewrite lookup_insert_ne by done]. intros Hy Hp Hq. left. by apply (proj2 (proj2 HI) i y). }
  destruct (discourage_spec c now m1 (ip c (x_address x)) Hn Hroom) as (d & Hd & HI' & (_ & He & _)). exists (partings c m1 d (Discourage (ip c (x_address x)) now) (ip c (x_address x))). split; [done|].
  destruct (partings_spec c m1 d (Discourage (ip c (x_address x)) now) (ip c (x_address x))) as [H1 H2]. split.
  - rewrite (dc_db _ _ H1). cbn [m_db with_call]. rewrite He. cbn. rewrite decide_True by done. by eexists.
  - intros j y. rewrite (dc_peers _ _ H1). intros Hy Hip. by apply (H2 j y).
Qed.
