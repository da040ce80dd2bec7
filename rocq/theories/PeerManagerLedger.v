From Verif Require Import Base PeerTableModel PeerDbModel PeerDbSpec PeerManagerModel PeerManagerSpec PeerManagerProofs PeerManagerSteps PeerManagerRun.
From Verif Require EvictionModel EvictionSpec.

(** * What is asked of the backend and what is answered to the user *)

Definition pend (m : mgr) (a : N) : Z := if decide (is_Some (m_pending m !! a)) then 1 else 0.
Definition D (m : mgr) (a : N) : Z := Z.of_nat (asked m a) - pend m a.
Definition W (m : mgr) (q : N) : Z := Z.of_nat (answers m q) + Z.of_nat (waiting m q).
Definition unit_of (o : option N) (q : N) : Z := if decide (o = Some q) then 1 else 0.
Definition dials (x : command) : bool := match x with CConnect _ _ | CAccept _ => true | _ => false end.

Ltac bind H m' E := match type of H with rbind ?x _ = _ => destruct x as [m'| |] eqn:E; cbn [rbind] in H; [|done|done] end.

(** Calls that punish somebody. *)
Definition punishes (o : op) : bool := match o with Ban _ _ _ | Discourage _ _ => true | _ => false end.

Section Moves.
(** [X] is a peer that may cease to be one that leaves, [allowed] are the calls of the database. *)
Context (X : option N) (allowed : op -> Prop).
Record moves (f g : N -> Z) (m m' : mgr) : Prop := Moves {
  mv_calls : exists l, m_calls m' = m_calls m ++ l /\ Forall allowed l;
  mv_leave : forall id, X <> Some id -> leaving m id -> leaving m' id;
  mv_out : exists l, m_out m' = m_out m ++ l;
  mv_dial : forall a, (D m' a = D m a + f a)%Z;
  mv_req : forall q, (W m' q = W m q + g q)%Z;
  mv_net : m_networking m' = m_networking m;
  mv_off : m_networking m = false -> exists l, m_out m' = m_out m ++ l /\ Forall (fun x => dials x = false) l }.
Definition none (a : N) : Z := 0.
Context (Hquiet : forall o, punishes o = false -> allowed o).
Set Default Proof Using "All".

Lemma moves_refl m : moves none none m m.
Proof. split; unfold none; [exists []; by rewrite app_nil_r|done|exists []; by rewrite app_nil_r|intros; lia|intros; lia|done|]. intros _. exists []. by rewrite app_nil_r. Qed.
Lemma moves_trans f g f' g' h k m1 m2 m3 : moves f g m1 m2 -> moves f' g' m2 m3 ->
  (forall a, h a = f a + f' a)%Z -> (forall q, k q = g q + g' q)%Z -> moves h k m1 m3.
Proof.
  intros [A5 A6 A7 A1 A2 A3 A4] [B5 B6 B7 B1 B2 B3 B4] Hh Hk. split.
  - destruct A5 as (l & He & Hl), B5 as (l' & He' & Hl'). exists (l ++ l'). rewrite He', He, app_assoc. split; [done|]. by apply Forall_app.
  - auto.
  - destruct A7 as (l & He), B7 as (l' & He'). exists (l ++ l'). by rewrite He', He, app_assoc.
  - intros a. rewrite B1, A1, Hh. lia.
  - intros q. rewrite B2, A2, Hk. lia.
  - congruence.
  - intros Hn. destruct (A4 Hn) as (l & He & Hl). destruct (B4 ltac:(congruence)) as (l' & He' & Hl'). exists (l ++ l'). rewrite He', He, app_assoc. split; [done|]. by apply Forall_app.
Qed.
Lemma moves_then f g m1 m2 m3 : moves f g m1 m2 -> moves none none m2 m3 -> moves f g m1 m3.
Proof. intros H1 H2. apply (moves_trans f g none none f g m1 m2 m3 H1 H2); intros; unfold none; lia. Qed.
Lemma moves_before f g m1 m2 m3 : moves none none m1 m2 -> moves f g m2 m3 -> moves f g m1 m3.
Proof. intros H1 H2. apply (moves_trans none none f g f g m1 m2 m3 H1 H2); intros; unfold none; lia. Qed.
Lemma moves_ext f g f' g' m m' : moves f g m m' -> (forall a, f' a = f a) -> (forall q, g' q = g q) -> moves f' g' m m'.
Proof. intros [A5 A6 A7 A1 A2 A3 A4] Hf Hg. split; try done; intros; [rewrite Hf|rewrite Hg]; auto. Qed.

(** Nothing of it changes. *)
Lemma moves_same m m' : m_pending m' = m_pending m -> m_disconnecting m' = m_disconnecting m -> m_out m' = m_out m -> m_networking m' = m_networking m -> m_calls m' = m_calls m ->
  moves none none m m'.
Proof.
  intros H1 H2 H3 H4 H5. unfold none. split; try done.
  - exists []. by rewrite H5, app_nil_r.
  - intros id _. unfold leaving. by rewrite H2.
  - exists []. by rewrite H3, app_nil_r.
  - intros a. unfold D, asked, pend. rewrite H1, H3. lia.
  - intros q. unfold W, answers, waiting. rewrite H1, H2, H3. lia.
  - intros _. exists []. by rewrite H3, app_nil_r.
Qed.
Definition plain (x : command) : bool := match x with CConnect _ _ | Answer _ _ | CAccept _ => false | _ => true end.
Lemma asked_emit m x a : asked (emit m x) a = asked m a + if decide (is_connect a x) then 1 else 0.
Proof. unfold asked. cbn. rewrite filter_app, app_length. unfold filter at 2. cbn. by destruct (decide (is_connect a x)). Qed.
Lemma answers_emit m x q : answers (emit m x) q = answers m q + if decide (is_answer q x) then 1 else 0.
Proof. unfold answers. cbn. rewrite filter_app, app_length. unfold filter at 2. cbn. by destruct (decide (is_answer q x)). Qed.
Lemma waiting_emit m x q : waiting (emit m x) q = waiting m q.
Proof. done. Qed.
Lemma moves_emit m x : plain x = true -> moves none none m (emit m x).
Proof.
  intros Hx. unfold none. split; try done.
  - exists []. cbn. by rewrite app_nil_r.
  - by eexists.
  - intros a. unfold D. rewrite asked_emit, decide_False; [|intros [? ->]; done]. change (pend (emit m x) a) with (pend m a). lia.
  - intros q. unfold W. rewrite answers_emit, waiting_emit, decide_False; [lia|]. by intros [? ->].
  - intros _. exists [x]. split; [done|]. rewrite Forall_singleton. by destruct x.
Qed.
Lemma moves_accept m id : m_networking m = true -> moves none none m (emit m (CAccept id)).
Proof.
  intros Hx. unfold none. split; try done.
  - exists []. cbn. by rewrite app_nil_r.
  - by eexists.
  - intros a. unfold D. rewrite asked_emit, decide_False; [|by intros [? ?]]. change (pend (emit m _) a) with (pend m a). lia.
  - intros q. unfold W. rewrite answers_emit, waiting_emit, decide_False; [lia|]. by intros [? ?].
  - congruence.
Qed.
Lemma moves_answer m q ok : moves none (unit_of q) m (answer m q ok).
Proof.
  destruct q as [q|]; cbn [answer]; [|apply (moves_ext none none); [apply moves_refl|done|]; intros q; unfold unit_of; by rewrite decide_False].
  unfold none. split; try done.
  - exists []. cbn. by rewrite app_nil_r.
  - by eexists.
  - intros a. unfold D. rewrite asked_emit, decide_False; [|by intros [? ?]]. change (pend (emit m _) a) with (pend m a). lia.
  - intros q'. unfold W, unit_of. rewrite answers_emit, waiting_emit. destruct (decide (Some q = Some q')) as [[= ->]|Hne].
    + rewrite decide_True by (by eexists). lia.
    + rewrite decide_False by (intros [? [= -> _]]; done). lia.
  - intros _. eexists [_]. split; [done|]. by rewrite Forall_singleton.
Qed.
Lemma moves_call' c m o m' : allowed o -> call c m o = Ok m' -> moves none none m m'.
Proof.
  intros Ho. unfold call. destruct (PeerDbModel.step _ _ _) as [d| |]; cbn [rbind]; [|done|done]. intros [= <-]. unfold none. split; try done.
  - exists [o]. split; [done|]. by rewrite Forall_singleton.
  - exists []. cbn. by rewrite app_nil_r.
  - intros a. change (D (with_call m d o) a) with (D m a). lia.
  - intros q. change (W (with_call m d o) q) with (W m q). lia.
  - intros _. exists []. cbn. by rewrite app_nil_r.
Qed.
Lemma moves_call c m o m' : call c m o = Ok m' -> punishes o = false -> moves none none m m'.
Proof. intros Hm Ho. by apply (moves_call' c m o); [apply Hquiet|]. Qed.

Lemma waits_insert m a t q : m_pending m !! a = None ->
  Z.of_nat (waiting (with_pending m (<[a := t]> (m_pending m))) q) = (Z.of_nat (waiting m q) + unit_of (request_of t) q)%Z.
Proof.
  intros Ha. unfold waiting. cbn. rewrite (map_to_list_insert _ _ _ Ha), filter_cons. cbn. unfold unit_of.
  destruct (decide (t = Manual q)) as [-> | Hne]; cbn [length request_of].
  - rewrite decide_True by done. lia.
  - rewrite (decide_False (P := request_of t = Some q)); [lia|]. destruct t; cbn; try done. by intros [= ->].
Qed.
Lemma waits_delete m a t q : m_pending m !! a = Some t ->
  Z.of_nat (waiting (with_pending m (delete a (m_pending m))) q) = (Z.of_nat (waiting m q) - unit_of (request_of t) q)%Z.
Proof.
  intros Ha. pose proof (waits_insert (with_pending m (delete a (m_pending m))) a t q (lookup_delete _ _)) as H. cbn in H.
  rewrite insert_delete in H by done. replace (with_pending (with_pending m (delete a (m_pending m))) (m_pending m)) with m in H by by destruct m. lia.
Qed.
Lemma moves_connect c m a t : moves none (unit_of (request_of t)) m (connect c m a t).
Proof.
  unfold connect. destruct (try_connect c m a (role_of t)) eqn:E; [|apply moves_answer].
  unfold try_connect in E. rewrite !andb_true_iff, negb_true_iff, bool_decide_eq_false in E. destruct E as [[[[Hnet Hp] _] _] _]. apply eq_None_not_Some in Hp.
  set (x := CConnect a _). set (m1 := emit m x). change (m_pending m) with (m_pending m1). unfold none. split; try done.
  - exists []. cbn. by rewrite app_nil_r.
  - by exists [x].
  - intros b. unfold D. change (asked (with_pending m1 (<[a := t]> (m_pending m1))) b) with (asked m1 b). unfold m1 at 1. rewrite asked_emit. unfold pend. cbn.
    destruct (decide (a = b)) as [->|Hne].
    + rewrite decide_True by (by eexists). rewrite lookup_insert, Hp, decide_True, decide_False by (done || by intros [? ?]). lia.
    + rewrite decide_False by (by intros [? [= ? ?]]). rewrite lookup_insert_ne by done. lia.
  - intros q. unfold W. change (answers (with_pending m1 (<[a := t]> (m_pending m1))) q) with (answers m1 q). unfold m1 at 1. rewrite answers_emit, decide_False by by intros [? ?].
    rewrite waits_insert by done. unfold m1. rewrite waiting_emit. lia.
  - congruence.
Qed.
Lemma moves_connect_all c l t : request_of t = None -> forall m, moves none none m (connect_all c m l t).
Proof.
  intros Ht. unfold connect_all. induction l as [|a l IH]; intros m; [apply moves_refl|]. cbn [foldl]. eapply moves_before; [|apply IH].
  eapply moves_ext; [apply moves_connect|done|]. intros q. rewrite Ht. unfold unit_of. by rewrite decide_False.
Qed.
Lemma moves_disconnect m id remove q : moves none (unit_of q) m (disconnect m id remove q).
Proof.
  unfold disconnect. destruct (m_disconnecting m !! id) as [v|] eqn:Ed; [apply moves_answer|]. destruct (m_peers m !! id) as [x|]; [|apply moves_answer].
  set (m1 := emit m _). assert (H1 : moves none none m m1) by by apply moves_emit. eapply moves_before; [exact H1|]. change (m_disconnecting m) with (m_disconnecting m1).
  change (m_disconnecting m1 !! id = None) in Ed. clearbody m1. clear H1 m. unfold none. split; try done.
  - exists []. cbn. by rewrite app_nil_r.
  - intros j _. unfold leaving. cbn. destruct (decide (j = id)) as [->|Hne]; [by rewrite lookup_insert|by rewrite lookup_insert_ne].
  - exists []. cbn. by rewrite app_nil_r.
  - intros a. change (D (with_disconnecting m1 _) a) with (D m1 a). lia.
  - intros q'. unfold W. change (answers (with_disconnecting m1 _) q') with (answers m1 q'). unfold waiting. cbn. rewrite (map_to_list_insert _ _ _ Ed), filter_cons. cbn. unfold unit_of.
    destruct (decide (q = Some q')); cbn [length]; lia.
  - intros _. exists []. by rewrite app_nil_r.
Qed.
Lemma unit_none (q : N) : unit_of None q = none q.
Proof. done. Qed.
Lemma moves_disconnect_none m id remove : moves none none m (disconnect m id remove None).
Proof. eapply moves_ext; [apply moves_disconnect|done|done]. Qed.
Lemma moves_disconnect_all l : forall m, moves none none m (disconnect_all m l).
Proof.
  unfold disconnect_all. induction l as [|a l IH]; intros m; [apply moves_refl|]. cbn [foldl]. eapply moves_before; [apply moves_disconnect_none|apply IH].
Qed.
Lemma moves_drop m a t : m_pending m !! a = Some t -> moves (unit_of (Some a)) (fun q => - unit_of (request_of t) q)%Z m (with_pending m (delete a (m_pending m))).
Proof.
  intros Ha. split; try done.
  - exists []. cbn. by rewrite app_nil_r.
  - exists []. cbn. by rewrite app_nil_r.
  - intros b. unfold D, pend, unit_of. change (asked (with_pending m _) b) with (asked m b). cbn. destruct (decide (a = b)) as [->|Hne].
    + rewrite lookup_delete, Ha, decide_False, !decide_True by (done || by intros [? ?]). lia.
    + rewrite lookup_delete_ne by done. rewrite (decide_False (P := Some a = Some b)) by congruence. lia.
  - intros q. unfold W. change (answers (with_pending m _) q) with (answers m q). rewrite (waits_delete m a t q Ha). lia.
  - intros _. exists []. by rewrite app_nil_r.
Qed.
Lemma moves_undisconnect m id remove q : X = Some id -> m_disconnecting m !! id = Some (remove, q) ->
  moves none (fun k => - unit_of q k)%Z m (with_disconnecting m (delete id (m_disconnecting m))).
Proof.
  intros HX Hd. unfold none. split; try done.
  - exists []. cbn. by rewrite app_nil_r.
  - intros j Hj. unfold leaving. cbn. rewrite lookup_delete_ne; [done|congruence].
  - exists []. cbn. by rewrite app_nil_r.
  - intros a. change (D (with_disconnecting m _) a) with (D m a). lia.
  - intros k. unfold W. change (answers (with_disconnecting m _) k) with (answers m k). unfold waiting. cbn.
    rewrite <- (map_to_list_delete (m_disconnecting m) id (remove, q) Hd), filter_cons. cbn. unfold unit_of. destruct (decide (q = Some k)); cbn [length]; lia.
  - intros _. exists []. by rewrite app_nil_r.
Qed.


Lemma moves_discourage c now m b m' : allowed (Discourage b now) -> discourage c now m b = Ok m' -> moves none none m m'.
Proof.
  unfold discourage. intros Ha H. bind H m1 E. injection H as <-. eapply moves_then; [by eapply moves_call'|apply moves_disconnect_all].
Qed.
Lemma moves_ban c now m b d m' : allowed (Ban b d now) -> ban c now m b d = Ok m' -> moves none none m m'.
Proof.
  unfold ban. intros Ha H. bind H m1 E. injection H as <-. eapply moves_then; [by eapply moves_call'|apply moves_disconnect_all].
Qed.
Lemma moves_adjust c now m id s m' : (forall b, guilty c m id s b -> allowed (Discourage b now)) -> adjust_peer_score c now m id s = Ok m' -> moves none none m m'.
Proof.
  intros Ha. unfold adjust_peer_score. destruct (m_peers m !! id) as [x|] eqn:Hx; [|intros [= <-]; apply moves_refl].
  destruct (is_whitelisted_node _ _ _) eqn:Hw; [intros [= <-]; apply moves_refl|].
  destruct (N.leb_spec (p_threshold c) (N.min U32_MAX (x_score x + s))); [|intros [= <-]; by apply moves_same]. intros H'. eapply moves_before; [|eapply moves_discourage; [|done]]; [by apply moves_same|].
  apply Ha. exists x. split_and!; try done; [|lia]. rewrite <- whitelisted_spec. congruence.
Qed.
Lemma moves_failed c now m a r s m' : (~ trusted c r a -> (p_threshold c <= s)%N -> allowed (Discourage (ip c a) now)) ->
  adjust_on_failed_connection c now m a r s = Ok m' -> moves none none m m'.
Proof.
  intros Ha. unfold adjust_on_failed_connection. destruct (N.ltb_spec s (p_threshold c)); [intros [= <-]; apply moves_refl|].
  destruct (is_whitelisted_node _ _ _) eqn:Hw; [intros [= <-]; apply moves_refl|]. apply moves_discourage. apply Ha; [|done]. rewrite <- whitelisted_spec. congruence.
Qed.
Lemma moves_validate c now z m a r i m' e : validate_connection c now z m a r i = Ok (m', e) -> moves none none m m' /\ (e = None -> m_networking m = true) /\
  (forall s, e = Some s -> (0 < s)%N -> i_outdated i = true /\ s = 100%N).
Proof.
  unfold validate_connection. destruct (m_networking m) eqn:En; cbn [negb]; [|intros [= <- <-]; split_and!; [apply moves_refl|done|]; intros s [= <-]; lia].
  intros H. enough (moves none none m m' /\ (forall s, e = Some s -> (0 < s)%N -> i_outdated i = true /\ s = 100%N)) by (split_and!; naive_solver).
  do 5 (match type of H with (if ?b then _ else _) = _ => destruct b; [injection H as <- <-; split; [apply moves_refl|intros s [= <-]; lia]|] end).
  destruct (i_outdated i) eqn:Eo; [injection H as <- <-; split; [apply moves_refl|by intros s [= <-]]|].
  destruct r; try (injection H as <- <-; split; [apply moves_refl|]; try done; (destruct (_ =? _)%N; [done|]; intros s [= <-]; lia)).
  destruct (p_max_inbound c <=? inbound_peer_count m); [|injection H as <- <-; split; [apply moves_refl|done]].
  destruct (is_address_discouraged _ _); [injection H as <- <-; split; [apply moves_refl|intros s [= <-]; lia]|].
  bind H o E. destruct o; injection H as <- <-; (split; [|try done; intros s [= <-]; lia]); [apply moves_disconnect_none|apply moves_refl].
Qed.
Lemma moves_try_accept c now z m a bind r i m' e : try_accept_connection c now z m a bind r i = Ok (m', e) -> moves none none m m' /\
  (forall s, e = Some s -> (0 < s)%N -> i_outdated i = true /\ s = 100%N).
Proof.
  unfold try_accept_connection. intros H. destruct (validate_connection c now z m a r i) as [[m1 e1]| |] eqn:E; cbn [rbind] in H; [|done|done].
  apply moves_validate in E as (E & En & Es). destruct e1 as [s|]; [by injection H as <- <-|]. specialize (En eq_refl). clear Es.
  enough (moves none none m m' /\ e = None) by naive_solver. split; [|by bind H m2 E2; bind H m3 E3; injection H]. eapply moves_before; [exact E|].
  rewrite <- (mv_net _ _ _ _ E) in En. clear E. bind H m2 E2. bind H m3 E3. injection H as <- _.
  eapply moves_before; [apply (moves_accept m1 (i_id i)); done|]. set (m4 := emit m1 _) in *.
  eapply moves_before; [instantiate (1 := if should_load_addresses_from r then emit m4 (AskAddresses (i_id i)) else m4); destruct (should_load_addresses_from r); [by apply moves_emit|apply moves_refl]|].
  set (m5 := if should_load_addresses_from r then _ else _) in *. eapply moves_before; [eapply (moves_same m5 (with_peers m5 _)); done|].
  eapply moves_then; [|destruct (decide _); [by eapply moves_call|injection E3 as <-; apply moves_refl]].
  destruct (as_outbound r); [by eapply moves_call|injection E2 as <-; apply moves_refl].
Qed.
Lemma moves_finish c now z m a bind r q i m' :
  ((p_threshold c <= 0)%N \/ i_outdated i = true /\ (p_threshold c <= 100)%N -> ~ trusted c r a -> allowed (Discourage (ip c a) now)) ->
  finish_accept c now z m a bind r q i = Ok m' -> moves none (unit_of q) m m'.
Proof.
  intros Ha. unfold finish_accept. intros H. destruct (try_accept_connection c now z m a bind r i) as [[m1 e]| |] eqn:E; cbn [rbind] in H; [|done|done].
  apply moves_try_accept in E as [E Es]. eapply moves_before; [exact E|]. bind H m2 E2. injection H as <-. eapply moves_before; [|apply moves_answer].
  destruct e as [s|].
  - bind E2 m3 E3. apply moves_failed in E3; [|intros Ht Hs; apply Ha; [|done]; specialize (Es s eq_refl); destruct (N.eq_0_gt_0_cases s) as [->|Hpos]; [by left|right]; destruct (Es Hpos) as [? ->]; done]. eapply moves_before; [exact E3|]. eapply moves_before; [apply (moves_emit m3 (CDisconnect (i_id i))); done|].
    destruct (is_outbound r); [by eapply moves_call|injection E2 as <-; apply moves_refl].
  - injection E2 as <-. destruct (decide _); [apply moves_disconnect_none|apply moves_refl].
Qed.
Lemma moves_accept_outbound c now z m a bind i m' :
  (forall t, m_pending m !! a = Some t -> (p_threshold c <= 0)%N \/ i_outdated i = true /\ (p_threshold c <= 100)%N -> ~ trusted c (role_of t) a -> allowed (Discourage (ip c a) now)) ->
  accept_outbound c now z m a bind i = Ok m' -> moves (unit_of (Some a)) none m m'.
Proof.
  intros Hall. unfold accept_outbound. intros H. destruct (m_pending m !! a) as [t|] eqn:Ha; cbn [expect rbind] in H; [|done]. apply moves_finish in H; [|by apply Hall].
  eapply moves_trans; [by apply moves_drop|exact H|..]; intros; unfold none; lia.
Qed.
Lemma moves_error c now z m a m' : handle_outbound_error c now z m a = Ok m' -> moves (unit_of (Some a)) none m m'.
Proof.
  unfold handle_outbound_error. intros H. bind H m1 E. apply moves_call in E; [|done]. eapply moves_before; [exact E|].
  destruct (m_pending m1 !! a) as [t|] eqn:Ha; cbn [expect rbind] in H; [|done]. injection H as <-.
  eapply moves_trans; [by apply moves_drop|apply moves_answer|..]; intros; unfold none; lia.
Qed.
Lemma moves_closed c now z m id m' : X = Some id -> connection_closed c now z m id = Ok m' -> moves none none m m'.
Proof.
  intros HX. unfold connection_closed. destruct (m_peers m !! id) as [x|]; [|intros [= <-]; apply moves_refl]. intros H. bind H m1 E.
  eapply moves_before; [instantiate (1 := m1); eapply moves_before; [by apply (moves_same m (with_peers m (delete id (m_peers m))))|]; destruct (is_outbound _); [by eapply moves_call|injection E as <-; apply moves_refl]|]. clear E.
  destruct (m_disconnecting m1 !! id) as [[remove q]|] eqn:Hd; [|injection H as <-; apply moves_refl]. bind H m2 E. injection H as <-.
  eapply moves_trans; [by apply (moves_undisconnect m1 id remove q)|eapply moves_before; [|apply (moves_answer m2 q true)]|..]; [|intros; unfold none; lia..].
  destruct (_ && _); [by eapply moves_call|injection E as <-; apply moves_refl].
Qed.
Lemma moves_establish c now z m m' : establish_new_connections c now z m = Ok m' -> moves none none m m'.
Proof.
  unfold establish_new_connections. intros H. cbn zeta in H.
  match type of H with context [connect_all c m ?l AutoFull] => pose proof (moves_connect_all c l AutoFull eq_refl m) as M1; set (m1 := connect_all c m l AutoFull) in * end.
  match type of H with context [connect_all c m1 ?l AutoBlock] => pose proof (moves_connect_all c l AutoBlock eq_refl m1) as M2; set (m2 := connect_all c m1 l AutoBlock) in * end.
  eapply moves_before; [exact M1|]. eapply moves_before; [exact M2|]. clearbody m2. clear M2.
  match type of H with rbind ?x _ = _ => destruct x as [l| |] eqn:E; cbn [rbind] in H; [|done|done] end. eapply moves_before; [apply (moves_connect_all c l Reserved); done|].
  match type of H with (if ?b then _ else _) = _ => destruct b end; [|injection H as <-; apply moves_refl].
  destruct (select_from_new_table _ _ _ _) as [a|]; injection H as <-; [|apply moves_refl].
  eapply moves_then; [eapply moves_ext; [apply (moves_connect c _ a FeelerType)|done|done]|]. by apply moves_same.
Qed.
Lemma moves_give_up m o : moves none none m (give_up m o).
Proof. destruct o; [apply moves_disconnect_none|apply moves_refl]. Qed.
Lemma moves_heartbeat c now z m m' : heartbeat c now z m = Ok m' -> moves none none m m'.
Proof.
  unfold heartbeat. intros H. bind H m1 E. apply moves_call in E; [|done]. eapply moves_before; [exact E|]. destruct (m_networking m1); [|injection H as <-; apply moves_refl].
  bind H m2 E2. apply moves_establish in E2. eapply moves_before; [exact E2|]. bind H o E3. bind H o' E4. injection H as <-.
  eapply moves_before; apply moves_give_up.
Qed.
Lemma moves_discover c now l : forall m m', discover_all c now m l = Ok m' -> moves none none m m'.
Proof.
  unfold discover_all. induction l as [|a l IH]; intros m m'; cbn [rfold]; [intros [= <-]; apply moves_refl|]. intros H. destruct (call c m (Discovered a now)) as [m1| |] eqn:E; cbn [rbind] in H; [|done|done].
  eapply moves_before; [by eapply moves_call|by apply IH].
Qed.
Lemma moves_message c now z m id msg m' :
  (forall l s b, msg = AddrListResponse l -> odd_response c m id l s -> guilty c m id s b -> allowed (Discourage b now)) ->
  handle_message c now z m id msg = Ok m' -> moves none none m m'.
Proof.
  intros Hall. unfold handle_message. destruct (m_peers m !! id) as [x|] eqn:Hx; [|intros [= <-]; apply moves_refl]. intros H. bind H m1 E.
  assert (Hp : m_peers m1 = m_peers m).
  { assert (Hc : forall o m2, call c m o = Ok m2 -> m_peers m2 = m_peers m) by (intros o m2; unfold call; destruct (PeerDbModel.step _ _ _); cbn [rbind]; [by intros [= <-]|done|done]).
    destruct msg; (destruct (is_outbound _); [by eapply Hc|]) || idtac; by injection E as <-. }
  eapply moves_before; [instantiate (1 := m1); destruct msg; (destruct (is_outbound _); [by eapply moves_call|]) || idtac; injection E as <-; apply moves_refl|]. clear E.
  destruct msg as [|a limited|nonce|l|nonce| |].
  - unfold handle_addr_list_request in H. destruct (_ || _); [injection H as <-; apply moves_refl|].
    match type of H with (if ?b then _ else _) = _ => destruct b end; [|done]. injection H as <-. eapply moves_then; [|by apply moves_emit]. by apply moves_same.
  - destruct (_ && _); [by eapply moves_call|injection H as <-; apply moves_refl].
  - injection H as <-. by apply moves_emit.
  - unfold handle_addr_list_response in H. assert (Hg : forall s b, guilty c m1 id s b -> guilty c m id s b) by (intros s b (y & Hy & Hr); unfold connected in Hy; rewrite Hp in Hy; by exists y).
    destruct (Nat.leb_spec (length l) (p_max_list c)) as [Hle|Hlt]; cbn [negb] in H; [|eapply moves_adjust; [|done]; intros b Hb; eapply Hall; [done| |by apply Hg]; exists x; auto].
    destruct (should_load_addresses_from (x_role x)) eqn:Hl; cbn [negb] in H; [|eapply moves_adjust; [|done]; intros b Hb; eapply Hall; [done| |by apply Hg]; exists x; auto].
    destruct (x_response x) eqn:Hresp; [eapply moves_adjust; [|done]; intros b Hb; eapply Hall; [done| |by apply Hg]; exists x; auto|].
    apply moves_discover in H. eapply moves_before; [|exact H]. by apply moves_same.
  - injection H as <-. unfold handle_ping_response. destruct (x_ping x) as [[n t]|]; [|apply moves_refl]. destruct (_ =? _)%N; [by apply moves_same|apply moves_refl].
  - injection H as <-. apply moves_disconnect_none.
  - injection H as <-. apply moves_refl.
Qed.
Lemma moves_ping c now z m : moves none none m (ping_check c now z m).
Proof.
  unfold ping_check. eapply moves_then; [|apply moves_disconnect_all]. generalize (map_to_list (m_peers m)). intros l. revert m.
  induction l as [|p l IH]; intros m; [apply moves_refl|]. cbn [foldl]. eapply moves_before; [|apply IH]. destruct (x_ping p.2); [apply moves_refl|].
  eapply moves_then; [by apply (moves_emit m (SendPing p.1 (r_nonce z p.1)))|]. by apply moves_same.
Qed.
Lemma moves_begin c now z m m' : begin_run c now z m = Ok m' -> moves none none m m'.
Proof.
  unfold begin_run. destruct (m_networking m); [|intros [= <-]; apply moves_refl]. destruct (decide _); [apply moves_heartbeat|]. intros [= <-]. by apply moves_connect_all.
Qed.

End Moves.

Definition b2z (b : bool) : Z := if b then 1 else 0.
Definition switches (e : event) : bool := match e with UserNetworking _ | NodeRestart _ _ _ => true | _ => false end.
Lemma unit_some a b : unit_of (Some a) b = b2z (bool_decide (a = b)).
Proof. unfold unit_of, b2z. destruct (decide (Some a = Some b)) as [[= ->]|Hne]; [by rewrite bool_decide_eq_true_2|]. rewrite bool_decide_eq_false_2; [done|congruence]. Qed.
Definition closes (e : event) : option N := match e with ConnectionClosed id => Some id | _ => None end.
Definition justified (c : settings) (m : mgr) (e : event) (o : op) : Prop :=
  match o with Ban b dur _ => e = UserBan b dur | Discourage b _ => blamed c m e b | _ => True end.
Lemma justified_quiet c m e o : punishes o = false -> justified c m e o.
Proof. by destruct o. Qed.
Lemma moves_step c now z m e m' : step c now z m e = Ok m' -> switches e = false ->
  moves (closes e) (justified c m e) (fun a => b2z (result_of a e)) (fun q => b2z (requests q e)) m m'.
Proof.
  intros H Hs. pose proof (justified_quiet c m e) as Hq.
  assert (Hid : moves (closes e) (justified c m e) none none m m) by by apply moves_refl.
  destruct e as [a q|id remove q|id score|id|id|id since| |a|a|b dur|b|b|enable|id msg|a bind i|a bind i|id|a|id score|a score| | |l|networking rs bs]; cbn [step] in H; try done; cbn [result_of requests].
  - injection H as <-. eapply moves_ext; [done|by apply moves_connect|done|]. intros k. by rewrite <- unit_some.
  - injection H as <-. eapply moves_ext; [done|by apply moves_disconnect|done|]. intros k. by rewrite <- unit_some.
  - eapply moves_adjust; [done| |done]. done.
  - injection H as <-. unfold update_peer. destruct (m_peers m !! id); [by apply moves_same|done].
  - injection H as <-. unfold update_peer. destruct (m_peers m !! id); [by apply moves_same|done].
  - injection H as <-. unfold update_peer. destruct (m_peers m !! id); [by apply moves_same|done].
  - injection H as <-. by apply moves_same.
  - bind H m1 E. injection H as <-. eapply moves_call in E; [|exact Hq|done]. eapply moves_before; [done|exact E|]. destruct (m_networking m1); [|by apply moves_refl]. eapply moves_ext; [done|by apply moves_connect|done|done].
  - by eapply moves_call.
  - eapply moves_ban; [done| |done]. done.
  - by eapply moves_call.
  - by eapply moves_call.
  - eapply moves_message; [done| |done]. intros l s b -> Ho Hg. by exists s.
  - eapply moves_ext; [done|eapply moves_finish; [done| |exact H]|done|done]. intros Hor Ht. split_and!; try done. destruct Hor; [left; lia|by right].
  - eapply moves_ext; [done|eapply moves_accept_outbound; [done| |exact H]| |done]; [|intros b; by rewrite <- unit_some].
    intros t Ht Hor Htr. exists t. split_and!; try done. destruct Hor; [left; lia|by right].
  - by eapply moves_closed.
  - eapply moves_ext; [done|by eapply moves_error| |done]. intros b. by rewrite <- unit_some.
  - eapply moves_adjust; [done| |done]. done.
  - eapply moves_failed; [done| |exact H]. intros Ht Hs'. done.
  - by eapply moves_heartbeat.
  - injection H as <-. by apply moves_ping.
  - by eapply moves_discover.
Qed.

(** * Whole executions *)

Lemma since_snoc P l e : since_start P (l ++ [e]) = if is_node_restart e then 0 else if P e then S (since_start P l) else since_start P l.
Proof. unfold since_start. by rewrite foldl_app. Qed.
Lemma fresh_ledger b d t f calls : (forall a, D (Mgr b ∅ ∅ ∅ d ∅ t None f [] calls) a = 0%Z) /\ (forall q, W (Mgr b ∅ ∅ ∅ d ∅ t None f [] calls) q = 0%Z).
Proof.
  split; intros k; [unfold D, asked, pend; cbn; by rewrite lookup_empty, decide_False by by intros [? ?]|]. unfold W, answers, waiting. cbn. by rewrite !map_to_list_empty.
Qed.
Lemma ledger c l m : execution c l m -> (forall a, D m a = Z.of_nat (since_start (result_of a) l)) /\ (forall q, W m q = Z.of_nat (since_start (requests q) l)).
Proof.
  induction 1 as [networking rs bs now z m Hc Hnow Hz Hm|l m now z e m' Hex [IH1 IH2] Hnow Hz Hg Hroom Hstep].
  - unfold start in Hm. bind Hm d E. apply (moves_begin None (fun _ => True)) in Hm as [_ _ _ H1 H2 _ _]; [|done]. destruct (fresh_ledger networking d now (now + r_delay z) []) as [F1 F2].
    split; intros k; [rewrite H1, F1|rewrite H2, F2]; done.
  - destruct (switches e) eqn:Hs.
    + destruct e as [| | | | | | | | | | | |enable| | | | | | | | | | |networking rs bs]; try done; cbn [step] in Hstep.
      * assert (Hm : (forall a, D m' a = D m a) /\ (forall q, W m' q = W m q)).
        { unfold enable_networking in Hstep. destruct (bool_decide _); [by injection Hstep as <-|].
          assert (H1 : (forall a, D (emit (with_networking m enable) (CEnableNetworking enable)) a = D m a) /\ (forall q, W (emit (with_networking m enable) (CEnableNetworking enable)) q = W m q)).
          { destruct (moves_emit None (fun _ => True) ltac:(done) (with_networking m enable) (CEnableNetworking enable) eq_refl) as [_ _ _ H1 H2 _ _]. unfold none in *.
            split; intros k; [rewrite H1; change (D (with_networking m enable) k) with (D m k)|rewrite H2; change (W (with_networking m enable) k) with (W m k)]; lia. }
          destruct H1 as [H1 H2]. destruct enable; [|by injection Hstep as <-]. apply (moves_heartbeat None (fun _ => True)) in Hstep as [_ _ _ H3 H4 _ _]; [|done]. unfold none in *.
          split; intros k; [rewrite H3, H1|rewrite H4, H2]; lia. }
        destruct Hm as [H1 H2]. split; intros k; rewrite since_snoc; cbn; [rewrite H1, IH1|rewrite H2, IH2]; done.
      * bind Hstep d E. apply (moves_begin None (fun _ => True)) in Hstep as [_ _ _ H1 H2 _ _]; [|done].
        destruct (fresh_ledger networking d now (now + r_delay z) (m_calls m ++ [Restart rs bs now])) as [F1 F2].
        split; intros k; rewrite since_snoc; cbn [is_node_restart]; [rewrite H1, F1|rewrite H2, F2]; done.
    + destruct (moves_step c now z m e m' Hstep Hs) as [_ _ _ H1 H2 _ _].
      assert (Hr : is_node_restart e = false) by by destruct e.
      split; intros k; rewrite since_snoc, Hr; [rewrite H1, IH1; destruct (result_of k e)|rewrite H2, IH2; destruct (requests k e)]; cbn; lia.
Qed.
Lemma execution_inv c l m : execution c l m -> inv c m.
Proof.
  induction 1 as [networking rs bs now z m Hc Hnow Hz Hm|l m now z e m' Hex IH Hnow Hz Hg Hroom Hstep].
  - destruct (start_ok' c networking rs bs now z Hc Hz) as (m0 & Hm0 & HI). rewrite Hm in Hm0. by injection Hm0 as <-.
  - destruct (handled c now z m e IH Hnow Hz) as (m1 & Hm1 & HI); [|done|rewrite Hstep in Hm1; by injection Hm1 as <-].
    destruct (ledger c l m Hex) as [HL _]. unfold due. destruct e; cbn in Hg; try done; specialize (HL a); unfold D, pend in HL; destruct (decide (is_Some (m_pending m !! a))); try done; lia.
Qed.
Lemma execution_due c l m e : execution c l m -> good_event l m e -> due m e.
Proof.
  intros Hex Hg. destruct (ledger c l m Hex) as [HL _]. unfold due. destruct e; cbn in Hg; try done; specialize (HL a); unfold D, pend in HL; destruct (decide (is_Some (m_pending m !! a))); try done; lia.
Qed.
Lemma execution_step c l m now z e : execution c l m -> good_clock now -> good_rnd z -> good_event l m e -> room m (calls_for e) ->
  exists m', step c now z m e = Ok m' /\ execution c (l ++ [e]) m'.
Proof.
  intros Hex Hnow Hz Hg Hroom. destruct (handled c now z m e (execution_inv c l m Hex) Hnow Hz (execution_due c l m e Hex Hg) Hroom) as (m' & Hm' & _).
  exists m'. split; [done|]. by eapply next_event.
Qed.
