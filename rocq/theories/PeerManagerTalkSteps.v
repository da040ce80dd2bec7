From Verif Require Import Base PeerTableModel PeerDbModel PeerDbSpec PeerDbProofs PeerManagerModel PeerManagerSpec PeerManagerProofs PeerManagerSteps PeerManagerRun PeerManagerLedger PeerManagerFinal PeerManagerTalkSpec PeerManagerTalk.

Lemma quiet_told m m' x : quiet m m' -> chat x = true -> ~ told m m' x.
Proof.
  intros [(l & He & Hf) _ _ _] Hx (l1 & l2 & Ht). rewrite He in Ht. apply app_inv_head in Ht as ->. rewrite Forall_forall in Hf. specialize (Hf x ltac:(apply elem_of_app; right; by left)). congruence.
Qed.
Lemma response_spec c now z m id l m' : handle_message c now z m id (AddrListResponse l) = Ok m' -> exists m0, quiet m0 m' /\ m_out m0 = m_out m /\ m_cache m0 = m_cache m /\
  (m_peers m0 = m_peers m \/ exists x, m_peers m !! id = Some x /\ x_response x = false /\ m_peers m0 = <[id := set_flags x (x_request x) true]> (m_peers m)).
Proof.
  unfold handle_message. destruct (m_peers m !! id) as [x|] eqn:Hx; [|intros [= <-]; exists m; split_and!; auto using quiet_refl]. intros H. bind H m1 E.
  assert (H1 : quiet m m1 /\ m_peers m1 = m_peers m /\ m_out m1 = m_out m /\ m_cache m1 = m_cache m).
  { destruct (is_outbound _); [|injection E as <-; split_and!; auto using quiet_refl]. pose proof (call_frame _ _ _ _ E) as (? & ? & _). apply quiet_call in E. split_and!; try done. apply E. }
  clear E. destruct H1 as (Q & P & O & C). unfold handle_addr_list_response in H.
  destruct (negb _); [exists m; split_and!; auto; eapply quiet_trans; [exact Q|by eapply quiet_adjust]|].
  destruct (negb _); [exists m; split_and!; auto; eapply quiet_trans; [exact Q|by eapply quiet_adjust]|].
  destruct (x_response x) eqn:Hr; [exists m; split_and!; auto; eapply quiet_trans; [exact Q|by eapply quiet_adjust]|].
  apply quiet_discover in H. eexists. split; [exact H|]. split; [done|]. split; [done|]. right. exists x. split_and!; try done. cbn. by rewrite P.
Qed.
Lemma request_spec c now z m id m' : handle_message c now z m id AddrListRequest = Ok m' ->
  match m_peers m !! id with
  | Some x => if decide (x_role x = Inbound /\ x_request x = false) then
      exists e, m_peers m' = <[id := set_flags x true (x_response x)]> (m_peers m) /\ m_out m' = m_out m ++ [SendAddresses id e.1] /\ length e.1 <= p_max_list c /\ m_cache m' = <[x_bind x := e]> (m_cache m) /\
        (m_cache m !! x_bind x = Some e /\ (now < e.2)%N \/
         ((forall l t, m_cache m !! x_bind x = Some (l, t) -> (t <= now)%N) /\ e.2 = (now + r_delay z)%N /\
          e.1 = r_sample z (filter (fun a => p_discoverable c a = true /\ is_address_banned_or_discouraged (m_db m) (ip c a) = false) (map fst (map_to_list (d_addresses (m_db m))))) (p_max_list c)))
    else quiet m m'
  | None => m' = m
  end.
Proof.
  intros H. apply quiet_message in H. destruct (m_peers m !! id) as [x|] eqn:Hx; [|done]. destruct H as (m1 & Q & P & O & I & H). unfold handle_addr_list_request in H.
  destruct (decide _) as [[Hr Hq]|Hn].
  - rewrite (I eq_refl Hr) in *. rewrite Hr, Hq in H. cbn [should_send_addresses_to negb orb] in H. cbn zeta in H.
    match type of H with context [emit (with_cache ?m1 (<[_ := ?e0]> _)) _] => set (e := e0) in *; set (m2 := m1) in * end.
    destruct (Nat.leb_spec (length e.1) (p_max_list c)) as [Hle|]; [|done]. injection H as <-. exists e. split_and!; try done. unfold e. change (m_cache m2) with (m_cache m). change (m_db m2) with (m_db m).
    destruct (m_cache m !! x_bind x) as [[l t]|]; [|right; split_and!; done]. destruct (N.leb_spec t now); [right|left; done]. split_and!; try done. by intros l' t' [= <- <-].
  - assert (Hif : negb (should_send_addresses_to (x_role x)) || x_request x = true).
    { destruct (x_role x) eqn:Er; try done. cbn. destruct (x_request x); [done|]. exfalso. by apply Hn. }
    rewrite Hif in H. by injection H as <-.
Qed.

Lemma step_remembers c now z m e m' id x : step c now z m e = Ok m' -> is_node_restart e = false -> (forall j, e = ConnectionClosed j -> j <> id) -> connected m id x ->
  exists x', connected m' id x' /\ x_address x' = x_address x /\ x_bind x' = x_bind x /\ x_role x' = x_role x /\ (x_ping x', x_ping_min x') = pings_after now (r_nonce z id) id x e /\
    (x_request x' = true <-> x_request x = true \/ e = MessageFrom id AddrListRequest /\ x_role x = Inbound) /\
    (x_response x = true -> x_response x' = true) /\ (x_response x' = true -> x_response x = true \/ exists l, e = MessageFrom id (AddrListResponse l)).
Proof.
  intros Hs Hr Hj Hx.
  assert (Hq : forall m0, quiet m0 m' -> m_peers m0 !! id = Some x -> exists x', connected m' id x' /\ talk_of x' = talk_of x) by (intros m0 [_ _ Hk _] H0; by apply Hk).
  assert (Hsame : (exists x', connected m' id x' /\ talk_of x' = talk_of x) -> pings_after now (r_nonce z id) id x e = (x_ping x, x_ping_min x) -> ~ (e = MessageFrom id AddrListRequest /\ x_role x = Inbound /\ x_request x = false) ->
    exists x', connected m' id x' /\ x_address x' = x_address x /\ x_bind x' = x_bind x /\ x_role x' = x_role x /\ (x_ping x', x_ping_min x') = pings_after now (r_nonce z id) id x e /\
    (x_request x' = true <-> x_request x = true \/ e = MessageFrom id AddrListRequest /\ x_role x = Inbound) /\
    (x_response x = true -> x_response x' = true) /\ (x_response x' = true -> x_response x = true \/ exists l, e = MessageFrom id (AddrListResponse l))).
  { intros (x' & Hx' & Ht) Hp Hn. exists x'. rewrite Hp. unfold talk_of in Ht. injection Ht as -> -> -> -> -> -> ->. split_and!; auto. split; [by left|]. intros [?|[He Hi]]; [done|]. destruct (x_request x) eqn:E; [done|]. exfalso. by apply Hn. }
  destruct (talks e) eqn:Ht.
  2: { apply Hsame; [by apply Hq with m; [eapply quiet_step|]|by destruct e|]. intros [-> _]. done. }
  destruct e as [| | | | | | | | | | | | |j msg| | |j| | | | | | |]; try done; cbn [step] in Hs.
  - destruct msg as [|a limited|nonce|l|nonce| |].
    + apply request_spec in Hs. destruct (m_peers m !! j) as [y|] eqn:Hy; [|subst m'; apply Hsame; [by exists x|done|intros [[= ->] _]; unfold connected in Hx; congruence]].
      destruct (decide (x_role y = Inbound /\ x_request y = false)) as [[Hi Hf]|Hn].
      * destruct Hs as (s & Hp & _). destruct (decide (j = id)) as [->|Hne].
        -- unfold connected in Hx. rewrite Hx in Hy. injection Hy as <-. eexists. unfold connected. rewrite Hp, lookup_insert. split; [done|]. cbn. split_and!; auto. split; [|done]. intros _. right. done.
        -- apply Hsame; [|done|intros [[= ->] _]; done]. exists x. unfold connected. rewrite Hp, lookup_insert_ne by done. done.
      * apply Hsame; [by apply Hq with m|done|]. intros ([= ->] & Hi & Hf). unfold connected in Hx. rewrite Hx in Hy. injection Hy as <-. by apply Hn.
    + apply quiet_message in Hs. apply Hsame; [by apply Hq with m|done|by intros [[= ?] _]].
    + apply quiet_message in Hs. apply Hsame; [|done|by intros [[= ?] _]]. destruct (m_peers m !! j); [|subst m'; by exists x]. destruct Hs as (m1 & Q & P & O & _ & ->). exists x. unfold connected. cbn. by rewrite P.
    + apply response_spec in Hs as (m0 & Q & _ & _ & [P|(y & Hy & Hf & P)]).
      * apply Hsame; [|done|by intros [[= ?] _]]. apply Hq with m0; [done|]. by rewrite P.
      * destruct (decide (j = id)) as [->|Hne].
        -- unfold connected in Hx. rewrite Hx in Hy. injection Hy as <-. destruct Q as [_ _ K _]. destruct (K id (set_flags x (x_request x) true)) as (x' & Hx' & Ht'); [by rewrite P, lookup_insert|].
           exists x'. unfold talk_of in Ht'. cbn in Ht'. injection Ht' as -> -> -> -> -> -> ->. split_and!; auto; [split; [by left|intros [?|[? _]]; done]|]. intros _. right. by exists l.
        -- apply Hsame; [|done|by intros [[= ?] _]]. apply Hq with m0; [done|]. by rewrite P, lookup_insert_ne.
    + apply quiet_message in Hs. destruct (m_peers m !! j) as [y|] eqn:Hy.
      * destruct Hs as (m1 & Q & P & O & _ & Hs). unfold handle_ping_response in Hs.
        assert (Hother : m_peers m' !! id = Some x -> ~ (j = id /\ exists t, x_ping x = Some (nonce, t)) -> exists x', connected m' id x' /\ x_address x' = x_address x /\ x_bind x' = x_bind x /\ x_role x' = x_role x /\
          (x_ping x', x_ping_min x') = pings_after now (r_nonce z id) id x (MessageFrom j (PingResponse nonce)) /\
          (x_request x' = true <-> x_request x = true \/ MessageFrom j (PingResponse nonce) = MessageFrom id AddrListRequest /\ x_role x = Inbound) /\
          (x_response x = true -> x_response x' = true) /\ (x_response x' = true -> x_response x = true \/ exists l, MessageFrom j (PingResponse nonce) = MessageFrom id (AddrListResponse l))).
        { intros H1 H2. apply Hsame; [by exists x| |by intros [[= ?] _]]. cbn. destruct (x_ping x) as [[n' t']|] eqn:Hp'; [|done]. rewrite decide_False; [done|]. intros [-> ->]. apply H2. split; [done|]. by exists t'. }
        unfold connected in Hx. destruct (x_ping y) as [[n t]|] eqn:Hp; [|apply Hother; [by rewrite Hs, P|intros [-> [t Ht']]; congruence]].
        destruct (N.eqb_spec n nonce) as [->|Hne]; [|apply Hother; [by rewrite Hs, P|intros [-> [t' Ht']]; congruence]].
        destruct (decide (j = id)) as [->|Hne]; [|apply Hother; [rewrite Hs; cbn; by rewrite lookup_insert_ne, P|by intros [? _]]].
        rewrite Hx in Hy. injection Hy as <-. eexists. unfold connected. rewrite Hs. cbn. rewrite lookup_insert. split; [done|]. rewrite Hp. cbn. rewrite decide_True by done. split_and!; auto. split; [by left|by intros [?|[? _]]].
      * subst m'. apply Hsame; [by exists x| |by intros [[= ?] _]]. cbn. destruct (x_ping x) as [[n' t']|] eqn:Hp'; [|done]. rewrite decide_False; [done|]. intros [-> ->]. unfold connected in Hx. congruence.
    + apply quiet_message in Hs. apply Hsame; [by apply Hq with m|done|by intros [[= ?] _]].
    + apply quiet_message in Hs. apply Hsame; [by apply Hq with m|done|by intros [[= ?] _]].
  - apply Hsame; [|done|by intros [? _]]. apply quiet_closed in Hs. apply Hq with (with_peers m (delete j (m_peers m))); [done|]. cbn. rewrite lookup_delete_ne; [done|]. by apply Hj.
  - injection Hs as <-. destruct (ping_spec c now z m) as (_ & _ & Hp & _). unfold connected in *. eexists. rewrite Hp, Hx. split; [done|]. unfold pinged. cbn. destruct (x_ping x) eqn:E; cbn; rewrite ?E; split_and!; auto; (split; [by left|by intros [?|[? _]]]).
Qed.

(** * Who is told what *)

Lemma step_says c now z m e m' x : step c now z m e = Ok m' -> is_node_restart e = false -> told m m' x ->
  match x with
  | SendPing id n => e = PingCheckDue /\ n = r_nonce z id /\ exists y, connected m id y /\ x_ping y = None
  | SendPong id n => e = MessageFrom id (PingRequest n) /\ exists y, connected m id y
  | SendAddresses id l => e = MessageFrom id AddrListRequest /\ exists y, connected m id y /\ x_role y = Inbound /\ x_request y = false
  | _ => True
  end.
Proof.
  intros Hs Hr Htold. destruct (chat x) eqn:Hc; [|by destruct x]. destruct (talks e) eqn:Ht.
  2: { exfalso. by apply (quiet_told m m' x); [eapply quiet_step| |]. }
  assert (Hone : forall y, m_out m' = m_out m ++ [y] -> x = y).
  { intros y Hy. destruct Htold as (l1 & l2 & Hl). rewrite Hy in Hl. apply app_inv_head in Hl. destruct l1 as [|a l1]; [by injection Hl as ->|]. injection Hl as _ Hl. by destruct l1. }
  assert (Hno : m_out m' = m_out m -> False).
  { intros Hy. destruct Htold as (l1 & l2 & Hl). rewrite Hy in Hl. apply (f_equal length) in Hl. rewrite !app_length in Hl. cbn in Hl. lia. }
  assert (Hq : quiet m m' -> False) by (intros Hq; by apply (quiet_told m m' x)).
  destruct e as [| | | | | | | | | | | | |j msg| | |j| | | | | | |]; try done; cbn [step] in Hs.
  - destruct msg as [|a limited|nonce|l|nonce| |].
    + apply request_spec in Hs. destruct (m_peers m !! j) as [y|] eqn:Hy; [|subst m'; exfalso; by apply Hno]. destruct (decide _) as [[Hi Hf]|Hn]; [|done].
      destruct Hs as (s & _ & Ho & _). rewrite (Hone _ Ho). split; [done|]. by exists y.
    + by apply quiet_message in Hs.
    + apply quiet_message in Hs. destruct (m_peers m !! j) as [y|] eqn:Hy; [|subst m'; exfalso; by apply Hno]. destruct Hs as (m1 & Q & P & O & _ & ->). cbn in Hone. rewrite O in Hone. rewrite (Hone _ eq_refl). split; [done|]. by exists y.
    + exfalso. apply response_spec in Hs as (m0 & Q & O & _ & _). apply (quiet_told m0 m' x Q Hc). destruct Htold as (l1 & l2 & Hl). exists l1, l2. by rewrite O.
    + exfalso. apply quiet_message in Hs. destruct (m_peers m !! j) as [y|] eqn:Hy; [|subst m'; by apply Hno]. destruct Hs as (m1 & Q & P & O & _ & ->). apply Hno. unfold handle_ping_response. destruct (x_ping y) as [[n t]|]; [|done]. by destruct (_ =? _)%N.
    + by apply quiet_message in Hs.
    + by apply quiet_message in Hs.
  - exfalso. apply quiet_closed in Hs. by apply (quiet_told _ m' x Hs Hc).
  - injection Hs as <-. destruct (ping_spec c now z m) as (_ & (l & Ho & Hf) & _ & _). destruct Htold as (l1 & l2 & Hl). rewrite Ho in Hl. apply app_inv_head in Hl.
    assert (Hin : x ∈ map (fun p => SendPing p.1 (r_nonce z p.1)) (filter (fun p => x_ping p.2 = None) (map_to_list (m_peers m))) ++ l) by (rewrite Hl; apply elem_of_app; right; by left).
    apply elem_of_app in Hin as [Hin|Hin]; [|rewrite Forall_forall in Hf; specialize (Hf x Hin); congruence].
    apply elem_of_list_fmap in Hin as ([k y] & -> & [Hy Hin]%elem_of_list_filter). apply elem_of_map_to_list in Hin. split_and!; try done. by exists y.
Qed.
Lemma step_new c now z m e m' id x' : step c now z m e = Ok m' -> is_node_restart e = false -> m_peers m !! id = None -> connected m' id x' -> fresh x'.
Proof.
  intros Hs Hr Hn Hx. assert (Hq : forall m0, quiet m0 m' -> m_peers m0 !! id = None -> fresh x') by (intros m0 [_ _ _ K] H0; by apply (K id)).
  destruct (talks e) eqn:Ht; [|by apply Hq with m; [eapply quiet_step|]]. unfold connected in Hx.
  destruct e as [| | | | | | | | | | | | |j msg| | |j| | | | | | |]; try done; cbn [step] in Hs.
  - destruct msg as [|a limited|nonce|l|nonce| |].
    + apply request_spec in Hs. destruct (m_peers m !! j) as [y|] eqn:Hy; [|subst m'; congruence]. destruct (decide _) as [[Hi Hf]|Hn']; [|by apply Hq with m].
      destruct Hs as (s & Hp & _). rewrite Hp, lookup_insert_ne in Hx by congruence. congruence.
    + apply quiet_message in Hs. by apply Hq with m.
    + apply quiet_message in Hs. destruct (m_peers m !! j) as [y|] eqn:Hy; [|subst m'; congruence]. destruct Hs as (m1 & Q & P & O & _ & ->). cbn in Hx. congruence.
    + apply response_spec in Hs as (m0 & Q & _ & _ & [P|(y & Hy & Hf & P)]); apply Hq with m0; try done; rewrite P; [done|]. by rewrite lookup_insert_ne by congruence.
    + apply quiet_message in Hs. destruct (m_peers m !! j) as [y|] eqn:Hy; [|subst m'; congruence]. destruct Hs as (m1 & Q & P & O & _ & ->). unfold handle_ping_response in Hx.
      destruct (x_ping y) as [[n t]|]; [|congruence]. destruct (_ =? _)%N; [|congruence]. cbn in Hx. rewrite lookup_insert_ne in Hx by congruence. congruence.
    + apply quiet_message in Hs. by apply Hq with m.
    + apply quiet_message in Hs. by apply Hq with m.
  - apply quiet_closed in Hs. apply Hq with (with_peers m (delete j (m_peers m))); [done|]. cbn. rewrite lookup_delete_None. auto.
  - injection Hs as <-. destruct (ping_spec c now z m) as (_ & _ & Hp & _). rewrite Hp, Hn in Hx. done.
Qed.

(** * The lists that are told are remembered for a while *)

Lemma step_cache c now z m e m' b l t : step c now z m e = Ok m' -> is_node_restart e = false -> (now < t)%N -> m_cache m !! b = Some (l, t) -> m_cache m' !! b = Some (l, t).
Proof.
  intros Hs Hr Ht Hc. assert (Hq : forall m0, quiet m0 m' -> m_cache m0 = m_cache m -> m_cache m' !! b = Some (l, t)) by (intros m0 [_ K _ _] H0; congruence).
  destruct (talks e) eqn:Htk; [|by apply Hq with m; [eapply quiet_step|]].
  destruct e as [| | | | | | | | | | | | |j msg| | |j| | | | | | |]; try done; cbn [step] in Hs.
  - destruct msg as [|a limited|nonce|l'|nonce| |].
    + apply request_spec in Hs. destruct (m_peers m !! j) as [y|] eqn:Hy; [|congruence]. destruct (decide _) as [[Hi Hf]|Hn']; [|by apply Hq with m].
      destruct Hs as (s & _ & _ & _ & -> & [[He _]|[He _]]); (destruct (decide (x_bind y = b)) as [<-|Hne]; [rewrite lookup_insert|by rewrite lookup_insert_ne]); [congruence|].
      specialize (He l t Hc). lia.
    + apply quiet_message in Hs. by apply Hq with m.
    + apply quiet_message in Hs. destruct (m_peers m !! j) as [y|] eqn:Hy; [|congruence]. destruct Hs as (m1 & [_ K _ _] & P & O & _ & ->). cbn. congruence.
    + apply response_spec in Hs as (m0 & Q & _ & Hc0 & _). by apply Hq with m0.
    + apply quiet_message in Hs. destruct (m_peers m !! j) as [y|] eqn:Hy; [|congruence]. destruct Hs as (m1 & [_ K _ _] & P & O & _ & ->). unfold handle_ping_response.
      destruct (x_ping y) as [[n t']|]; [|congruence]. destruct (_ =? _)%N; cbn; congruence.
    + apply quiet_message in Hs. by apply Hq with m.
    + apply quiet_message in Hs. by apply Hq with m.
  - apply quiet_closed in Hs. by apply Hq with (with_peers m (delete j (m_peers m))).
  - injection Hs as <-. destruct (ping_spec c now z m) as (Hk & _). congruence.
Qed.
Lemma step_cached c now z m e m' b l t : good_rnd z -> step c now z m e = Ok m' -> m_cache m' !! b = Some (l, t) ->
  m_cache m !! b = Some (l, t) \/ (forall a, a ∈ l -> p_discoverable c a = true).
Proof.
  intros (_ & Hsample & _) Hs Hc. assert (Hq : forall m0, quiet m0 m' -> m_cache m0 = m_cache m -> m_cache m !! b = Some (l, t)) by (intros m0 [_ K _ _] H0; congruence).
  destruct (talks e) eqn:Htk; [|left; by apply Hq with m; [eapply quiet_step|]].
  destruct e as [| | | | | | | | | | | | |j msg| | |j| | | | | | |networking rs bs]; try done; cbn [step] in Hs.
  - destruct msg as [|a limited|nonce|l'|nonce| |].
    + apply request_spec in Hs. destruct (m_peers m !! j) as [y|] eqn:Hy; [|left; congruence]. destruct (decide _) as [[Hi Hf]|Hn']; [|left; by apply Hq with m].
      destruct Hs as (s & _ & _ & _ & Hk & Hs). rewrite Hk in Hc. destruct (decide (x_bind y = b)) as [<-|Hne]; [|left; by rewrite lookup_insert_ne in Hc]. rewrite lookup_insert in Hc. injection Hc as ->.
      destruct Hs as [[He _]|(_ & _ & He)]; [by left|right]. cbn in He. intros a Ha. rewrite He in Ha. apply Hsample in Ha. by apply elem_of_list_filter in Ha as [[? _] _].
    + apply quiet_message in Hs. left. by apply Hq with m.
    + left. apply quiet_message in Hs. destruct (m_peers m !! j) as [y|] eqn:Hy; [|congruence]. destruct Hs as (m1 & [_ K _ _] & P & O & _ & ->). cbn in Hc. congruence.
    + left. apply response_spec in Hs as (m0 & Q & _ & Hc0 & _). by apply Hq with m0.
    + left. apply quiet_message in Hs. destruct (m_peers m !! j) as [y|] eqn:Hy; [|congruence]. destruct Hs as (m1 & [_ K _ _] & P & O & _ & ->). unfold handle_ping_response in Hc.
      destruct (x_ping y) as [[n t']|]; [|congruence]. destruct (_ =? _)%N; cbn in Hc; congruence.
    + apply quiet_message in Hs. left. by apply Hq with m.
    + apply quiet_message in Hs. left. by apply Hq with m.
  - apply quiet_closed in Hs. left. by apply Hq with (with_peers m (delete j (m_peers m))).
  - injection Hs as <-. destruct (ping_spec c now z m) as (Hk & _). left. congruence.
  - exfalso. destruct (PeerDbModel.step _ _ _) as [d| |]; cbn [rbind] in Hs; [|done|done]. apply (quiet_begin c now z) in Hs. destruct Hs as [_ K _ _]. rewrite K in Hc. done.
Qed.
Lemma execution_cache c h m : execution c h m -> forall b l t, m_cache m !! b = Some (l, t) -> forall a, a ∈ l -> p_discoverable c a = true.
Proof.
  induction 1 as [networking rs bs now z m Hc Hnow Hz Hs|h m now z e m' Hex IH Hnow Hz He Hroom Hs]; intros b l t Hl.
  - exfalso. unfold start in Hs. destruct (PeerDbModel.start _ _ _ _) as [d| |]; cbn [rbind] in Hs; [|done|done]. apply quiet_begin in Hs as [_ K _ _]. rewrite K in Hl. done.
  - destruct (step_cached c now z m e m' b l t Hz Hs Hl); eauto.
Qed.
Lemma step_extends c now z m e m' : step c now z m e = Ok m' -> is_node_restart e = false -> exists l, m_out m' = m_out m ++ l.
Proof.
  intros Hs Hr. assert (Hq : forall m0, quiet m0 m' -> m_out m0 = m_out m -> exists l, m_out m' = m_out m ++ l) by (intros m0 [(l & He & _) _ _ _] <-; by exists l).
  destruct (talks e) eqn:Htk; [|by apply Hq with m; [eapply quiet_step|]].
  destruct e as [| | | | | | | | | | | | |j msg| | |j| | | | | | |]; try done; cbn [step] in Hs.
  - destruct msg as [|a limited|nonce|l'|nonce| |].
    + apply request_spec in Hs. destruct (m_peers m !! j) as [y|] eqn:Hy; [|subst m'; exists []; by rewrite app_nil_r]. destruct (decide _) as [[Hi Hf]|Hn']; [|by apply Hq with m].
      destruct Hs as (s & _ & -> & _). by eexists.
    + apply quiet_message in Hs. by apply Hq with m.
    + apply quiet_message in Hs. destruct (m_peers m !! j) as [y|] eqn:Hy; [|subst m'; exists []; by rewrite app_nil_r]. destruct Hs as (m1 & _ & P & O & _ & ->). cbn. rewrite O. by eexists.
    + apply response_spec in Hs as (m0 & Q & Ho & _). by apply Hq with m0.
    + apply quiet_message in Hs. exists []. rewrite app_nil_r. destruct (m_peers m !! j) as [y|] eqn:Hy; [|congruence]. destruct Hs as (m1 & _ & P & O & _ & ->). unfold handle_ping_response.
      destruct (x_ping y) as [[n t']|]; [|congruence]. destruct (_ =? _)%N; cbn; congruence.
    + apply quiet_message in Hs. by apply Hq with m.
    + apply quiet_message in Hs. by apply Hq with m.
  - apply quiet_closed in Hs. by apply Hq with (with_peers m (delete j (m_peers m))).
  - injection Hs as <-. destruct (ping_spec c now z m) as (_ & (l & -> & _) & _). by eexists.
Qed.

(** * Runs *)

Lemma run_cons c m s l m' : run c m (s :: l) = Ok m' -> exists m1, step c s.1.1 s.1.2 m s.2 = Ok m1 /\ run c m1 l = Ok m'.
Proof. unfold run. cbn [rfold]. destruct (step _ _ _ _ _) as [m1| |]; cbn [rbind]; [|done|done]. eauto. Qed.
Lemma is_restart e : match e with NodeRestart _ _ _ => False | _ => True end -> is_node_restart e = false.
Proof. by destruct e. Qed.
Lemma run_extends c l : forall m m', no_restart l -> run c m l = Ok m' -> exists k, m_out m' = m_out m ++ k.
Proof.
  induction l as [|s l IH]; intros m m' Hr H; [injection H as <-; exists []; by rewrite app_nil_r|]. apply Forall_cons in Hr as [Hr1%is_restart Hr]. apply run_cons in H as (m1 & Hs & H).
  destruct (IH m1 m' Hr H) as [k Hk]. destruct (step_extends _ _ _ _ _ _ Hs Hr1) as [k' Hk']. exists (k' ++ k). by rewrite Hk, Hk', app_assoc.
Qed.
Lemma told_either m m1 m' x : (exists k, m_out m1 = m_out m ++ k) -> (exists k, m_out m' = m_out m1 ++ k) -> told m m' x -> told m m1 x \/ told m1 m' x.
Proof.
  intros [k Hk] [k' Hk'] (l1 & l2 & Hl). rewrite Hk', Hk, <- app_assoc in Hl. apply app_inv_head in Hl. assert (Hin : x ∈ k ++ k') by (rewrite Hl; apply elem_of_app; right; by left).
  apply elem_of_app in Hin as [Hin|Hin]; apply elem_of_list_split in Hin as (a & b & ->); [left|right]; exists a, b; congruence.
Qed.
Lemma run_once c id l : forall m m' x, no_restart l -> stays id l -> run c m l = Ok m' -> connected m id x -> x_request x = true ->
  (exists x', connected m' id x' /\ x_request x' = true) /\ forall k, ~ told m m' (SendAddresses id k).
Proof.
  induction l as [|s l IH]; intros m m' x Hr Hst H Hx Hq.
  { injection H as <-. split; [by exists x|]. intros k (l1 & l2 & Hl). apply (f_equal length) in Hl. rewrite !app_length in Hl. cbn in Hl. lia. }
  apply Forall_cons in Hr as [Hr1%is_restart Hr]. apply Forall_cons in Hst as [Hs1 Hst]. apply run_cons in H as (m1 & Hs & H).
  destruct (step_remembers _ _ _ _ _ _ id x Hs Hr1) as (x1 & Hx1 & _ & _ & _ & _ & Hq1 & _); [intros j Hj; by rewrite Hj in Hs1|done|].
  destruct (IH m1 m' x1 Hr Hst H Hx1 ltac:(apply Hq1; by left)) as [H1 H2]. split; [done|]. intros k Ht.
  destruct (told_either m m1 m' _ (step_extends _ _ _ _ _ _ Hs Hr1) (run_extends _ _ _ _ Hr H) Ht) as [Ht'|Ht']; [|by apply (H2 k)].
  apply (step_says _ _ _ _ _ _ _ Hs Hr1) in Ht' as (_ & y & Hy & _ & Hf). unfold connected in *. congruence.
Qed.
Lemma run_cache c b k t l : forall m m', no_restart l -> Forall (fun s => (s.1.1 < t)%N) l -> run c m l = Ok m' -> m_cache m !! b = Some (k, t) -> m_cache m' !! b = Some (k, t).
Proof.
  induction l as [|s l IH]; intros m m' Hr Ht H Hk; [by injection H as <-|]. apply Forall_cons in Hr as [Hr1%is_restart Hr]. apply Forall_cons in Ht as [Ht1 Ht]. apply run_cons in H as (m1 & Hs & H).
  apply (IH m1 m' Hr Ht H). by apply (step_cache _ _ _ _ _ _ _ _ _ Hs Hr1 Ht1).
Qed.
