From Verif Require Import Base CrawlerModel CrawlerSpec.

Lemma connect_now_spec d t : connect_now d t = true <-> time_to_call d t.
Proof.
  unfold connect_now, time_to_call. destruct (d_state d) as [| | |f l at_|] eqn:S; try (split; [discriminate|intros (? & ? & ? & ? & ? & _); discriminate]).
  transitivity (exists w, pause (d_reserved d) (bool_decide (is_Some l)) f = Some w /\ (f = 0 \/ at_ + w < t)%N).
  2: { split; [intros (w & H); exists f, l, at_, w; done|]. intros (f' & l' & a' & w & E & H). injection E as <- <- <-. eauto. }
  assert (forall w, (w <? t - at_)%N = true <-> (at_ + w < t)%N) as A by (intros w; lia).
  assert (forall w (P : Prop), (exists w', Some w = Some w' /\ ((f = 0)%N \/ (at_ + w' < t)%N)) <-> (f = 0 \/ at_ + w < t)%N) as B.
  { intros w _. split; [intros (w' & E & H); injection E as <-; done|eauto]. }
  unfold pause. destruct (d_reserved d).
  - destruct f as [|p]; [split; eauto|]. do 2 try destruct p; cbn -[N.add]; rewrite (B _ True), A; split; try tauto; intros [?|?]; done.
  - destruct l as [i|].
    + destruct f as [|p]; [split; eauto|]. do 3 try destruct p; cbn -[N.add N.mul]; rewrite (B _ True), A; split; try tauto; intros [?|?]; done.
    + destruct f as [|p]; [split; eauto|]. cbn. split; [discriminate|]. intros (w & ? & _). discriminate.
Qed.

(** How the addresses change while the clock shows [n] *)
Inductive moves (n : N) : gmap N adata -> gmap N adata -> Prop :=
| moves_none m : moves n m m
| moves_change m a d t s m' : m !! a = Some d -> transition_to d t n = Some s -> moves n (<[a := {| d_state := s; d_reserved := d_reserved d |}]> m) m' -> moves n m m'
| moves_add m a m' : m !! a = None -> moves n (<[a := {| d_state := Disconnected 0 None n; d_reserved := false |}]> m) m' -> moves n m m'
| moves_drop m m' : moves n (filter (fun ad : N * adata => retain ad.2 n) m) m' -> moves n m m'.
Lemma moves_trans n m1 m2 m3 : moves n m1 m2 -> moves n m2 m3 -> moves n m1 m3.
Proof. induction 1; intros HH; [done|..]; [eapply moves_change|eapply moves_add|eapply moves_drop]; eauto. Qed.

Section Moves.
  Context (ban_threshold ban_duration interval : N) (bannable : N -> N).
  Notation step := (step ban_threshold ban_duration interval bannable).
  Definition goes (st st' : crawler * list command) : Prop := now st'.1 = now st.1 /\ moves (now st.1) (addresses st.1) (addresses st'.1).
  Definition quiet (st st' : crawler * list command) : Prop := goes st st' /\ calls st'.2 = calls st.2.

  Lemma goes_refl st : goes st st.
  Proof. split; [done|constructor]. Qed.
  Lemma goes_trans a b c : goes a b -> goes b c -> goes a c.
  Proof. intros [A B] [C D]. split; [congruence|]. eapply moves_trans; [exact B|]. rewrite <- A. exact D. Qed.
  Lemma quiet_refl st : quiet st st.
  Proof. split; [apply goes_refl|done]. Qed.
  Lemma quiet_trans a b c : quiet a b -> quiet b c -> quiet a c.
  Proof. intros [A B] [C D]. split; [by eapply goes_trans|congruence]. Qed.
  Lemma quiet_fold {X} (f : crawler * list command -> X -> res unit (crawler * list command)) l :
    (forall st x st', f st x = Ok st' -> quiet st st') -> forall st st', rfold f l st = Ok st' -> quiet st st'.
  Proof.
    intros H. induction l as [|x l IH]; intros st st' E; cbn [rfold] in E; [injection E as <-; apply quiet_refl|].
    destruct (f st x) as [st1| |] eqn:F; try discriminate. eapply quiet_trans; [by eapply H|by apply IH].
  Qed.
  Lemma quiet_change st a t st' : change_address_state st a t = Ok st' -> quiet st st'.
  Proof.
    intros E. unfold change_address_state in E. destruct (addresses st.1 !! a) as [d|] eqn:A; [|discriminate]. cbn [expect rbind] in E.
    destruct (transition_to d t (now st.1)) as [s|] eqn:S; [|discriminate]. cbn [expect rbind] in E. injection E as <-.
    split; [split; [done|]|].
    - cbn [fst addresses set_addresses]. eapply moves_change; [done..|]. constructor.
    - cbn [snd]. unfold calls. rewrite omap_app. cbn. apply app_nil_r.
  Qed.
  Lemma quiet_peers st m : quiet st (set_peers st.1 m, st.2).
  Proof. split; [split; [done|constructor]|done]. Qed.
  Lemma quiet_say st x : (forall a, x <> Connect a) -> quiet st (say st x).
  Proof. intros X. split; [split; [done|constructor]|]. unfold say, calls. cbn [snd]. rewrite omap_app. destruct x; cbn; try apply app_nil_r. by destruct (X address). Qed.
  Lemma quiet_disconnect st pa st' : disconnect_peer st pa = Ok st' -> quiet st st'.
  Proof. intros E. eapply quiet_trans; [|by eapply quiet_change]. by apply quiet_say. Qed.
  Lemma quiet_score st a n st' : handle_new_ban_score ban_threshold ban_duration bannable st a n = Ok st' -> quiet st st'.
  Proof.
    intros E. unfold handle_new_ban_score in E. destruct (_ <=? _)%N; [|injection E as <-; apply quiet_refl].
    destruct (disconnect_all bannable st (bannable a)) as [st1| |] eqn:D; try discriminate. cbn [rbind] in E. injection E as <-.
    eapply quiet_trans; [eapply quiet_fold, D; intros; by eapply quiet_disconnect|]. split; [split; [done|constructor]|].
    unfold calls. cbn [snd]. rewrite omap_app. cbn. apply app_nil_r.
  Qed.
  Lemma goes_add c a l : goes (c, l) (add_new_address c a, l).
  Proof. unfold add_new_address. destruct (addresses c !! a) eqn:A; [apply goes_refl|]. split; [done|]. cbn. eapply moves_add; [done|]. constructor. Qed.
  Lemma start_all l : forall st st', rfold start_connecting l st = Ok st' -> goes st st' /\ calls st'.2 = calls st.2 ++ l.
  Proof.
    induction l as [|a l IH]; intros st st' E; cbn [rfold] in E; [injection E as <-; rewrite app_nil_r; split; [apply goes_refl|done]|].
    unfold start_connecting in E at 1. destruct (change_address_state st a ToConnecting) as [st1| |] eqn:F; try discriminate. cbn [rbind] in E.
    apply quiet_change in F as [G C]. apply IH in E as [G' C']. split.
    - eapply goes_trans; [exact G|]. destruct G' as [A B]. split; [exact A|exact B].
    - rewrite C'. unfold say, calls in *. cbn [snd]. rewrite omap_app, C. cbn. by rewrite <- app_assoc.
  Qed.
  Lemma heartbeat_spec c sample st' : heartbeat bannable c sample = Ok st' ->
    now st'.1 = now c /\ moves (now c) (addresses c) (addresses st'.1) /\
    calls st'.2 = take MAX_CONNECTS_PER_HEARTBEAT (filter (fun a => may_connect bannable (set_banned c (filter (fun bt : N * N => (now c < bt.2)%N) (banned c))) a) (remove_dups sample)).
  Proof.
    intros E. unfold heartbeat in E. cbv zeta in E. destruct (rfold _ _ _) as [st1| |] eqn:F; try discriminate. cbn [rbind] in E. injection E as <-.
    apply start_all in F as [[A B] C]. cbn [fst snd now addresses set_banned] in A, B. cbn [fst snd now addresses set_addresses]. split_and!; [done| |].
    - eapply moves_trans; [exact B|]. rewrite A. apply moves_drop. constructor.
    - rewrite C. cbn [snd]. match goal with |- ?x ++ _ = _ => assert (x = []) as ->; [|done] end.
      generalize (filter (fun bt : N * N => ~ (now c < bt.2)%N) (map_to_list (banned c))). clear. intros l. induction l as [|x l IH]; [done|]. exact IH.
  Qed.
  Lemma step_spec c e st' : step c e = Ok st' ->
    now st'.1 = (now c + match e with Timer period _ => period | _ => 0 end)%N /\ moves (now st'.1) (addresses c) (addresses st'.1) /\
    match e with Timer _ _ => True | _ => calls st'.2 = [] end.
  Proof.
    intros E. assert ((exists p s, e = Timer p s) \/ (goes (c, []) st' /\ calls st'.2 = [] /\ match e with Timer _ _ => False | _ => True end)) as [(p & s & ->)|([A B] & C & D)].
    { destruct e as [period sample|a sender wr|l sender|a p sw cp|p|a|p n|a n]; cbn [CrawlerModel.step] in E; [left; eauto|right..].
      - destruct (peers c !! sender); [|discriminate]. injection E as <-. split; [|done]. destruct wr; [apply goes_add|apply goes_refl].
      - destruct (peers c !! sender) as [peer|]; [|discriminate]. injection E as <-. split; [|done]. set (c1 := set_peers c _).
        assert (goes (c, []) (c1, [])) as G by (split; [done|constructor]). destruct (p_expecting peer); [|done]. revert G. generalize c1.
        induction l as [|x l IH]; intros c2 G; [done|]. cbn [fold_left]. apply IH. eapply goes_trans; [exact G|apply goes_add].
      - unfold create_outbound_peer in E. cbn [fst snd] in E. destruct (peers c !! p); [discriminate|].
        set (c1 := set_peers c _) in E. assert (quiet (c, []) (c1, [])) as Q by apply (quiet_peers (c, [])).
        assert (quiet (c, []) st') as [? ?]; [|done]. destruct cp; [|eapply quiet_trans; [exact Q|by eapply quiet_disconnect]].
        destruct (addresses c1 !! a) as [d|]; [|discriminate]. cbn [expect rbind] in E. set (need := (_ <=? _)%N) in E.
        destruct (change_address_state (c1, []) a (ToConnected sw need)) as [st1| |] eqn:G; try discriminate. cbn [rbind] in E.
        apply quiet_change in G. eapply quiet_trans; [exact Q|]. destruct need; injection E as <-; [|done]. eapply quiet_trans; [exact G|].
        eapply quiet_trans; [apply quiet_peers|]. by apply quiet_say.
      - unfold remove_outbound_peer in E. cbn [fst snd] in E. destruct (peers c !! p) as [peer|]; [|discriminate]. cbn [expect rbind] in E.
        apply quiet_change in E. assert (quiet (c, []) st') as [? ?]; [|done]. eapply quiet_trans; [apply (quiet_peers (c, []))|exact E].
      - apply quiet_change in E as [? ?]. done.
      - assert (quiet (c, []) st') as [? ?]; [|done]. unfold handle_misbehaved_peer in E. destruct (0 <? n)%N; [|injection E as <-; apply quiet_refl].
        cbn [fst snd] in E. destruct (peers c !! p) as [peer|]; [|discriminate]. cbn [expect rbind] in E. apply quiet_score in E.
        eapply quiet_trans; [apply (quiet_peers (c, []))|exact E].
      - apply quiet_score in E as [? ?]. done. }
    - cbn [CrawlerModel.step] in E. destruct (_ <=? _)%N; [|discriminate]. apply heartbeat_spec in E as (A & B & _). cbn in A, B. rewrite A. done.
    - cbn [fst] in A, B. rewrite A. destruct e; [done|..]; rewrite N.add_0_r; done.
  Qed.

  (** ** What stays *)
  Lemma moves_reserved n m m' a : moves n m m' -> (exists d, m !! a = Some d /\ d_reserved d = true /\ forall f l e, d_state d <> Unreachable f l e) ->
    exists d, m' !! a = Some d /\ d_reserved d = true /\ forall f l e, d_state d <> Unreachable f l e.
  Proof.
    induction 1 as [|m x d t s m' X T _ IH|m x m' X _ IH|m m' _ IH]; intros (da & A & R & U); [eauto|apply IH..].
    - destruct (decide (x = a)) as [->|N]; [|rewrite lookup_insert_ne by done; eauto]. rewrite lookup_insert. eexists. split; [reflexivity|]. cbn [d_reserved d_state].
      rewrite A in X. injection X as <-. split; [done|]. intros f l e ->. unfold transition_to in T. rewrite R in T. destruct t; destruct (d_state da); discriminate.
    - rewrite lookup_insert_ne by congruence. eauto.
    - exists da. split; [|done]. apply map_filter_lookup_Some. split; [done|]. unfold retain. cbn. destruct (d_state da) eqn:S; try exact I. by destruct (U fail_count last erase_after).
  Qed.
  Lemma moves_stuck n m m' a d f l e : moves n m m' -> m !! a = Some d -> d_state d = Unreachable f l e -> (e < n)%N -> m' !! a = Some d.
  Proof.
    induction 1 as [|m x dx t s m' X T _ IH|m x m' X _ IH|m m' _ IH]; intros A S L; [done|apply IH; try done..].
    - rewrite lookup_insert_ne; [done|]. intros ->. rewrite A in X. injection X as <-. unfold transition_to in T. rewrite S in T. destruct t; discriminate.
    - rewrite lookup_insert_ne by congruence. done.
    - apply map_filter_lookup_Some. split; [done|]. unfold retain. cbn. rewrite S. apply Is_true_eq_left. apply negb_true_iff. lia.
  Qed.
End Moves.
