From Verif Require Import Base CrawlerModel CrawlerSpec.

  Lemma new_lookup t (known : gmap N info) bans (reserved : gset N) a : addresses (new t known bans reserved) !! a =
    match known !! a with
    | Some i => Some {| d_state := Disconnected 0 (Some i) t; d_reserved := bool_decide (a ∈ reserved) |}
    | None => if decide (a ∈ reserved) then Some {| d_state := Disconnected 0 None t; d_reserved := true |} else None
    end.
  Proof.
    unfold new. cbn [addresses].
    pose (P := fun (m : gmap N adata) (r : gset N) => m !! a = match known !! a with
      | Some i => Some {| d_state := Disconnected 0 (Some i) t; d_reserved := bool_decide (a ∈ r) |}
      | None => if decide (a ∈ r) then Some {| d_state := Disconnected 0 None t; d_reserved := true |} else None end).
    match goal with |- set_fold ?f ?b _ !! a = _ => assert (P (set_fold f b reserved) reserved) as H; [apply (set_fold_ind_L P); unfold P|exact H] end.
    - rewrite lookup_fmap. destruct (known !! a); cbn; [rewrite bool_decide_eq_false_2 by apply not_elem_of_empty; done|].
      rewrite decide_False by apply not_elem_of_empty. done.
    - intros x r m X IH. destruct (decide (x = a)) as [->|N].
      + rewrite lookup_insert, IH. destruct (known !! a).
        * cbn. rewrite bool_decide_eq_true_2; [done|]. apply elem_of_union. left. by apply elem_of_singleton.
        * rewrite (decide_False _ _ X). rewrite decide_True; [done|]. apply elem_of_union. left. by apply elem_of_singleton.
      + rewrite lookup_insert_ne, IH by done. assert (a ∈ {[x]} ∪ r <-> a ∈ r) as Q by (rewrite elem_of_union, elem_of_singleton; naive_solver).
        rewrite (bool_decide_ext _ _ Q). destruct (known !! a); [done|]. destruct (decide (a ∈ r)); [rewrite decide_True by tauto|rewrite decide_False by tauto]; done.
  Qed.

Section Proofs.
  Context (ban_threshold ban_duration interval : N) (bannable : N -> N) (get_dns_ip : N -> option N).
  Context (ip_inj : forall a b ip, get_dns_ip a = Some ip -> get_dns_ip b = Some ip -> a = b).
  Notation handle := (handle_crawler_cmd get_dns_ip).
  Notation step := (step ban_threshold ban_duration interval bannable).

  Record agrees (c : crawler) (w : world) : Prop := {
    g_dns : forall ip sw, w_dns w !! ip = Some sw <-> exists a, get_dns_ip a = Some ip /\ connected c a sw;
    g_known : forall a, w_known w !! a = last_met c a;
    g_banned : w_banned w = banned c
  }.
  Definition tracks (w0 : world) (st : crawler * list command) : Prop := agrees st.1 (fold_left handle st.2 w0).

  Lemma last_met_state d : match d_state d with
              | Connected i => Some i
              | Connecting _ l | Disconnecting _ l | Disconnected _ l _ => l
              | Unreachable _ _ _ => None
              end = if is_persistent (d_state d) then connection_info (d_state d) else None.
  Proof. destruct (d_state d) as [f [l|]|i|f [l|]|f [l|] ?|f l ?]; done. Qed.
  Lemma last_met_insert (c : crawler) a d x : last_met (set_addresses c (<[a := d]> (addresses c))) x =
    if decide (a = x) then (if is_persistent (d_state d) then connection_info (d_state d) else None) else last_met c x.
  Proof.
    unfold last_met. cbn [addresses set_addresses]. destruct (decide (a = x)) as [->|N].
    - rewrite lookup_insert. apply last_met_state.
    - rewrite lookup_insert_ne by done. done.
  Qed.

  Lemma transition_connected d t n s i : transition_to d t n = Some s -> d_state d = Connected i -> is_reachable s = false.
  Proof. intros T E. unfold transition_to in T. rewrite E in T. destruct t; try discriminate; injection T as <-; [done|]. by destruct (d_reserved d). Qed.

  Lemma tracks_change w0 st a t st' : tracks w0 st -> change_address_state st a t = Ok st' -> tracks w0 st'.
  Proof.
    intros T E. unfold change_address_state in E. destruct (addresses st.1 !! a) as [d|] eqn:A; [|discriminate]. cbn [expect rbind] in E.
    destruct (transition_to d t (now st.1)) as [s|] eqn:S; [|discriminate]. cbn [expect rbind] in E. injection E as <-.
    unfold tracks in *. cbn [fst snd]. rewrite fold_left_app. cbn [fold_left]. revert T. generalize (fold_left handle st.2 w0). intros w T.
    constructor; cbn [handle_crawler_cmd w_dns w_known w_banned].
    - intros ip sw.
      assert (forall x y, connected (set_addresses st.1 (<[a := {| d_state := s; d_reserved := d_reserved d |}]> (addresses st.1))) x y <->
        (x = a /\ exists i, s = Connected i /\ i_software i = y) \/ (x <> a /\ connected st.1 x y)) as CN.
      { intros x y. unfold connected. cbn [addresses set_addresses]. destruct (decide (x = a)) as [->|N].
        - rewrite lookup_insert. split.
          + intros (d' & i & Q & R & W). injection Q as <-. cbn in R. subst. left. split; [done|]. eauto.
          + intros [(_ & i & -> & <-)|[B _]]; [|done]. eexists _, i. split; [reflexivity|]. done.
        - rewrite lookup_insert_ne by done. naive_solver. }
      assert (is_reachable (d_state d) = true <-> exists y, connected st.1 a y) as RD.
      { unfold connected. rewrite A. split.
        - intros R. destruct (d_state d) eqn:D; try discriminate. eauto 10.
        - intros (y & d' & i & Q & R & _). injection Q as <-. rewrite R. done. }
      setoid_rewrite CN. unfold update_dns. destruct (get_dns_ip a) as [ia|] eqn:IA.
      2: { rewrite (g_dns _ _ T). split; intros (x & X & Y); exists x; (split; [done|]); (destruct (decide (x = a)) as [->|]; [congruence|]); [tauto|]. destruct Y as [[? _]|[_ Y]]; done. }
      destruct (decide (ip = ia)) as [->|NI].
      + assert (forall x, get_dns_ip x = Some ia -> x = a) as U by (intros x X; by eapply ip_inj).
        destruct (is_reachable (d_state d)) eqn:RO.
        * destruct (d_state d) eqn:D; try discriminate. rewrite (transition_connected _ _ _ _ _ S D). rewrite lookup_delete. split; [discriminate|].
          intros (x & X & [(-> & j & -> & _)|[N _]]); [|by apply U in X]. pose proof (transition_connected _ _ _ _ _ S D). discriminate.
        * assert (w_dns w !! ia = None) as WN.
          { destruct (w_dns w !! ia) as [y|] eqn:W; [|done]. apply (g_dns _ _ T) in W as (x & X & Y). apply U in X. subst x.
            exfalso. assert (false = true) by (apply RD; eauto). discriminate. }
          destruct (is_reachable s) eqn:RN.
          -- destruct s as [| i | | |]; try discriminate. cbn [connection_info]. rewrite lookup_insert. split.
             ++ intros Q. injection Q as <-. exists a. split; [done|]. left. eauto.
             ++ intros (x & X & [(-> & j & Q & <-)|[N _]]); [|by apply U in X]. by injection Q as <-.
          -- rewrite WN. split; [discriminate|]. intros (x & X & [(-> & j & -> & _)|[N _]]); [done|]. by apply U in X.
      + assert (forall m, (m = <[ia := default 0%N (i_software <$> connection_info s)]> (w_dns w) \/ m = delete ia (w_dns w) \/ m = w_dns w) -> m !! ip = w_dns w !! ip) as MM.
        { intros m [->|[->| ->]]; [by rewrite lookup_insert_ne|by rewrite lookup_delete_ne|done]. }
        rewrite MM.
        2: { destruct (is_reachable (d_state d)), (is_reachable s); try tauto. destruct (connection_info s); cbn; tauto. }
        rewrite (g_dns _ _ T). split; intros (x & X & Y); exists x; (split; [done|]); (destruct (decide (x = a)) as [->|]; [congruence|]); [tauto|]. destruct Y as [[? _]|[_ Y]]; done.
    - intros x. rewrite last_met_insert. cbn [d_state]. unfold update_known.
      assert (is_persistent (d_state d) = false -> w_known w !! a = None) as PN.
      { intros P. rewrite (g_known _ _ T). unfold last_met. rewrite A, last_met_state, P. done. }
      destruct (is_persistent s) eqn:P.
      + destruct (connection_info s) as [i|] eqn:CI.
        * destruct (decide (a = x)) as [->|N]; [by rewrite lookup_insert|]. rewrite lookup_insert_ne by done. apply T.
        * exfalso. destruct s as [? [|]|?|? [|]|? [|] ?|]; discriminate.
      + destruct (decide (a = x)) as [->|N].
        * destruct (is_persistent (d_state d)); [by rewrite lookup_delete|]. by apply PN.
        * destruct (is_persistent (d_state d)); [rewrite lookup_delete_ne by done|]; apply T.
    - apply T.
  Qed.
  Lemma tracks_say w0 st x : tracks w0 st -> match x with Connect _ | RequestAddresses _ | Disconnect _ => True | _ => False end -> tracks w0 (say st x).
  Proof. intros T X. unfold tracks, say in *. cbn [fst snd]. rewrite fold_left_app. destruct x; done. Qed.
  Lemma tracks_same w0 st c' : tracks w0 st -> addresses c' = addresses st.1 -> banned c' = banned st.1 -> tracks w0 (c', st.2).
  Proof. intros [A B C] E F. constructor; cbn [fst snd]; unfold connected, last_met in *; rewrite ?E, ?F; done. Qed.
  Lemma tracks_fold {X} (f : crawler * list command -> X -> res unit (crawler * list command)) w0 l :
    (forall st x st', tracks w0 st -> f st x = Ok st' -> tracks w0 st') -> forall st st', tracks w0 st -> rfold f l st = Ok st' -> tracks w0 st'.
  Proof.
    intros H. induction l as [|x l IH]; intros st st' T E; cbn [rfold] in E; [by injection E as <-|]. destruct (f st x) as [st1| |] eqn:F; try discriminate. eauto.
  Qed.
  Lemma tracks_disconnect w0 st pa st' : tracks w0 st -> disconnect_peer st pa = Ok st' -> tracks w0 st'.
  Proof. intros T E. unfold disconnect_peer in E. eapply tracks_change; [|exact E]. by apply tracks_say. Qed.
  Lemma tracks_score w0 st a n st' : tracks w0 st -> handle_new_ban_score ban_threshold ban_duration bannable st a n = Ok st' -> tracks w0 st'.
  Proof.
    intros T E. unfold handle_new_ban_score in E. destruct (_ <=? _)%N; [|by injection E as <-].
    destruct (disconnect_all bannable st (bannable a)) as [st1| |] eqn:D; try discriminate. cbn [rbind] in E. injection E as <-.
    assert (tracks w0 st1) as T1. { eapply tracks_fold; [|exact T|exact D]. intros; by eapply tracks_disconnect. }
    unfold tracks in *. cbn [fst snd]. rewrite fold_left_app. cbn [fold_left handle_crawler_cmd].
    destruct T1 as [A B C]. constructor; cbn [w_dns w_known w_banned banned set_banned]; [exact A|exact B|by rewrite C].
  Qed.
  Lemma last_met_filter (c : crawler) (n : N) x : last_met (set_addresses c (filter (fun ad : N * adata => retain ad.2 n) (addresses c))) x = last_met c x.
  Proof.
    unfold last_met. cbn [addresses set_addresses]. destruct (addresses c !! x) as [d|] eqn:A.
    - destruct (decide (retain d n)) as [R|R].
      + rewrite (map_filter_lookup_Some_2 _ _ x d A); done.
      + rewrite map_filter_lookup_None_2 by (right; intros d' D'; rewrite A in D'; by injection D' as <-).
        unfold retain in R. destruct (d_state d); try (by destruct (R I)). done.
    - rewrite map_filter_lookup_None_2 by auto. done.
  Qed.
  Lemma connected_filter (c : crawler) (n : N) x y : connected (set_addresses c (filter (fun ad : N * adata => retain ad.2 n) (addresses c))) x y <-> connected c x y.
  Proof.
    unfold connected. cbn [addresses set_addresses]. split.
    - intros (d & i & A & R). apply map_filter_lookup_Some in A as [A _]. eauto.
    - intros (d & i & A & D & R). exists d, i. split; [|done]. apply map_filter_lookup_Some. split; [done|]. unfold retain. cbn. rewrite D. exact I.
  Qed.
  Lemma tracks_bans (n : N) (l : list (N * N)) : forall w, w_banned (fold_left handle ((fun bt => RemoveBannedStatus bt.1) <$> l) w) = foldr (fun bt m => delete bt.1 m) (w_banned w) (reverse l) /\
    w_dns (fold_left handle ((fun bt => RemoveBannedStatus bt.1) <$> l) w) = w_dns w /\ w_known (fold_left handle ((fun bt => RemoveBannedStatus bt.1) <$> l) w) = w_known w.
  Proof.
    induction l as [|bt l IH]; intros w; [done|]. cbn [fmap list_fmap fold_left]. destruct (IH (handle w (RemoveBannedStatus bt.1))) as (A & B & C).
    rewrite A, B, C. cbn [handle_crawler_cmd w_dns w_known w_banned]. rewrite reverse_cons, foldr_app. done.
  Qed.
  Lemma foldr_delete (l : list (N * N)) (m : gmap N N) k : foldr (fun bt m => delete bt.1 m) m l !! k = if decide (k ∈ l.*1) then None else m !! k.
  Proof.
    induction l as [|bt l IH]; cbn [foldr fmap list_fmap].
    - rewrite decide_False by apply not_elem_of_nil. done.
    - destruct (decide (k = bt.1)) as [->|N].
      + rewrite lookup_delete, decide_True by left. done.
      + rewrite lookup_delete_ne, IH by done. destruct (decide (k ∈ l.*1)) as [I|I]; [rewrite decide_True by (by right); done|].
        rewrite decide_False; [done|]. intros [?|?]%elem_of_cons; done.
  Qed.
  Lemma tracks_heartbeat w c sample st' : agrees c w -> heartbeat bannable c sample = Ok st' -> tracks w st'.
  Proof.
    intros T E. unfold heartbeat in E.
    set (over := filter (fun bt : N * N => ~ (now c < bt.2)%N) (map_to_list (banned c))) in E.
    set (c1 := set_banned c (filter (fun bt : N * N => (now c < bt.2)%N) (banned c))) in E. cbv zeta in E.
    assert (tracks w (c1, (fun bt => RemoveBannedStatus bt.1) <$> over)) as T1.
    { destruct (tracks_bans 0 over w) as (A & B & C). constructor; cbn [fst snd]; unfold tracks; cbn [fst snd].
      - rewrite B. exact (g_dns _ _ T).
      - rewrite C. exact (g_known _ _ T).
      - rewrite A. apply map_eq. intros k. rewrite foldr_delete, (g_banned _ _ T). unfold c1. cbn [banned set_banned].
        destruct (banned c !! k) as [u|] eqn:L.
        + destruct (decide (now c < u)%N) as [Q|Q].
          * rewrite (map_filter_lookup_Some_2 _ _ k u L Q). rewrite decide_False; [done|]. rewrite fmap_reverse, elem_of_reverse, elem_of_list_fmap.
            intros (bt & -> & M). unfold over in M. apply elem_of_list_filter in M as [M1 M2]. destruct bt as [k' u']. apply elem_of_map_to_list in M2. cbn in *. congruence.
          * rewrite map_filter_lookup_None_2 by (right; intros u' U'; rewrite L in U'; by injection U' as <-).
            rewrite decide_True; [done|]. rewrite fmap_reverse, elem_of_reverse, elem_of_list_fmap. exists (k, u). split; [done|].
            apply elem_of_list_filter. split; [exact Q|]. by apply elem_of_map_to_list.
        + rewrite map_filter_lookup_None_2 by auto. by destruct (decide _). }
    destruct (rfold _ _ _) as [st1| |] eqn:F; try discriminate. cbn [rbind] in E. injection E as <-.
    assert (tracks w st1) as T2.
    { eapply tracks_fold; [|exact T1|exact F]. intros st a st2 TS S. unfold start_connecting in S.
      destruct (change_address_state st a ToConnecting) as [st3| |] eqn:G; try discriminate. cbn [rbind] in S. injection S as <-.
      apply tracks_say; [|done]. by eapply tracks_change. }
    unfold tracks in *. cbn [fst snd]. destruct T2 as [A B C]. constructor.
    - intros ip sw. rewrite A. setoid_rewrite connected_filter. done.
    - intros x. rewrite B, last_met_filter. done.
    - exact C.
  Qed.
  Lemma agrees_add c w a : agrees c w -> agrees (add_new_address c a) w.
  Proof.
    intros [A B C]. unfold add_new_address. destruct (addresses c !! a) as [d|] eqn:L; [done|]. constructor; [| |done].
    - intros ip sw. rewrite A. split; intros (x & X & d & i & D & R); exists x; (split; [done|]); exists d, i; (split; [|done]).
      + cbn. rewrite lookup_insert_ne; [done|]. congruence.
      + cbn in D. apply lookup_insert_Some in D as [[<- <-]|[_ D]]; [|done]. by destruct R.
    - intros x. rewrite last_met_insert, B. destruct (decide (a = x)) as [->|]; [|done]. unfold last_met. rewrite L. done.
  Qed.
  Lemma agrees_step c w e st' : agrees c w -> step c e = Ok st' -> tracks w st'.
  Proof.
    intros T E. assert (tracks w (c, [])) as T0 by exact T. destruct e as [period sample|a sender wr|l sender|a p sw cp|p|a|p n|a n]; cbn [CrawlerModel.step] in E.
    - destruct (_ <=? _)%N; [|discriminate]. eapply tracks_heartbeat; [|exact E]. destruct T as [A B C]. constructor; [exact A|exact B|exact C].
    - destruct (peers c !! sender); [|discriminate]. injection E as <-. destruct wr; [|done]. by apply (agrees_add c w a).
    - destruct (peers c !! sender) as [peer|]; [|discriminate]. injection E as <-. destruct (p_expecting peer).
      + unfold tracks. cbn [fst snd fold_left]. match goal with |- agrees (fold_left _ _ ?c0) _ => assert (agrees c0 w) as H by (destruct T; constructor; done); revert H; generalize c0 end.
        induction l as [|x l IH]; intros c0 H; [done|]. cbn [fold_left]. apply IH. by apply agrees_add.
      + apply (tracks_same w (c, [])); done.
    - unfold create_outbound_peer in E. cbn [fst snd] in E. destruct (peers c !! p); [discriminate|].
      set (c1 := set_peers c _) in E. assert (tracks w (c1, [])) as T1 by (apply (tracks_same w (c, [])); done).
      destruct cp; [|by eapply tracks_disconnect].
      destruct (addresses c1 !! a) as [d|]; [|discriminate]. cbn [expect rbind] in E. set (need := (_ <=? _)%N) in E.
      destruct (change_address_state (c1, []) a (ToConnected sw need)) as [st1| |] eqn:G; try discriminate. cbn [rbind] in E.
      apply (tracks_change w _ _ _ _ T1) in G. destruct need; injection E as <-; [|done]. apply tracks_say; [|done]. by apply tracks_same.
    - unfold remove_outbound_peer in E. cbn [fst snd] in E. destruct (peers c !! p) as [peer|]; [|discriminate]. cbn [expect rbind] in E.
      eapply tracks_change; [|exact E]. apply (tracks_same w (c, [])); done.
    - by eapply tracks_change.
    - unfold handle_misbehaved_peer in E. destruct (0 <? n)%N; [|by injection E as <-]. cbn [fst snd] in E. destruct (peers c !! p) as [peer|]; [|discriminate].
      cbn [expect rbind] in E. eapply tracks_score; [|exact E]. apply (tracks_same w (c, [])); done.
    - by eapply tracks_score.
  Qed.

  (** ** The start *)
  Lemma agrees_new t known bans reserved : agrees (new t known bans reserved) {| w_dns := ∅; w_known := known; w_banned := bans |}.
  Proof.
    constructor; cbn [w_dns w_known w_banned]; [| |done].
    - intros ip sw. rewrite lookup_empty. split; [discriminate|]. intros (a & _ & d & i & D & S & _). rewrite new_lookup in D.
      destruct (known !! a); [injection D as <-; discriminate|]. destruct (decide _); [injection D as <-|]; discriminate.
    - intros a. unfold last_met. rewrite new_lookup. destruct (known !! a); [done|]. by destruct (decide _).
  Qed.
  Lemma history_agrees reserved cw : history ban_threshold ban_duration interval bannable get_dns_ip reserved cw -> agrees cw.1 cw.2.
  Proof.
    induction 1 as [t known bans|[c w] e cw' _ IH E]; [apply agrees_new|]. unfold send_crawler_event in E.
    destruct (CrawlerModel.step _ _ _ _ _ _) as [[c' cmds]| |] eqn:S; try discriminate. injection E as <-. exact (agrees_step c w e _ IH S).
  Qed.
End Proofs.
