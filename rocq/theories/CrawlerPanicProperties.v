(** C100, continued: as long as the network reports events in order and nobody misbehaves on a host that is being disconnected, the crawler does not panic. *)
From Verif Require Import Base CrawlerModel CrawlerSpec CrawlerProofs CrawlerMoves.

Definition is_connecting (c : crawler) (a : N) : Prop := exists d f l, addresses c !! a = Some d /\ d_state d = Connecting f l.
Definition is_disconnecting (c : crawler) (a : N) : Prop := exists d f l, addresses c !! a = Some d /\ d_state d = Disconnecting f l.
Section Panic.
  Context (threshold duration interval : N) (bannable : N -> N).
  (** No connection of the host is being closed. *)
  Definition settled (c : crawler) (host : N) : Prop :=
    forall p peer, peers c !! p = Some peer -> bannable (p_address peer) = host -> ~ is_disconnecting c (p_address peer).
  (** What the network may report: outcomes of calls that were made, what happens to connections that exist, time steps of at most a day. *)
  Definition orderly_event (c : crawler) (e : event) : Prop :=
    match e with
    | Timer period _ => (period <= 86400)%N
    | AddressAnnouncement _ p _ | AddressListResponse _ p => is_Some (peers c !! p)
    | PeerConnected a p _ _ => peers c !! p = None /\ is_connecting c a
    | PeerDisconnected p => is_Some (peers c !! p)
    | ConnectionError a => is_connecting c a
    | Misbehaved p _ => exists peer, peers c !! p = Some peer /\ settled c (bannable (p_address peer))
    | MisbehavedOnHandshake a _ => settled c (bannable a)
    end.
  Inductive orderly : crawler -> Prop :=
  | orderly_start t known bans reserved : orderly (new t known bans reserved)
  | orderly_step c e c' cmds : orderly c -> orderly_event c e -> step threshold duration interval bannable c e = Ok (c', cmds) -> orderly c'.

  Definition live (s : astate) : Prop := match s with Connected _ | Disconnecting _ _ => True | _ => False end.
  Record consistent (c : crawler) : Prop := {
    k_live : forall p peer, peers c !! p = Some peer -> exists d, addresses c !! p_address peer = Some d /\ live (d_state d);
    k_one : forall p q pp pq, peers c !! p = Some pp -> peers c !! q = Some pq -> p_address pp = p_address pq -> p = q
  }.

  Lemma change_ok st a t d s : addresses st.1 !! a = Some d -> transition_to d t (now st.1) = Some s ->
    change_address_state st a t = Ok (set_addresses st.1 (<[a := {| d_state := s; d_reserved := d_reserved d |}]> (addresses st.1)), st.2 ++ [UpdateAddress a (d_state d) s]).
  Proof. intros A S. unfold change_address_state. rewrite A. cbn [expect rbind]. rewrite S. done. Qed.

  Lemma start_ok l : forall st, NoDup l -> (forall a, a ∈ l -> exists d f o t, addresses st.1 !! a = Some d /\ d_state d = Disconnected f o t) ->
    exists st', rfold start_connecting l st = Ok st' /\ peers st'.1 = peers st.1 /\ forall a, a ∉ l -> addresses st'.1 !! a = addresses st.1 !! a.
  Proof.
    induction l as [|a l IH]; intros st ND H; cbn [rfold]; [eauto|]. apply NoDup_cons in ND as [NI ND].
    destruct (H a) as (d & f & o & t & A & S); [left|]. unfold start_connecting at 1.
    rewrite (change_ok st a ToConnecting d (Connecting f o)); [|done|unfold transition_to; rewrite S; done]. cbn [rbind].
    match goal with |- context [rfold _ l ?s] => destruct (IH s ND) as (st' & -> & P & Q) end.
    - intros x X. cbn. rewrite lookup_insert_ne by (intros ->; done). apply H. by right.
    - eexists. split_and!; [reflexivity|done|]. intros x X. apply not_elem_of_cons in X as [N X]. rewrite Q by done. cbn. by rewrite lookup_insert_ne.
  Qed.
  Lemma disconnect_ok l : forall st, NoDup l.*2 -> (forall pa, pa ∈ l -> exists d i, addresses st.1 !! pa.2 = Some d /\ d_state d = Connected i) ->
    exists st', rfold disconnect_peer l st = Ok st' /\ peers st'.1 = peers st.1 /\
      forall a d, addresses st.1 !! a = Some d -> live (d_state d) -> exists d', addresses st'.1 !! a = Some d' /\ live (d_state d').
  Proof.
    induction l as [|pa l IH]; intros st ND H; cbn [rfold]; [eauto 10|]. cbn [fmap list_fmap] in ND. apply NoDup_cons in ND as [NI ND].
    destruct (H pa) as (d & i & A & S); [left|]. unfold disconnect_peer at 1.
    rewrite (change_ok (say st (Disconnect pa.1)) pa.2 ToDisconnecting d (Disconnecting 0 (Some i))); [|done|unfold transition_to; rewrite S; done].
    match goal with |- context [rfold _ l ?s] => destruct (IH s ND) as (st' & -> & P & Q) end.
    - intros x X. cbn. rewrite lookup_insert_ne; [apply H; by right|]. intros E. apply NI. rewrite E. apply elem_of_list_fmap. eauto.
    - eexists. split_and!; [reflexivity|done|]. intros a d' D L. destruct (decide (pa.2 = a)) as [<-|N].
      + eapply Q; [cbn; apply lookup_insert|done].
      + eapply Q; [cbn; rewrite lookup_insert_ne by done; exact D|done].
  Qed.
  Lemma score_ok c a n cmds : consistent c -> settled c (bannable a) -> exists st', handle_new_ban_score threshold duration bannable (c, cmds) a n = Ok st' /\ consistent st'.1.
  Proof.
    intros K S. unfold handle_new_ban_score. destruct (_ <=? _)%N; [|eauto]. unfold disconnect_all. cbn [fst].
    set (l := omap _ _). assert (forall pa, pa ∈ l <-> exists peer, peers c !! pa.1 = Some peer /\ pa.2 = p_address peer /\ bannable (p_address peer) = bannable a) as L.
    { intros [p x]. unfold l. rewrite elem_of_list_omap. split.
      - intros ([q peer] & M & E). apply elem_of_map_to_list in M. cbn [fst snd] in *. destruct (decide _); [|discriminate]. injection E as <- <-. eauto.
      - intros (peer & M & E & B). cbn [fst snd] in *. subst x. exists (p, peer). split; [by apply elem_of_map_to_list|]. cbn [fst snd]. by rewrite decide_True. }
    destruct (disconnect_ok l (c, cmds)) as (st' & -> & P & Q).
    - assert (NoDup l) as ND. { unfold l. pose proof (NoDup_fst_map_to_list (peers c)) as ND. revert ND. generalize (map_to_list (peers c)). clear. induction l as [|[p peer] l IH]; intros ND; [constructor|].
        cbn [fmap list_fmap fst] in ND. apply NoDup_cons in ND as [NI ND]. cbn [omap list_omap fst snd]. destruct (decide _); [|by apply IH]. apply NoDup_cons. split; [|by apply IH].
        intros ([q pq] & M & E)%elem_of_list_omap. cbn [fst snd] in E. destruct (decide _); [|discriminate]. injection E as -> _. apply NI, elem_of_list_fmap. exists (p, pq). done. }
      apply NoDup_fmap_2_strong; [|done]. intros [p x] [q y] X Y E. cbn in E. subst y. apply L in X as (pp & PP & E1 & _), Y as (pq & PQ & E2 & _). cbn in *.
      assert (p = q) as ->; [|done]. eapply (k_one _ K); [exact PP|exact PQ|congruence].
    - intros pa X. apply L in X as (peer & PP & -> & B). cbn [fst]. destruct (k_live _ K _ _ PP) as (d & D & LV). exists d. destruct (d_state d) as [| i | f o | |] eqn:E; try done; [eauto|].
      exfalso. apply (S _ _ PP B). exists d, f, o. done.
    - cbn [rbind]. eexists. split; [reflexivity|]. cbn [fst] in *. constructor; cbn [peers addresses set_banned]; rewrite P.
      + intros p peer X. destruct (k_live _ K _ _ X) as (d & D & LV). by eapply Q.
      + apply K.
  Qed.
  Lemma keep_consistent c m : consistent c -> (forall a d, addresses c !! a = Some d -> live (d_state d) -> m !! a = Some d) -> consistent (set_addresses c m).
  Proof. intros K H. constructor; cbn [peers addresses set_addresses]; [|apply K]. intros p peer X. destruct (k_live _ K _ _ X) as (d & D & L). eauto. Qed.
  Lemma change_peer c p peer0 peer : consistent c -> peers c !! p = Some peer0 -> p_address peer = p_address peer0 -> consistent (set_peers c (<[p := peer]> (peers c))).
  Proof.
    intros K P A. constructor; cbn [peers addresses set_peers].
    - intros q pq X. apply lookup_insert_Some in X as [[<- <-]|[_ X]]; [rewrite A; by eapply K|by eapply K].
    - intros q r pq pr X Y E. apply lookup_insert_Some in X as [[<- <-]|[_ X]], Y as [[<- <-]|[_ Y]]; try done; eapply (k_one _ K); eauto; congruence.
  Qed.
  Lemma add_consistent c a : consistent c -> consistent (add_new_address c a).
  Proof. intros K. unfold add_new_address. destruct (addresses c !! a) eqn:A; [done|]. apply keep_consistent; [done|]. intros x d D _. rewrite lookup_insert_ne by congruence. done. Qed.

  Lemma step_ok c e : consistent c -> orderly_event c e -> exists c' cmds, step threshold duration interval bannable c e = Ok (c', cmds) /\ consistent c'.
  Proof.
    intros K O. destruct e as [period sample|a sender wr|l sender|a p sw cp|p|a|p n|a n]; cbn [orderly_event] in O; cbn [step].
    - replace (period <=? 24 * 3600)%N with true by (clear - O; lia). unfold heartbeat. cbv zeta.
      match goal with |- context [rfold _ ?l (?c1, ?o)] => destruct (start_ok l (c1, o)) as (st' & -> & P & Q); [|intros a A|] end.
      + match goal with |- NoDup (take ?n ?l) => assert (NoDup l) as ND by apply NoDup_filter, NoDup_remove_dups; rewrite <- (take_drop n l) in ND; apply NoDup_app in ND as [ND _]; exact ND end.
      + apply elem_of_take in A as (i & A & _). apply elem_of_list_lookup_2, elem_of_list_filter in A as [A _]. unfold may_connect in A. cbn [addresses set_banned now] in A. cbn [fst addresses set_banned].
        destruct (addresses c !! a) as [d|] eqn:D; [|done]. apply Is_true_eq_true, andb_true_iff in A as [A _]. apply connect_now_spec in A as (f & o & t & w & S & _). exists d, f, o, t. done.
      + cbn [rbind]. eexists _, _. split; [reflexivity|]. constructor; cbn [peers addresses set_addresses]; rewrite P; cbn [fst peers set_banned].
        * intros p peer X. destruct (k_live _ K _ _ X) as (d & D & L). exists d. split; [|done]. apply map_filter_lookup_Some. split; [|unfold retain; cbn; by destruct (d_state d)].
          rewrite Q; [exact D|]. intros A. apply elem_of_take in A as (i & A & _). apply elem_of_list_lookup_2, elem_of_list_filter in A as [A _]. unfold may_connect in A. cbn [addresses set_banned now] in A.
          rewrite D in A. apply Is_true_eq_true, andb_true_iff in A as [A _]. apply connect_now_spec in A as (f & o & t & w & S & _). rewrite S in L. done.
        * apply K.
    - destruct O as [peer P]. rewrite P. cbn [expect rbind]. eexists _, _. split; [reflexivity|]. destruct wr; [by apply add_consistent|done].
    - destruct O as [peer P]. rewrite P. cbn [expect rbind]. eexists _, _. split; [reflexivity|]. set (c1 := set_peers c _). assert (consistent c1) as K1 by (by eapply change_peer).
      destruct (p_expecting peer); [|done]. revert K1. generalize c1. clear. induction l as [|x l IH]; intros c1 K1; [done|]. cbn [fold_left]. by apply IH, add_consistent.
    - destruct O as (P & d & f & o & A & S). unfold create_outbound_peer. cbn [fst snd]. rewrite P.
      assert (forall q pq, peers c !! q = Some pq -> p_address pq <> a) as NA.
      { intros q pq X EA. destruct (k_live _ K _ _ X) as (d' & D & L). rewrite EA, A in D. injection D as <-. rewrite S in L. done. }
      assert (forall peer s r m, p_address peer = a -> live s -> (m = <[p := peer]> (peers c)) ->
        consistent {| now := now c; addresses := <[a := {| d_state := s; d_reserved := r |}]> (addresses c); banned := banned c; peers := m |}) as KN.
      { intros peer s r m PA L ->. constructor; cbn [peers addresses].
        - intros q pq X. apply lookup_insert_Some in X as [[<- <-]|[_ X]]; [rewrite PA, lookup_insert; eauto|]. rewrite lookup_insert_ne by (intros E; by apply (NA q pq)). by eapply K.
        - intros q r' pq pr X Y E. apply lookup_insert_Some in X as [[<- <-]|[_ X]], Y as [[<- <-]|[_ Y]]; try done; [exfalso; apply (NA _ _ Y); congruence|exfalso; apply (NA _ _ X); congruence|by eapply (k_one _ K)]. }
      destruct cp.
      + cbn [addresses set_peers now]. rewrite A. cbn [expect rbind]. set (need := (_ <=? _)%N).
        erewrite (change_ok _ a (ToConnected sw need) d); [|exact A|unfold transition_to; rewrite S; reflexivity]. cbn [rbind]. destruct need.
        * eexists _, _. split; [reflexivity|]. cbn. eapply KN; [|done|apply insert_insert]. done.
        * eexists _, _. split; [reflexivity|]. eapply KN; [|done|reflexivity]. done.
      + unfold disconnect_peer. erewrite change_ok; [|exact A|unfold transition_to; rewrite S; reflexivity]. eexists _, _. split; [reflexivity|]. eapply KN; [|done|reflexivity]. done.
    - destruct O as [peer P]. unfold remove_outbound_peer. cbn [fst snd]. rewrite P. cbn [expect rbind]. destruct (k_live _ K _ _ P) as (d & D & L).
      assert (exists s, transition_to d ToDisconnected (now c) = Some s) as [s S]. { unfold transition_to. destruct (d_state d); try done; eauto. }
      erewrite change_ok; [|exact D|exact S]. eexists _, _. split; [reflexivity|]. constructor; cbn [peers addresses set_addresses set_peers fst].
      + intros q pq X. apply lookup_delete_Some in X as [N X]. rewrite lookup_insert_ne; [by eapply K|]. intros E. apply N. eapply (k_one _ K); [exact P|exact X|done].
      + intros q r pq pr X Y E. apply lookup_delete_Some in X as [_ X], Y as [_ Y]. by eapply (k_one _ K).
    - destruct O as (d & f & o & A & S). assert (exists s, transition_to d ToDisconnected (now c) = Some s) as [s T]. { unfold transition_to. rewrite S. eauto. }
      erewrite change_ok; [|exact A|exact T]. eexists _, _. split; [reflexivity|]. apply keep_consistent; [done|]. intros x dx D L. cbn [fst]. rewrite lookup_insert_ne; [done|].
      intros <-. cbn in D. rewrite A in D. injection D as <-. rewrite S in L. done.
    - destruct O as (peer & P & S). unfold handle_misbehaved_peer. cbn [fst snd]. destruct (0 <? n)%N; [|eauto]. rewrite P. cbn [expect rbind p_score].
      destruct (score_ok (set_peers c (<[p := {| p_address := p_address peer; p_score := p_score peer + n; p_expecting := p_expecting peer |}]> (peers c))) (p_address peer) (p_score peer + n) []) as ([c' cmds] & E & K').
      + by eapply change_peer.
      + intros q pq X B. cbn [peers set_peers] in X. apply lookup_insert_Some in X as [[<- <-]|[_ X]]; [cbn in *; by apply (S p peer)|by apply (S q pq)].
      + exists c', cmds. split; [exact E|exact K'].
    - destruct (score_ok c a n [] K O) as ([c' cmds] & E & K'). exists c', cmds. done.
  Qed.
  Lemma orderly_consistent c : orderly c -> consistent c.
  Proof.
    induction 1 as [t known bans reserved|c e c' cmds _ IH O E].
    - constructor; intros p; intros; cbn in *; rewrite lookup_empty in *; discriminate.
    - destruct (step_ok c e IH O) as (c1 & cmds1 & E1 & K). rewrite E in E1. by injection E1 as <- <-.
  Qed.
End Panic.

(** C100, no panic *)
Theorem C100_no_panic (threshold duration interval : N) (bannable : N -> N) (c : crawler) (e : event) :
  orderly threshold duration interval bannable c -> orderly_event bannable c e ->
  exists c' cmds, step threshold duration interval bannable c e = Ok (c', cmds).
Proof. intros H O. destruct (step_ok threshold duration interval bannable c e) as (c' & cmds & E & _); [by eapply orderly_consistent|done|eauto]. Qed.

(** A case: one call is made and answered, then the peer misbehaves *)
Example C100_case_orderly : exists c, orderly 100 86400 86400 id c /\ orderly_event id c (Misbehaved 7 100) /\ is_Some (peers c !! 7%N).
Proof.
  pose (c0 := new 100000 {[1%N := {| i_software := 5; i_asked := None |}]} ∅ ∅).
  destruct (step 100 86400 86400 id c0 (Timer 60 [1%N])) as [[c1 cmds1]| |] eqn:E1; [|exfalso; vm_compute in E1; discriminate..].
  destruct (step 100 86400 86400 id c1 (PeerConnected 1 7 6 true)) as [[c2 cmds2]| |] eqn:E2; [|exfalso; vm_compute in E1; injection E1 as <- <-; vm_compute in E2; discriminate..].
  assert (orderly 100 86400 86400 id c1) as O1 by (apply (orderly_step _ _ _ _ c0 (Timer 60 [1%N]) c1 cmds1); [apply orderly_start|intros Q; discriminate|exact E1]).
  exists c2. split; [|split].
  - eapply orderly_step; [exact O1| |exact E2]. vm_compute in E1. injection E1 as <- <-. split; [vm_compute; reflexivity|]. eexists _, _, _. split; [vm_compute; reflexivity|reflexivity].
  - vm_compute in E1. injection E1 as <- <-. vm_compute in E2. injection E2 as <- <-. eexists. split; [vm_compute; reflexivity|]. intros p peer P _ (d & f & l & D & S).
    apply elem_of_map_to_list in P. vm_compute in P. apply elem_of_list_singleton in P. injection P as -> ->. vm_compute in D. injection D as <-. discriminate.
  - vm_compute in E1. injection E1 as <- <-. vm_compute in E2. injection E2 as <- <-. vm_compute. eauto.
Qed.

Print Assumptions C100_no_panic.
