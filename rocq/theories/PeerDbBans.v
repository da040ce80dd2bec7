From Verif Require Import Base PeerTableModel PeerTableProofs PeerDbModel PeerDbSpec PeerDbProofs PeerDbSteps.

(** * Bans *)
Lemma banned_until_snoc l o b till :
  banned_until (l ++ [o]) b till <->
  (exists dur now, o = Ban b dur now /\ till = N.min DURATION_MAX (now + dur)) \/
  (banned_until l b till /\ calls_off b o = false /\ forall t, o = Heartbeat t -> (t < till)%N).
Proof.
  split.
  - intros (l1 & dur & now & l2 & He & Ht & Ha). destruct l2 as [|o' l2'] using rev_ind; [|clear IHl2'].
    + left. apply app_inj_tail in He as [_ ->]. by exists dur, now.
    + right. change (Ban b dur now :: l2' ++ [o']) with ((Ban b dur now :: l2') ++ [o']) in He. rewrite app_assoc in He. apply app_inj_tail in He as [-> ->].
      split.
      * exists l1, dur, now, l2'. split_and!; try done. intros x Hx. apply Ha. apply elem_of_app. by left.
      * apply Ha. apply elem_of_app. right. by apply elem_of_list_singleton.
  - intros [(dur & now & -> & ->)|((l1 & dur & now & l2 & -> & Ht & Ha) & Ho)].
    + exists l, dur, now, []. split_and!; try done. intros x. by rewrite elem_of_nil.
    + exists l1, dur, now, (l2 ++ [o]). rewrite <- app_assoc. split_and!; try done. intros x [Hx|Hx]%elem_of_app; [by apply Ha|].
      apply elem_of_list_singleton in Hx as ->. done.
Qed.
Lemma discouraged_until_snoc c l o b till :
  discouraged_until c (l ++ [o]) b till <->
  (exists now, o = Discourage b now /\ till = N.min DURATION_MAX (now + c_discouragement c)) \/
  (discouraged_until c l b till /\ calls_off_discouraged b o = false /\ forall t, o = Heartbeat t -> (t < till)%N).
Proof.
  split.
  - intros (l1 & now & l2 & He & Ht & Ha). destruct l2 as [|o' l2'] using rev_ind; [|clear IHl2'].
    + left. apply app_inj_tail in He as [_ ->]. by exists now.
    + right. change (Discourage b now :: l2' ++ [o']) with ((Discourage b now :: l2') ++ [o']) in He. rewrite app_assoc in He. apply app_inj_tail in He as [-> ->].
      split.
      * exists l1, now, l2'. split_and!; try done. intros x Hx. apply Ha. apply elem_of_app. by left.
      * apply Ha. apply elem_of_app. right. by apply elem_of_list_singleton.
  - intros [(now & -> & ->)|((l1 & now & l2 & -> & Ht & Ha) & Ho)].
    + exists l, now, []. split_and!; try done. intros x. by rewrite elem_of_nil.
    + exists l1, now, (l2 ++ [o]). rewrite <- app_assoc. split_and!; try done. intros x [Hx|Hx]%elem_of_app; [by apply Ha|].
      apply elem_of_list_singleton in Hx as ->. done.
Qed.

Lemma expire_some now cur till : expire now cur = Some till <-> cur = Some till /\ (now < till)%N.
Proof.
  unfold expire. destruct cur as [t|]; [|by split; [|intros []]]. destruct (N.leb_spec t now); split; try done.
  - intros [[= ->] ?]. lia.
  - intros [= ->]. split; [done|lia].
  - by intros [? ?].
Qed.

Lemma effect_ban b cur o till : ban_effect b cur o = Some till <->
  (exists dur now, o = Ban b dur now /\ till = N.min DURATION_MAX (now + dur)) \/
  (cur = Some till /\ calls_off b o = false /\ forall t, o = Heartbeat t -> (t < till)%N).
Proof.
  destruct o; cbn [ban_effect calls_off];
    try (split; [intros ->; right; by split_and!|by intros [(? & ? & ? & ?)|[]]]).
  - rewrite expire_some. split.
    + intros [-> Ht]. right. split_and!; try done. by intros t [= <-].
    + intros [(? & ? & ? & ?)|(-> & _ & Ht)]; [done|]. split; [done|by apply Ht].
  - case_decide as Hb.
    + subst b0. split; [intros [= <-]; left; by eexists _, _|]. intros [(dur & t & [= <- <-] & ->)|(_ & Hf & _)]; [done|]. by apply bool_decide_eq_false in Hf.
    + split; [intros ->; right; split_and!; try done; by apply bool_decide_eq_false|]. intros [(dur & t & [= -> _ _] & _)|(-> & _ & _)]; done.
  - case_decide as Hb.
    + split; [done|]. intros [(? & ? & ? & ?)|(_ & Hf & _)]; [done|]. by apply bool_decide_eq_false in Hf.
    + split; [intros ->; right; split_and!; try done; by apply bool_decide_eq_false|]. by intros [(? & ? & ? & ?)|(-> & _ & _)].
Qed.
Lemma effect_discourage c b cur o till : discourage_effect c b cur o = Some till <->
  (exists now, o = Discourage b now /\ till = N.min DURATION_MAX (now + c_discouragement c)) \/
  (cur = Some till /\ calls_off_discouraged b o = false /\ forall t, o = Heartbeat t -> (t < till)%N).
Proof.
  destruct o; cbn [discourage_effect calls_off_discouraged];
    try (split; [intros ->; right; by split_and!|by intros [(? & ? & ?)|[]]]).
  - rewrite expire_some. split.
    + intros [-> Ht]. right. split_and!; try done. by intros t [= <-].
    + intros [(? & ? & ?)|(-> & _ & Ht)]; [done|]. split; [done|by apply Ht].
  - case_decide as Hb.
    + subst b0. split; [intros [= <-]; left; by eexists _|]. intros [(t & [= <-] & ->)|(_ & Hf & _)]; [done|]. by apply bool_decide_eq_false in Hf.
    + split; [intros ->; right; split_and!; try done; by apply bool_decide_eq_false|]. intros [(t & [= -> _] & _)|(-> & _ & _)]; done.
  - case_decide as Hb.
    + split; [done|]. intros [(? & ? & ?)|(_ & Hf & _)]; [done|]. by apply bool_decide_eq_false in Hf.
    + split; [intros ->; right; split_and!; try done; by apply bool_decide_eq_false|]. by intros [(? & ? & ?)|(-> & _ & _)].
Qed.

Lemma banned_history c reserved boot now l d b till : history c reserved boot now l d -> d_banned d !! b = Some till <-> banned_until l b till.
Proof.
  revert l d. apply (history_ind' c reserved boot now (fun l d => d_banned d !! b = Some till <-> banned_until l b till)).
  - intros d _ HI Hs _ _. rewrite (i_banned _ _ _ _ HI), Hs. split; [done|]. intros (l1 & dur & t & l2 & He & _). by destruct l1.
  - intros l o d d' _ _ _ _ _ Hf IH. rewrite (sf_banned _ _ _ _ _ _ Hf), effect_ban, banned_until_snoc, IH. done.
Qed.
Lemma discouraged_history c reserved boot now l d b till : history c reserved boot now l d -> d_discouraged d !! b = Some till <-> discouraged_until c l b till.
Proof.
  revert l d. apply (history_ind' c reserved boot now (fun l d => d_discouraged d !! b = Some till <-> discouraged_until c l b till)).
  - intros d _ HI Hs _ _. rewrite (i_discouraged _ _ _ _ HI), Hs. split; [done|]. intros (l1 & t & l2 & He & _). by destruct l1.
  - intros l o d d' _ _ _ _ _ Hf IH. rewrite (sf_discouraged _ _ _ _ _ _ Hf), effect_discourage, discouraged_until_snoc, IH. done.
Qed.
Lemma anchors_history c reserved boot now l d : history c reserved boot now l d -> d_anchors d = foldl anchors_of ∅ l.
Proof.
  revert l d. apply (history_ind' c reserved boot now (fun l d => d_anchors d = foldl anchors_of ∅ l)).
  - intros d _ HI Hs _ _. by rewrite (i_anchors _ _ _ _ HI), Hs.
  - intros l o d d' _ _ _ _ _ Hf IH. rewrite (sf_anchors _ _ _ _ _ _ Hf), foldl_app, IH. done.
Qed.
Lemma reserved_history c reserved boot now l d : history c reserved boot now l d -> d_reserved d = foldl reserved_after reserved l.
Proof.
  revert l d. apply (history_ind' c reserved boot now (fun l d => d_reserved d = foldl reserved_after reserved l)).
  - intros d _ _ _ Hr _. done.
  - intros l o d d' _ _ _ _ _ Hf IH. rewrite (sf_reserved _ _ _ _ _ _ Hf), foldl_app, IH. done.
Qed.

(** A crash while a call runs. *)
Lemma crash_bans c reserved boot now l d o d' : history c reserved boot now l d -> history c reserved boot now (l ++ [o]) d' -> is_restart o = false ->
  exists cs, d_commits d' = cs ++ d_commits d /\
    forall s, s ∈ cs \/ s = d_store d -> forall reserved' boot' t, exists d2, load c s reserved' boot' t = Ok d2 /\
      (forall b, (d_banned d2 !! b = d_banned d !! b \/ d_banned d2 !! b = d_banned d' !! b) /\
                 (d_discouraged d2 !! b = d_discouraged d !! b \/ d_discouraged d2 !! b = d_discouraged d' !! b)) /\
      (d_anchors d2 = d_anchors d \/ d_anchors d2 = d_anchors d').
Proof.
  intros H1 H2 Ho. pose proof (history_inv _ _ _ _ _ _ H1) as HI. pose proof (history_inv _ _ _ _ _ _ H2) as HI'.
  destruct H2 as (Hc & Hg & Hn & d0 & Hs & Hr). destruct H1 as (_ & _ & Hn1 & d0' & Hs' & Hr1). rewrite Hs in Hs'. injection Hs' as <-.
  rewrite run_snoc, Hr1 in Hr. cbn in Hr. apply Forall_app in Hg as [_ Hgo]. rewrite Forall_singleton in Hgo.
  destruct (step_ok c _ _ d o HI Hc Hgo Hn1) as (d2 & Hd2 & Hf). rewrite Hr in Hd2. injection Hd2 as <-.
  pose proof (sf_commits _ _ _ _ _ _ Hf) as Hcm. rewrite Ho in Hcm. destruct Hcm as (cs & Hcs & Hb). exists cs. split; [done|].
  intros s Hs2 rs bt t. destruct (load_spec c s rs bt t Hc) as (d2 & G1 & G2 & G3 & _). exists d2. split; [done|].
  rewrite (i_banned _ _ _ _ G2), (i_discouraged _ _ _ _ G2), (i_anchors _ _ _ _ G2), G3.
  rewrite (i_banned _ _ _ _ HI), (i_discouraged _ _ _ _ HI), (i_anchors _ _ _ _ HI).
  rewrite (i_banned _ _ _ _ HI'), (i_discouraged _ _ _ _ HI'), (i_anchors _ _ _ _ HI').
  destruct Hs2 as [Hs2| ->].
  - split; [intros b; by split; apply (Hb s Hs2)|]. apply (Hb s Hs2 0%N).
  - split; [intros b; split; by left|by left].
Qed.

(** * Selecting *)
Lemma select_filter_spec c n bs d groups extra now a : inv c n bs d ->
  select_filter c d groups extra now a = true <-> eligible c d now a /\ group_of (c_hash_new c) a ∉ groups /\ extra a = true.
Proof.
  intros HI. unfold select_filter, eligible. pose proof (i_reserved _ _ _ _ HI a) as Hr.
  destruct (d_addresses d !! a) as [ad|] eqn:Ha.
  2:{ split; [done|]. intros (((ad & ? & _) & _) & _). done. }
  rewrite !andb_true_iff, !negb_true_iff, !bool_decide_eq_false, <- !eq_None_not_Some. split.
  - intros (((((H1 & H2) & H3) & H4) & H5) & H6). apply connect_now_spec in H1. split_and!; try done; [by exists ad|]. rewrite Hr. intros (ad' & [= <-] & ?). congruence.
  - intros (((ad' & [= <-] & H1) & H2 & H3 & H4) & H5 & H6). apply connect_now_spec in H1. split_and!; try done. destruct (ad_reserved ad) eqn:E; [|done]. destruct H2. apply Hr. by exists ad.
Qed.

Lemma select_loop_spec c coins count : forall fuel news trieds m, (forall g a, m !! g = Some a -> group_of (c_hash_new c) a = g) -> size m <= count ->
  length news + length trieds <= fuel ->
  let m' := select_loop c fuel coins count news trieds m in
  (forall g a, m' !! g = Some a -> group_of (c_hash_new c) a = g /\ (m !! g = Some a \/ a ∈ news \/ a ∈ trieds)) /\ size m' <= count /\
  (size m' = count \/ forall a, a ∈ news \/ a ∈ trieds -> is_Some (m' !! group_of (c_hash_new c) a)) /\
  (forall g, is_Some (m !! g) -> is_Some (m' !! g)).
Proof.
  induction fuel as [|fuel IH]; intros news trieds m Hm Hsz Hlen; cbn [select_loop].
  - destruct news, trieds; cbn in Hlen; try lia. split_and!; try done; [intros g a Hg; split; [by apply Hm|by left]|].
    right. intros a. rewrite !elem_of_nil. by intros [].
  - destruct (Nat.leb_spec count (size m)) as [Hle|Hlt].
    { split_and!; try done; [intros g a Hg; split; [by apply Hm|by left]|]. left. lia. }
    assert (Hadd : forall a, (forall g b, <[group_of (c_hash_new c) a := a]> m !! g = Some b -> group_of (c_hash_new c) b = g) /\ size (<[group_of (c_hash_new c) a := a]> m) <= count).
    { intros a. split.
      - intros g b. rewrite lookup_insert_Some. intros [[<- <-]|[_ Hb]]; [done|by apply Hm].
      - destruct (m !! group_of (c_hash_new c) a) eqn:E.
        + rewrite map_size_insert_Some; [lia|by eexists].
        + rewrite map_size_insert_None; [lia|done]. }
    assert (Hstep : forall a news' trieds', length news' + length trieds' <= fuel ->
      (forall x, x ∈ news \/ x ∈ trieds <-> x = a \/ x ∈ news' \/ x ∈ trieds') ->
      let m' := select_loop c fuel coins count news' trieds' (<[group_of (c_hash_new c) a := a]> m) in
      (forall g a, m' !! g = Some a -> group_of (c_hash_new c) a = g /\ (m !! g = Some a \/ a ∈ news \/ a ∈ trieds)) /\ size m' <= count /\
      (size m' = count \/ forall a, a ∈ news \/ a ∈ trieds -> is_Some (m' !! group_of (c_hash_new c) a)) /\
      (forall g, is_Some (m !! g) -> is_Some (m' !! g))).
    { intros a news' trieds' Hl Hx. destruct (Hadd a) as [Ha1 Ha2]. destruct (IH news' trieds' _ Ha1 Ha2 Hl) as (G1 & G2 & G3 & G4). cbn zeta. split_and!; try done.
      - intros g b Hb. destruct (G1 g b Hb) as [Hg Hb']. split; [done|]. destruct Hb' as [Hb'|Hb'].
        + rewrite lookup_insert_Some in Hb'. destruct Hb' as [[_ <-]|[_ Hb']]; [right; apply Hx; by left|by left].
        + right. apply Hx. by right.
      - destruct G3 as [G3|G3]; [by left|]. right. intros b Hb. apply Hx in Hb as [->|Hb]; [|by apply G3]. apply G4. rewrite lookup_insert. by eexists.
      - intros g Hg. apply G4. apply lookup_insert_is_Some. destruct (decide (group_of (c_hash_new c) a = g)); [by left|by right]. }
    destruct news as [|a news], trieds as [|b trieds].
    + split_and!; try done; [intros g a Hg; split; [by apply Hm|by left]|]. right. intros a. rewrite !elem_of_nil. by intros [].
    + apply Hstep; [cbn in *; lia|]. intros x. rewrite !elem_of_cons, !elem_of_nil. tauto.
    + apply Hstep; [cbn in *; lia|]. intros x. rewrite !elem_of_cons, !elem_of_nil. tauto.
    + destruct (coins fuel); apply Hstep; cbn in *; try lia; intros x; rewrite !elem_of_cons; tauto.
Qed.

Lemma in_new_inn c n bs d a : inv c n bs d -> in_new d a <-> inn (d_tables d) a.
Proof. intros HI. apply table_addresses_in. apply (i_tables _ _ _ _ HI). Qed.
Lemma in_tried_itr c n bs d a : inv c n bs d -> in_tried d a <-> itr (d_tables d) a.
Proof. intros HI. apply table_addresses_in. apply (i_tables _ _ _ _ HI). Qed.

Lemma selected c n bs d sample coins groups extra count now : inv c n bs d -> good_sample sample ->
  let l := select_non_reserved_outbound_addresses c sample coins d groups extra count now in
  (forall a, a ∈ l -> in_tables d a /\ eligible c d now a /\ group_of (c_hash_new c) a ∉ groups /\ extra a = true) /\
  NoDup (map (group_of (c_hash_new c)) l) /\ length l <= count /\
  (count <> 0 -> (exists a, in_tables d a /\ eligible c d now a /\ group_of (c_hash_new c) a ∉ groups /\ extra a = true) -> l <> []).
Proof.
  intros HI Hs. cbn zeta. unfold select_non_reserved_outbound_addresses. destruct (Nat.eqb_spec count 0) as [->|Hcount].
  { split_and!; [intros a; by rewrite elem_of_nil|constructor|cbn; lia|done]. }
  set (news := sample _ _). set (trieds := sample (filter _ (table_addresses (tried_table (d_tables d)))) _).
  assert (Hnews : forall a, a ∈ news -> in_new d a /\ select_filter c d groups extra now a = true).
  { intros a Ha. apply (Hs _ _) in Ha. by apply elem_of_list_filter in Ha as [? ?]. }
  assert (Htrieds : forall a, a ∈ trieds -> in_tried d a /\ select_filter c d groups extra now a = true).
  { intros a Ha. apply (Hs _ _) in Ha. by apply elem_of_list_filter in Ha as [? ?]. }
  destruct (select_loop_spec c coins count (length news + length trieds) news trieds ∅) as (H1 & H2 & H3 & _); [by intros ? ?; rewrite lookup_empty|rewrite map_size_empty; lia|done|].
  set (m := select_loop _ _ _ _ _ _ _) in *.
  assert (Hin : forall a, a ∈ map snd (map_to_list m) <-> exists g, m !! g = Some a).
  { intros a. rewrite elem_of_list_fmap. split.
    - intros ([g x] & -> & Hx). apply elem_of_map_to_list in Hx. by exists g.
    - intros (g & Hg). exists (g, a). split; [done|]. by apply elem_of_map_to_list. }
  split_and!.
  - intros a Ha. apply Hin in Ha as (g & Hg). destruct (H1 g a Hg) as (_ & [Ha|[Ha|Ha]]).
    + by rewrite lookup_empty in Ha.
    + apply Hnews in Ha as [Ha Hf]. apply (select_filter_spec c n bs) in Hf; [|done]. split; [by left|done].
    + apply Htrieds in Ha as [Ha Hf]. apply (select_filter_spec c n bs) in Hf; [|done]. split; [by right|done].
  - rewrite map_map. rewrite (map_ext_in _ fst); [apply NoDup_fst_map_to_list|]. intros [g a] Hx. cbn. apply elem_of_list_In, elem_of_map_to_list in Hx. by apply H1.
  - rewrite map_length. change (length (map_to_list m)) with (size m). done.
  - intros _ (a & Ha & Hel). apply (select_filter_spec c n bs) in Hel; [|done].
    assert (Hne : news <> [] \/ trieds <> []).
    { destruct Ha as [Ha|Ha]; [left|right]; apply (Hs _ _); try done; intros He;
        (assert (Hx : a ∈ @nil N); [rewrite <- He; apply elem_of_list_filter; done|by apply elem_of_nil in Hx]). }
    assert (Hsz : size m <> 0).
    { destruct H3 as [H3|H3]; [lia|].
      assert (exists x, x ∈ news \/ x ∈ trieds) as (x & Hx).
      { destruct Hne as [Hne|Hne]; [destruct news as [|x ?]|destruct trieds as [|x ?]]; try done; exists x; [left|right]; by left. }
      destruct (H3 x Hx) as [y Hy]. intros E. apply map_size_empty_inv in E. by rewrite E, lookup_empty in Hy. }
    intros E. apply Hsz. change (size m) with (length (map_to_list m)). rewrite <- (map_length snd), E. done.
Qed.

Lemma selected_from_new c n bs d r now a : inv c n bs d -> select_from_new_table c d r now = Some a -> in_new d a /\ eligible c d now a.
Proof.
  intros HI Hs. unfold select_from_new_table in Hs. apply elem_of_list_lookup_2, elem_of_list_filter in Hs as [Hf Ha]. split; [done|].
  pose proof (i_reserved _ _ _ _ HI a) as Hr. unfold eligible. destruct (d_addresses d !! a) as [ad|] eqn:E; [|done].
  rewrite !andb_true_iff, !negb_true_iff in Hf. unfold is_address_banned_or_discouraged, is_address_banned, is_address_discouraged in Hf.
  rewrite orb_false_iff, !bool_decide_eq_false, <- !eq_None_not_Some in Hf. destruct Hf as [[H1 H2] [H3 H4]]. apply connect_now_spec in H1. split_and!; try done; [by exists ad|].
  rewrite Hr. intros (ad' & [= <-] & ?). congruence.
Qed.

Lemma selected_reserved c n bs d extra now : inv c n bs d ->
  exists l, select_reserved_outbound_addresses d extra now = Ok l /\
    forall a, a ∈ l <-> a ∈ d_reserved d /\ extra a = true /\ exists ad, d_addresses d !! a = Some ad /\ may_call ad now.
Proof.
  intros HI. unfold select_reserved_outbound_addresses.
  assert (Hg : forall L acc, (forall a, a ∈ L -> a ∈ d_reserved d) ->
    exists l, @rfold (list N) N unit (fun l a => let? ad := expect (d_addresses d !! a) in Ok (if connect_now ad now && extra a then l ++ [a] else l)) L acc = Ok l /\
      forall a, a ∈ l <-> a ∈ acc \/ (a ∈ L /\ extra a = true /\ exists ad, d_addresses d !! a = Some ad /\ connect_now ad now = true)).
  { induction L as [|x L IH]; intros acc HL; cbn [rfold].
    - exists acc. split; [done|]. intros a. rewrite elem_of_nil. tauto.
    - destruct (proj1 (i_reserved _ _ _ _ HI x) (HL x (elem_of_list_here _ _))) as (ad & Had & _). rewrite Had. cbn [expect rbind].
      destruct (IH (if connect_now ad now && extra x then acc ++ [x] else acc)) as (l & Hl & Hx); [intros a Ha; apply HL; by right|].
      exists l. split; [done|]. intros a. rewrite Hx, elem_of_cons. destruct (connect_now ad now && extra x) eqn:E.
      + rewrite andb_true_iff in E. rewrite elem_of_app, elem_of_list_singleton. split.
        * intros [[?| ->]|?]; [by left|right|right; naive_solver]. split_and!; [by left|apply E|]. exists ad. split; [done|apply E].
        * intros [?|([-> |?] & ?)]; [by left; left|by left; right|by right].
      + split; [intros [?|?]; [by left|right; naive_solver]|]. intros [?|([-> |?] & He & ad' & Hd & Hc)]; [by left| |right; naive_solver].
        rewrite Had in Hd. injection Hd as <-. by rewrite Hc, He in E. }
  destruct (Hg (elements (d_reserved d)) []) as (l & Hl & Hx); [intros a; by rewrite elem_of_elements|]. exists l. split; [done|].
  intros a. setoid_rewrite <- connect_now_spec. rewrite Hx, elem_of_nil, elem_of_elements. split; [by intros [?|?]|by right].
Qed.
