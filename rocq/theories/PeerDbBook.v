From Verif Require Import Base PeerTableModel PeerTableProofs PeerDbModel PeerDbSpec PeerDbProofs PeerDbSteps PeerDbBans.

Lemma named_snoc reserved boot l o : named reserved boot (l ++ [o]) = named reserved boot l ∪ named_by o.
Proof.
  unfold named. rewrite fmap_app, union_list_app_L. cbn. set_solver.
Qed.

(** * Without restarts, whatever is known and was not named is in one of the tables. *)
Definition booked (nm : gset N) (d : db) : Prop :=
  d_reserved d ⊆ nm /\ forall a, known d a -> a ∉ nm -> inn (d_tables d) a \/ itr (d_tables d) a.

Lemma booked_mono nm nm' d : nm ⊆ nm' -> booked nm d -> booked nm' d.
Proof. intros Hs [H1 H2]. split; [set_solver|]. intros a Ha Hn. apply H2; [done|set_solver]. Qed.
Lemma booked_set nm d a ad : booked nm d -> booked (nm ∪ {[a]}) (set_addresses d (<[a := ad]> (d_addresses d))).
Proof.
  intros [H1 H2]. split; [cbn; set_solver|]. intros b. unfold known. cbn. rewrite lookup_insert_is_Some. intros Hb Hn. apply H2; [|set_solver].
  destruct Hb as [->|[_ Hb]]; [set_solver|done].
Qed.
Lemma booked_same nm d d' : booked nm d -> d_reserved d' = d_reserved d -> d_addresses d' = d_addresses d -> d_tables d' = d_tables d -> booked nm d'.
Proof. intros [H1 H2] E1 E2 E3. split; unfold known; rewrite ?E1, ?E2, ?E3; done. Qed.

Lemma booked_step c n bs nm d o d' : inv c n bs d -> good_op o -> (n < U32_MAX)%N -> is_restart o = false -> step c d o = Ok d' ->
  booked nm d -> booked (nm ∪ named_by o) d'.
Proof.
  intros HI Hg Hn Hr Hs Hb. pose proof Hb as [Hb1 Hb2].
  assert (Hdec : forall b, inn (d_tables d') b \/ ~ inn (d_tables d') b) by (intros b; unfold member; destruct (decide (holds (new_table (d_tables d')) (bucket_coords (new_table (d_tables d')) b) = Some b)); [by left|by right]).
  destruct o as [now|a now|a now j|a r now|a now j|a now|a|a now j|a now|b dur now|b|b now|b|l|rs boot now]; try done; cbn [named_by].
  - destruct (heartbeat_spec c n bs d now HI) as (e & H1 & _ & H3 & H4 & _ & H6 & H7 & _). rewrite Hs in H1. injection H1 as <-.
    split; [rewrite H3; set_solver|]. intros b Hk Hnm. unfold known in Hk. rewrite H4 in Hk. case_decide as Hu; [by destruct Hk|].
    rewrite H6, H7. destruct (Hb2 b Hk); [set_solver|by left|by right].
  - destruct (discovered_spec c n bs d a now HI) as (e & H1 & _ & _ & H4 & H5). rewrite Hs in H1. injection H1 as <-.
    destruct (d_addresses d !! a) as [ad|] eqn:Ha; [subst d'; apply booked_mono with nm; [set_solver|done]|].
    split; [rewrite H4; set_solver|]. intros b Hk Hnm. unfold known in Hk. destruct H5 as [(E1 & E2 & _)|(q & Q1 & Q2 & Q3 & Q4 & _)].
    + rewrite E1 in Hk. rewrite (proj1 (E2 b)), (proj2 (E2 b)). apply Hb2; [done|set_solver].
    + rewrite Q3, Q2. rewrite Q4 in Hk. destruct (decide (b = a)) as [->|Hba]; [left; by left|]. destruct (decide (q = Some b /\ b ∉ d_reserved d)) as [|Hq]; [by destruct Hk|].
      destruct (Hb2 b Hk) as [Hi|Hi]; [set_solver| |by right]. left. right. split; [done|]. intros ->. apply Hq. split; [done|]. set_solver.
  - destruct Hg as [G1 G2]. destruct (change_step c n bs d a ToConnectionFailed now j HI G1 G2 Hn I) as (ad & H1 & _). cbn [step] in Hs. rewrite H1 in Hs. injection Hs as <-. by apply booked_set.
  - destruct (connected_spec c n bs d a r now HI Hg Hn) as (e & ad & p & q & H1 & _ & _ & H4 & _ & Hp & Hq & H7 & H8 & H9 & _). rewrite Hs in H1. injection H1 as <-.
    split; [rewrite H4; set_solver|]. intros b Hk Hnm. unfold known in Hk. rewrite H9 in Hk.
    destruct (decide (q = Some b /\ b ∉ d_reserved d)) as [|Hqb]; [by destruct Hk|].
    assert (Hba : b <> a) by set_solver. rewrite decide_False in Hk by done. rewrite H7, H8.
    destruct (Hb2 b Hk) as [Hi|Hi]; [set_solver| |].
    + left. right. split_and!; try done. intros ->. apply Hqb. split; [done|set_solver].
    + destruct (decide (p = Some b)); [left; by left|right; by right].
  - destruct Hg as [G1 G2]. destruct (change_step c n bs d a ToDisconnected now j HI G1 G2 Hn I) as (ad & H1 & _). cbn [step] in Hs. rewrite H1 in Hs. injection Hs as <-. by apply booked_set.
  - destruct (change_step c n bs d a ToHadActivity now no_jitter HI Hg jitter_none Hn I) as (ad & H1 & _). cbn [step] in Hs. rewrite H1 in Hs. injection Hs as <-. by apply booked_set.
  - destruct (remove_address_spec c n bs d a HI) as (e & H1 & _ & _ & H4 & H5 & _ & H7 & H8). rewrite Hs in H1. injection H1 as <-.
    split; [rewrite H4; set_solver|]. intros b Hk Hnm. unfold known in Hk. rewrite H5 in Hk.
    destruct (decide (b = a /\ a ∉ d_reserved d)) as [|Hba]; [by destruct Hk|]. rewrite H7, H8.
    assert (b <> a) by (intros ->; apply Hba; split; [done|set_solver]). destruct (Hb2 b Hk); [set_solver|by left|by right].
  - destruct Hg as [G1 G2]. destruct (change_state_spec c n bs d a ToSetReserved now j HI G1 G2 Hn) as (ad & _ & H1 & _). cbn [step] in Hs. rewrite H1 in Hs. cbn [rbind] in Hs. injection Hs as <-.
    destruct (booked_set nm d a ad Hb) as [X1 X2]. split; [cbn in *; set_solver|done].
  - destruct (change_state_spec c n bs d a ToUnsetReserved now no_jitter HI Hg jitter_none Hn) as (ad & _ & H1 & _). cbn [step] in Hs. rewrite H1 in Hs. cbn [rbind] in Hs. injection Hs as <-.
    destruct (booked_set nm d a ad Hb) as [X1 X2]. split; [cbn in *; set_solver|done].
  - cbn [step] in Hs. injection Hs as <-. apply booked_mono with nm; [set_solver|]. by apply booked_same with d.
  - cbn [step] in Hs. injection Hs as <-. apply booked_mono with nm; [set_solver|]. by apply booked_same with d.
  - cbn [step] in Hs. injection Hs as <-. apply booked_mono with nm; [set_solver|]. by apply booked_same with d.
  - cbn [step] in Hs. injection Hs as <-. apply booked_mono with nm; [set_solver|]. by apply booked_same with d.
  - cbn [step] in Hs. case_decide; injection Hs as <-; (apply booked_mono with nm; [set_solver|]); [done|]. by apply booked_same with d.
Qed.

Lemma history_booked c reserved boot now l d : history c reserved boot now l d -> Forall (fun o => is_restart o = false) l -> booked (named reserved boot l) d.
Proof.
  intros Hh Hl. revert l d Hh Hl. apply (history_ind' c reserved boot now (fun l d => Forall (fun o => is_restart o = false) l -> booked (named reserved boot l) d)).
  - intros d _ _ _ Hr Ha _. unfold named. cbn. split; [rewrite Hr; set_solver|]. intros a Hk Hn. unfold known in Hk. rewrite Ha in Hk. unfold loaded in Hk. cbn in Hk.
    rewrite lookup_empty in Hk. rewrite !decide_False in Hk by set_solver. by destruct Hk.
  - intros l o d d' _ HI Hn Hg Hs _ IH Hl. apply Forall_app in Hl as [Hl Ho]. rewrite Forall_singleton in Ho. rewrite named_snoc. by apply (booked_step _ _ _ _ _ _ _ HI Hg Hn Ho Hs), IH.
Qed.

(** Splitting a list of addresses over the two tables. *)
Lemma split_tables d (L : list N) : (forall a, a ∈ L -> inn (d_tables d) a \/ itr (d_tables d) a) -> NoDup L ->
  exists L1 L2, length L = length L1 + length L2 /\ NoDup L1 /\ NoDup L2 /\ (forall a, a ∈ L1 -> a ∈ L /\ inn (d_tables d) a) /\ (forall a, a ∈ L2 -> a ∈ L /\ itr (d_tables d) a).
Proof.
  induction L as [|a L IH]; intros HL HN.
  - exists [], []. split_and!; [done|constructor|constructor|intros a; by rewrite elem_of_nil..].
  - apply NoDup_cons in HN as [Ha HN]. destruct IH as (L1 & L2 & H1 & H2 & H3 & H4 & H5); [intros b Hb; apply HL; by right|done|].
    destruct (HL a (elem_of_list_here _ _)) as [Hi|Hi].
    + exists (a :: L1), L2. split_and!; try done; [cbn; lia|apply NoDup_cons; split; [intros Hx; by apply H4 in Hx as []|done]| |].
      * intros b Hb. apply elem_of_cons in Hb as [->|Hb]; [split; [by left|done]|]. destruct (H4 b Hb). split; [by right|done].
      * intros b Hb. destruct (H5 b Hb). split; [by right|done].
    + exists L1, (a :: L2). split_and!; try done; [cbn; lia|apply NoDup_cons; split; [intros Hx; by apply H5 in Hx as []|done]| |].
      * intros b Hb. destruct (H4 b Hb). split; [by right|done].
      * intros b Hb. apply elem_of_cons in Hb as [->|Hb]; [split; [by left|done]|]. destruct (H5 b Hb). split; [by right|done].
Qed.

Lemma tables_count c n bs d L : inv c n bs d -> NoDup L -> (forall a, a ∈ L -> inn (d_tables d) a \/ itr (d_tables d) a) ->
  length L <= N.to_nat ((c_new_rows c + c_tried_rows c) * c_cols c).
Proof.
  intros HI HN HL. destruct (split_tables d L HL HN) as (L1 & L2 & H1 & H2 & H3 & H4 & H5).
  destruct (i_tables _ _ _ _ HI) as [T1 T2 T3 T4].
  pose proof (table_count _ L1 T1 H2 (fun a Ha => proj2 (H4 a Ha))) as C1. pose proof (table_count _ L2 T2 H3 (fun a Ha => proj2 (H5 a Ha))) as C2.
  injection T3 as _ E1 E2 _. injection T4 as _ E3 E4 _. rewrite E1, E2 in C1. rewrite E3, E4 in C2. rewrite H1. clear - C1 C2. nia.
Qed.
Lemma tables_group_count c n bs d L g : inv c n bs d -> NoDup L -> (forall a, a ∈ L -> inn (d_tables d) a \/ itr (d_tables d) a) ->
  (forall a, a ∈ L -> group_of (c_hash_new c) a = g /\ group_of (c_hash_tried c) a = g) ->
  length L <= N.to_nat (2 * BUCKETS_PER_GROUP * c_cols c).
Proof.
  intros HI HN HL HG. destruct (split_tables d L HL HN) as (L1 & L2 & H1 & H2 & H3 & H4 & H5).
  destruct (i_tables _ _ _ _ HI) as [T1 T2 T3 T4]. injection T3 as E0 E1 E2 _. injection T4 as E3 E4 E5 _.
  assert (C1 : length L1 <= N.to_nat (BUCKETS_PER_GROUP * t_cols (new_table (d_tables d)))).
  { apply table_group_count with g; try done. intros a Ha. split; [by apply H4|]. rewrite E0. by apply HG, H4. }
  assert (C2 : length L2 <= N.to_nat (BUCKETS_PER_GROUP * t_cols (tried_table (d_tables d)))).
  { apply table_group_count with g; try done. intros a Ha. split; [by apply H5|]. rewrite E3. by apply HG, H5. }
  rewrite E2 in C1. rewrite E5 in C2. rewrite H1. clear - C1 C2. nia.
Qed.

(** * What is forgotten, and when *)
Lemma forgotten c n bs d o d' a : inv c n bs d -> good_op o -> (n < U32_MAX)%N -> is_restart o = false -> step c d o = Ok d' ->
  known d a -> ~ known d' a -> forgotten_by d o a.
Proof.
  intros HI Hg Hn Hr Hs Hk Hnk.
  assert (Hset : forall x ad (e : db), d_addresses e = <[x := ad]> (d_addresses d) -> ~ known e a -> False).
  { intros x ad e He Hx. apply Hx. unfold known. rewrite He. apply lookup_insert_is_Some. destruct (decide (x = a)); [by left|by right]. }
  assert (Hsame : forall e : db, d_addresses e = d_addresses d -> ~ known e a -> False) by (intros e He Hx; apply Hx; unfold known; by rewrite He).
  destruct o as [now|b now|b now j|b r now|b now j|b now|b|b now j|b now|b dur now|b|b now|b|l|rs boot now]; try done.
  - destruct (heartbeat_spec c n bs d now HI) as (e & H1 & _ & H3 & H4 & _). rewrite Hs in H1. injection H1 as <-.
    unfold known in Hnk. rewrite H4 in Hnk. case_decide as Hu; [|done]. apply unretained_in in Hu as (ad & Had & Hret). split; [|exists ad; split; [done|by apply retain_spec]].
    intros Hres. apply (i_reserved _ _ _ _ HI) in Hres as (ad' & Hb' & Hres). rewrite Had in Hb'. injection Hb' as <-.
    apply (i_data _ _ _ _ HI) in Had as [_ Hun]. specialize (Hun Hres). unfold retain in Hret. unfold is_unreachable in Hun. by destruct (ad_state ad).
  - destruct (discovered_spec c n bs d b now HI) as (e & H1 & _ & _ & H4 & H5). rewrite Hs in H1. injection H1 as <-.
    destruct (d_addresses d !! b) as [ad|] eqn:Hb; [by subst d'|]. destruct H5 as [(E1 & _)|(q & Q1 & _ & _ & Q4 & _)].
    + by destruct (Hsame d' E1 Hnk).
    + unfold known in Hnk. rewrite Q4 in Hnk. destruct (decide (a = b)) as [->|Hab]; [destruct Hnk; by eexists|].
      destruct (decide (q = Some a /\ a ∉ d_reserved d)) as [[Hq Har]|]; [|done]. split; [done|].
      destruct (Q1 a Hq) as (Hin & _ & Hcd). split; [done|]. split; [unfold known; by rewrite Hb; intros [? ?]|].
      split; [by apply (in_new_inn _ _ _ _ _ HI)|]. destruct Hk as [ad Had]. exists ad. split; [done|]. unfold can_discard_addr_in_new in Hcd. rewrite Had in Hcd.
      apply orb_true_iff in Hcd as [Hcd|Hcd]; [|done]. destruct Har. apply (i_reserved _ _ _ _ HI). by exists ad.
  - destruct Hg as [G1 G2]. destruct (change_step c n bs d b ToConnectionFailed now j HI G1 G2 Hn I) as (ad & H1 & _). cbn [step] in Hs. rewrite H1 in Hs. injection Hs as <-. exfalso; eapply (Hset b ad); [|exact Hnk]; reflexivity.
  - destruct (connected_spec c n bs d b r now HI Hg Hn) as (e & ad & p & q & H1 & _ & _ & H4 & _ & Hp & Hq & H7 & H8 & H9 & _). rewrite Hs in H1. injection H1 as <-.
    unfold known in Hnk. rewrite H9 in Hnk. destruct (decide (q = Some a /\ a ∉ d_reserved d)) as [[Hqa Har]|].
    + destruct (Hq a Hqa) as (Hin & Hab & _ & Hpx). split; [done|]. split; [done|]. split; [by apply (in_new_inn _ _ _ _ _ HI)|].
      destruct Hpx as [x ->]. exists x. apply (in_tried_itr _ _ _ _ _ HI). by apply (Hp x).
    + case_decide; [destruct Hnk; by eexists|done].
  - destruct Hg as [G1 G2]. destruct (change_step c n bs d b ToDisconnected now j HI G1 G2 Hn I) as (ad & H1 & _). cbn [step] in Hs. rewrite H1 in Hs. injection Hs as <-. exfalso; eapply (Hset b ad); [|exact Hnk]; reflexivity.
  - destruct (change_step c n bs d b ToHadActivity now no_jitter HI Hg jitter_none Hn I) as (ad & H1 & _). cbn [step] in Hs. rewrite H1 in Hs. injection Hs as <-. exfalso; eapply (Hset b ad); [|exact Hnk]; reflexivity.
  - destruct (remove_address_spec c n bs d b HI) as (e & H1 & _ & _ & H4 & H5 & _). rewrite Hs in H1. injection H1 as <-.
    unfold known in Hnk. rewrite H5 in Hnk. destruct (decide (a = b /\ b ∉ d_reserved d)) as [[-> ?]|]; [by split|done].
  - destruct Hg as [G1 G2]. destruct (change_state_spec c n bs d b ToSetReserved now j HI G1 G2 Hn) as (ad & _ & H1 & _). cbn [step] in Hs. rewrite H1 in Hs. cbn [rbind] in Hs. injection Hs as <-. exfalso; eapply (Hset b ad); [|exact Hnk]; reflexivity.
  - destruct (change_state_spec c n bs d b ToUnsetReserved now no_jitter HI Hg jitter_none Hn) as (ad & _ & H1 & _). cbn [step] in Hs. rewrite H1 in Hs. cbn [rbind] in Hs. injection Hs as <-. exfalso; eapply (Hset b ad); [|exact Hnk]; reflexivity.
  - cbn [step] in Hs. injection Hs as <-. done.
  - cbn [step] in Hs. injection Hs as <-. done.
  - cbn [step] in Hs. injection Hs as <-. done.
  - cbn [step] in Hs. injection Hs as <-. done.
  - cbn [step] in Hs. case_decide; injection Hs as <-; done.
Qed.

Lemma history_step c reserved boot now l d o d' : history c reserved boot now l d -> history c reserved boot now (l ++ [o]) d' -> step c d o = Ok d' /\ good_op o.
Proof.
  intros (_ & _ & _ & d0 & Hs & Hr) (_ & Hg & _ & d0' & Hs' & Hr'). rewrite Hs in Hs'. injection Hs' as <-. rewrite run_snoc, Hr in Hr'. cbn in Hr'.
  apply Forall_app in Hg as [_ Hg]. by rewrite Forall_singleton in Hg.
Qed.
Lemma history_length c reserved boot now l d : history c reserved boot now l d -> (N.of_nat (length l) < U32_MAX)%N.
Proof. by intros (_ & _ & ? & _). Qed.

Lemma history_total c reserved boot now l : good_config c -> Forall good_op l -> (N.of_nat (length l) < U32_MAX)%N ->
  exists d, history c reserved boot now l d.
Proof.
  intros Hc Hg Hn. destruct (start_ok c reserved boot now Hc) as (d0 & Hs & HI & _). destruct (run_inv c 0 boot l d0 HI Hc Hg Hn) as (d & Hr & _).
  exists d. split_and!; try done. by exists d0.
Qed.

(** * Restarts *)
Lemma restart_facts c n bs d r b t : inv c n bs d -> good_config c ->
  exists d', step c d (Restart r b t) = Ok d' /\
    (forall a, in_tables d a -> a ∉ bs -> known d' a) /\
    (forall a, in_tried d a -> exists res, d_addresses d' !! a = Some (addr_data_new true res t)) /\
    (forall a, known d' a -> known d a \/ a ∈ r \/ a ∈ b).
Proof.
  intros HI Hc. cbn [step]. destruct (load_spec c (d_store d) r b t Hc) as (d' & H1 & _ & _ & _ & _ & H2). exists d'. split; [done|]. split_and!.
  - intros a Ha Hb. unfold known. rewrite H2. unfold loaded.
    assert (Hk : is_Some (s_known (d_store d) !! a)).
    { destruct Ha as [Ha|Ha].
      - apply (in_new_inn _ _ _ _ _ HI), (i_new _ _ _ _ HI) in Ha as [_ [-> |[? _]]]; [by eexists|done].
      - apply (in_tried_itr _ _ _ _ _ HI), (i_tried _ _ _ _ HI) in Ha as [_ ->]. by eexists. }
    destruct Hk as [k ->]. by eexists.
  - intros a Ha. apply (in_tried_itr _ _ _ _ _ HI), (i_tried _ _ _ _ HI) in Ha as [_ Ha]. rewrite H2. unfold loaded. rewrite Ha. by eexists.
  - intros a. unfold known. rewrite H2. unfold loaded. destruct (s_known (d_store d) !! a) eqn:E; [intros _; left; apply (i_store _ _ _ _ HI); by eexists|].
    case_decide; [intros _; right; by left|]. case_decide; [intros _; right; by right|by intros [? ?]].
Qed.

(** * Failures in a row *)
Lemma failed_step c n bs d a now j ad : inv c n bs d -> good_time now -> good_jitter j -> (n < U32_MAX)%N -> d_addresses d !! a = Some ad ->
  exists d' ad', step c d (Failed a now j) = Ok d' /\ inv c (n + 1) bs d' /\ d_addresses d' !! a = Some ad' /\
    transition_to ad ToConnectionFailed now j = Ok ad'.
Proof.
  intros HI Ht Hj Hn Ha. destruct (change_step c n bs d a ToConnectionFailed now j HI Ht Hj Hn I) as (ad' & H1 & H2 & H3). rewrite Ha in H2. cbn in H2.
  eexists _, ad'. split; [exact H1|]. split_and!; try done. cbn. by rewrite lookup_insert.
Qed.

Lemma failed_state ad now j n w f x : good_time now -> good_jitter j -> (n < U32_MAX)%N -> ad_counts ad n -> ad_state ad = SDisconnected w f x ->
  transition_to ad ToConnectionFailed now j = Ok (AddrData
    (if ad_reserved ad || (w && (f + 1 <? 672)%N) then SDisconnected w (f + 1) (now + j (next_connect_delay (N.max (f + 1) (ad_no_activity ad)) (ad_reserved ad)))
     else SUnreachable (if w then now else now + 3600 * SECOND)) (ad_reserved ad) (ad_no_activity ad)).
Proof.
  intros Ht Hj Hn [_ Hc] Hst. unfold transition_to. rewrite Hst in *. rewrite (incr_ok f n) by done. cbn [rbind].
  destruct (ad_reserved ad) eqn:Hr; cbn [orb].
  - rewrite next_time_ok by done. done.
  - destruct w; cbn [negb andb].
    + unfold PURGE_REACHABLE_FAIL_COUNT. destruct (N.leb_spec 672 (f + 1)), (N.ltb_spec (f + 1) 672); try lia; [done|]. rewrite next_time_ok by done. done.
    + unfold checked_add. rewrite (proj2 (N.leb_le _ _)); [done|]. unfold good_time, PURGE_UNREACHABLE_TIME, SECOND in *. lia.
Qed.

Lemma unreachable_run c bs a : forall ts n d ad, inv c n bs d -> Forall (fun p => good_time p.1 /\ good_jitter p.2) ts -> (n + N.of_nat (length ts) < U32_MAX)%N ->
  d_addresses d !! a = Some ad -> is_unreachable ad = true ->
  exists d', run c d (failures a ts) = Ok d' /\ d_addresses d' !! a = Some ad.
Proof.
  induction ts as [|[t j] ts IH]; intros n d ad HI Hg Hn Ha Hu; [by exists d|].
  apply Forall_cons in Hg as [[Ht Hj] Hg]. cbn [length fst snd] in *.
  destruct (failed_step c n bs d a t j ad HI Ht Hj ltac:(lia) Ha) as (d1 & ad1 & H1 & H2 & H3 & H4).
  assert (ad1 = ad) as ->. { unfold transition_to in H4. unfold is_unreachable in Hu. destruct (ad_state ad); try done. by injection H4 as <-. }
  unfold run, failures. cbn [map rfold fst snd]. rewrite H1. apply (IH (n + 1)%N); try done. lia.
Qed.

Lemma failures_run c bs a w : forall ts n d f x ad, inv c n bs d -> Forall (fun p => good_time p.1 /\ good_jitter p.2) ts -> (n + N.of_nat (length ts) < U32_MAX)%N ->
  d_addresses d !! a = Some ad -> ad_state ad = SDisconnected w f x ->
  exists d' ad', run c d (failures a ts) = Ok d' /\ d_addresses d' !! a = Some ad' /\ ad_reserved ad' = ad_reserved ad /\ ad_no_activity ad' = ad_no_activity ad /\
    (if ad_reserved ad || bool_decide (length ts = 0) || (w && (f + N.of_nat (length ts) <? 672)%N)
     then exists x', ad_state ad' = SDisconnected w (f + N.of_nat (length ts)) x' /\
       forall t j ts', ts = ts' ++ [(t, j)] -> x' = (t + j (next_connect_delay (N.max (f + N.of_nat (length ts)) (ad_no_activity ad)) (ad_reserved ad)))%N
     else is_unreachable ad' = true).
Proof.
  induction ts as [|[t j] ts IH]; intros n d f x ad HI Hg Hn Ha Hst.
  - exists d, ad. cbn. rewrite orb_true_r. cbn. split_and!; try done. exists x. rewrite N.add_0_r. split; [done|]. intros t j ts' He. by destruct ts'.
  - apply Forall_cons in Hg as [[Ht Hj] Hg]. cbn [length fst snd] in *.
    destruct (failed_step c n bs d a t j ad HI Ht Hj ltac:(lia) Ha) as (d1 & ad1 & H1 & H2 & H3 & H4).
    rewrite (failed_state ad t j n w f x Ht Hj ltac:(lia) (proj1 (i_data _ _ _ _ HI a ad Ha)) Hst) in H4. injection H4 as <-.
    unfold run, failures. cbn [map rfold fst snd]. rewrite H1. fold (failures a ts). fold (run c d1 (failures a ts)).
    rewrite (bool_decide_false (S (length ts) = 0)) by done. rewrite orb_false_r.
    destruct (ad_reserved ad || (w && (f + 1 <? 672)%N)) eqn:Hcase.
    + destruct (IH (n + 1)%N d1 (f + 1)%N _ _ H2 Hg ltac:(lia) H3 eq_refl) as (d' & ad' & G1 & G2 & G3 & G4 & G5). cbn [ad_reserved ad_no_activity] in *.
      exists d', ad'. split_and!; try done. replace (f + N.of_nat (S (length ts)))%N with (f + 1 + N.of_nat (length ts))%N by lia.
      destruct (bool_decide (length ts = 0)) eqn:H0.
      * apply bool_decide_eq_true in H0. destruct ts; [|done]. cbn in *. rewrite N.add_0_r in *. rewrite Hcase. rewrite orb_true_r in G5. cbn in G5.
        destruct G5 as (x' & Hx' & _). exists x'. split; [done|]. injection G1 as <-. rewrite H3 in G2. injection G2 as <-. cbn in Hx'. injection Hx' as <-.
        intros t' j' ts' He. destruct ts' as [|? [|? ?]]; try done. by injection He as <- <-.
      * rewrite orb_false_r in G5. destruct (ad_reserved ad || (w && (f + 1 + N.of_nat (length ts) <? 672)%N)); [|done].
        destruct G5 as (x' & Hx' & Hl). exists x'. split; [done|]. intros t' j' ts' He. apply bool_decide_eq_false in H0.
        destruct ts' as [|y ts']; [destruct ts; [done|by destruct ts]|]. injection He as _ He. by apply (Hl t' j' ts').
    + destruct (unreachable_run c bs a ts (n + 1)%N d1 _ H2 Hg ltac:(lia) H3) as (d' & G1 & G2); [done|].
      eexists d', _. split; [exact G1|]. split; [exact G2|]. cbn [ad_reserved ad_no_activity]. split_and!; try done.
      apply orb_false_iff in Hcase as [-> Hcase]. cbn [orb]. destruct w; cbn [andb] in *; [|done].
      apply N.ltb_ge in Hcase. destruct (N.ltb_spec (f + N.of_nat (S (length ts))) 672); [lia|done].
Qed.
