From Verif Require Import Base PeerTableModel PeerTableProofs PeerDbModel PeerDbSpec PeerDbProofs.

Definition ban_effect (b : N) (cur : option N) (o : op) : option N :=
  match o with
  | Ban b' dur now => if decide (b' = b) then Some (N.min DURATION_MAX (now + dur)) else cur
  | Unban b' => if decide (b' = b) then None else cur
  | Heartbeat now => expire now cur
  | _ => cur
  end.
Definition discourage_effect (c : config) (b : N) (cur : option N) (o : op) : option N :=
  match o with
  | Discourage b' now => if decide (b' = b) then Some (N.min DURATION_MAX (now + c_discouragement c)) else cur
  | Undiscourage b' => if decide (b' = b) then None else cur
  | Heartbeat now => expire now cur
  | _ => cur
  end.
Notation anchors_after := anchors_of (only parsing).

Record step_facts (c : config) (n : N) (bs : gset N) (d d' : db) (o : op) : Prop := StepFacts {
  sf_inv : inv c (n + 1) (boot_after bs o) d';
  sf_reserved : d_reserved d' = reserved_after (d_reserved d) o;
  sf_banned : forall b, d_banned d' !! b = ban_effect b (d_banned d !! b) o;
  sf_discouraged : forall b, d_discouraged d' !! b = discourage_effect c b (d_discouraged d !! b) o;
  sf_anchors : d_anchors d' = anchors_after (d_anchors d) o;
  sf_commits : if is_restart o then d_store d' = d_store d /\ d_commits d' = [d_store d]
               else exists cs, d_commits d' = cs ++ d_commits d /\ forall s, s ∈ cs -> between d d' s }.

Lemma same_bans_between d d' : same_bans d d' -> exists cs, d_commits d' = cs ++ d_commits d /\ forall s, s ∈ cs -> between d d' s.
Proof.
  intros (_ & _ & _ & _ & cs & H1 & H2). exists cs. split; [done|]. intros s Hs b. specialize (H2 s Hs). unfold bans in H2. injection H2 as -> -> ->.
  by split_and!; left.
Qed.
Lemma same_bans_facts c n bs d d' o : inv c (n + 1) bs d' -> same_bans d d' -> boot_after bs o = bs -> d_reserved d' = reserved_after (d_reserved d) o ->
  (forall b x, ban_effect b x o = x) -> (forall b x, discourage_effect c b x o = x) -> anchors_after (d_anchors d) o = d_anchors d -> is_restart o = false ->
  step_facts c n bs d d' o.
Proof.
  intros HI Hs Hb Hr H1 H2 H3 H4. pose proof (same_bans_between _ _ Hs) as Hc. destruct Hs as (S1 & S2 & S3 & _). split.
  - by rewrite Hb.
  - done.
  - intros b. by rewrite H1, S1.
  - intros b. by rewrite H2, S2.
  - by rewrite H3.
  - by rewrite H4.
Qed.

(** A call of [change_address_state] alone. *)
Lemma change_step c n bs d a tr now j : inv c n bs d -> good_time now -> good_jitter j -> (n < U32_MAX)%N ->
  match tr with ToSetReserved | ToUnsetReserved => False | _ => True end ->
  exists ad, change_address_state d a tr now j = Ok (set_addresses d (<[a := ad]> (d_addresses d))) /\
    transition_to (default (addr_data_new false false now) (d_addresses d !! a)) tr now j = Ok ad /\
    inv c (n + 1) bs (set_addresses d (<[a := ad]> (d_addresses d))).
Proof.
  intros HI Ht Hj Hn Htr. destruct (change_state_spec c n bs d a tr now j HI Ht Hj Hn) as (ad & H1 & H2 & H3 & H4 & H5). exists ad. split_and!; try done.
  apply set_addresses_inv; try done. rewrite H5. destruct tr; try done; apply bool_decide_eq_true.
Qed.

(** A change of the reserved nodes. *)
Lemma reserved_inv c n bs d a ad R : inv c n bs d -> ad_counts ad (n + 1) -> (ad_reserved ad = true -> is_unreachable ad = false) ->
  (ad_reserved ad = true <-> a ∈ R) -> (forall b, b <> a -> b ∈ R <-> b ∈ d_reserved d) ->
  inv c (n + 1) bs (set_reserved (set_addresses d (<[a := ad]> (d_addresses d))) R).
Proof.
  intros HI Hc Hu Hr HR. apply inv_mono with (m := (n + 1)%N) (bs' := bs) in HI; [|lia|done]. destruct HI as [H1 H2 H3 H4 H5 H6 H7 H8 H9].
  assert (Hs : forall b, is_Some (d_addresses d !! b) -> is_Some (<[a := ad]> (d_addresses d) !! b)).
  { intros b Hb. apply lookup_insert_is_Some. destruct (decide (a = b)); [by left|by right]. }
  split; cbn; try done.
  - intros b Hb. destruct (H2 b Hb) as [Hk Hs']. split; [by apply Hs|done].
  - intros b Hb. destruct (H3 b Hb) as [Hk Hs']. split; [by apply Hs|done].
  - intros b Hb. apply Hs. by apply H4.
  - intros b. destruct (decide (a = b)) as [<-|Hne].
    + setoid_rewrite lookup_insert. rewrite <- Hr. split; [intros Hx; by exists ad|by intros (ad' & [= ->] & ?)].
    + setoid_rewrite lookup_insert_ne; [|done]. rewrite HR by done. apply H5.
  - intros b ad'. rewrite lookup_insert_Some. intros [[<- <-]|[_ Hb]]; [done|by apply (H6 b)].
Qed.

Lemma remove_address_spec c n bs d a : inv c n bs d ->
  exists d', step c d (RemoveAddress a) = Ok d' /\ inv c n bs d' /\ same_bans d d' /\ d_reserved d' = d_reserved d /\
    (forall b, d_addresses d' !! b = if decide (b = a /\ a ∉ d_reserved d) then None else d_addresses d !! b) /\
    (forall b, s_known (d_store d') !! b = if decide (b = a) then None else s_known (d_store d) !! b) /\
    (forall b, inn (d_tables d') b <-> inn (d_tables d) b /\ b <> a) /\ (forall b, itr (d_tables d') b <-> itr (d_tables d) b /\ b <> a).
Proof.
  intros HI. cbn [step]. set (d1 := if decide (a ∈ d_reserved d) then d else set_addresses d (delete a (d_addresses d))).
  assert (Ht1 : d_tables d1 = d_tables d) by (subst d1; by case_decide).
  assert (Hr1 : d_reserved d1 = d_reserved d) by (subst d1; by case_decide).
  assert (Hst1 : d_store d1 = d_store d) by (subst d1; by case_decide).
  assert (Ha1 : forall b, d_addresses d1 !! b = if decide (b = a /\ a ∉ d_reserved d) then None else d_addresses d !! b).
  { intros b. subst d1. destruct (decide (a ∈ d_reserved d)) as [Hr|Hr].
    - rewrite decide_False by (by intros []). done.
    - cbn. destruct (decide (b = a)) as [->|Hne].
      + rewrite decide_True by done. apply lookup_delete.
      + rewrite decide_False by (by intros []). by apply lookup_delete_ne. }
  assert (Hsb : same_bans d d1) by (subst d1; case_decide; [apply same_bans_refl|apply set_addresses_same]).
  destruct (tables_remove_ok c (d_tables d1) a) as (ts & Hrm & Hok & Hm); [rewrite Ht1; apply HI|]. rewrite Hrm. cbn [rbind].
  rewrite Ht1 in Hm.
  assert (Hk : forall b, delete a (s_known (d_store d1)) !! b = if decide (b = a) then None else s_known (d_store d) !! b).
  { intros b. rewrite Hst1. destruct (decide (b = a)) as [->|]; [apply lookup_delete|by apply lookup_delete_ne]. }
  eexists. split; [reflexivity|]. split_and!.
  - destruct HI as [H1 H2 H3 H4 H5 H6 H7 H8 H9]. destruct Hsb as (S1 & S2 & S3 & S4 & _). unfold bans in S4. injection S4 as S41 S42 S43.
    split; cbn; try done; try congruence.
    + intros b Hb. apply Hm in Hb as [Hb Hba]. rewrite Ha1, Hk, !decide_False by (try done; by intros []). by apply H2.
    + intros b Hb. apply Hm in Hb as [Hb Hba]. rewrite Ha1, Hk, !decide_False by (try done; by intros []). by apply H3.
    + intros b. rewrite Ha1, Hk. destruct (decide (b = a)) as [->|Hne]; [by intros [? ?]|]. rewrite decide_False by (by intros []). apply H4.
    + intros b. rewrite Ha1, Hr1. destruct (decide (b = a /\ a ∉ d_reserved d)) as [[-> Hna]|]; [|apply H5]. split; [done|]. by intros (ad & ? & _).
    + intros b ad. rewrite Ha1. destruct (decide (b = a /\ a ∉ d_reserved d)); [done|apply H6].
  - eapply same_bans_trans; [exact Hsb|]. eapply same_bans_trans; [|apply update_known_same]. apply set_tables_same.
  - done.
  - done.
  - done.
  - intros b. apply Hm.
  - intros b. apply Hm.
Qed.

Lemma one_commit d f : exists cs, d_commits (update_db d f) = cs ++ d_commits d /\ forall s, s ∈ cs -> s = f (d_store d).
Proof. exists [f (d_store d)]. split; [done|]. intros s Hs. by apply elem_of_list_singleton in Hs. Qed.

Lemma step_ok c n bs d o : inv c n bs d -> good_config c -> good_op o -> (n < U32_MAX)%N ->
  exists d', step c d o = Ok d' /\ step_facts c n bs d d' o.
Proof.
  intros HI Hc Hg Hn.
  assert (Hmono : forall d', inv c n bs d' -> inv c (n + 1) bs d') by (intros d' HI'; apply inv_mono with n bs; [lia|done|done]).
  destruct o as [now|a now|a now j|a r now|a now j|a now|a|a now j|a now|b dur now|b|b now|b|l|rs boot now].
  - destruct (heartbeat_spec c n bs d now HI) as (d' & H1 & H2 & H3 & _ & _ & _ & _ & H8 & H9 & H10 & H11). exists d'. split; [done|].
    split; try done. by apply Hmono.
  - destruct (discovered_spec c n bs d a now HI) as (d' & H1 & H2 & H3 & H4 & _). exists d'. split; [done|]. apply same_bans_facts; try done. by apply Hmono.
  - destruct Hg as [Hg1 Hg2]. destruct (change_step c n bs d a ToConnectionFailed now j HI Hg1 Hg2 Hn I) as (ad & H1 & H2 & H3).
    cbn [step]. rewrite H1. eexists. split; [done|]. apply same_bans_facts; try done. apply set_addresses_same.
  - destruct (connected_spec c n bs d a r now HI Hg Hn) as (d' & ad & p & q & H1 & H2 & H3 & H4 & _). exists d'. split; [done|].
    by apply same_bans_facts.
  - destruct Hg as [Hg1 Hg2]. destruct (change_step c n bs d a ToDisconnected now j HI Hg1 Hg2 Hn I) as (ad & H1 & H2 & H3).
    cbn [step]. rewrite H1. eexists. split; [done|]. apply same_bans_facts; try done. apply set_addresses_same.
  - destruct (change_step c n bs d a ToHadActivity now no_jitter HI Hg jitter_none Hn I) as (ad & H1 & H2 & H3).
    cbn [step]. rewrite H1. eexists. split; [done|]. apply same_bans_facts; try done. apply set_addresses_same.
  - destruct (remove_address_spec c n bs d a HI) as (d' & H1 & H2 & H3 & H4 & _). exists d'. split; [done|]. apply same_bans_facts; try done. by apply Hmono.
  - destruct Hg as [Hg1 Hg2]. destruct (change_state_spec c n bs d a ToSetReserved now j HI Hg1 Hg2 Hn) as (ad & H1 & H2 & H3 & H4 & H5).
    cbn [step]. rewrite H2. cbn [rbind]. eexists. split; [done|]. apply same_bans_facts; try done; [|apply set_addresses_same].
    apply reserved_inv; try done.
    + rewrite H5. set_solver.
    + set_solver.
  - destruct (change_state_spec c n bs d a ToUnsetReserved now no_jitter HI Hg jitter_none Hn) as (ad & H1 & H2 & H3 & H4 & H5).
    cbn [step]. rewrite H2. cbn [rbind]. eexists. split; [done|]. apply same_bans_facts; try done; [|apply set_addresses_same].
    apply reserved_inv; try done.
    + rewrite H5. set_solver.
    + set_solver.
  - cbn [step]. eexists. split; [done|]. split; try done.
    + apply Hmono. destruct HI as [H1 H2 H3 H4 H5 H6 H7 H8 H9]. split; try done. cbn. by rewrite H7.
    + intros b'. cbn. destruct (decide (b = b')) as [->|]; [by rewrite lookup_insert|by rewrite lookup_insert_ne].
    + cbn. eexists [_]. split; [reflexivity|]. intros s Hs. apply elem_of_list_singleton in Hs as ->. intros b'. cbn. split_and!; by (left + right).
  - cbn [step]. eexists. split; [done|]. split; try done.
    + apply Hmono. destruct HI as [H1 H2 H3 H4 H5 H6 H7 H8 H9]. split; try done. cbn. by rewrite H7.
    + intros b'. cbn. destruct (decide (b = b')) as [->|]; [by rewrite lookup_delete|by rewrite lookup_delete_ne].
    + cbn. eexists [_]. split; [reflexivity|]. intros s Hs. apply elem_of_list_singleton in Hs as ->. intros b'. cbn. split_and!; by (left + right).
  - cbn [step]. eexists. split; [done|]. split; try done.
    + apply Hmono. destruct HI as [H1 H2 H3 H4 H5 H6 H7 H8 H9]. split; try done. cbn. by rewrite H8.
    + intros b'. cbn. destruct (decide (b = b')) as [->|]; [by rewrite lookup_insert|by rewrite lookup_insert_ne].
    + cbn. eexists [_]. split; [reflexivity|]. intros s Hs. apply elem_of_list_singleton in Hs as ->. intros b'. cbn. split_and!; by (left + right).
  - cbn [step]. eexists. split; [done|]. split; try done.
    + apply Hmono. destruct HI as [H1 H2 H3 H4 H5 H6 H7 H8 H9]. split; try done. cbn. by rewrite H8.
    + intros b'. cbn. destruct (decide (b = b')) as [->|]; [by rewrite lookup_delete|by rewrite lookup_delete_ne].
    + cbn. eexists [_]. split; [reflexivity|]. intros s Hs. apply elem_of_list_singleton in Hs as ->. intros b'. cbn. split_and!; by (left + right).
  - cbn [step]. destruct (decide (d_anchors d = l)) as [Hl|Hl].
    + exists d. split; [done|]. split; try done; [by apply Hmono|]. cbn. exists []. split; [done|]. intros s. by rewrite elem_of_nil.
    + eexists. split; [done|]. split; try done.
      * apply Hmono. destruct HI as [H1 H2 H3 H4 H5 H6 H7 H8 H9]. split; try done. cbn. rewrite <- H9.
        apply set_eq. intros x. rewrite elem_of_union, !elem_of_difference. destruct (decide (x ∈ l)), (decide (x ∈ d_anchors d)); tauto.
      * cbn. eexists [_]. split; [reflexivity|]. intros s Hs. apply elem_of_list_singleton in Hs as ->. intros b'. cbn. split_and!; by (left + right).
  - cbn [step]. destruct (load_spec c (d_store d) rs boot now Hc) as (d' & H1 & H2 & H3 & H4 & H5 & H6). exists d'. split; [done|]. split; try done.
    + cbn. apply inv_mono with 0%N boot; [lia|set_solver|done].
    + intros b. cbn. rewrite (i_banned _ _ _ _ H2), (i_banned _ _ _ _ HI), H3. done.
    + intros b. cbn. rewrite (i_discouraged _ _ _ _ H2), (i_discouraged _ _ _ _ HI), H3. done.
    + cbn. rewrite (i_anchors _ _ _ _ H2), (i_anchors _ _ _ _ HI), H3. done.
Qed.

(** * Histories *)
Lemma run_snoc c d l o : run c d (l ++ [o]) = rbind (run c d l) (fun d' => step c d' o).
Proof.
  unfold run. revert d. induction l as [|x l IH]; intros d; cbn [rfold app].
  - cbn. by destruct (step c d o).
  - destruct (step c d x); cbn; [apply IH|done|done].
Qed.

Lemma run_inv c n bs l : forall d, inv c n bs d -> good_config c -> Forall good_op l -> (n + N.of_nat (length l) < U32_MAX)%N ->
  exists d', run c d l = Ok d' /\ inv c (n + N.of_nat (length l)) (foldl boot_after bs l) d'.
Proof.
  revert n bs. induction l as [|o l IH]; intros n bs d HI Hc Hg Hn.
  - exists d. cbn. split; [done|]. by rewrite N.add_0_r.
  - apply Forall_cons in Hg as [Ho Hl]. cbn [length] in *. destruct (step_ok c n bs d o HI Hc Ho ltac:(lia)) as (d1 & H1 & H2).
    destruct (IH (n + 1)%N _ d1 (sf_inv _ _ _ _ _ _ H2) Hc Hl ltac:(lia)) as (d' & H3 & H4). exists d'. unfold run in *. cbn [rfold foldl]. rewrite H1.
    split; [done|]. by replace (n + N.of_nat (S (length l)))%N with (n + 1 + N.of_nat (length l))%N by lia.
Qed.

Lemma start_ok c reserved boot now : good_config c -> exists d, start c reserved boot now = Ok d /\ inv c 0 boot d /\ d_store d = empty_store /\
  d_reserved d = reserved /\ forall a, d_addresses d !! a = loaded empty_store reserved boot now a.
Proof. intros Hc. destruct (load_spec c empty_store reserved boot now Hc) as (d & H1 & H2 & H3 & _ & H4 & H5). by exists d. Qed.

(** What holds of every history: an induction on the calls. *)
Lemma history_ind' c reserved boot now (P : list op -> db -> Prop) :
  (forall d, start c reserved boot now = Ok d -> inv c 0 boot d -> d_store d = empty_store -> d_reserved d = reserved ->
     (forall a, d_addresses d !! a = loaded empty_store reserved boot now a) -> P [] d) ->
  (forall l o d d', history c reserved boot now l d -> inv c (N.of_nat (length l)) (foldl boot_after boot l) d -> (N.of_nat (length l) < U32_MAX)%N -> good_op o ->
     step c d o = Ok d' -> step_facts c (N.of_nat (length l)) (foldl boot_after boot l) d d' o -> P l d -> P (l ++ [o]) d') ->
  forall l d, history c reserved boot now l d -> inv c (N.of_nat (length l)) (foldl boot_after boot l) d /\ P l d.
Proof.
  intros H0 HS l. induction l as [|o l IH] using rev_ind; intros d (Hc & Hg & Hn & d0 & Hs & Hr).
  - destruct (start_ok c reserved boot now Hc) as (d1 & Hs1 & H1 & H2 & H3 & H4). rewrite Hs in Hs1. injection Hs1 as <-. cbn in Hr. injection Hr as <-.
    cbn. split; [done|]. by apply H0.
  - rewrite app_length in Hn. cbn in Hn. apply Forall_app in Hg as [Hgl Hgo]. rewrite Forall_singleton in Hgo.
    rewrite run_snoc in Hr. destruct (run c d0 l) as [d1| |] eqn:Hr1; [|done|done]. cbn in Hr.
    assert (Hh : history c reserved boot now l d1). { split_and!; try done; [lia|]. by exists d0. }
    destruct (IH d1 Hh) as [HI HP]. destruct (step_ok c _ _ d1 o HI Hc Hgo ltac:(lia)) as (d2 & Hd2 & Hf). rewrite Hr in Hd2. injection Hd2 as <-.
    split; [|apply HS with d1; try done; lia]. rewrite foldl_app, app_length. cbn [foldl length]. 
    replace (N.of_nat (length l + 1)) with (N.of_nat (length l) + 1)%N by lia. apply Hf.
Qed.
Lemma history_inv c reserved boot now l d : history c reserved boot now l d -> inv c (N.of_nat (length l)) (foldl boot_after boot l) d.
Proof. intros H. by apply (history_ind' c reserved boot now (fun _ _ => True)). Qed.
