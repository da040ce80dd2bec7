From Verif Require Import Base PeerTableModel PeerTableProofs PeerDbModel PeerDbSpec.

(** * The two tables as sets of addresses *)

Definition member (t : table) (a : N) : Prop := holds t (bucket_coords t a) = Some a.

Lemma member_remove t a : table_ok t ->
  exists t', remove t a = Ok t' /\ table_ok t' /\ shape_of t' = shape_of t /\ forall b, member t' b <-> member t b /\ b <> a.
Proof.
  intros Hok. destruct (remove_ok t a Hok) as (t' & Hr & Hok' & Hs & Hh). exists t'. split_and!; try done. intros b. unfold member.
  rewrite (coords_shape t' t b Hs), Hh. case_decide as Hd.
  - destruct Hd as [Hc Ha]. rewrite Ha. split; [done|]. intros [Hb Hne]. congruence.
  - split; [|by intros []]. intros Hb. split; [done|]. intros ->. apply Hd. by split.
Qed.

Lemma member_replace t a : table_ok t ->
  exists t' o, replace t a = Ok (t', o) /\ table_ok t' /\ shape_of t' = shape_of t /\
    (forall x, o = Some x -> member t x /\ x <> a) /\ forall b, member t' b <-> b = a \/ (member t b /\ o <> Some b).
Proof.
  intros Hok. destruct (replace_ok t a Hok) as (t' & Hr & Hok' & Hs & Hh). eexists t', _. split; [exact Hr|]. split_and!; try done.
  - intros x Hx. destruct (holds t (bucket_coords t a)) as [y|] eqn:Hy; [|done]. case_decide as Hd; [done|]. injection Hx as <-.
    split; [|done]. unfold member. by rewrite (holds_coords t _ _ Hok Hy).
  - intros b. unfold member. rewrite (coords_shape t' t b Hs), Hh. case_decide as Hd.
    + split.
      * intros [= ->]. by left.
      * intros [ -> |[Hb Hne]]; [done|]. rewrite Hd in Hb. rewrite Hb in Hne. case_decide; congruence.
    + split.
      * intros Hb. right. split; [done|]. intros Ho. destruct (holds t (bucket_coords t a)) as [y|] eqn:Hy; [|done].
        case_decide; [done|]. injection Ho as ->. by rewrite (holds_coords t _ _ Hok Hy) in Hd.
      * intros [ -> |[Hb _]]; [done|exact Hb].
Qed.

Lemma member_replace_if t a f : table_ok t -> ~ member t a ->
  exists t' o, replace_if t a f = Ok (t', o) /\ table_ok t' /\ shape_of t' = shape_of t /\
    ((o = Some a /\ forall b, member t' b <-> member t b) \/
     (o <> Some a /\ (forall x, o = Some x -> member t x /\ f x = true) /\ forall b, member t' b <-> b = a \/ (member t b /\ o <> Some b))).
Proof.
  intros Hok Hna. destruct (replace_if_ok t a f Hok) as (t' & r & Hr & Hok' & Hs & Hh). exists t', r. split_and!; try done.
  destruct (holds t (bucket_coords t a)) as [y|] eqn:Hy.
  - case_decide as Hd; [by subst|]. destruct (f y) eqn:Hf; destruct Hh as [-> Hh].
    + right. assert (Hm : member t y) by (unfold member; by rewrite (holds_coords t _ _ Hok Hy)). split_and!.
      * congruence.
      * by intros x [= ->].
      * intros b. unfold member. rewrite (coords_shape t' t b Hs), Hh. case_decide as Hc.
        -- split; [intros [= ->]; by left|]. intros [ -> |[Hb Hne]]; [done|]. rewrite Hc in Hb. congruence.
        -- split; [intros Hb; right; split; [done|]|by intros [ -> |[]]]. intros [= ->]. by rewrite (holds_coords t _ _ Hok Hy) in Hc.
    + left. split; [done|]. intros b. unfold member. by rewrite (coords_shape t' t b Hs), Hh.
  - destruct Hh as [-> Hh]. right. split_and!; [done..|].
    intros b. unfold member. rewrite (coords_shape t' t b Hs), Hh. case_decide as Hc.
    + split; [intros [= ->]; by left|]. intros [ -> |[Hb _]]; [done|]. congruence.
    + split; [intros Hb; by right|by intros [ -> |[]]].
Qed.

Notation config_ok := good_config (only parsing).

Record tables_ok (c : config) (ts : tables) : Prop := TablesOk {
  to_new : table_ok (new_table ts); to_tried : table_ok (tried_table ts);
  to_new_shape : shape_of (new_table ts) = Shape (c_hash_new c) (c_new_rows c) (c_cols c) U32_MAX;
  to_tried_shape : shape_of (tried_table ts) = Shape (c_hash_tried c) (c_tried_rows c) (c_cols c) U32_MAX }.

Notation inn ts a := (member (new_table ts) a).
Notation itr ts a := (member (tried_table ts) a).

Lemma tables_new_ok c : config_ok c ->
  exists ts, tables_new (c_hash_new c) (c_hash_tried c) (c_new_rows c) (c_tried_rows c) (c_cols c) = Ok ts /\ tables_ok c ts /\
    forall a, ~ inn ts a /\ ~ itr ts a.
Proof.
  intros (H1 & H2 & H3 & H4 & H5). destruct (new_generic_ok (c_hash_new c) _ _ _ H1 H3 H4) as (n & Hn & Hnok & Hns & Hnh).
  destruct (new_generic_ok (c_hash_tried c) _ _ _ H2 H3 H5) as (t & Ht & Htok & Hts & Hth).
  exists (Tables n t). unfold tables_new. rewrite Hn, Ht. cbn. split; [done|]. split; [by split|]. intros a. unfold member. cbn. by rewrite Hnh, Hth.
Qed.

Lemma tables_remove_ok c ts a : tables_ok c ts ->
  exists ts', tables_remove ts a = Ok ts' /\ tables_ok c ts' /\
    forall b, (inn ts' b <-> inn ts b /\ b <> a) /\ (itr ts' b <-> itr ts b /\ b <> a).
Proof.
  intros [Hn Ht Hns Hts]. destruct (member_remove _ a Hn) as (n & Hn' & Hnok & Hns' & Hnm).
  destruct (member_remove _ a Ht) as (t & Ht' & Htok & Hts' & Htm).
  exists (Tables n t). unfold tables_remove. rewrite Hn', Ht'. cbn. split; [done|]. split; [split; cbn; congruence|]. intros b. by rewrite Hnm, Htm.
Qed.

Lemma move_to_tried_ok c ts a : tables_ok c ts -> (forall b, inn ts b -> ~ itr ts b) ->
  exists ts' r, move_to_tried ts a = Ok (ts', r) /\ tables_ok c ts' /\
    let p := fst <$> r in let q := r ≫= snd in
    (forall x, p = Some x -> itr ts x /\ x <> a) /\ (forall x, q = Some x -> inn ts x /\ x <> a /\ p <> Some x /\ is_Some p) /\
    forall b, (itr ts' b <-> b = a \/ (itr ts b /\ p <> Some b)) /\ (inn ts' b <-> p = Some b \/ (inn ts b /\ b <> a /\ q <> Some b)).
Proof.
  intros [Hn Ht Hns Hts] Hdis. destruct (member_remove _ a Hn) as (n & Hn' & Hnok & Hns' & Hnm).
  destruct (member_replace _ a Ht) as (t & o & Ht' & Htok & Hts' & Hto & Htm). unfold move_to_tried. rewrite Hn', Ht'. cbn.
  destruct o as [x|].
  - destruct (Hto x eq_refl) as [Hx Hxa].
    destruct (member_replace _ x Hnok) as (n2 & o2 & Hn2 & Hn2ok & Hn2s & Hn2o & Hn2m). rewrite Hn2. cbn.
    eexists _, _. split; [done|]. split; [split; cbn; congruence|]. cbn. split_and!.
    + intros y [= <-]. done.
    + intros y ->. destruct (Hn2o y eq_refl) as [Hy Hyx]. apply Hnm in Hy as [Hy Hya]. split_and!; [done..| |by eexists]. congruence.
    + intros b. rewrite Htm, Hn2m, Hnm. split; [done|]. split.
      * intros [ -> |[[Hb Hba] Ho]]; [by left|by right].
      * intros [[= ->]|(Hb & Hba & Ho)]; [by left|by right].
  - eexists _, _. split; [done|]. split; [split; cbn; congruence|]. cbn. split_and!; [done..|].
    intros b. rewrite Htm, Hnm. split; [done|]. split; [intros [Hb Hba]; by right|]. intros [Hp|(Hb & Hba & _)]; [done|by split].
Qed.

Lemma move_to_new_ok c ts a f : tables_ok c ts -> ~ inn ts a -> ~ itr ts a ->
  exists ts' o, move_to_new ts a f = Ok (ts', o) /\ tables_ok c ts' /\ (forall b, itr ts' b <-> itr ts b) /\
    match o with
    | Cancelled => forall b, inn ts' b <-> inn ts b
    | Succeeded o => (forall x, o = Some x -> inn ts x /\ x <> a /\ f x = true) /\ forall b, inn ts' b <-> b = a \/ (inn ts b /\ o <> Some b)
    end.
Proof.
  intros [Hn Ht Hns Hts] Hna Hta. destruct (member_remove _ a Ht) as (t & Ht' & Htok & Hts' & Htm).
  destruct (member_replace_if _ a f Hn Hna) as (n & o & Hn' & Hnok & Hns' & Hcase). unfold move_to_new. rewrite Ht', Hn'. cbn.
  eexists _, _. split; [done|]. split; [split; cbn; congruence|]. cbn. split.
  { intros b. rewrite Htm. split; [by intros []|]. intros Hb. split; [done|]. by intros ->. }
  destruct Hcase as [[Ho Hm]|(Ho & Hx & Hm)].
  - rewrite decide_True by done. exact Hm.
  - rewrite decide_False by done. split; [|exact Hm]. intros x ->. destruct (Hx x eq_refl) as [Hx1 Hx2]. split_and!; [done| |done].
    by intros ->.
Qed.

Lemma force_new_ok c ts a : tables_ok c ts ->
  exists ts', force_add_to_new ts a = Ok ts' /\ tables_ok c ts' /\ (forall b, itr ts' b <-> itr ts b) /\ inn ts' a /\
    (forall b, inn ts' b -> b = a \/ inn ts b).
Proof.
  intros [Hn Ht Hns Hts]. destruct (member_replace _ a Hn) as (n & o & Hn' & Hnok & Hns' & Hno & Hnm). unfold force_add_to_new. rewrite Hn'. cbn.
  eexists. split; [done|]. split; [split; cbn; congruence|]. cbn. split_and!; [done|apply Hnm; by left|].
  intros b Hb. apply Hnm in Hb as [|[]]; [by left|by right].
Qed.
Lemma force_tried_ok c ts a : tables_ok c ts ->
  exists ts', force_add_to_tried ts a = Ok ts' /\ tables_ok c ts' /\ (forall b, inn ts' b <-> inn ts b) /\ itr ts' a /\
    (forall b, itr ts' b -> b = a \/ itr ts b).
Proof.
  intros [Hn Ht Hns Hts]. destruct (member_replace _ a Ht) as (t & o & Ht' & Htok & Hts' & Hto & Htm). unfold force_add_to_tried. rewrite Ht'. cbn.
  eexists. split; [done|]. split; [split; cbn; congruence|]. cbn. split_and!; [done|apply Htm; by left|].
  intros b Hb. apply Htm in Hb as [|[]]; [by left|by right].
Qed.

(** * The state of one address *)

Definition ad_counts (d : addr_data) (n : N) : Prop :=
  (ad_no_activity d <= n)%N /\ match ad_state d with SDisconnected _ f _ => (f <= n)%N | _ => True end.

Notation jitter_ok := good_jitter (only parsing).
Notation time_ok := good_time (only parsing).

Lemma jitter_none : jitter_ok no_jitter.
Proof. intros d. unfold no_jitter. lia. Qed.

Lemma delay_le k r : (next_connect_delay k r <= MAX_DELAY_REACHABLE)%N.
Proof. unfold next_connect_delay. unfold MAX_DELAY_RESERVED, MAX_DELAY_REACHABLE, SECOND. destruct r; lia. Qed.

Lemma next_time_ok now f m r j : time_ok now -> jitter_ok j ->
  next_connect_time now f m r j = Ok (now + j (next_connect_delay (N.max f m) r))%N.
Proof.
  intros Ht Hj. unfold next_connect_time. specialize (Hj (next_connect_delay (N.max f m) r)). pose proof (delay_le (N.max f m) r) as Hd.
  unfold good_time in Ht. unfold checked_add. rewrite (proj2 (N.leb_le _ _)); [done|]. unfold MAX_DELAY_REACHABLE, SECOND in *. lia.
Qed.
Lemma incr_ok x n : (x <= n)%N -> (n < U32_MAX)%N -> incr x = Ok (x + 1)%N.
Proof. intros H1 H2. unfold incr, checked_add. rewrite (proj2 (N.leb_le _ _)); [done|lia]. Qed.

Definition is_set_reserved (tr : transition) : bool := match tr with ToSetReserved => true | _ => false end.
Lemma transition_ok d tr now j n : time_ok now -> jitter_ok j -> (n < U32_MAX)%N -> ad_counts d n ->
  (ad_reserved d = true -> is_unreachable d = false) ->
  exists d', transition_to d tr now j = Ok d' /\ ad_counts d' (n + 1) /\ (ad_reserved d' = true -> is_unreachable d' = false) /\
    ad_reserved d' = match tr with ToSetReserved => true | ToUnsetReserved => false | _ => ad_reserved d end.
Proof.
  intros Ht Hj Hn [Hc1 Hc2] Hr. assert (Hp : checked_add DURATION_MAX now PURGE_UNREACHABLE_TIME = Some (now + PURGE_UNREACHABLE_TIME)%N).
  { unfold checked_add. rewrite (proj2 (N.leb_le _ _)); [done|]. unfold good_time, MAX_DELAY_REACHABLE, PURGE_UNREACHABLE_TIME, SECOND in *. lia. }
  destruct d as [st r m]. cbn in *. destruct tr; cbn.
  - destruct st; cbn in *; eexists; (split; [reflexivity|]); (split; [split; cbn; lia|]); done.
  - destruct st; cbn in *; eexists; (split; [reflexivity|]); (split; [split; cbn; lia|]); done.
  - destruct st as [h ro|w f x|e]; cbn in *.
    + assert (exists m', (if h then Ok 0%N else if is_message_exchange_expected ro && negb (is_manual ro) then incr m else Ok m) = Ok m'
                         /\ (m' <= n + 1)%N) as (m' & -> & Hm').
      { destruct h; [exists 0%N; split; [done|lia]|]. destruct (is_message_exchange_expected ro && negb (is_manual ro)).
        - exists (m + 1)%N. split; [by apply incr_ok with n|lia].
        - exists m. split; [done|lia]. }
      cbn. rewrite next_time_ok by done. cbn. eexists. split; [reflexivity|]. split; [split; cbn; lia|]. done.
    + eexists. split; [reflexivity|]. split; [split; cbn; lia|]. done.
    + eexists. split; [reflexivity|]. split; [split; cbn; lia|]. done.
  - destruct st as [h ro|w f x|e]; cbn in *.
    + eexists. split; [reflexivity|]. split; [split; cbn; lia|]. done.
    + rewrite (incr_ok f n) by done. cbn. destruct r; [|destruct w]; cbn.
      * rewrite next_time_ok by done. cbn. eexists. split; [reflexivity|]. split; [split; cbn; lia|]. done.
      * destruct (PURGE_REACHABLE_FAIL_COUNT <=? f + 1)%N.
        -- eexists. split; [reflexivity|]. split; [split; cbn; lia|]. done.
        -- rewrite next_time_ok by done. cbn. eexists. split; [reflexivity|]. split; [split; cbn; lia|]. done.
      * rewrite Hp. cbn. eexists. split; [reflexivity|]. split; [split; cbn; lia|]. done.
    + eexists. split; [reflexivity|]. split; [split; cbn; lia|]. done.
  - destruct st as [h ro|w f x|e]; cbn in *.
    + eexists. split; [reflexivity|]. split; [split; cbn; lia|]. done.
    + rewrite next_time_ok by done. cbn. eexists. split; [reflexivity|]. split; [split; cbn; lia|]. done.
    + rewrite next_time_ok by done. cbn. eexists. split; [reflexivity|]. split; [split; cbn; lia|]. done.
  - eexists. split; [reflexivity|]. split; [split; cbn; [lia|destruct st; cbn in *; lia]|]. done.
Qed.

(** * The invariant *)

Record inv (c : config) (n : N) (boots : gset N) (d : db) : Prop := Inv {
  i_tables : tables_ok c (d_tables d);
  i_new : forall a, inn (d_tables d) a ->
            is_Some (d_addresses d !! a) /\ (s_known (d_store d) !! a = Some KNew \/ (a ∈ boots /\ s_known (d_store d) !! a = None));
  i_tried : forall a, itr (d_tables d) a -> is_Some (d_addresses d !! a) /\ s_known (d_store d) !! a = Some KTried;
  i_store : forall a, is_Some (s_known (d_store d) !! a) -> is_Some (d_addresses d !! a);
  i_reserved : forall a, a ∈ d_reserved d <-> exists ad, d_addresses d !! a = Some ad /\ ad_reserved ad = true;
  i_data : forall a ad, d_addresses d !! a = Some ad -> ad_counts ad n /\ (ad_reserved ad = true -> is_unreachable ad = false);
  i_banned : d_banned d = s_banned (d_store d);
  i_discouraged : d_discouraged d = s_discouraged (d_store d);
  i_anchors : d_anchors d = s_anchors (d_store d) }.

Lemma inv_disjoint c n bs d a : inv c n bs d -> inn (d_tables d) a -> ~ itr (d_tables d) a.
Proof. intros HI H1 H2. apply (i_new _ _ _ _ HI) in H1 as [_ H1]. apply (i_tried _ _ _ _ HI) in H2 as [_ H2]. destruct H1 as [H1|[_ H1]]; congruence. Qed.

Lemma ad_counts_mono d n m : (n <= m)%N -> ad_counts d n -> ad_counts d m.
Proof. intros Hle [H1 H2]. split; [lia|]. destruct (ad_state d); lia. Qed.
Lemma inv_mono c n m bs bs' d : (n <= m)%N -> bs ⊆ bs' -> inv c n bs d -> inv c m bs' d.
Proof.
  intros Hle Hsub [H1 H2 H3 H4 H5 H6 H7 H8 H9]. split; try done.
  - intros a Ha. destruct (H2 a Ha) as [Hk [Hs|[Hb Hs]]]; (split; [done|]); [by left|]. right. split; [by apply Hsub|done].
  - intros a ad Ha. destruct (H6 a ad Ha) as [Hc Hu]. split; [by apply ad_counts_mono with n|done].
Qed.

Lemma new_data_ok w r now n : ad_counts (addr_data_new w r now) n /\ (ad_reserved (addr_data_new w r now) = true -> is_unreachable (addr_data_new w r now) = false).
Proof. split; [split; cbn; lia|done]. Qed.

(** ** [remove_if_non_reserved] *)
Lemma remove_non_reserved_spec d o :
  d_tables (remove_if_non_reserved d o) = d_tables d /\ d_reserved (remove_if_non_reserved d o) = d_reserved d /\
  d_banned (remove_if_non_reserved d o) = d_banned d /\ d_discouraged (remove_if_non_reserved d o) = d_discouraged d /\
  d_anchors (remove_if_non_reserved d o) = d_anchors d /\
  s_banned (d_store (remove_if_non_reserved d o)) = s_banned (d_store d) /\
  s_discouraged (d_store (remove_if_non_reserved d o)) = s_discouraged (d_store d) /\
  s_anchors (d_store (remove_if_non_reserved d o)) = s_anchors (d_store d) /\
  (forall b, d_addresses (remove_if_non_reserved d o) !! b = if decide (o = Some b /\ b ∉ d_reserved d) then None else d_addresses d !! b) /\
  (forall b, s_known (d_store (remove_if_non_reserved d o)) !! b = if decide (o = Some b /\ b ∉ d_reserved d) then None else s_known (d_store d) !! b).
Proof.
  unfold remove_if_non_reserved. destruct o as [a|].
  - case_decide as Ha.
    + split_and!; try done; intros b; rewrite decide_False; try done; intros [[= ->] ?]; done.
    + cbn. split_and!; try done; intros b; case_decide as Hb.
      * destruct Hb as [[= ->] _]. apply lookup_delete.
      * apply lookup_delete_ne. intros ->. by apply Hb.
      * destruct Hb as [[= ->] _]. apply lookup_delete.
      * apply lookup_delete_ne. intros ->. by apply Hb.
  - split_and!; try done; intros b; rewrite decide_False; try done; by intros [].
Qed.

Lemma remove_non_reserved_inv c n bs d o : inv c n bs d -> (forall x, o = Some x -> ~ inn (d_tables d) x /\ ~ itr (d_tables d) x) ->
  inv c n bs (remove_if_non_reserved d o).
Proof.
  intros HI Hx. destruct (remove_non_reserved_spec d o) as (E1 & E2 & E3 & E4 & E5 & E6 & E7 & E8 & E9 & E10).
  destruct HI as [H1 H2 H3 H4 H5 H6 H7 H8 H9]. split; rewrite ?E1, ?E2, ?E3, ?E4, ?E5, ?E6, ?E7, ?E8; try done.
  - intros a Ha. rewrite E9, E10. rewrite !decide_False by (intros [Ho _]; by destruct (Hx a Ho)). by apply H2.
  - intros a Ha. rewrite E9, E10. rewrite !decide_False by (intros [Ho _]; by destruct (Hx a Ho)). by apply H3.
  - intros a. rewrite E9, E10. case_decide; [by intros [? ?]|apply H4].
  - intros a. rewrite E9. case_decide as Hd; [|apply H5]. destruct Hd as [_ Hd]. split; [done|]. by intros (ad & ? & _).
  - intros a ad. rewrite E9. case_decide; [done|apply H6].
Qed.

(** ** [change_address_state] *)
Lemma change_state_spec c n bs d a tr now j : inv c n bs d -> time_ok now -> jitter_ok j -> (n < U32_MAX)%N ->
  exists ad, transition_to (default (addr_data_new false false now) (d_addresses d !! a)) tr now j = Ok ad /\
    change_address_state d a tr now j = Ok (set_addresses d (<[a := ad]> (d_addresses d))) /\
    ad_counts ad (n + 1) /\ (ad_reserved ad = true -> is_unreachable ad = false) /\
    ad_reserved ad = match tr with ToSetReserved => true | ToUnsetReserved => false | _ => bool_decide (a ∈ d_reserved d) end.
Proof.
  intros HI Ht Hj Hn. set (ad0 := default (addr_data_new false false now) (d_addresses d !! a)).
  assert (H0 : ad_counts ad0 n /\ (ad_reserved ad0 = true -> is_unreachable ad0 = false)).
  { subst ad0. destruct (d_addresses d !! a) as [ad|] eqn:Ha; cbn [default]; [by apply (i_data _ _ _ _ HI a)|apply new_data_ok]. }
  assert (Hr : ad_reserved ad0 = bool_decide (a ∈ d_reserved d)).
  { subst ad0. pose proof (i_reserved _ _ _ _ HI a) as Hi. destruct (d_addresses d !! a) as [ad|] eqn:Ha; cbn.
    - destruct (ad_reserved ad) eqn:Hd; symmetry; [apply bool_decide_eq_true|apply bool_decide_eq_false]; rewrite Hi.
      + by exists ad.
      + intros (ad' & [= ->] & ?). congruence.
    - symmetry. apply bool_decide_eq_false. rewrite Hi. by intros (ad' & ? & _). }
  destruct (transition_ok ad0 tr now j n Ht Hj Hn (proj1 H0) (proj2 H0)) as (ad & Htr & Hc & Hu & Hres).
  exists ad. split; [done|]. unfold change_address_state. fold ad0. rewrite Htr. cbn. split_and!; try done. rewrite Hres, Hr. done.
Qed.

Lemma set_addresses_inv c n bs d a ad : inv c n bs d -> ad_counts ad (n + 1) -> (ad_reserved ad = true -> is_unreachable ad = false) ->
  (ad_reserved ad = true <-> a ∈ d_reserved d) -> inv c (n + 1) bs (set_addresses d (<[a := ad]> (d_addresses d))).
Proof.
  intros HI Hc Hu Hr. apply inv_mono with (m := (n + 1)%N) (bs' := bs) in HI; [|lia|done]. destruct HI as [H1 H2 H3 H4 H5 H6 H7 H8 H9].
  assert (Hs : forall b, is_Some (d_addresses d !! b) -> is_Some (<[a := ad]> (d_addresses d) !! b)).
  { intros b Hb. apply lookup_insert_is_Some. destruct (decide (a = b)); [by left|by right]. }
  split; cbn; try done.
  - intros b Hb. destruct (H2 b Hb) as [Hk Hs']. split; [by apply Hs|done].
  - intros b Hb. destruct (H3 b Hb) as [Hk Hs']. split; [by apply Hs|done].
  - intros b Hb. apply Hs. by apply H4.
  - intros b. destruct (decide (a = b)) as [<-|Hne].
    + setoid_rewrite lookup_insert. rewrite <- Hr. split; [intros Hx; by exists ad|by intros (ad' & [= ->] & ?)].
    + setoid_rewrite lookup_insert_ne; [|done]. apply H5.
  - intros b ad'. rewrite lookup_insert_Some. intros [[<- <-]|[_ Hb]]; [done|by apply (H6 b)].
Qed.

(** ** Changes that leave bans, discouragements and anchors alone *)
Definition bans (s : store) := (s_banned s, s_discouraged s, s_anchors s).
Definition same_bans (d d' : db) : Prop :=
  d_banned d' = d_banned d /\ d_discouraged d' = d_discouraged d /\ d_anchors d' = d_anchors d /\ bans (d_store d') = bans (d_store d) /\
  exists l, d_commits d' = l ++ d_commits d /\ forall s, s ∈ l -> bans s = bans (d_store d).
Lemma same_bans_refl d : same_bans d d.
Proof. split_and!; try done. exists []. split; [done|]. intros s. by rewrite elem_of_nil. Qed.
Lemma same_bans_trans a b e : same_bans a b -> same_bans b e -> same_bans a e.
Proof.
  intros (H1 & H2 & H3 & H4 & l & H5 & H6) (G1 & G2 & G3 & G4 & l' & G5 & G6). split_and!; [congruence..|].
  exists (l' ++ l). split; [rewrite G5, H5; by rewrite app_assoc|]. intros s [Hs|Hs]%elem_of_app; [|by apply H6]. rewrite <- H4. by apply G6.
Qed.
Lemma update_known_same d f : same_bans d (update_db d (with_known f)).
Proof. split_and!; try done. exists [with_known f (d_store d)]. split; [done|]. intros s Hs. apply elem_of_list_singleton in Hs as ->. done. Qed.
Lemma set_addresses_same d x : same_bans d (set_addresses d x).
Proof. apply (same_bans_refl d). Qed.
Lemma set_tables_same d x : same_bans d (set_tables d x).
Proof. apply (same_bans_refl d). Qed.
Lemma remove_non_reserved_same d o : same_bans d (remove_if_non_reserved d o).
Proof.
  unfold remove_if_non_reserved. destruct o as [a|]; [|apply same_bans_refl]. case_decide; [apply same_bans_refl|].
  eapply same_bans_trans; [apply set_addresses_same|apply update_known_same].
Qed.

(** ** Connecting *)
Lemma connected_spec c n bs d a r now : inv c n bs d -> time_ok now -> (n < U32_MAX)%N ->
  exists d' ad p q, step c d (Connected a r now) = Ok d' /\ inv c (n + 1) bs d' /\ same_bans d d' /\ d_reserved d' = d_reserved d /\
    transition_to (default (addr_data_new false false now) (d_addresses d !! a)) (ToConnected r) now no_jitter = Ok ad /\
    (forall x, p = Some x -> itr (d_tables d) x /\ x <> a) /\ (forall x, q = Some x -> inn (d_tables d) x /\ x <> a /\ p <> Some x /\ is_Some p) /\
    (forall b, itr (d_tables d') b <-> b = a \/ (itr (d_tables d) b /\ p <> Some b)) /\
    (forall b, inn (d_tables d') b <-> p = Some b \/ (inn (d_tables d) b /\ b <> a /\ q <> Some b)) /\
    (forall b, d_addresses d' !! b = if decide (q = Some b /\ b ∉ d_reserved d) then None else if decide (b = a) then Some ad else d_addresses d !! b) /\
    (forall b, s_known (d_store d') !! b = if decide (q = Some b /\ b ∉ d_reserved d) then None else if decide (p = Some b) then Some KNew
                                           else if decide (b = a) then Some KTried else s_known (d_store d) !! b).
Proof.
  intros HI Ht Hn. destruct (change_state_spec c n bs d a (ToConnected r) now no_jitter HI Ht jitter_none Hn) as (ad & Htr & Hch & Hc & Hu & Hr).
  assert (HI1 : inv c (n + 1) bs (set_addresses d (<[a := ad]> (d_addresses d)))).
  { apply set_addresses_inv; try done. rewrite Hr. apply bool_decide_eq_true. }
  clear Hr. set (d1 := set_addresses d (<[a := ad]> (d_addresses d))) in *.
  destruct (move_to_tried_ok c (d_tables d1) a (i_tables _ _ _ _ HI1)) as (ts & pq & Hmv & Hok & Hp & Hq & Hm).
  { intros b Hb. by apply (inv_disjoint _ _ _ _ _ HI1). }
  cbn [step]. rewrite Hch. cbn [rbind]. fold d1. unfold move_addr_to_tried. rewrite Hmv. cbn [rbind].
  set (d2 := update_db (set_tables d1 ts) (with_known (fun k => let k := <[a := KTried]> k in match pq with Some (p, _) => <[p := KNew]> k | None => k end))).
  assert (Hk2 : forall b, s_known (d_store d2) !! b = if decide (fst <$> pq = Some b) then Some KNew else if decide (b = a) then Some KTried else s_known (d_store d) !! b).
  { intros b. subst d2. cbn. destruct pq as [[p q]|]; cbn.
    - destruct (decide (p = b)) as [->|Hne].
      + rewrite lookup_insert, decide_True by done. done.
      + rewrite lookup_insert_ne by done. rewrite (decide_False (P := Some p = Some b)) by congruence.
        destruct (decide (b = a)) as [->|]; [by rewrite lookup_insert|by rewrite lookup_insert_ne].
    - destruct (decide (b = a)) as [->|]; [by rewrite lookup_insert|by rewrite lookup_insert_ne]. }
  assert (HI2 : inv c (n + 1) bs d2).
  { assert (Hka : forall b, is_Some (d_addresses d1 !! b) -> is_Some (d_addresses d2 !! b)) by done.
    assert (Hsa : is_Some (d_addresses d1 !! a)) by (subst d1; cbn; rewrite lookup_insert; by eexists).
    pose proof HI1 as [H1 H2 H3 H4 H5 H6 H7 H8 H9]. split; try done.
    - intros b Hb. destruct (proj1 (proj2 (Hm b)) Hb) as [Hpb|(Hb' & Hba & Hqb)].
      + split; [apply H3; by apply Hp|]. left. rewrite Hk2, decide_True by done. done.
      + split; [by apply H2|]. rewrite Hk2. rewrite !decide_False; [exact (proj2 (H2 b Hb'))|done|]. intros Hpb. destruct (Hp b Hpb) as [Hpt _].
        by apply (inv_disjoint _ _ _ _ b HI1 Hb').
    - intros b Hb. destruct (proj1 (proj1 (Hm b)) Hb) as [->|[Hb' Hpb]].
      + split; [done|]. rewrite Hk2, decide_False, decide_True; [done..|]. intros Hpa. by apply Hp in Hpa as [].
      + split; [by apply H3|]. rewrite Hk2. case_decide as X1; [done|]. case_decide as X2; [done|]. exact (proj2 (H3 b Hb')).
    - intros b. rewrite Hk2. case_decide as Hpb; [intros _; apply H3; by apply Hp|]. case_decide as Hba; [by subst|]. apply H4. }
  set (q := match pq with Some (_, q) => q | None => None end) in *.
  assert (Hqq : pq ≫= snd = q) by (destruct pq as [[? ?]|]; done). rewrite Hqq in *.
  assert (HI3 : inv c (n + 1) bs (remove_if_non_reserved d2 q)).
  { apply remove_non_reserved_inv; [done|]. intros x Hx. destruct (Hq x Hx) as (Hxn & Hxa & Hxp & _). split.
    - intros Hb. apply Hm in Hb as [Hb|(_ & _ & Hb)]; done.
    - intros Hb. apply Hm in Hb as [Hb|[Hb _]]; [done|]. by apply (inv_disjoint _ _ _ _ x HI1 Hxn). }
  destruct (remove_non_reserved_spec d2 q) as (E1 & E2 & E3 & E4 & E5 & E6 & E7 & E8 & E9 & E10).
  exists (remove_if_non_reserved d2 q), ad, (fst <$> pq), q. split; [done|]. split; [done|]. split_and!; try done.
  - eapply same_bans_trans; [|apply remove_non_reserved_same]. eapply same_bans_trans; [|apply update_known_same].
    eapply same_bans_trans; [|apply set_tables_same]. apply set_addresses_same.
  - intros b. rewrite E1. apply Hm.
  - intros b. rewrite E1. apply Hm.
  - intros b. rewrite E9. subst d2 d1. cbn. case_decide; [done|]. destruct (decide (b = a)) as [->|]; [by rewrite lookup_insert|by rewrite lookup_insert_ne].
  - intros b. rewrite E10, Hk2. done.
Qed.

(** ** Discovering *)
Lemma discovered_spec c n bs d a now : inv c n bs d ->
  exists d', step c d (Discovered a now) = Ok d' /\ inv c n bs d' /\ same_bans d d' /\ d_reserved d' = d_reserved d /\
    match d_addresses d !! a with
    | Some _ => d' = d
    | None =>
      (d_addresses d' = d_addresses d /\ (forall b, (inn (d_tables d') b <-> inn (d_tables d) b) /\ (itr (d_tables d') b <-> itr (d_tables d) b))
        /\ d_store d' = d_store d) \/
      exists q, (forall x, q = Some x -> inn (d_tables d) x /\ x <> a /\ can_discard_addr_in_new (d_addresses d) x = true) /\
        (forall b, itr (d_tables d') b <-> itr (d_tables d) b) /\ (forall b, inn (d_tables d') b <-> b = a \/ (inn (d_tables d) b /\ q <> Some b)) /\
        (forall b, d_addresses d' !! b = if decide (b = a) then Some (addr_data_new false false now)
                                         else if decide (q = Some b /\ b ∉ d_reserved d) then None else d_addresses d !! b) /\
        (forall b, s_known (d_store d') !! b = if decide (b = a) then Some KNew
                                         else if decide (q = Some b /\ b ∉ d_reserved d) then None else s_known (d_store d) !! b)
    end.
Proof.
  intros HI. cbn [step]. destruct (d_addresses d !! a) as [ad|] eqn:Ha.
  { exists d. split_and!; try done. apply same_bans_refl. }
  assert (Hna : ~ inn (d_tables d) a) by (intros Hb; apply (i_new _ _ _ _ HI) in Hb as [[? Hb] _]; congruence).
  assert (Hta : ~ itr (d_tables d) a) by (intros Hb; apply (i_tried _ _ _ _ HI) in Hb as [[? Hb] _]; congruence).
  destruct (move_to_new_ok c (d_tables d) a (can_discard_addr_in_new (d_addresses d)) (i_tables _ _ _ _ HI) Hna Hta) as (ts & o & Hmv & Hok & Htm & Hcase).
  unfold add_addr_to_new. rewrite Hmv. cbn [rbind]. destruct o as [q|]; cbn [rbind].
  - destruct Hcase as [Hq Hm].
    set (d1 := update_db (set_tables d ts) (with_known (<[a := KNew]>))).
    destruct (remove_non_reserved_spec d1 q) as (E1 & E2 & E3 & E4 & E5 & E6 & E7 & E8 & E9 & E10).
    assert (Har : a ∉ d_reserved d).
    { intros Hr. apply (i_reserved _ _ _ _ HI) in Hr as (ad & Hr & _). congruence. }
    set (d2 := remove_if_non_reserved d1 q) in *.
    assert (Hqa : q <> Some a) by (intros Hqa; by destruct (Hq a Hqa) as (_ & ? & _)).
    assert (Ha3 : forall b, <[a := addr_data_new false false now]> (d_addresses d2) !! b =
       if decide (b = a) then Some (addr_data_new false false now) else if decide (q = Some b /\ b ∉ d_reserved d) then None else d_addresses d !! b).
    { intros b. destruct (decide (b = a)) as [->|]; [by rewrite lookup_insert|]. rewrite lookup_insert_ne by done. by rewrite E9. }
    assert (Hk3 : forall b, s_known (d_store d2) !! b =
       if decide (b = a) then Some KNew else if decide (q = Some b /\ b ∉ d_reserved d) then None else s_known (d_store d) !! b).
    { intros b. rewrite E10. change (d_reserved d1) with (d_reserved d). subst d1. cbn. destruct (decide (b = a)) as [->|].
      - rewrite decide_False by (by intros []). by rewrite lookup_insert.
      - rewrite lookup_insert_ne by done. done. }
    eexists. split; [done|]. split_and!.
    + destruct HI as [H1 H2 H3 H4 H5 H6 H7 H8 H9]. split.
      * cbn. by rewrite E1.
      * intros b. cbn. rewrite Ha3, Hk3, E1. cbn. rewrite Hm. case_decide as Hba; [intros _; split; [by eexists|by left]|].
        intros [?|[Hb Hqb]]; [done|]. rewrite !decide_False by (by intros []). by apply H2.
      * intros b. cbn. rewrite Ha3, Hk3, E1. cbn. rewrite Htm. case_decide as Hba; [by subst|]. intros Hb.
        rewrite !decide_False; [by apply H3|intros [Hqb _]; destruct (Hq b Hqb) as (Hbn & _ & _); by apply (inv_disjoint c n bs d b (Inv _ _ _ _ H1 H2 H3 H4 H5 H6 H7 H8 H9) Hbn)..].
      * intros b. cbn. rewrite Ha3, Hk3. case_decide; [intros _; by eexists|]. case_decide; [by intros [? ?]|]. apply H4.
      * intros b. cbn. setoid_rewrite Ha3. rewrite E2. cbn. destruct (decide (b = a)) as [->|].
        -- split; [done|]. by intros (ad & [= <-] & ?).
        -- destruct (decide (q = Some b /\ b ∉ d_reserved d)) as [[_ Hb]|]; [|apply H5]. split; [done|]. by intros (ad & ? & _).
      * intros b ad. cbn. rewrite Ha3. case_decide; [intros [= <-]; apply new_data_ok|]. case_decide; [done|]. apply H6.
      * cbn. rewrite E3, E6. done.
      * cbn. rewrite E4, E7. done.
      * cbn. rewrite E5, E8. done.
    + eapply same_bans_trans; [|apply set_addresses_same]. eapply same_bans_trans; [|apply remove_non_reserved_same].
      eapply same_bans_trans; [|apply update_known_same]. apply set_tables_same.
    + cbn. by rewrite E2.
    + right. exists q. split_and!; try done; cbn; intros b; rewrite E1; [apply Htm|apply Hm].
  - eexists. split; [done|]. split_and!; try done.
    + destruct HI as [H1 H2 H3 H4 H5 H6 H7 H8 H9]. split; try done; cbn.
      * intros b Hb. apply Hcase in Hb. by apply H2.
      * intros b Hb. apply Htm in Hb. by apply H3.
    + apply set_tables_same.
    + left. split_and!; try done.
Qed.

(** ** Forgetting *)
Definition forgets (L : list N) (d d' : db) : Prop :=
  d_reserved d' = d_reserved d /\ same_bans d d' /\
  (forall b, d_addresses d' !! b = if decide (b ∈ L) then None else d_addresses d !! b) /\
  (forall b, s_known (d_store d') !! b = if decide (b ∈ L) then None else s_known (d_store d) !! b) /\
  (forall b, inn (d_tables d') b <-> inn (d_tables d) b /\ b ∉ L) /\ (forall b, itr (d_tables d') b <-> itr (d_tables d) b /\ b ∉ L).

Lemma forget_all c L : forall d, tables_ok c (d_tables d) ->
  exists d', rfold forget_address L d = Ok d' /\ tables_ok c (d_tables d') /\ forgets L d d'.
Proof.
  induction L as [|a L IH]; intros d Hok; cbn [rfold].
  - exists d. split_and!; try done. split_and!; try done; [apply same_bans_refl|..]; intros b;
      rewrite ?decide_False by apply not_elem_of_nil; try done; (split; [intros; split; [done|apply not_elem_of_nil]|by intros []]).
  - destruct (tables_remove_ok c (d_tables d) a Hok) as (ts & Hr & Hok' & Hm). unfold forget_address at 1. rewrite Hr. cbn [rbind].
    set (d1 := update_db _ _). destruct (IH d1 Hok') as (d' & Hf & Hok2 & H1 & H2 & H3 & H4 & H5 & H6).
    exists d'. split; [exact Hf|]. split; [done|]. split_and!.
    + by rewrite H1.
    + eapply same_bans_trans; [|exact H2]. eapply same_bans_trans; [|apply update_known_same].
      eapply same_bans_trans; [|apply set_tables_same]. apply set_addresses_same.
    + intros b. rewrite H3. subst d1. cbn. destruct (decide (b ∈ L)) as [Hb|Hb].
      * rewrite decide_True; [done|]. by right.
      * destruct (decide (b = a)) as [->|Hne].
        -- rewrite decide_True by (by left). apply lookup_delete.
        -- rewrite decide_False by (by rewrite not_elem_of_cons). by apply lookup_delete_ne.
    + intros b. rewrite H4. subst d1. cbn. destruct (decide (b ∈ L)) as [Hb|Hb].
      * rewrite decide_True; [done|]. by right.
      * destruct (decide (b = a)) as [->|Hne].
        -- rewrite decide_True by (by left). apply lookup_delete.
        -- rewrite decide_False by (by rewrite not_elem_of_cons). by apply lookup_delete_ne.
    + intros b. rewrite H5. subst d1. cbn. rewrite (proj1 (Hm b)), not_elem_of_cons. tauto.
    + intros b. rewrite H6. subst d1. cbn. rewrite (proj2 (Hm b)), not_elem_of_cons. tauto.
Qed.

Lemma forgets_inv c n bs L d d' : inv c n bs d -> forgets L d d' -> tables_ok c (d_tables d') -> (forall b, b ∈ L -> b ∉ d_reserved d) -> inv c n bs d'.
Proof.
  intros [H1 H2 H3 H4 H5 H6 H7 H8 H9] (E1 & (E2 & E3 & E4 & E5 & _) & E6 & E7 & E8 & E9) Hok HL. unfold bans in E5. injection E5 as E51 E52 E53.
  split; try done; try congruence.
  - intros b Hb. apply E8 in Hb as [Hb Hn]. rewrite E6, E7, !decide_False by done. by apply H2.
  - intros b Hb. apply E9 in Hb as [Hb Hn]. rewrite E6, E7, !decide_False by done. by apply H3.
  - intros b. rewrite E6, E7. case_decide; [by intros [? ?]|apply H4].
  - intros b. rewrite E1, E6. case_decide as Hb; [|apply H5]. split; [intros Hr; by destruct (HL b Hb)|]. by intros (ad & ? & _).
  - intros b ad. rewrite E6. case_decide; [done|apply H6].
Qed.

(** ** The heartbeat *)
Lemma delete_loop_store (l : list N) (f : (gmap N N -> gmap N N) -> store -> store) (get : store -> gmap N N) :
  (forall g s, get (f g s) = g (get s)) -> forall d,
  let d' := foldl (fun d b => update_db d (f (delete b))) d l in
  (forall b, get (d_store d') !! b = if decide (b ∈ l) then None else get (d_store d) !! b) /\
  (d_addresses d', d_reserved d', d_tables d', d_banned d', d_discouraged d', d_anchors d') =
    (d_addresses d, d_reserved d, d_tables d, d_banned d, d_discouraged d, d_anchors d) /\
  exists cs, d_commits d' = cs ++ d_commits d /\
    forall s, s ∈ cs -> forall b, get s !! b = get (d_store d) !! b \/ (b ∈ l /\ get s !! b = None).
Proof.
  intros Hget. induction l as [|a l IH]; intros d; cbn [foldl].
  - split; [intros b; by rewrite decide_False by apply not_elem_of_nil|]. split; [done|]. exists []. split; [done|]. intros s. by rewrite elem_of_nil.
  - destruct (IH (update_db d (f (delete a)))) as (H1 & H2 & cs & H3 & H4). split; [|split].
    + intros b. rewrite H1. cbn. rewrite Hget. destruct (decide (b ∈ l)) as [Hb|Hb].
      * rewrite decide_True; [done|]. by right.
      * destruct (decide (b = a)) as [->|Hne].
        -- rewrite decide_True by (by left). apply lookup_delete.
        -- rewrite decide_False by (by rewrite not_elem_of_cons). by apply lookup_delete_ne.
    + rewrite H2. done.
    + exists (cs ++ [f (delete a) (d_store d)]). split; [rewrite H3; cbn; by rewrite <- app_assoc|].
      assert (Hd : forall b, get (f (delete a) (d_store d)) !! b = get (d_store d) !! b \/ (b ∈ a :: l /\ get (f (delete a) (d_store d)) !! b = None)).
      { intros b. rewrite Hget. destruct (decide (b = a)) as [->|Hne].
        - right. split; [by left|apply lookup_delete].
        - left. by apply lookup_delete_ne. }
      intros s [Hs|Hs]%elem_of_app b.
      * destruct (H4 s Hs b) as [Hb|[Hb1 Hb2]]; [cbn in Hb; rewrite Hb; apply Hd|]. right. split; [by right|done].
      * apply elem_of_list_singleton in Hs as ->. apply Hd.
Qed.

Lemma expired_in (m : gmap N N) now b : b ∈ map fst (filter (fun p => (p.2 <= now)%N) (map_to_list m)) <-> exists t, m !! b = Some t /\ (t <= now)%N.
Proof.
  rewrite elem_of_list_fmap. split.
  - intros ([x t] & -> & Hp). apply elem_of_list_filter in Hp as [Ht Hp]. apply elem_of_map_to_list in Hp. by exists t.
  - intros (t & Hb & Ht). exists (b, t). split; [done|]. apply elem_of_list_filter. split; [done|]. by apply elem_of_map_to_list.
Qed.
Lemma retained_lookup (m : gmap N N) now b :
  filter (fun p : N * N => (now < p.2)%N) m !! b = match m !! b with Some t => if (t <=? now)%N then None else Some t | None => None end.
Proof.
  destruct (m !! b) as [t|] eqn:Hb.
  - destruct (N.leb_spec t now).
    + apply map_filter_lookup_None. right. intros x Hx. cbn. rewrite Hb in Hx. injection Hx as <-. lia.
    + apply map_filter_lookup_Some. split; [done|]. cbn. lia.
  - apply map_filter_lookup_None. by left.
Qed.

Definition expire (now : N) (o : option N) : option N := match o with Some t => if (t <=? now)%N then None else Some t | None => None end.

Definition between (d d' : db) (s : store) : Prop :=
  forall b, (s_banned s !! b = s_banned (d_store d) !! b \/ s_banned s !! b = s_banned (d_store d') !! b) /\
            (s_discouraged s !! b = s_discouraged (d_store d) !! b \/ s_discouraged s !! b = s_discouraged (d_store d') !! b) /\
            (s_anchors s = s_anchors (d_store d) \/ s_anchors s = s_anchors (d_store d')).

Lemma retain_spec ad now : retain ad now = false <-> outlived ad now.
Proof. unfold retain, outlived. destruct (ad_state ad); [naive_solver..|]. rewrite N.ltb_ge. naive_solver. Qed.
Lemma connect_now_spec ad now : connect_now ad now = true <-> may_call ad now.
Proof. unfold connect_now, may_call. destruct (ad_state ad); [naive_solver| |naive_solver]. rewrite N.leb_le. naive_solver. Qed.
Definition unretained (d : db) (now : N) : list N := map fst (filter (fun p => retain p.2 now = false) (map_to_list (d_addresses d))).
Lemma unretained_in d now a : a ∈ unretained d now <-> exists ad, d_addresses d !! a = Some ad /\ retain ad now = false.
Proof.
  unfold unretained. rewrite elem_of_list_fmap. split.
  - intros ([x t] & -> & Hp). apply elem_of_list_filter in Hp as [Ht Hp]. apply elem_of_map_to_list in Hp. by exists t.
  - intros (t & Hb & Ht). exists (a, t). split; [done|]. apply elem_of_list_filter. split; [done|]. by apply elem_of_map_to_list.
Qed.

Lemma heartbeat_banned_spec d now : d_banned d = s_banned (d_store d) ->
  let d' := heartbeat_banned d now in
  (d_addresses d', d_reserved d', d_tables d', d_discouraged d', d_anchors d') = (d_addresses d, d_reserved d, d_tables d, d_discouraged d, d_anchors d) /\
  (s_known (d_store d'), s_discouraged (d_store d'), s_anchors (d_store d')) = (s_known (d_store d), s_discouraged (d_store d), s_anchors (d_store d)) /\
  (forall b, d_banned d' !! b = expire now (d_banned d !! b)) /\ d_banned d' = s_banned (d_store d') /\
  exists cs, d_commits d' = cs ++ d_commits d /\ forall s, s ∈ cs -> between d d' s.
Proof.
  intros Hb. unfold heartbeat_banned. set (L := map fst _).
  set (d' := foldl (fun d b => update_db d (with_banned (delete b))) d L).
  assert (Hkeep : (s_known (d_store d'), s_discouraged (d_store d'), s_anchors (d_store d')) = (s_known (d_store d), s_discouraged (d_store d), s_anchors (d_store d))
    /\ exists cs, d_commits d' = cs ++ d_commits d /\ forall s, s ∈ cs -> (s_discouraged s, s_anchors s) = (s_discouraged (d_store d), s_anchors (d_store d))).
  { subst d'. clear. generalize d. induction L as [|a L IH]; intros e; cbn [foldl].
    - split; [done|]. exists []. split; [done|]. intros s. by rewrite elem_of_nil.
    - destruct (IH (update_db e (with_banned (delete a)))) as (H1 & cs & H2 & H3). split; [rewrite H1; done|].
      exists (cs ++ [with_banned (delete a) (d_store e)]). split; [rewrite H2; cbn; by rewrite <- app_assoc|].
      intros s [Hs|Hs]%elem_of_app; [by rewrite H3|]. apply elem_of_list_singleton in Hs as ->. done. }
  destruct (delete_loop_store L with_banned s_banned ltac:(done) d) as (H1 & H2 & cs & H3 & H4). fold d' in H1, H2, H3.
  destruct Hkeep as (Hk1 & cs' & Hk2 & Hk3). rewrite H3 in Hk2. apply app_inv_tail in Hk2 as <-.
  injection H2 as E1 E2 E3 E4 E5 E6. cbn.
  assert (Hban : filter (fun p : N * N => (now < p.2)%N) (d_banned d') = s_banned (d_store d')).
  { apply map_eq. intros b. rewrite retained_lookup, H1, E4, <- Hb. destruct (decide (b ∈ L)) as [Hi|Hi].
    - apply expired_in in Hi as (t & -> & Ht). by rewrite (proj2 (N.leb_le _ _)).
    - destruct (d_banned d !! b) as [t|] eqn:Hbt; [|done]. destruct (N.leb_spec t now); [|done]. destruct Hi. apply expired_in. by exists t. }
  split_and!; try done.
  - rewrite E1, E2, E3, E5, E6. done.
  - intros b. rewrite retained_lookup, E4. done.
  - exists cs. split; [done|]. intros s Hs b. specialize (Hk3 s Hs). injection Hk3 as Hk31 Hk32. split_and!.
    + cbn. destruct (H4 s Hs b) as [Hx|[Hx1 Hx2]]; [by left|]. right. rewrite Hx2, H1, decide_True by done. done.
    + left. by rewrite Hk31.
    + by left.
Qed.

Lemma heartbeat_discouraged_spec d now : d_discouraged d = s_discouraged (d_store d) ->
  let d' := heartbeat_discouraged d now in
  (d_addresses d', d_reserved d', d_tables d', d_banned d', d_anchors d') = (d_addresses d, d_reserved d, d_tables d, d_banned d, d_anchors d) /\
  (s_known (d_store d'), s_banned (d_store d'), s_anchors (d_store d')) = (s_known (d_store d), s_banned (d_store d), s_anchors (d_store d)) /\
  (forall b, d_discouraged d' !! b = expire now (d_discouraged d !! b)) /\ d_discouraged d' = s_discouraged (d_store d') /\
  exists cs, d_commits d' = cs ++ d_commits d /\ forall s, s ∈ cs -> between d d' s.
Proof.
  intros Hb. unfold heartbeat_discouraged. set (L := map fst _).
  set (d' := foldl (fun d b => update_db d (with_discouraged (delete b))) d L).
  assert (Hkeep : (s_known (d_store d'), s_banned (d_store d'), s_anchors (d_store d')) = (s_known (d_store d), s_banned (d_store d), s_anchors (d_store d))
    /\ exists cs, d_commits d' = cs ++ d_commits d /\ forall s, s ∈ cs -> (s_banned s, s_anchors s) = (s_banned (d_store d), s_anchors (d_store d))).
  { subst d'. clear. generalize d. induction L as [|a L IH]; intros e; cbn [foldl].
    - split; [done|]. exists []. split; [done|]. intros s. by rewrite elem_of_nil.
    - destruct (IH (update_db e (with_discouraged (delete a)))) as (H1 & cs & H2 & H3). split; [rewrite H1; done|].
      exists (cs ++ [with_discouraged (delete a) (d_store e)]). split; [rewrite H2; cbn; by rewrite <- app_assoc|].
      intros s [Hs|Hs]%elem_of_app; [by rewrite H3|]. apply elem_of_list_singleton in Hs as ->. done. }
  destruct (delete_loop_store L with_discouraged s_discouraged ltac:(done) d) as (H1 & H2 & cs & H3 & H4). fold d' in H1, H2, H3.
  destruct Hkeep as (Hk1 & cs' & Hk2 & Hk3). rewrite H3 in Hk2. apply app_inv_tail in Hk2 as <-.
  injection H2 as E1 E2 E3 E4 E5 E6. cbn.
  assert (Hban : filter (fun p : N * N => (now < p.2)%N) (d_discouraged d') = s_discouraged (d_store d')).
  { apply map_eq. intros b. rewrite retained_lookup, H1, E5, <- Hb. destruct (decide (b ∈ L)) as [Hi|Hi].
    - apply expired_in in Hi as (t & -> & Ht). by rewrite (proj2 (N.leb_le _ _)).
    - destruct (d_discouraged d !! b) as [t|] eqn:Hbt; [|done]. destruct (N.leb_spec t now); [|done]. destruct Hi. apply expired_in. by exists t. }
  split_and!; try done.
  - rewrite E1, E2, E3, E4, E6. done.
  - intros b. rewrite retained_lookup, E5. done.
  - exists cs. split; [done|]. intros s Hs b. specialize (Hk3 s Hs). injection Hk3 as Hk31 Hk32. split_and!.
    + left. by rewrite Hk31.
    + cbn. destruct (H4 s Hs b) as [Hx|[Hx1 Hx2]]; [by left|]. right. rewrite Hx2, H1, decide_True by done. done.
    + by left.
Qed.

Lemma heartbeat_spec c n bs d now : inv c n bs d ->
  exists d', step c d (Heartbeat now) = Ok d' /\ inv c n bs d' /\ d_reserved d' = d_reserved d /\
    (forall b, d_addresses d' !! b = if decide (b ∈ unretained d now) then None else d_addresses d !! b) /\
    (forall b, s_known (d_store d') !! b = if decide (b ∈ unretained d now) then None else s_known (d_store d) !! b) /\
    (forall b, inn (d_tables d') b <-> inn (d_tables d) b /\ b ∉ unretained d now) /\
    (forall b, itr (d_tables d') b <-> itr (d_tables d) b /\ b ∉ unretained d now) /\
    (forall b, d_banned d' !! b = expire now (d_banned d !! b)) /\ (forall b, d_discouraged d' !! b = expire now (d_discouraged d !! b)) /\
    d_anchors d' = d_anchors d /\ exists cs, d_commits d' = cs ++ d_commits d /\ forall s, s ∈ cs -> between d d' s.
Proof.
  intros HI. destruct (forget_all c (unretained d now) d (i_tables _ _ _ _ HI)) as (d1 & Hf & Hok & Hfg).
  assert (HI1 : inv c n bs d1).
  { eapply forgets_inv; try done. intros b Hb. apply unretained_in in Hb as (ad & Hb & Hr). intros Hres.
    apply (i_reserved _ _ _ _ HI) in Hres as (ad' & Hb' & Hres). rewrite Hb in Hb'. injection Hb' as <-.
    apply (i_data _ _ _ _ HI) in Hb as [_ Hu]. specialize (Hu Hres). unfold retain in Hr. unfold is_unreachable in Hu. by destruct (ad_state ad). }
  destruct Hfg as (F1 & (F2 & F3 & F4 & F5 & cs1 & F6 & F6') & F7 & F8 & F9 & F10). unfold bans in F5. injection F5 as F51 F52 F53.
  cbn [step]. unfold heartbeat_addresses. fold (unretained d now). rewrite Hf. cbn [rbind].
  pose proof (heartbeat_banned_spec d1 now (i_banned _ _ _ _ HI1)) as HA. cbn zeta in HA. revert HA.
  generalize (heartbeat_banned d1 now) as d2. intros d2 (A1 & A2 & A3 & A4 & cs2 & A5 & A6). injection A1 as A11 A12 A13 A14 A15. injection A2 as A21 A22 A23.
  assert (Hd2 : d_discouraged d2 = s_discouraged (d_store d2)) by (rewrite A14, A22; apply HI1).
  pose proof (heartbeat_discouraged_spec d2 now Hd2) as HB. cbn zeta in HB. revert HB.
  generalize (heartbeat_discouraged d2 now) as d3. intros d3 (B1 & B2 & B3 & B4 & cs3 & B5 & B6). injection B1 as B11 B12 B13 B14 B15. injection B2 as B21 B22 B23.
  exists d3. split; [done|]. split_and!.
  - destruct HI1 as [H1 H2 H3 H4 H5 H6 H7 H8 H9]. split; rewrite ?B11, ?B12, ?B13, ?B14, ?B15, ?B21, ?B22, ?B23, ?A11, ?A12, ?A13, ?A15, ?A21, ?A23; try done.
  - by rewrite B12, A12.
  - intros b. by rewrite B11, A11.
  - intros b. by rewrite B21, A21.
  - intros b. by rewrite B13, A13.
  - intros b. by rewrite B13, A13.
  - intros b. by rewrite B14, A3, F2.
  - intros b. by rewrite B3, A14, F3.
  - by rewrite B15, A15.
  - exists (cs3 ++ cs2 ++ cs1). split; [rewrite B5, A5, F6; by rewrite !app_assoc|].
    intros s Hs b. rewrite !elem_of_app in Hs. destruct Hs as [Hs|[Hs|Hs]].
    + destruct (B6 s Hs b) as (X1 & X2 & X3). rewrite B22, B23, A23 in *. rewrite A22 in X2. rewrite <- F51, <- F52, <- F53 in *. split_and!.
      * right. by destruct X1.
      * by destruct X2 as [X2|X2]; [left|right].
      * left. by destruct X3.
    + destruct (A6 s Hs b) as (X1 & X2 & X3). rewrite B22, B23, A23 in *. rewrite A22 in X2. rewrite <- F51, <- F52, <- F53 in *. split_and!.
      * by destruct X1 as [X1|X1]; [left|right].
      * left. by destruct X2.
      * left. by destruct X3.
    + specialize (F6' s Hs). unfold bans in F6'. injection F6' as X1 X2 X3. rewrite X1, X2, X3. by split_and!; left.
Qed.

(** ** Loading *)
Definition loaded (s : store) (reserved boot : gset N) (now : N) (a : N) : option addr_data :=
  match s_known s !! a with
  | Some k => Some (addr_data_new (match k with KTried => true | KNew => false end) (bool_decide (a ∈ reserved)) now)
  | None => if decide (a ∈ reserved) then Some (addr_data_new false true now)
            else if decide (a ∈ boot) then Some (addr_data_new false false now) else None
  end.

Lemma load_known_loop c s reserved now L : (forall x, x ∈ L -> s_known s !! x.1 = Some x.2) -> forall ts m,
  tables_ok c ts -> (forall a, inn ts a -> is_Some (m !! a) /\ s_known s !! a = Some KNew) ->
  (forall a, itr ts a -> is_Some (m !! a) /\ s_known s !! a = Some KTried) ->
  (forall a, is_Some (m !! a) -> m !! a = loaded s reserved ∅ now a /\ is_Some (s_known s !! a)) ->
  exists ts' m', rfold (load_known reserved now) L (ts, m) = Ok (ts', m') /\ tables_ok c ts' /\
    (forall a, inn ts' a -> is_Some (m' !! a) /\ s_known s !! a = Some KNew) /\
    (forall a, itr ts' a -> is_Some (m' !! a) /\ s_known s !! a = Some KTried) /\
    (forall a, is_Some (m' !! a) -> m' !! a = loaded s reserved ∅ now a /\ is_Some (s_known s !! a)) /\
    (forall a, is_Some (m !! a) -> is_Some (m' !! a)) /\ (forall x, x ∈ L -> is_Some (m' !! x.1)).
Proof.
  induction L as [|[a k] L IH]; intros HL ts m Hok Hn Ht Hm.
  - exists ts, m. cbn. split_and!; try done. intros x. by rewrite elem_of_nil.
  - pose proof (HL (a, k) (elem_of_list_here _ _)) as Hk. cbn in Hk. cbn [rfold]. unfold load_known at 1. cbn [fst snd].
    set (ad := addr_data_new _ _ now). set (m1 := <[a := ad]> m).
    assert (Hm1 : forall b, is_Some (m1 !! b) -> m1 !! b = loaded s reserved ∅ now b /\ is_Some (s_known s !! b)).
    { intros b. subst m1. destruct (decide (a = b)) as [<-|Hne].
      - rewrite lookup_insert. intros _. unfold loaded. rewrite Hk. split; [done|by eexists].
      - rewrite lookup_insert_ne by done. apply Hm. }
    assert (Hs1 : forall b, is_Some (m !! b) -> is_Some (m1 !! b)).
    { intros b Hb. apply lookup_insert_is_Some. destruct (decide (a = b)); [by left|by right]. }
    assert (Ha1 : is_Some (m1 !! a)) by (subst m1; rewrite lookup_insert; by eexists).
    assert (exists ts1, match k with KTried => force_add_to_tried ts a | KNew => force_add_to_new ts a end = Ok ts1 /\ tables_ok c ts1 /\
       (forall a, inn ts1 a -> is_Some (m1 !! a) /\ s_known s !! a = Some KNew) /\
       (forall a, itr ts1 a -> is_Some (m1 !! a) /\ s_known s !! a = Some KTried)) as (ts1 & -> & Hok1 & Hn1 & Ht1).
    { destruct k.
      - destruct (force_new_ok c ts a Hok) as (ts1 & H1 & H2 & H3 & H4 & H5). exists ts1. split_and!; try done.
        + intros b Hb. destruct (H5 b Hb) as [->|Hb']; [done|]. destruct (Hn b Hb'). split; [by apply Hs1|done].
        + intros b Hb. apply H3 in Hb. destruct (Ht b Hb). split; [by apply Hs1|done].
      - destruct (force_tried_ok c ts a Hok) as (ts1 & H1 & H2 & H3 & H4 & H5). exists ts1. split_and!; try done.
        + intros b Hb. apply H3 in Hb. destruct (Hn b Hb). split; [by apply Hs1|done].
        + intros b Hb. destruct (H5 b Hb) as [->|Hb']; [done|]. destruct (Ht b Hb'). split; [by apply Hs1|done]. }
    cbn [rbind]. destruct (IH (fun x Hx => HL x (elem_of_list_further _ _ _ Hx)) ts1 m1 Hok1 Hn1 Ht1 Hm1) as (ts' & m' & G1 & G2 & G3 & G4 & G5 & G6 & G7).
    exists ts', m'. split_and!; try done.
    + intros b Hb. apply G6. by apply Hs1.
    + intros x Hx. apply elem_of_cons in Hx as [->|Hx]; [by apply G6|by apply G7].
Qed.

Lemma load_boot_loop c now L : forall ts m, tables_ok c ts ->
  exists ts' m', rfold (load_boot now) L (ts, m) = Ok (ts', m') /\ tables_ok c ts' /\
    (forall a, itr ts' a <-> itr ts a) /\ (forall a, inn ts' a -> inn ts a \/ (a ∈ L /\ m !! a = None)) /\
    (forall a, m' !! a = match m !! a with Some x => Some x | None => if decide (a ∈ L) then Some (addr_data_new false false now) else None end).
Proof.
  induction L as [|a L IH]; intros ts m Hok; cbn [rfold].
  - exists ts, m. split_and!; try done; [intros; by left|]. intros a. rewrite decide_False by apply not_elem_of_nil. by destruct (m !! a).
  - unfold load_boot at 1. cbn [fst snd]. destruct (m !! a) as [x|] eqn:Ha.
    + destruct (IH ts m Hok) as (ts' & m' & H1 & H2 & H3 & H4 & H5). exists ts', m'. split_and!; try done.
      * intros b Hb. destruct (H4 b Hb) as [?|[? ?]]; [by left|]. right. split; [by right|done].
      * intros b. rewrite H5. destruct (m !! b) eqn:Hb; [done|]. destruct (decide (b ∈ L)).
        -- rewrite decide_True; [done|by right].
        -- rewrite decide_False; [done|]. apply not_elem_of_cons. split; [congruence|done].
    + destruct (force_new_ok c ts a Hok) as (ts1 & F1 & F2 & F3 & F4 & F5). rewrite F1. cbn [rbind].
      destruct (IH ts1 (<[a := addr_data_new false false now]> m) F2) as (ts' & m' & H1 & H2 & H3 & H4 & H5). exists ts', m'. split_and!; try done.
      * intros b. by rewrite H3, F3.
      * intros b Hb. destruct (H4 b Hb) as [Hb'|[Hb' Hm]].
        -- destruct (F5 b Hb') as [->|]; [right; split; [by left|done]|by left].
        -- apply lookup_insert_None in Hm as [Hm _]. right. split; [by right|done].
      * intros b. rewrite H5. destruct (decide (a = b)) as [<-|Hne].
        -- rewrite lookup_insert, Ha, decide_True by (by left). done.
        -- rewrite lookup_insert_ne by done. destruct (m !! b); [done|]. destruct (decide (b ∈ L)).
           ++ rewrite decide_True; [done|by right].
           ++ rewrite decide_False; [done|]. apply not_elem_of_cons. split; [congruence|done].
Qed.
Lemma load_reserved_loop now L : forall m a,
  foldl (load_reserved now) m L !! a = match m !! a with Some x => Some x | None => if decide (a ∈ L) then Some (addr_data_new false true now) else None end.
Proof.
  induction L as [|b L IH]; intros m a; cbn [foldl].
  - rewrite decide_False by apply not_elem_of_nil. by destruct (m !! a).
  - rewrite IH. unfold load_reserved. destruct (m !! b) as [x|] eqn:Hb.
    + destruct (m !! a) eqn:Ha; [done|]. destruct (decide (a ∈ L)).
      * rewrite decide_True; [done|by right].
      * rewrite decide_False; [done|]. apply not_elem_of_cons. split; [congruence|done].
    + destruct (decide (b = a)) as [->|Hne].
      * rewrite lookup_insert, Hb, decide_True by (by left). done.
      * rewrite lookup_insert_ne by done. destruct (m !! a); [done|]. destruct (decide (a ∈ L)).
        -- rewrite decide_True; [done|by right].
        -- rewrite decide_False; [done|]. apply not_elem_of_cons. split; [congruence|done].
Qed.

Lemma load_spec c s reserved boot now : config_ok c ->
  exists d, load c s reserved boot now = Ok d /\ inv c 0 boot d /\ d_store d = s /\ d_commits d = [s] /\ d_reserved d = reserved /\
    (forall a, d_addresses d !! a = loaded s reserved boot now a).
Proof.
  intros Hc. destruct (tables_new_ok c Hc) as (ts0 & Hts & Hok0 & He). unfold load. rewrite Hts. cbn [rbind].
  destruct (load_known_loop c s reserved now (map_to_list (s_known s))) with (ts := ts0) (m := ∅ : gmap N addr_data) as (ts & m & H1 & H2 & H3 & H4 & H5 & _ & H6).
  { intros [a k] Hx. by apply elem_of_map_to_list in Hx. }
  { done. } { intros a Ha. by destruct (He a). } { intros a Ha. by destruct (He a). } { intros a [x Hx]. by rewrite lookup_empty in Hx. }
  rewrite H1. cbn [rbind]. destruct (load_boot_loop c now (elements (boot ∖ reserved)) ts m H2) as (ts' & m' & G1 & G2 & G3 & G4 & G5).
  rewrite G1. cbn [rbind fst snd].
  assert (Hm : forall a, m !! a = match s_known s !! a with Some _ => loaded s reserved ∅ now a | None => None end).
  { intros a. destruct (s_known s !! a) as [k|] eqn:Hk.
    - apply H5. apply (H6 (a, k)). by apply elem_of_map_to_list.
    - destruct (m !! a) eqn:Ha; [|done]. destruct (H5 a) as [_ [? ?]]; [by eexists|]. congruence. }
  assert (Hl : forall a, foldl (load_reserved now) m' (elements reserved) !! a = loaded s reserved boot now a).
  { intros a. rewrite load_reserved_loop, G5, Hm. unfold loaded. destruct (s_known s !! a); [done|].
    rewrite (decide_ext (a ∈ elements reserved) (a ∈ reserved)) by apply elem_of_elements.
    rewrite (decide_ext (a ∈ elements (boot ∖ reserved)) (a ∈ boot /\ a ∉ reserved)) by (by rewrite elem_of_elements, elem_of_difference).
    destruct (decide (a ∈ reserved)).
    - rewrite decide_False by (by intros []). done.
    - destruct (decide (a ∈ boot)); [rewrite decide_True by done|rewrite decide_False by (by intros [])]; done. }
  eexists. split; [reflexivity|]. split_and!; try done. split; cbn; try done.
  - intros a Ha. rewrite Hl. unfold loaded. destruct (G4 a Ha) as [Ha'|[Ha' Hna]].
    + apply H3 in Ha' as [_ Ha']. rewrite Ha'. split; [by eexists|by left].
    + rewrite elem_of_elements, elem_of_difference in Ha'. destruct Ha' as [Hb Hr]. rewrite Hm in Hna. unfold loaded in Hna.
      destruct (s_known s !! a); [done|]. rewrite decide_False, decide_True by done. split; [by eexists|]. by right.
  - intros a Ha. apply G3 in Ha. apply H4 in Ha as [_ Ha]. rewrite Hl. unfold loaded. rewrite Ha. split; [by eexists|done].
  - intros a [k Ha]. rewrite Hl. unfold loaded. rewrite Ha. by eexists.
  - intros a. setoid_rewrite Hl. unfold loaded. destruct (s_known s !! a) as [k|].
    + split; [intros Ha; eexists; split; [done|]; cbn; by apply bool_decide_eq_true|].
      intros (ad & [= <-] & Ha). cbn in Ha. by apply bool_decide_eq_true in Ha.
    + destruct (decide (a ∈ reserved)) as [Ha|Ha]; [split; [intros _; by eexists|done]|].
      split; [done|]. intros (ad & Had & Hr). destruct (decide (a ∈ boot)); [|done]. injection Had as <-. done.
  - intros a ad. rewrite Hl. unfold loaded. destruct (s_known s !! a) as [k|]; [intros [= <-]; apply new_data_ok|].
    destruct (decide (a ∈ reserved)); [intros [= <-]; apply new_data_ok|]. destruct (decide (a ∈ boot)); [intros [= <-]; apply new_data_ok|done].
Qed.
