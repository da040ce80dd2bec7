(** Staking accounting refines its specification. *)
From Verif Require Import Base BaseProofs AmountModel DeltaModel DeltaProofs DeltaDbModel LayerProofs
  LayeredModel LayeredSpec LayeredProofs PosModel PosSpec.
Local Open Scope Z_scope.

Definition same (s t : pos_state) : Prop :=
  (forall p, ps_pool s p = ps_pool t p) /\ (forall p, ps_pool_balance s p = ps_pool_balance t p) /\
  (forall d, ps_deleg s d = ps_deleg t d) /\ (forall d, ps_deleg_balance s d = ps_deleg_balance t d) /\
  (forall k, ps_share s k = ps_share t k).

Definition pos_good (s : pos_state) : Prop :=
  bounded (ps_pool_balance s) /\ bounded (ps_deleg_balance s) /\ bounded (ps_share s) /\ sound_stakes s.

Definition acc {K} `{Countable K} (p : K -> N) (m : gmap K Z) (s : K -> N) : Prop :=
  amounts_wf m /\ areads p m s /\ bounded p /\ bounded s.
Definition inv0 (p : pos_state) (d : pos_delta) (s : pos_state) : Prop :=
  dreads (ps_pool p) (psd_pool d) (ps_pool s) /\ dreads (ps_deleg p) (psd_deleg d) (ps_deleg s) /\
  acc (ps_pool_balance p) (psd_pool_balance d) (ps_pool_balance s) /\
  acc (ps_deleg_balance p) (psd_deleg_balance d) (ps_deleg_balance s) /\
  acc (ps_share p) (psd_share d) (ps_share s).
Definition pos_inv (p : pos_state) (d : pos_delta) (s : pos_state) : Prop := inv0 p d s /\ sound_stakes s.

Lemma acc_ext {K} `{Countable K} (p : K -> N) m s t : acc p m s -> (forall k, s k = t k) -> acc p m t.
Proof.
  intros (H1 & H2 & H3 & H4) E. split; [assumption|]. split; [|split; [assumption|]].
  - intros k. rewrite <- E. apply H2.
  - intros k. rewrite <- E. apply H4.
Qed.
Lemma inv0_same p d s t : inv0 p d s -> same s t -> inv0 p d t.
Proof.
  intros (H1 & H2 & H3 & H4 & H5) (E1 & E2 & E3 & E4 & E5).
  split; [intros k; rewrite <- E1; apply H1|]. split; [intros k; rewrite <- E3; apply H2|].
  split; [apply (acc_ext _ _ _ _ H3 E2)|]. split; [apply (acc_ext _ _ _ _ H4 E4)|apply (acc_ext _ _ _ _ H5 E5)].
Qed.
Lemma acc_add {K} `{Countable K} (p : K -> N) m s k a : acc p m s -> Z.of_N (s k + a) <= I128_MAX ->
  exists m', add_unsigned m k a = (m', Ok tt) /\ acc p m' (put s k (s k + a)%N).
Proof.
  intros (Hwf & Hr & Hp & Hs) Hle. destruct (areads_add _ _ _ k a Hwf Hp Hs Hr Hle) as (m' & Hm & W & R & B).
  exists m'. split; [exact Hm|]. exact (conj W (conj R (conj Hp B))).
Qed.
Lemma acc_sub {K} `{Countable K} (p : K -> N) m s k a : acc p m s -> (a <= s k)%N ->
  exists m', sub_unsigned m k a = (m', Ok tt) /\ acc p m' (put s k (s k - a)%N).
Proof.
  intros (Hwf & Hr & Hp & Hs) Hle. destruct (areads_sub _ _ _ k a Hwf Hp Hs Hr Hle) as (m' & Hm & W & R & B).
  exists m'. split; [exact Hm|]. exact (conj W (conj R (conj Hp B))).
Qed.

Lemma inv0_pool p d s id old new : inv0 p d s -> ps_pool s id = old ->
  exists d', pos_merge_pool d id (DataDelta old new) = (d', Ok (DataDelta new old)) /\ inv0 p d' (set_pool s id new).
Proof.
  intros (H1 & H2 & H3 & H4 & H5) Ho. destruct (dreads_set _ _ _ _ _ new H1 Ho) as (m' & Hm & Hr).
  unfold pos_merge_pool. rewrite Hm. cbn. eexists. split; [reflexivity|]. exact (conj Hr (conj H2 (conj H3 (conj H4 H5)))).
Qed.
Lemma inv0_undo_pool p d s id old new : inv0 p d s -> ps_pool s id = old ->
  exists d', pos_undo_merge_pool d id (DataDelta old new) = (d', Ok tt) /\ inv0 p d' (set_pool s id new).
Proof.
  intros Hi Ho. destruct (inv0_pool _ _ _ _ _ new Hi Ho) as (d' & Hm & Hr). exists d'. split; [|exact Hr].
  unfold pos_merge_pool in Hm. unfold pos_undo_merge_pool, undo_merge_delta_data_element.
  destruct (merge_delta_data_element (psd_pool d) id (DataDelta old new)) as [m [x| |]]; cbn in *; congruence.
Qed.
Lemma inv0_deleg p d s id old new : inv0 p d s -> ps_deleg s id = old ->
  exists d', pos_merge_deleg d id (DataDelta old new) = (d', Ok (DataDelta new old)) /\ inv0 p d' (set_deleg s id new).
Proof.
  intros (H1 & H2 & H3 & H4 & H5) Ho. destruct (dreads_set _ _ _ _ _ new H2 Ho) as (m' & Hm & Hr).
  unfold pos_merge_deleg. rewrite Hm. cbn. eexists. split; [reflexivity|]. exact (conj H1 (conj Hr (conj H3 (conj H4 H5)))).
Qed.
Lemma inv0_undo_deleg p d s id old new : inv0 p d s -> ps_deleg s id = old ->
  exists d', pos_undo_merge_deleg d id (DataDelta old new) = (d', Ok tt) /\ inv0 p d' (set_deleg s id new).
Proof.
  intros Hi Ho. destruct (inv0_deleg _ _ _ _ _ new Hi Ho) as (d' & Hm & Hr). exists d'. split; [|exact Hr].
  unfold pos_merge_deleg in Hm. unfold pos_undo_merge_deleg, undo_merge_delta_data_element.
  destruct (merge_delta_data_element (psd_deleg d) id (DataDelta old new)) as [m [x| |]]; cbn in *; congruence.
Qed.
Lemma inv0_add_pb p d s k a : inv0 p d s -> Z.of_N (ps_pool_balance s k + a) <= I128_MAX ->
  exists d', pos_add_pool_balance d k a = (d', Ok tt) /\ inv0 p d' (set_pool_balance s k (ps_pool_balance s k + a)).
Proof.
  intros (H1 & H2 & H3 & H4 & H5) Hle. destruct (acc_add _ _ _ k a H3 Hle) as (m' & Hm & R).
  unfold pos_add_pool_balance. rewrite Hm. cbn. eexists. split; [reflexivity|]. exact (conj H1 (conj H2 (conj R (conj H4 H5)))).
Qed.
Lemma inv0_sub_pb p d s k a : inv0 p d s -> (a <= ps_pool_balance s k)%N ->
  exists d', pos_sub_pool_balance d k a = (d', Ok tt) /\ inv0 p d' (set_pool_balance s k (ps_pool_balance s k - a)).
Proof.
  intros (H1 & H2 & H3 & H4 & H5) Hle. destruct (acc_sub _ _ _ k a H3 Hle) as (m' & Hm & R).
  unfold pos_sub_pool_balance. rewrite Hm. cbn. eexists. split; [reflexivity|]. exact (conj H1 (conj H2 (conj R (conj H4 H5)))).
Qed.
Lemma inv0_add_db p d s k a : inv0 p d s -> Z.of_N (ps_deleg_balance s k + a) <= I128_MAX ->
  exists d', pos_add_deleg_balance d k a = (d', Ok tt) /\ inv0 p d' (set_deleg_balance s k (ps_deleg_balance s k + a)).
Proof.
  intros (H1 & H2 & H3 & H4 & H5) Hle. destruct (acc_add _ _ _ k a H4 Hle) as (m' & Hm & R).
  unfold pos_add_deleg_balance. rewrite Hm. cbn. eexists. split; [reflexivity|]. exact (conj H1 (conj H2 (conj H3 (conj R H5)))).
Qed.
Lemma inv0_sub_db p d s k a : inv0 p d s -> (a <= ps_deleg_balance s k)%N ->
  exists d', pos_sub_deleg_balance d k a = (d', Ok tt) /\ inv0 p d' (set_deleg_balance s k (ps_deleg_balance s k - a)).
Proof.
  intros (H1 & H2 & H3 & H4 & H5) Hle. destruct (acc_sub _ _ _ k a H4 Hle) as (m' & Hm & R).
  unfold pos_sub_deleg_balance. rewrite Hm. cbn. eexists. split; [reflexivity|]. exact (conj H1 (conj H2 (conj H3 (conj R H5)))).
Qed.
Lemma inv0_add_share p d s q k a : inv0 p d s -> Z.of_N (ps_share s (q, k) + a) <= I128_MAX ->
  exists d', pos_add_share d q k a = (d', Ok tt) /\ inv0 p d' (set_share s (q, k) (ps_share s (q, k) + a)).
Proof.
  intros (H1 & H2 & H3 & H4 & H5) Hle. destruct (acc_add _ _ _ (q, k) a H5 Hle) as (m' & Hm & R).
  unfold pos_add_share. rewrite Hm. cbn. eexists. split; [reflexivity|]. exact (conj H1 (conj H2 (conj H3 (conj H4 R)))).
Qed.
Lemma inv0_sub_share p d s q k a : inv0 p d s -> (a <= ps_share s (q, k))%N ->
  exists d', pos_sub_share d q k a = (d', Ok tt) /\ inv0 p d' (set_share s (q, k) (ps_share s (q, k) - a)).
Proof.
  intros (H1 & H2 & H3 & H4 & H5) Hle. destruct (acc_sub _ _ _ (q, k) a H5 Hle) as (m' & Hm & R).
  unfold pos_sub_share. rewrite Hm. cbn. eexists. split; [reflexivity|]. exact (conj H1 (conj H2 (conj H3 (conj H4 R)))).
Qed.

(** *** Reading *)
Lemma acc_combine {K} `{Countable K} (p : K -> N) m s k : acc p m s -> combine_amount_delta (p k) (m !! k) = Ok (s k).
Proof. intros (Hwf & Hr & Hp & Hs). apply (areads_combine _ _ _ k Hp Hs Hr). Qed.

Section reads.
Context (P : pos_view) (p : pos_state) (d : pos_delta) (s : pos_state).
Hypothesis HP : pos_reads P p.
Hypothesis Hi : inv0 p d s.
Lemma get_pool_ok id : pos_get_pool P d id = Ok (ps_pool s id).
Proof.
  destruct HP as [HP1 _], Hi as (H1 & _). destruct (HP1 id) as [E _]. unfold pos_get_pool, pos_fail. rewrite E. cbn.
  pose proof (dreads_get _ _ _ id H1) as Hg. destruct (get_data (psd_pool d) id); congruence.
Qed.
Lemma pool_exists_ok id : pos_pool_exists P d id = Ok (negb (absent (ps_pool s id))).
Proof. unfold pos_pool_exists. rewrite get_pool_ok. cbn. destruct (ps_pool s id); reflexivity. Qed.
Lemma get_deleg_ok id : pos_get_deleg P d id = Ok (ps_deleg s id).
Proof.
  destruct HP as (_ & HP1 & _), Hi as (_ & H1 & _). destruct (HP1 id) as [E _]. unfold pos_get_deleg, pos_fail. rewrite E. cbn.
  pose proof (dreads_get _ _ _ id H1) as Hg. destruct (get_data (psd_deleg d) id); congruence.
Qed.
Lemma get_pb_ok id : pos_get_pool_balance P d id = Ok (ps_pool_balance s id).
Proof.
  destruct HP as [HP1 _], Hi as (_ & _ & H1 & _). destruct (HP1 id) as (_ & E & _). unfold pos_get_pool_balance, pos_fail.
  rewrite E. cbn. rewrite (acc_combine _ _ _ _ H1). reflexivity.
Qed.
Lemma get_db_ok id : pos_get_deleg_balance P d id = Ok (ps_deleg_balance s id).
Proof.
  destruct HP as (_ & HP1 & _), Hi as (_ & _ & _ & H1 & _). destruct (HP1 id) as (_ & E). unfold pos_get_deleg_balance, pos_fail.
  rewrite E. cbn. rewrite (acc_combine _ _ _ _ H1). reflexivity.
Qed.
Lemma get_share_ok q id : pos_get_share P d q id = Ok (ps_share s (q, id)).
Proof.
  destruct HP as (_ & _ & HP1), Hi as (_ & _ & _ & _ & H1). specialize (HP1 q id). unfold pos_get_share, pos_fail.
  rewrite HP1. cbn. rewrite (acc_combine _ _ _ _ H1). reflexivity.
Qed.

Lemma range_some {A} (m : gmap (N * N) A) q r k : shares_range m q = Some r -> r !! k = m !! (q, k).
Proof. intros H. rewrite <- lookup_gmap_curry. unfold shares_range in H. rewrite H. reflexivity. Qed.
Lemma range_none {A} (m : gmap (N * N) A) q k : shares_range m q = None -> m !! (q, k) = None.
Proof. intros H. rewrite <- lookup_gmap_curry. unfold shares_range in H. rewrite H. reflexivity. Qed.

(** The value [sum_maps] and the conversion compute at one key. *)
Definition sum1 (o : option N) (z : Z) : res pos_err (option N) :=
  match (let? b := ok_or (into_signed (default 0%N o)) PosToUnsignedFailed in
         let? s := ok_or (samount_add b z) PosSumToSignedFailed in
         ok_or (into_unsigned s) PosToUnsignedFailed) with
  | Ok a => Ok (Some a) | Err e => Err e | Panic => Panic end.
Definition conv1 (o : option N) (z : Z) : res pos_err (option N) :=
  match into_unsigned z with Some a => Ok (Some a) | None => Err PosToUnsignedFailed end.

Lemma sum_maps_ok m1 m2 (f : N -> N) :
  (forall k z, m2 !! k = Some z -> sum1 (m1 !! k) z = Ok (Some (f k))) ->
  exists r, sum_maps m1 m2 = Ok r /\ forall k, r !! k = match m2 !! k with Some _ => Some (f k) | None => m1 !! k end.
Proof.
  intros H. unfold sum_maps.
  match goal with |- context [try_fold ?g _ _] => set (F := g) end.
  assert (Fok : forall m k z o, sum1 (m !! k) z = Ok o -> F m (k, z) = (partial_alter (fun _ => o) k m, Ok tt)).
  { intros m k z o. unfold F, sum1. cbn [fst snd]. destruct (rbind _ _) as [a| |]; intros E; try discriminate E. injection E as <-. reflexivity. }
  assert (Finv : forall m k z m', F m (k, z) = (m', Ok tt) -> exists o, sum1 (m !! k) z = Ok o).
  { intros m k z m'. unfold F, sum1. cbn [fst snd]. destruct (rbind _ _) as [a| |]; intros E; try discriminate E. eauto. }
  destruct (try_fold_keyed_succeeds F (fun _ => sum1) Fok (map_to_list m2) m1 (NoDup_fst_map_to_list m2)) as [r Hr].
  { intros k z Hz. apply elem_of_map_to_list in Hz. rewrite (H _ _ Hz). eexists. reflexivity. }
  pose proof (try_fold_keyed_ok F (fun _ => sum1) Fok Finv _ _ _ (NoDup_fst_map_to_list m2) Hr) as Hk.
  unfold keyed_result in Hk. rewrite list_to_map_to_list in Hk. rewrite Hr. exists r. split; [reflexivity|].
  intros k. specialize (Hk k). destruct (m2 !! k) as [z|] eqn:E; [|exact Hk]. rewrite (H _ _ E) in Hk. congruence.
Qed.
Lemma shares_to_unsigned_ok m2 (f : N -> N) :
  (forall k z, m2 !! k = Some z -> into_unsigned z = Some (f k)) ->
  exists r, shares_to_unsigned m2 = Ok r /\ forall k, r !! k = match m2 !! k with Some _ => Some (f k) | None => None end.
Proof.
  intros H. unfold shares_to_unsigned.
  match goal with |- context [try_fold ?g _ _] => set (F := g) end.
  assert (Fok : forall m k z o, conv1 (m !! k) z = Ok o -> F m (k, z) = (partial_alter (fun _ => o) k m, Ok tt)).
  { intros m k z o. unfold F, conv1. cbn [fst snd]. destruct (into_unsigned z) as [a|]; intros E; try discriminate E. injection E as <-. reflexivity. }
  assert (Finv : forall m k z m', F m (k, z) = (m', Ok tt) -> exists o, conv1 (m !! k) z = Ok o).
  { intros m k z m'. unfold F, conv1. cbn [fst snd]. destruct (into_unsigned z) as [a|]; intros E; try discriminate E. eauto. }
  destruct (try_fold_keyed_succeeds F (fun _ => conv1) Fok (map_to_list m2) ∅ (NoDup_fst_map_to_list m2)) as [r Hr].
  { intros k z Hz. apply elem_of_map_to_list in Hz. unfold conv1. rewrite (H _ _ Hz). eexists. reflexivity. }
  pose proof (try_fold_keyed_ok F (fun _ => conv1) Fok Finv _ _ _ (NoDup_fst_map_to_list m2) Hr) as Hk.
  unfold keyed_result in Hk. rewrite list_to_map_to_list in Hk. rewrite Hr. exists r. split; [reflexivity|].
  intros k. specialize (Hk k). destruct (m2 !! k) as [z|] eqn:E.
  - unfold conv1 in Hk. rewrite (H _ _ E) in Hk. congruence.
  - rewrite Hk. apply lookup_empty.
Qed.

Lemma get_shares_ok q : exists o, pos_get_shares P d q = Ok o /\ forall k, shown o k = ps_share s (q, k).
Proof.
  destruct HP as [HP1 _], Hi as (_ & _ & _ & _ & (Hwf & Hr & Hb & Hbs)). destruct (HP1 q) as (_ & _ & o & E & Ho).
  unfold pos_get_shares, pos_fail. rewrite E. cbn [rmap_err rbind].
  assert (V : forall k, Z.of_N (ps_share s (q, k)) = Z.of_N (shown o k) + dval (psd_share d) (q, k)).
  { intros k. rewrite Ho. apply Hr. }
  pose proof I128_facts as HI.
  destruct o as [m1|], (shares_range (psd_share d) q) as [m2|] eqn:E2.
  - destruct (sum_maps_ok m1 m2 (fun k => ps_share s (q, k))) as (r & -> & Hk).
    { intros k z Hz. rewrite (range_some _ _ _ k E2) in Hz. specialize (V k). unfold dval in V. rewrite Hz in V. cbn in V.
      pose proof (Hb (q, k)) as B1. pose proof (Hbs (q, k)) as B2. specialize (Ho k). unfold sum1.
      change (default 0%N (m1 !! k)) with (shown (Some m1) k).
      assert (into_signed (shown (Some m1) k) = Some (Z.of_N (shown (Some m1) k))) as -> by (apply into_signed_spec; split; [reflexivity|]; rewrite Ho; lia).
      cbn [ok_or rbind].
      assert (samount_add (Z.of_N (shown (Some m1) k)) z = Some (Z.of_N (ps_share s (q, k)))) as ->.
      { apply samount_add_spec. unfold in_i128. lia. }
      cbn [ok_or rbind]. assert (into_unsigned (Z.of_N (ps_share s (q, k))) = Some (ps_share s (q, k))) as -> by (apply into_unsigned_spec; lia).
      reflexivity. }
    eexists. split; [reflexivity|]. intros k. unfold shown. cbn. rewrite Hk. destruct (m2 !! k) as [z|] eqn:Ez; [reflexivity|].
    rewrite (range_some _ _ _ k E2) in Ez. specialize (V k). unfold dval in V. rewrite Ez in V. cbn in V.
    change (shown (Some m1) k = ps_share s (q, k)). lia.
  - eexists. split; [reflexivity|]. intros k. specialize (V k). unfold dval in V. rewrite (range_none _ _ k E2) in V. cbn in V |- *. lia.
  - destruct (shares_to_unsigned_ok m2 (fun k => ps_share s (q, k))) as (r & -> & Hk).
    { intros k z Hz. rewrite (range_some _ _ _ k E2) in Hz. specialize (V k). unfold dval in V. rewrite Hz in V. cbn in V.
      unfold shown in V. cbn in V. rewrite lookup_empty in V. cbn in V. apply into_unsigned_spec. lia. }
    eexists. split; [reflexivity|]. intros k. unfold shown. cbn. rewrite Hk. destruct (m2 !! k) as [z|] eqn:Ez; [reflexivity|].
    rewrite (range_some _ _ _ k E2) in Ez. specialize (V k). unfold dval in V. rewrite Ez in V. unfold shown in V. cbn in V.
    rewrite lookup_empty in V. cbn in V |- *. lia.
  - eexists. split; [reflexivity|]. intros k. specialize (V k). unfold dval in V. rewrite (range_none _ _ k E2) in V. unfold shown in *.
    cbn in V |- *. rewrite lookup_empty in *. cbn in *. lia.
Qed.

Lemma pos_reads_cache0 : pos_reads (pos_cache_view P d) s.
Proof.
  split; [|split].
  - intros q. cbn. rewrite get_pool_ok, get_pb_ok. split; [reflexivity|]. split; [reflexivity|]. apply get_shares_ok.
  - intros k. cbn. rewrite get_deleg_ok, get_db_ok. auto.
  - intros q k. cbn. apply get_share_ok.
Qed.
End reads.

(** *** Totals *)
Section totals.
Local Open Scope N_scope.
Lemma sum_over_cons {K} (f : K -> N) k l : sum_over f (k :: l) = f k + sum_over f l.
Proof. reflexivity. Qed.
Lemma sum_over_perm {K} (f : K -> N) l l' : l ≡ₚ l' -> sum_over f l = sum_over f l'.
Proof. induction 1 as [|x l l' H IH|x y l|l1 l2 l3 H1 IH1 H2 IH2]; rewrite ?sum_over_cons; [reflexivity|rewrite IH; reflexivity|lia|congruence]. Qed.
Lemma sum_over_ext {K} (f g : K -> N) l : (forall k, k ∈ l -> f k = g k) -> sum_over f l = sum_over g l.
Proof.
  induction l as [|x l IH]; intros H; [reflexivity|]. rewrite !sum_over_cons. rewrite (H x) by left. rewrite IH; [reflexivity|].
  intros k Hk. apply H. right. exact Hk.
Qed.
Lemma total_of_ext f g n : total_of f n -> (forall d, f d = g d) -> total_of g n.
Proof.
  intros (l & Hn & Hz & ->) E. exists l. split; [exact Hn|]. split; [intros d Hd; rewrite <- E; auto|].
  apply sum_over_ext. auto.
Qed.
Lemma total_of_split f n k : total_of f n -> exists r, n = f k + r /\ forall v, total_of (put f k v) (v + r).
Proof.
  intros (l & Hn & Hz & ->).
  assert (exists l', k ∉ l' /\ NoDup l' /\ (forall d, d ∉ l' -> d <> k -> f d = 0) /\ sum_over f l = f k + sum_over f l') as (l' & Hk & Hn' & Hz' & ->).
  { destruct (decide (k ∈ l)) as [Hin|Hin].
    - apply elem_of_Permutation in Hin as [l' Hp]. exists l'. rewrite Hp in Hn. apply NoDup_cons in Hn as [Hk Hn'].
      split; [exact Hk|]. split; [exact Hn'|]. split; [|rewrite (sum_over_perm _ _ _ Hp); reflexivity].
      intros d Hd Hne. apply Hz. rewrite Hp. intros H. apply elem_of_cons in H as [->|H]; contradiction.
    - exists l. split; [exact Hin|]. split; [exact Hn|]. split; [auto|]. rewrite (Hz _ Hin). reflexivity. }
  exists (sum_over f l'). split; [reflexivity|]. intros v. exists (k :: l').
  split; [apply NoDup_cons; auto|]. split.
  - intros d Hd. apply not_elem_of_cons in Hd as [Hne Hd]. unfold put. destruct (decide (k = d)); [congruence|auto].
  - rewrite sum_over_cons. assert (put f k v k = v) as -> by (unfold put; destruct (decide (k = k)); congruence). f_equal.
    apply sum_over_ext. intros d Hd. unfold put. destruct (decide (k = d)) as [<-|]; [contradiction|reflexivity].
Qed.
Lemma sum_over_support (f : N -> N) l : sum_over f l = sum_over f (filter (fun k => f k <> 0) l).
Proof.
  induction l as [|x l IH]; [reflexivity|]. rewrite sum_over_cons, filter_cons.
  destruct (decide (f x <> 0)) as [H|H]; [rewrite sum_over_cons; congruence|].
  assert (f x = 0) as -> by (destruct (decide (f x = 0)); [assumption|contradiction]). exact IH.
Qed.
Lemma total_of_unique (f : N -> N) n n' : total_of f n -> total_of f n' -> n = n'.
Proof.
  intros (l & Hn & Hz & ->) (l' & Hn' & Hz' & ->). rewrite (sum_over_support f l), (sum_over_support f l').
  apply sum_over_perm. apply NoDup_Permutation; [apply NoDup_filter; assumption|apply NoDup_filter; assumption|].
  intros x. rewrite !elem_of_list_filter. split; intros [H1 H2]; (split; [exact H1|]).
  - destruct (decide (x ∈ l')); [assumption|]. apply Hz' in n. contradiction.
  - destruct (decide (x ∈ l)); [assumption|]. apply Hz in n. contradiction.
Qed.
Lemma total_of_zero f : (forall d, f d = 0) -> total_of f 0.
Proof. intros H. exists []. split; [constructor|]. split; [auto|reflexivity]. Qed.
Lemma total_listing o : total_of (shown o) (total o).
Proof.
  unfold shown, total. generalize (default ∅ o). intros m. exists (map_to_list m).*1.
  split; [apply NoDup_fst_map_to_list|]. split.
  - intros d Hd. destruct (m !! d) as [a|] eqn:E; [|reflexivity]. exfalso. apply Hd.
    apply elem_of_list_fmap. exists (d, a). split; [reflexivity|]. apply elem_of_map_to_list. exact E.
  - assert (forall l : list (N * N), (forall k a, (k, a) ∈ l -> m !! k = Some a) ->
      foldr N.add 0 l.*2 = sum_over (fun d => default 0 (m !! d)) l.*1) as H.
    { induction l as [|[k a] l IH]; intros H; [reflexivity|]. cbn. rewrite (H k a) by left. cbn.
      fold (sum_over (fun d => default 0 (m !! d)) l.*1). rewrite IH; [reflexivity|]. intros. apply H. right. assumption. }
    apply H. intros k a Hk. apply elem_of_map_to_list. exact Hk.
Qed.

Lemma put_eq {K} `{EqDecision K} {V} (f : K -> V) k v : put f k v k = v.
Proof. unfold put. destruct (decide (k = k)); congruence. Qed.
Lemma put_ne {K} `{EqDecision K} {V} (f : K -> V) k v k' : k <> k' -> put f k v k' = f k'.
Proof. unfold put. destruct (decide (k = k')); congruence. Qed.

(** Soundness is kept by every operation within its conditions. *)
Lemma pos_step_sound s o s' : sound_stakes s -> pos_fits s o -> pos_step s o = Ok s' -> sound_stakes s'.
Proof.
  intros (S1 & S2 & S3) Hfit Hstep. destruct o as [p x|p|p a|p d key|d|d a|d a]; cbn [pos_step pos_fits] in *.
  - destruct (ps_pool s p) eqn:Hp; [discriminate|]. destruct (decide _) as [|Hb]; [discriminate|]. injection Hstep as <-.
    destruct (Hfit eq_refl) as (_ & Hr & Hsh). split; [|split; [exact S2|exact S3]].
    intros q y. cbn. destruct (decide (p = q)) as [<-|Hne].
    + rewrite !put_eq. intros [= <-]. exists 0. split; [apply total_of_zero, Hsh|]. lia.
    + rewrite !put_ne by exact Hne. apply S1.
  - destruct (ps_pool s p) eqn:Hp; [|discriminate]. injection Hstep as <-. split; [|split; [exact S2|exact S3]].
    intros q y. cbn. destruct (decide (p = q)) as [<-|Hne].
    + rewrite put_eq. discriminate.
    + rewrite !put_ne by exact Hne. apply S1.
  - destruct (ps_pool s p) as [x|] eqn:Hp; [|discriminate]. injection Hstep as <-. split; [|split; [exact S2|exact S3]].
    intros q y. cbn. destruct (decide (p = q)) as [<-|Hne].
    + rewrite !put_eq. intros [= <-]. destruct (S1 _ _ Hp) as (n & Hn & ->). exists n. split; [exact Hn|]. cbn. lia.
    + rewrite !put_ne by exact Hne. apply S1.
  - destruct (ps_pool s p) as [x|] eqn:Hp; [|discriminate]. destruct (ps_deleg s d) eqn:Hd; [discriminate|]. injection Hstep as <-.
    destruct (S3 _ Hd) as [Z1 Z2]. split; [exact S1|]. split.
    + intros e y. cbn. destruct (decide (d = e)) as [<-|Hne].
      * rewrite put_eq. intros [= <-]. cbn. rewrite Z1, Z2. auto.
      * rewrite put_ne by exact Hne. apply S2.
    + intros e. cbn. destruct (decide (d = e)) as [<-|Hne]; [rewrite put_eq; discriminate|rewrite put_ne by exact Hne; apply S3].
  - destruct (ps_deleg s d) as [x|] eqn:Hd; [|discriminate]. destruct (decide _) as [|Hb]; [discriminate|].
    destruct (ps_pool s (dd_pool x)); [discriminate|]. injection Hstep as <-. destruct (S2 _ _ Hd) as [Z1 Z2].
    split; [exact S1|]. split.
    + intros e y. cbn. destruct (decide (d = e)) as [<-|Hne]; [rewrite put_eq; discriminate|rewrite put_ne by exact Hne; apply S2].
    + intros e. cbn. destruct (decide (d = e)) as [<-|Hne]; [|rewrite put_ne by exact Hne; apply S3].
      intros _. split; [lia|]. intros p. destruct (decide (p = dd_pool x)) as [->|Hp]; [lia|auto].
  - destruct (ps_deleg s d) as [x|] eqn:Hd; [|discriminate]. injection Hstep as <-. destruct (S2 _ _ Hd) as [Z1 Z2].
    split; [|split].
    + intros q y. cbn. intros Hy. destruct (S1 _ _ Hy) as (n & Hn & Hb).
      destruct (decide (dd_pool x = q)) as [<-|Hne].
      * rewrite put_eq. destruct (total_of_split _ _ d Hn) as (r & -> & Hr).
        exists (ps_share s (dd_pool x, d) + a + r). split; [|lia].
        apply (total_of_ext _ _ _ (Hr (ps_share s (dd_pool x, d) + a))). intros e. unfold put.
        destruct (decide (d = e)) as [<-|He]; destruct (decide _) as [E|E]; try congruence; reflexivity.
      * rewrite put_ne by exact Hne. exists n. split; [|exact Hb]. apply (total_of_ext _ _ _ Hn). intros e. rewrite put_ne; congruence.
    + intros e y. cbn. intros Hy. destruct (S2 _ _ Hy) as [Y1 Y2]. destruct (decide (d = e)) as [<-|Hne].
      * rewrite Hd in Hy. injection Hy as <-. rewrite !put_eq. split; [lia|]. intros q Hq. rewrite put_ne by congruence. auto.
      * rewrite !put_ne by congruence. split; [exact Y1|]. intros q Hq. rewrite put_ne by congruence. auto.
    + intros e Hy. cbn in *. assert (d <> e) as Hne by congruence. destruct (S3 _ Hy) as [Y1 Y2].
      rewrite put_ne by exact Hne. split; [exact Y1|]. intros q. rewrite put_ne by congruence. auto.
  - destruct (ps_deleg s d) as [x|] eqn:Hd; [|discriminate]. injection Hstep as <-. destruct (S2 _ _ Hd) as [Z1 Z2].
    set (s2 := match ps_pool s (dd_pool x) with Some _ => _ | None => _ end).
    assert (ps_pool s2 = ps_pool s /\ ps_deleg s2 = ps_deleg s /\ ps_deleg_balance s2 = ps_deleg_balance s /\
            ps_share s2 = put (ps_share s) (dd_pool x, d) (ps_share s (dd_pool x, d) - a)) as (E1 & E2 & E3 & E4).
    { unfold s2. destruct (ps_pool s (dd_pool x)); auto. }
    split; [|split]; cbn; rewrite ?E1, ?E2, ?E3, ?E4.
    + intros q y Hy. destruct (S1 _ _ Hy) as (n & Hn & Hb).
      destruct (decide (dd_pool x = q)) as [<-|Hne].
      * unfold s2. rewrite Hy. cbn. rewrite put_eq. destruct (total_of_split _ _ d Hn) as (r & -> & Hr).
        exists (ps_share s (dd_pool x, d) - a + r). split; [|lia].
        apply (total_of_ext _ _ _ (Hr (ps_share s (dd_pool x, d) - a))). intros e. unfold put.
        destruct (decide (d = e)) as [<-|He]; destruct (decide _) as [E|E]; try congruence; reflexivity.
      * exists n. split; [apply (total_of_ext _ _ _ Hn); intros e; rewrite put_ne; congruence|].
        unfold s2. destruct (ps_pool s (dd_pool x)); cbn; [rewrite put_ne by exact Hne|]; exact Hb.
    + intros e y Hy. destruct (S2 _ _ Hy) as [Y1 Y2]. destruct (decide (d = e)) as [<-|Hne].
      * rewrite Hd in Hy. injection Hy as <-. rewrite !put_eq. split; [lia|]. intros q Hq. rewrite put_ne by congruence. auto.
      * rewrite !put_ne by congruence. split; [exact Y1|]. intros q Hq. rewrite put_ne by congruence. auto.
    + intros e Hy. assert (d <> e) as Hne by congruence. destruct (S3 _ Hy) as [Y1 Y2].
      rewrite put_ne by exact Hne. split; [exact Y1|]. intros q. rewrite put_ne by congruence. auto.
Qed.
Lemma share_le_pool s p x d : sound_stakes s -> ps_pool s p = Some x -> ps_share s (p, d) <= ps_pool_balance s p.
Proof.
  intros (S1 & _) Hp. destruct (S1 _ _ Hp) as (n & Hn & ->). destruct (total_of_split _ _ d Hn) as (r & -> & _). lia.
Qed.
End totals.

(** *** What an undo record says about the states before and after its operation *)
Definition pos_undoes (u : pos_undo) (s' s : pos_state) : Prop :=
  pos_good s /\
  match u with
  | PUndoCreatePool p pledge u => u = DataDelta (ps_pool s' p) (ps_pool s p) /\ absent (ps_pool s' p) = false /\
      ps_pool_balance s' p = pledge /\ same (set_pool (set_pool_balance s' p 0%N) p (ps_pool s p)) s
  | PUndoDecommission p b u => u = DataDelta None (ps_pool s p) /\ ps_pool s' p = None /\
      ps_pool_balance s' p = 0%N /\ same (set_pool (set_pool_balance s' p b) p (ps_pool s p)) s
  | PUndoCreateDeleg d u => u = DataDelta (ps_deleg s' d) (ps_deleg s d) /\ absent (ps_deleg s' d) = false /\
      same (set_deleg s' d (ps_deleg s d)) s
  | PUndoDeleteDeleg d u => u = DataDelta (ps_deleg s' d) (ps_deleg s d) /\ ps_deleg_balance s' d = 0%N /\
      same (set_deleg s' d (ps_deleg s d)) s
  | PUndoDelegate d a => exists x, ps_deleg s' d = Some x /\
      (a <= ps_share s' (dd_pool x, d) /\ a <= ps_pool_balance s' (dd_pool x) /\ a <= ps_deleg_balance s' d)%N /\
      same (set_deleg_balance (set_pool_balance (set_share s' (dd_pool x, d) (ps_share s' (dd_pool x, d) - a))
              (dd_pool x) (ps_pool_balance s' (dd_pool x) - a)) d (ps_deleg_balance s' d - a))%N s
  | PUndoSpend d a => exists x, ps_deleg s' d = Some x /\
      let s1 := set_deleg_balance s' d (ps_deleg_balance s' d + a)%N in
      let s2 := match ps_pool s' (dd_pool x) with
                | Some _ => set_pool_balance s1 (dd_pool x) (ps_pool_balance s' (dd_pool x) + a)%N | None => s1 end in
      same (set_share s2 (dd_pool x, d) (ps_share s' (dd_pool x, d) + a)%N) s
  | PUndoRewards p a u => u = DataDelta (ps_pool s' p) (ps_pool s p) /\ (a <= ps_pool_balance s' p)%N /\
      same (set_pool_balance (set_pool s' p (ps_pool s p)) p (ps_pool_balance s' p - a)%N) s
  end.

Lemma pos_inv_good p d s : pos_inv p d s -> pos_good s.
Proof. intros [(_ & _ & (_ & _ & _ & H1) & (_ & _ & _ & H2) & (_ & _ & _ & H3)) H]. exact (conj H1 (conj H2 (conj H3 H))). Qed.
Lemma same_sound s t : same s t -> sound_stakes s -> sound_stakes t.
Proof.
  intros (E1 & E2 & E3 & E4 & E5) (S1 & S2 & S3). split; [|split].
  - intros p x Hx. rewrite <- E1 in Hx. destruct (S1 _ _ Hx) as (n & Hn & Hb). exists n. rewrite <- E2. split; [|exact Hb].
    apply (total_of_ext _ _ _ Hn). intros d. apply E5.
  - intros d x Hx. rewrite <- E3 in Hx. destruct (S2 _ _ Hx) as [Y1 Y2]. rewrite <- E4, <- E5. split; [exact Y1|].
    intros p Hp. rewrite <- E5. auto.
  - intros d Hx. rewrite <- E3 in Hx. destruct (S3 _ Hx) as [Y1 Y2]. rewrite <- E4. split; [exact Y1|]. intros p. rewrite <- E5. auto.
Qed.

Ltac solve_same :=
  unfold same, set_pool, set_pool_balance, set_deleg, set_deleg_balance, set_share, put;
  cbn [ps_pool ps_pool_balance ps_deleg ps_deleg_balance ps_share];
  refine (conj _ (conj _ (conj _ (conj _ _)))); intros ?;
  repeat (match goal with |- context [decide ?P] => destruct (decide P) end); subst; try reflexivity; try congruence; try lia.

Lemma with_rewards_ok x a : (pd_rewards x + a <= U128_MAX)%N -> increase_rewards x a = Ok (with_rewards x (pd_rewards x + a)).
Proof.
  intros H. unfold increase_rewards, amount_add, checked_add. destruct (N.leb_spec (pd_rewards x + a) U128_MAX); [reflexivity|lia].
Qed.

Lemma pos_op_refines P p d s o : pos_reads P p -> pos_inv p d s -> pos_fits s o ->
  match pos_step s o with
  | Ok s' => exists d' u, pos_run P d o = (d', Ok u) /\ pos_inv p d' s' /\ pos_undoes u s' s
  | Err e => exists d', pos_run P d o = (d', Err e) /\ pos_inv p d' s
  | Panic => False
  end.
Proof.
  intros HP Hinv Hfit. pose proof Hinv as [Hi Hsnd]. pose proof (pos_inv_good _ _ _ Hinv) as Hgood.
  pose proof Hgood as (HbP & HbD & HbS & _).
  pose proof (get_pool_ok _ _ _ _ HP Hi) as RP. pose proof (get_pb_ok _ _ _ _ HP Hi) as RB.
  pose proof (get_deleg_ok _ _ _ _ HP Hi) as RD. pose proof (get_db_ok _ _ _ _ HP Hi) as RDB.
  pose proof (get_share_ok _ _ _ _ HP Hi) as RS. pose proof (pool_exists_ok _ _ _ _ HP Hi) as RE.
  pose proof (fun s' => pos_step_sound s o s' Hsnd Hfit) as Hkeep.
  destruct o as [q x|q|q a|q k key|k|k a|k a]; cbn [pos_step pos_run pos_fits] in *.
  - (* create pool *)
    unfold create_pool. rewrite RP. cbn [rbind]. destruct (ps_pool s q) as [x0|] eqn:Hq; cbn [absent ensure rbind on_ok]; [eauto|].
    rewrite RB. unfold pos_fail. cbn [rmap_err rbind].
    destruct (decide (0 < ps_pool_balance s q)%N) as [Hb|Hb]; destruct (N.ltb_spec 0 (ps_pool_balance s q)); try lia;
      cbn [negb ensure on_ok]; [eauto|].
    destruct (Hfit eq_refl) as (F1 & F2 & F3). assert (ps_pool_balance s q = 0%N) as Hz by lia.
    destruct (inv0_add_pb _ _ _ q (pd_pledge x) Hi) as (d1 & -> & Hi1); [rewrite Hz; exact F1|]. cbn [sbind].
    destruct (inv0_pool _ _ _ q None (Some x) Hi1 Hq) as (d2 & -> & Hi2). cbn [sbind].
    do 2 eexists. split; [reflexivity|]. split; [split; [|exact (Hkeep _ eq_refl)]|].
    + apply (inv0_same _ _ _ _ Hi2). rewrite Hz. solve_same.
    + split; [exact Hgood|]. rewrite Hq. cbn [set_pool set_pool_balance ps_pool ps_pool_balance]. rewrite !put_eq.
      split; [reflexivity|]. split; [reflexivity|]. split; [reflexivity|]. solve_same.
  - (* decommission *)
    unfold decommission_pool. rewrite RP. cbn [rbind]. destruct (ps_pool s q) as [x0|] eqn:Hq; cbn [ok_or rbind on_ok]; [|eauto].
    rewrite RB. cbn [rbind on_ok].
    destruct (inv0_sub_pb _ _ _ q (ps_pool_balance s q) Hi) as (d1 & -> & Hi1); [lia|]. cbn [sbind].
    destruct (inv0_pool _ _ _ q (Some x0) None Hi1 Hq) as (d2 & -> & Hi2). cbn [sbind].
    do 2 eexists. split; [reflexivity|]. split; [split; [|exact (Hkeep _ eq_refl)]|].
    + apply (inv0_same _ _ _ _ Hi2). solve_same.
    + split; [exact Hgood|]. rewrite Hq. cbn [set_pool set_pool_balance ps_pool ps_pool_balance]. rewrite !put_eq.
      split; [reflexivity|]. split; [reflexivity|]. split; [reflexivity|]. solve_same.
  - (* rewards *)
    unfold increase_staker_rewards. rewrite RP. cbn [rbind]. destruct (ps_pool s q) as [x0|] eqn:Hq; cbn [ok_or rbind on_ok]; [|eauto].
    specialize (Hfit (ex_intro _ _ eq_refl)). destruct Hsnd as (S1 & _). destruct (S1 _ _ Hq) as (n & _ & Hbal).
    destruct (inv0_add_pb _ _ _ q a Hi Hfit) as (d1 & -> & Hi1). cbn [sbind].
    rewrite with_rewards_ok by (pose proof I128_facts; unfold I128_MAX, U128_MAX in *; lia). cbn [on_ok].
    destruct (inv0_pool _ _ _ q (Some x0) (Some (with_rewards x0 (pd_rewards x0 + a))) Hi1 Hq) as (d2 & -> & Hi2). cbn [sbind].
    do 2 eexists. split; [reflexivity|]. split; [split; [|exact (Hkeep _ eq_refl)]|].
    + exact Hi2.
    + split; [exact Hgood|]. rewrite Hq. cbn [set_pool set_pool_balance ps_pool ps_pool_balance]. rewrite !put_eq.
      split; [reflexivity|]. split; [lia|]. solve_same.
  - (* create delegation *)
    unfold create_delegation_id. rewrite RE. cbn [rbind]. destruct (ps_pool s q) as [x0|] eqn:Hq; cbn [absent negb ensure rbind on_ok]; [|eauto].
    rewrite RD. cbn [rbind]. destruct (ps_deleg s k) as [y0|] eqn:Hk; cbn [absent ensure on_ok]; [eauto|].
    destruct (inv0_deleg _ _ _ k None (Some (DelegData key q)) Hi Hk) as (d2 & -> & Hi2). cbn [sbind].
    do 2 eexists. split; [reflexivity|]. split; [split; [exact Hi2|exact (Hkeep _ eq_refl)]|].
    split; [exact Hgood|]. rewrite Hk. cbn [set_deleg ps_deleg]. rewrite !put_eq. split; [reflexivity|]. split; [reflexivity|]. solve_same.
  - (* delete delegation *)
    unfold delete_delegation_id. rewrite RD. cbn [rbind]. destruct (ps_deleg s k) as [y0|] eqn:Hk; cbn [ok_or rbind on_ok]; [|eauto].
    rewrite RDB. cbn [rbind].
    destruct (decide (0 < ps_deleg_balance s k)%N) as [Hb|Hb]; destruct (N.ltb_spec 0 (ps_deleg_balance s k)); try lia;
      cbn [negb ensure rbind on_ok]; [eauto|].
    rewrite RS. cbn [rbind]. destruct Hsnd as (_ & S2 & _). destruct (S2 _ _ Hk) as [Hsh _].
    destruct (N.ltb_spec 0 (ps_share s (dd_pool y0, k))); [lia|]. cbn [negb ensure rbind].
    rewrite RE. cbn [rbind]. destruct (ps_pool s (dd_pool y0)) eqn:Hq; cbn [absent negb ensure rbind on_ok]; [eauto|].
    destruct (inv0_deleg _ _ _ k (Some y0) None Hi Hk) as (d2 & -> & Hi2). cbn [sbind].
    do 2 eexists. split; [reflexivity|]. split; [split; [exact Hi2|exact (Hkeep _ eq_refl)]|].
    split; [exact Hgood|]. rewrite Hk. cbn [set_deleg ps_deleg ps_deleg_balance]. rewrite !put_eq. split; [reflexivity|]. split; [lia|]. solve_same.
  - (* delegate *)
    unfold delegate_staking. rewrite RD. cbn [rbind]. destruct (ps_deleg s k) as [y0|] eqn:Hk; cbn [ok_or rbind on_ok]; [|eauto].
    destruct (Hfit _ eq_refl) as [F1 F2]. destruct Hsnd as (_ & S2 & _). destruct (S2 _ _ Hk) as [Hsh _].
    destruct (inv0_add_db _ _ _ k a Hi F1) as (d1 & -> & Hi1). cbn [sbind].
    destruct (inv0_add_pb _ _ _ (dd_pool y0) a Hi1 F2) as (d2 & -> & Hi2). cbn [sbind].
    destruct (inv0_add_share _ _ _ (dd_pool y0) k a Hi2) as (d3 & -> & Hi3); [cbn; rewrite Hsh; exact F1|]. cbn [sbind].
    do 2 eexists. split; [reflexivity|]. split; [split; [exact Hi3|exact (Hkeep _ eq_refl)]|].
    split; [exact Hgood|]. exists y0. cbn [set_deleg_balance set_pool_balance set_share ps_deleg ps_share ps_pool_balance ps_deleg_balance].
    rewrite !put_eq. split; [exact Hk|]. split; [lia|]. solve_same.
  - (* spend *)
    unfold spend_share. rewrite RD. cbn [rbind]. destruct (ps_deleg s k) as [y0|] eqn:Hk; cbn [ok_or rbind on_ok]; [|eauto].
    pose proof (share_le_pool s (dd_pool y0)) as Hle. specialize (fun x => Hle x k Hsnd). destruct Hsnd as (_ & S2 & _). destruct (S2 _ _ Hk) as [Hsh _].
    destruct (inv0_sub_share _ _ _ (dd_pool y0) k a Hi) as (d1 & -> & Hi1); [lia|]. cbn [sbind].
    rewrite (pool_exists_ok _ _ _ _ HP Hi1). cbn [set_share ps_pool].
    destruct (ps_pool s (dd_pool y0)) as [x0|] eqn:Hq; cbn [absent negb on_ok].
    + specialize (Hle _ eq_refl).
      destruct (inv0_sub_pb _ _ _ (dd_pool y0) a Hi1) as (d2 & -> & Hi2); [cbn; lia|]. cbn [sbind].
      destruct (inv0_sub_db _ _ _ k a Hi2) as (d3 & -> & Hi3); [cbn; lia|]. cbn [sbind].
      do 2 eexists. split; [reflexivity|]. split; [split; [exact Hi3|exact (Hkeep _ eq_refl)]|].
      split; [exact Hgood|]. exists y0. cbn [set_deleg_balance set_pool_balance set_share ps_pool ps_deleg ps_share ps_pool_balance ps_deleg_balance].
      rewrite !put_eq, Hq. split; [exact Hk|]. solve_same.
    + cbn [sbind]. destruct (inv0_sub_db _ _ _ k a Hi1) as (d3 & -> & Hi3); [cbn; lia|]. cbn [sbind].
      do 2 eexists. split; [reflexivity|]. split; [split; [exact Hi3|exact (Hkeep _ eq_refl)]|].
      split; [exact Hgood|]. exists y0. cbn [set_deleg_balance set_pool_balance set_share ps_pool ps_deleg ps_share ps_pool_balance ps_deleg_balance].
      rewrite !put_eq, Hq. split; [exact Hk|]. solve_same.
Qed.

Lemma pos_undo_refines P p d s' u s : pos_reads P p -> pos_inv p d s' -> pos_undoes u s' s ->
  exists d', undo_pos_op P d u = (d', Ok tt) /\ pos_inv p d' s.
Proof.
  intros HP [Hi Hsnd] (Hgood & Hu). pose proof Hgood as (HbP & HbD & HbS & Hsound).
  destruct u as [q pl u|q b u|k u|k u|k a|k a|q a u]; cbn [undo_pos_op].
  - destruct Hu as (-> & Ha & <- & Hsame). rewrite (get_pb_ok _ _ _ _ HP Hi). cbn [rbind]. rewrite N.eqb_refl. cbn [ensure on_ok].
    destruct (inv0_sub_pb _ _ _ q (ps_pool_balance s' q) Hi) as (d1 & -> & Hi1); [lia|]. cbn [sbind].
    rewrite (get_pool_ok _ _ _ _ HP Hi1). cbn [rbind set_pool_balance ps_pool].
    destruct (ps_pool s' q) as [x|] eqn:Hq; [|discriminate Ha]. cbn [ok_or on_ok].
    destruct (inv0_undo_pool _ _ _ q (Some x) (ps_pool s q) Hi1 Hq) as (d2 & -> & Hi2).
    eexists. split; [reflexivity|]. split; [|exact Hsound]. rewrite N.sub_diag in Hi2. exact (inv0_same _ _ _ _ Hi2 Hsame).
  - destruct Hu as (-> & Hq & Hb & Hsame). rewrite (get_pool_ok _ _ _ _ HP Hi), Hq. cbn [rbind absent ensure].
    rewrite (get_pb_ok _ _ _ _ HP Hi), Hb. cbn [rbind N.ltb N.compare negb ensure on_ok].
    assert (ps_pool_balance s q = b) as Hsb by (destruct Hsame as (_ & E & _); rewrite <- E; cbn; apply put_eq).
    destruct (inv0_add_pb _ _ _ q b Hi) as (d1 & -> & Hi1); [rewrite Hb, <- Hsb; apply HbP|]. cbn [sbind].
    destruct (inv0_undo_pool _ _ _ q None (ps_pool s q) Hi1 Hq) as (d2 & -> & Hi2).
    eexists. split; [reflexivity|]. split; [|exact Hsound]. rewrite Hb in Hi2. exact (inv0_same _ _ _ _ Hi2 Hsame).
  - destruct Hu as (-> & Ha & Hsame). rewrite (get_deleg_ok _ _ _ _ HP Hi). cbn [rbind].
    destruct (ps_deleg s' k) as [x|] eqn:Hk; [|discriminate Ha]. cbn [ok_or on_ok].
    destruct (inv0_undo_deleg _ _ _ k (Some x) (ps_deleg s k) Hi Hk) as (d2 & -> & Hi2).
    eexists. split; [reflexivity|]. split; [|exact Hsound]. exact (inv0_same _ _ _ _ Hi2 Hsame).
  - destruct Hu as (-> & Hz & Hsame). rewrite (get_db_ok _ _ _ _ HP Hi), Hz. cbn [rbind N.ltb N.compare negb ensure on_ok].
    destruct (inv0_undo_deleg _ _ _ k _ (ps_deleg s k) Hi eq_refl) as (d2 & -> & Hi2).
    eexists. split; [reflexivity|]. split; [|exact Hsound]. exact (inv0_same _ _ _ _ Hi2 Hsame).
  - destruct Hu as (x & Hk & (L1 & L2 & L3) & Hsame). rewrite (get_deleg_ok _ _ _ _ HP Hi), Hk. cbn [rbind ok_or on_ok].
    destruct (inv0_sub_share _ _ _ (dd_pool x) k a Hi L1) as (d1 & -> & Hi1). cbn [sbind].
    destruct (inv0_sub_pb _ _ _ (dd_pool x) a Hi1 L2) as (d2 & -> & Hi2). cbn [sbind].
    destruct (inv0_sub_db _ _ _ k a Hi2 L3) as (d3 & -> & Hi3).
    eexists. split; [reflexivity|]. split; [|exact Hsound]. exact (inv0_same _ _ _ _ Hi3 Hsame).
  - destruct Hu as (x & Hk & Hsame). rewrite (get_deleg_ok _ _ _ _ HP Hi), Hk. cbn [rbind ok_or on_ok].
    assert (ps_deleg_balance s k = ps_deleg_balance s' k + a)%N as E1.
    { destruct Hsame as (_ & _ & _ & E & _). rewrite <- E. destruct (ps_pool s' (dd_pool x)); cbn; apply put_eq. }
    assert (ps_share s (dd_pool x, k) = ps_share s' (dd_pool x, k) + a)%N as E2.
    { destruct Hsame as (_ & _ & _ & _ & E). rewrite <- E. cbn. apply put_eq. }
    destruct (inv0_add_db _ _ _ k a Hi) as (d1 & -> & Hi1); [rewrite <- E1; apply HbD|]. cbn [sbind].
    rewrite (pool_exists_ok _ _ _ _ HP Hi1). cbn [set_deleg_balance ps_pool].
    destruct (ps_pool s' (dd_pool x)) as [y|] eqn:Hq; cbn [absent negb on_ok].
    + assert (ps_pool_balance s (dd_pool x) = ps_pool_balance s' (dd_pool x) + a)%N as E3.
      { destruct Hsame as (_ & E & _). rewrite <- E. cbn. apply put_eq. }
      destruct (inv0_add_pb _ _ _ (dd_pool x) a Hi1) as (d2 & -> & Hi2); [cbn; rewrite <- E3; apply HbP|]. cbn [sbind].
      destruct (inv0_add_share _ _ _ (dd_pool x) k a Hi2) as (d3 & -> & Hi3); [cbn; rewrite <- E2; apply HbS|].
      eexists. split; [reflexivity|]. split; [|exact Hsound]. exact (inv0_same _ _ _ _ Hi3 Hsame).
    + cbn [sbind]. destruct (inv0_add_share _ _ _ (dd_pool x) k a Hi1) as (d3 & -> & Hi3); [cbn; rewrite <- E2; apply HbS|].
      eexists. split; [reflexivity|]. split; [|exact Hsound]. exact (inv0_same _ _ _ _ Hi3 Hsame).
  - destruct Hu as (-> & Hle & Hsame).
    destruct (inv0_undo_pool _ _ _ q _ (ps_pool s q) Hi eq_refl) as (d1 & -> & Hi1). cbn [sbind].
    destruct (inv0_sub_pb _ _ _ q a Hi1 Hle) as (d2 & -> & Hi2).
    eexists. split; [reflexivity|]. split; [|exact Hsound]. exact (inv0_same _ _ _ _ Hi2 Hsame).
Qed.

Lemma acc_merge {K} `{Countable K} (p : K -> N) m s m2 t : acc p m s -> acc s m2 t ->
  exists m', merge_delta_amounts m m2 = (m', Ok tt) /\ acc p m' t.
Proof.
  intros (W & R & Hp & Hs) (W2 & R2 & _ & Ht). destruct (areads_merge _ _ _ _ _ W W2 Hp Ht R R2) as (m' & Hm & W' & R').
  exists m'. split; [exact Hm|]. exact (conj W' (conj R' (conj Hp Ht))).
Qed.
Lemma pos_merge_refines p d s e t : pos_inv p d s -> pos_inv s e t ->
  exists d' u, pos_merge d e = (d', Ok u) /\ pos_inv p d' t.
Proof.
  intros [(A1 & A2 & A3 & A4 & A5) _] [(B1 & B2 & B3 & B4 & B5) Hb].
  destruct (dreads_merge _ _ _ _ _ A1 B1) as (m1 & M1 & R1). destruct (dreads_merge _ _ _ _ _ A2 B2) as (m2 & M2 & R2).
  destruct (acc_merge _ _ _ _ _ A3 B3) as (m3 & M3 & R3). destruct (acc_merge _ _ _ _ _ A4 B4) as (m4 & M4 & R4).
  destruct (acc_merge _ _ _ _ _ A5 B5) as (m5 & M5 & R5).
  unfold pos_merge. rewrite M3. cbn. rewrite M5. cbn. rewrite M4. cbn. rewrite M1. cbn. rewrite M2. cbn.
  do 2 eexists. split; [reflexivity|]. split; [|exact Hb]. exact (conj R1 (conj R2 (conj R3 (conj R4 R5)))).
Qed.

Lemma acc_flush {K} `{Countable K} (b : gmap K N) (p : K -> N) m s :
  (forall k, default 0%N (b !! k) = p k) -> no_zeroes b -> acc p m s ->
  exists b' u, db_merge_balances b m = (b', Ok u) /\ (forall k, default 0%N (b' !! k) = s k) /\ no_zeroes b'.
Proof.
  intros E Hz (W & R & Hp & Hs). destruct (areads_flush_db b m s W) as (m2 & Hm2 & Hr2 & Hc2).
  { intros k. unfold db_val. rewrite E. apply Hp. } { exact Hs. } { intros k. unfold db_val. rewrite E. apply R. } { exact Hz. }
  eauto.
Qed.
Lemma pos_db_merge_refines db p d s : pos_db_is db p -> pos_inv p d s ->
  exists db' u, pos_db_merge db d = (db', Ok u) /\ pos_db_is db' s.
Proof.
  intros (H1 & H2 & (H3 & H3z & _) & (H4 & H4z & _) & (H5 & H5z & _) & _) [(A1 & A2 & A3 & A4 & A5) Hb].
  destruct (dreads_flush_db (pdb_pool db) (psd_pool d) (ps_pool s)) as (m1 & M1 & R1). { intros k. specialize (A1 k). rewrite H1. exact A1. }
  destruct (dreads_flush_db (pdb_deleg db) (psd_deleg d) (ps_deleg s)) as (m2 & M2 & R2). { intros k. specialize (A2 k). rewrite H2. exact A2. }
  destruct (acc_flush _ _ _ _ H3 H3z A3) as (m3 & u3 & M3 & R3 & Z3). destruct (acc_flush _ _ _ _ H4 H4z A4) as (m4 & u4 & M4 & R4 & Z4).
  destruct (acc_flush _ _ _ _ H5 H5z A5) as (m5 & u5 & M5 & R5 & Z5).
  unfold pos_db_merge. rewrite M1. cbn. rewrite M2. cbn. rewrite M3. cbn. rewrite M4. cbn. rewrite M5. cbn.
  do 2 eexists. split; [reflexivity|]. destruct A3 as (_ & _ & _ & B3), A4 as (_ & _ & _ & B4), A5 as (_ & _ & _ & B5).
  exact (conj R1 (conj R2 (conj (conj R3 (conj Z3 B3)) (conj (conj R4 (conj Z4 B4)) (conj (conj R5 (conj Z5 B5)) Hb))))).
Qed.
Lemma pos_db_good db s : pos_db_is db s -> pos_good s.
Proof. intros (_ & _ & (_ & _ & B1) & (_ & _ & B2) & (_ & _ & B3) & H). exact (conj B1 (conj B2 (conj B3 H))). Qed.
Lemma range_shown (m : gmap (N * N) N) q k : shown (shares_range m q) k = default 0%N (m !! (q, k)).
Proof.
  unfold shown. destruct (shares_range m q) as [r|] eqn:E; cbn.
  - rewrite (range_some _ _ _ k E). reflexivity.
  - rewrite (range_none _ _ k E), lookup_empty. reflexivity.
Qed.
Lemma pos_reads_db db s : pos_db_is db s -> pos_reads (pos_db_view db) s.
Proof.
  intros (H1 & H2 & (H3 & _) & (H4 & _) & (H5 & _) & _). split; [|split].
  - intros q. cbn. rewrite H1, H3. split; [reflexivity|]. split; [reflexivity|]. eexists. split; [reflexivity|].
    intros k. rewrite range_shown. apply H5.
  - intros k. cbn. rewrite H2, H4. auto.
  - intros q k. cbn. rewrite H5. reflexivity.
Qed.
Lemma acc_empty {K} `{Countable K} (p : K -> N) : bounded p -> acc p ∅ p.
Proof. intros H0. split; [apply amounts_wf_empty|split; [apply areads_empty|split; assumption]]. Qed.
Lemma pos_inv_empty p : pos_good p -> pos_inv p pos_delta_new p.
Proof.
  intros (B1 & B2 & B3 & Hs). split; [|exact Hs].
  exact (conj (dreads_empty _) (conj (dreads_empty _) (conj (acc_empty _ B1) (conj (acc_empty _ B2) (acc_empty _ B3))))).
Qed.
Lemma pos_reads_cache P p d s : pos_reads P p -> pos_inv p d s -> pos_reads (pos_cache_view P d) s.
Proof. intros HP [Hi _]. exact (pos_reads_cache0 P p d s HP Hi). Qed.

Theorem pos_layered db s0 cs : pos_db_is db s0 -> fits_all pos_step pos_fits ((s0, []), []) cs ->
  let (m, os) := pos_exec_all ((db, []), []) cs in
  let (sm, sos) := sexec_all pos_step ((s0, []), []) cs in
  os = sos /\ pos_reads (pos_machine_view m) (top sm) /\ (m.2 = [] -> pos_db_is m.1.1 (top sm)).
Proof.
  exact (layered_refinement _ _ _ _ _ _ _ _ _ _ _ _ _ pos_undoes pos_reads_cache pos_reads_db pos_db_good pos_inv_good
    pos_inv_empty pos_op_refines pos_undo_refines pos_merge_refines pos_db_merge_refines db s0 cs).
Qed.
Theorem pos_layered_undo db s0 cs ns :
  pos_db_is db s0 -> fits_all pos_step pos_fits ((s0, []), []) (cs ++ ns) -> neutral ns ->
  let m1 := (pos_exec_all ((db, []), []) cs).1 in
  let m2 := pos_exec_all m1 ns in
  Forall (fun o => o = Done) m2.2 -> exists s, pos_reads (pos_machine_view m1) s /\ pos_reads (pos_machine_view m2.1) s.
Proof.
  exact (layered_undo _ _ _ _ _ _ _ _ _ _ _ _ _ pos_undoes pos_reads_cache pos_reads_db pos_db_good pos_inv_good
    pos_inv_empty pos_op_refines pos_undo_refines pos_merge_refines pos_db_merge_refines db s0 cs ns).
Qed.
Theorem pos_never_stuck db s0 cs :
  pos_db_is db s0 -> fits_all pos_step pos_fits ((s0, []), []) cs ->
  Forall2 expected cs (pos_exec_all ((db, []), []) cs).2.
Proof.
  exact (layered_never_stuck _ _ _ _ _ _ _ _ _ _ _ _ _ pos_undoes pos_reads_cache pos_reads_db pos_db_good pos_inv_good
    pos_inv_empty pos_op_refines pos_undo_refines pos_merge_refines pos_db_merge_refines db s0 cs).
Qed.
Theorem pos_next db s0 cs o :
  pos_db_is db s0 -> fits_all pos_step pos_fits ((s0, []), []) cs ->
  let m1 := (pos_exec_all ((db, []), []) cs).1 in
  m1.2 <> [] -> (forall s, pos_reads (pos_machine_view m1) s -> pos_fits s o) ->
  exists s, pos_reads (pos_machine_view m1) s /\
    (pos_exec m1 (Do o)).2 = outcome_of (pos_step s o) /\
    pos_reads (pos_machine_view (pos_exec m1 (Do o)).1) (match pos_step s o with Ok s' => s' | _ => s end).
Proof.
  exact (layered_next _ _ _ _ _ _ _ _ _ _ _ _ _ pos_undoes pos_reads_cache pos_reads_db pos_db_good pos_inv_good
    pos_inv_empty pos_op_refines pos_undo_refines pos_merge_refines pos_db_merge_refines db s0 cs o).
Qed.
Theorem pos_steps db s0 cs fs :
  Forall forward fs -> pos_db_is db s0 -> fits_all pos_step pos_fits ((s0, []), []) (cs ++ fs) ->
  let m1 := (pos_exec_all ((db, []), []) cs).1 in
  let m2 := pos_exec_all m1 fs in
  exists s1 s2, pos_reads (pos_machine_view m1) s1 /\ pos_reads (pos_machine_view m2.1) s2 /\ pos_good s1 /\
    steps pos_step s1 (accepted fs m2.2) = Ok s2.
Proof.
  exact (layered_steps _ _ _ _ _ _ _ _ _ _ _ _ _ pos_undoes pos_reads_cache pos_reads_db pos_db_good pos_inv_good
    pos_inv_empty pos_op_refines pos_undo_refines pos_merge_refines pos_db_merge_refines db s0 cs fs).
Qed.

(** *** Consequences *)
Local Open Scope N_scope.
Lemma pos_reads_agree v w s : pos_reads v s -> pos_reads w s -> pos_answers_agree v w.
Proof.
  intros (A1 & A2 & A3) (B1 & B2 & B3). split; [|split].
  - intros q. destruct (A1 q) as (X1 & X2 & o & X3 & X4), (B1 q) as (Y1 & Y2 & o' & Y3 & Y4). rewrite X1, X2, Y1, Y2.
    split; [reflexivity|]. split; [reflexivity|]. split; [eexists; reflexivity|]. split; [eexists; reflexivity|].
    exists o, o'. split; [exact X3|]. split; [exact Y3|]. intros k. rewrite X4, Y4. reflexivity.
  - intros k. destruct (A2 k) as (X1 & X2), (B2 k) as (Y1 & Y2). rewrite X1, X2, Y1, Y2. repeat split; eexists; reflexivity.
  - intros q k. rewrite A3, B3. split; [reflexivity|eexists; reflexivity].
Qed.
Lemma pos_reachable_sound db s0 cs :
  pos_db_is db s0 -> fits_all pos_step pos_fits ((s0, []), []) cs ->
  exists s, pos_good s /\ pos_reads (pos_machine_view (pos_exec_all ((db, []), []) cs).1) s.
Proof.
  intros Hdb Hfit. destruct (pos_steps db s0 cs [] (Forall_nil_2 _) Hdb) as (s1 & _ & H1 & _ & H2 & _).
  - rewrite app_nil_r. exact Hfit.
  - eauto.
Qed.

Theorem pos_undo_restores db s0 cs ns :
  pos_db_is db s0 -> fits_all pos_step pos_fits ((s0, []), []) (cs ++ ns) -> neutral ns ->
  let m1 := (pos_exec_all ((db, []), []) cs).1 in
  Forall (fun o => o = Done) (pos_exec_all m1 ns).2 ->
  pos_answers_agree (pos_machine_view m1) (pos_machine_view (pos_exec_all m1 ns).1).
Proof.
  intros Hdb Hfit Hn m1 Hok. destruct (pos_layered_undo db s0 cs ns Hdb Hfit Hn Hok) as (s & H1 & H2).
  exact (pos_reads_agree _ _ _ H1 H2).
Qed.
Theorem pos_refused_changes_nothing db s0 cs o e :
  pos_db_is db s0 -> fits_all pos_step pos_fits ((s0, []), []) cs ->
  let m1 := (pos_exec_all ((db, []), []) cs).1 in
  (forall s, pos_reads (pos_machine_view m1) s -> pos_fits s o) -> (pos_exec m1 (Do o)).2 = Refused e ->
  pos_answers_agree (pos_machine_view m1) (pos_machine_view (pos_exec m1 (Do o)).1).
Proof.
  intros Hdb Hfit m1 Hf He. destruct (decide (m1.2 = [])) as [Hnil|Hne].
  { destruct m1 as [[db1 l1] ls]. cbn in Hnil. subst ls. discriminate. }
  destruct (pos_next db s0 cs o Hdb Hfit Hne Hf) as (s & Hr & Ho & Hr'). fold m1 in Hr, Ho, Hr'.
  rewrite Ho in He. destruct (pos_step s o) as [s'|e'|]; try discriminate. exact (pos_reads_agree _ _ _ Hr Hr').
Qed.
Theorem pool_balance_is_sum db s0 cs :
  pos_db_is db s0 -> fits_all pos_step pos_fits ((s0, []), []) cs ->
  let v := pos_machine_view (pos_exec_all ((db, []), []) cs).1 in
  forall p x, pv_pool v p = Ok (Some x) ->
  exists o, pv_shares v p = Ok o /\ pv_pool_balance v p = Ok (pd_pledge x + pd_rewards x + total o) /\
    staker_balance x = Ok (pd_pledge x + pd_rewards x).
Proof.
  intros Hdb Hfit v p x Hx. destruct (pos_reachable_sound _ _ _ Hdb Hfit) as (s & (Hb & _ & _ & Hs) & Hr).
  change (pos_reads v s) in Hr.
  destruct Hr as (A1 & _). destruct (A1 p) as (X1 & X2 & o & X3 & X4). rewrite X1 in Hx. injection Hx as Hx.
  destruct Hs as (S1 & _). destruct (S1 _ _ Hx) as (n & Hn & E). exists o. split; [exact X3|].
  assert (total o = n) as Et by (apply (total_of_unique (shown o)); [apply total_listing|apply (total_of_ext _ _ _ Hn); auto]).
  rewrite X2, E, Et. split; [reflexivity|].
  unfold staker_balance, amount_add, checked_add. pose proof (Hb p) as B. rewrite E in B.
  destruct (N.leb_spec (pd_pledge x + pd_rewards x) U128_MAX); [reflexivity|]. unfold U128_MAX, I128_MAX in *. lia.
Qed.
Theorem deleg_balance_is_share db s0 cs :
  pos_db_is db s0 -> fits_all pos_step pos_fits ((s0, []), []) cs ->
  let v := pos_machine_view (pos_exec_all ((db, []), []) cs).1 in
  forall d, match pv_deleg v d with
            | Ok (Some x) => pv_deleg_balance v d = pv_share v (dd_pool x) d /\ is_ok (pv_deleg_balance v d) /\
                             forall p, p <> dd_pool x -> pv_share v p d = Ok 0
            | Ok None => pv_deleg_balance v d = Ok 0 /\ forall p, pv_share v p d = Ok 0
            | _ => False
            end.
Proof.
  intros Hdb Hfit v d. destruct (pos_reachable_sound _ _ _ Hdb Hfit) as (s & (_ & _ & _ & Hs) & Hr). change (pos_reads v s) in Hr.
  destruct Hr as (_ & A2 & A3). destruct (A2 d) as (X1 & X2). rewrite X1, X2. destruct Hs as (_ & S2 & S3).
  destruct (ps_deleg s d) as [x|] eqn:E.
  - destruct (S2 _ _ E) as [Y1 Y2]. rewrite A3, Y1. split; [reflexivity|]. split; [eexists; reflexivity|].
    intros p Hp. rewrite A3, Y2 by exact Hp. reflexivity.
  - destruct (S3 _ E) as [Y1 Y2]. rewrite Y1. split; [reflexivity|]. intros p. rewrite A3, Y2. reflexivity.
Qed.

Theorem next_delegate db s0 cs d a x bal :
  pos_db_is db s0 -> fits_all pos_step pos_fits ((s0, []), []) cs ->
  let m1 := (pos_exec_all ((db, []), []) cs).1 in
  m1.2 <> [] ->
  let v := pos_machine_view m1 in
  let v' := pos_machine_view (pos_exec m1 (Do (Delegate d a))).1 in
  pv_deleg v d = Ok (Some x) -> pv_deleg_balance v d = Ok bal ->
  (Z.of_N (bal + a) <= I128_MAX)%Z ->
  forall pb, pv_pool_balance v (dd_pool x) = Ok pb -> (Z.of_N (pb + a) <= I128_MAX)%Z ->
  (pos_exec m1 (Do (Delegate d a))).2 = Done /\
  pv_deleg_balance v' d = Ok (bal + a) /\ pv_pool_balance v' (dd_pool x) = Ok (pb + a) /\
  (forall d', d' <> d -> pv_deleg_balance v' d' = pv_deleg_balance v d') /\
  (forall p, p <> dd_pool x -> pv_pool_balance v' p = pv_pool_balance v p) /\
  (forall p, pv_pool v' p = pv_pool v p) /\ (forall d, pv_deleg v' d = pv_deleg v d).
Proof.
  intros Hdb Hfit m1 Hne v v' Hd Hb Hl1 pb Hpb Hl2.
  assert (forall s, pos_reads v s -> pos_fits s (Delegate d a)) as Hf.
  { intros s (A1 & A2 & _). cbn. intros y Hy. destruct (A2 d) as [X1 X2]. rewrite X1 in Hd. rewrite X2 in Hb.
    assert (y = x) as -> by congruence. destruct (A1 (dd_pool x)) as (_ & X3 & _). rewrite X3 in Hpb. split; congruence. }
  destruct (pos_next db s0 cs (Delegate d a) Hdb Hfit Hne Hf) as (s & Hr & Ho & Hr'). fold m1 in Hr, Ho, Hr'.
  change (pos_reads v s) in Hr. change (pos_machine_view (pos_exec m1 (Do (Delegate d a))).1) with v' in Hr'.
  rewrite Ho. cbn [pos_step] in Hr' |- *. destruct Hr as (A1 & A2 & A3). destruct (A2 d) as [X1 X2].
  rewrite X1 in Hd. rewrite X2 in Hb. injection Hd as Hd. injection Hb as Hb. rewrite Hd in Hr' |- *.
  destruct (A1 (dd_pool x)) as (_ & X3 & _). rewrite X3 in Hpb. injection Hpb as Hpb.
  destruct Hr' as (B1 & B2 & B3). cbn in B1, B2. split; [reflexivity|].
  split; [destruct (B2 d) as [_ E]; rewrite E, put_eq; congruence|].
  split; [destruct (B1 (dd_pool x)) as (_ & E & _); rewrite E, put_eq; congruence|].
  split; [intros d' Hn; destruct (B2 d') as [_ E], (A2 d') as [_ E']; rewrite E, E', put_ne; congruence|].
  split; [intros p Hn; destruct (B1 p) as (_ & E & _), (A1 p) as (_ & E' & _); rewrite E, E', put_ne; congruence|].
  split; [intros p; destruct (B1 p) as (E & _), (A1 p) as (E' & _); congruence|].
  intros d'. destruct (B2 d') as [E _], (A2 d') as [E' _]. congruence.
Qed.
Theorem next_spend db s0 cs d a x bal :
  pos_db_is db s0 -> fits_all pos_step pos_fits ((s0, []), []) cs ->
  let m1 := (pos_exec_all ((db, []), []) cs).1 in
  m1.2 <> [] ->
  let v := pos_machine_view m1 in
  let v' := pos_machine_view (pos_exec m1 (Do (SpendShare d a))).1 in
  pv_deleg v d = Ok (Some x) -> pv_deleg_balance v d = Ok bal -> a <= bal ->
  (pos_exec m1 (Do (SpendShare d a))).2 = Done /\
  pv_deleg_balance v' d = Ok (bal - a) /\
  (forall pd pb, pv_pool v (dd_pool x) = Ok (Some pd) -> pv_pool_balance v (dd_pool x) = Ok pb ->
     a <= pb /\ pv_pool_balance v' (dd_pool x) = Ok (pb - a)) /\
  (forall d', d' <> d -> pv_deleg_balance v' d' = pv_deleg_balance v d') /\
  (forall p, p <> dd_pool x -> pv_pool_balance v' p = pv_pool_balance v p) /\
  (forall p, pv_pool v' p = pv_pool v p) /\ (forall d, pv_deleg v' d = pv_deleg v d).
Proof.
  intros Hdb Hfit m1 Hne v v' Hd Hb Hl.
  assert (forall s, pos_reads v s -> pos_fits s (SpendShare d a)) as Hf.
  { intros s (A1 & A2 & _). cbn. destruct (A2 d) as [X1 X2]. rewrite X2 in Hb. congruence. }
  destruct (pos_reachable_sound _ _ _ Hdb Hfit) as (t & (_ & _ & _ & Ht) & Hrt).
  destruct (pos_next db s0 cs (SpendShare d a) Hdb Hfit Hne Hf) as (s & Hr & Ho & Hr'). fold m1 in Hr, Ho, Hr'.
  change (pos_reads v s) in Hr. change (pos_reads v t) in Hrt. change (pos_machine_view (pos_exec m1 (Do (SpendShare d a))).1) with v' in Hr'.
  rewrite Ho. cbn [pos_step] in Hr' |- *. destruct Hr as (A1 & A2 & A3). destruct (A2 d) as [X1 X2].
  rewrite X1 in Hd. rewrite X2 in Hb. injection Hd as Hd. injection Hb as Hb. rewrite Hd in Hr' |- *.
  destruct Hr' as (B1 & B2 & B3). split; [reflexivity|].
  split; [destruct (B2 d) as [_ E]; rewrite E; cbn; rewrite put_eq; congruence|].
  split; [|split; [|split; [|split]]].
  - intros pd pb Hpd Hpb. destruct (A1 (dd_pool x)) as (X3 & X4 & _). rewrite X3 in Hpd. rewrite X4 in Hpb. injection Hpd as Hpd. injection Hpb as Hpb.
    destruct Hrt as (C1 & C2 & C3). destruct (C1 (dd_pool x)) as (Y1 & Y2 & _), (C2 d) as [Y3 Y4].
    assert (ps_pool t (dd_pool x) = Some pd) as T1 by congruence. pose proof (share_le_pool _ _ _ d Ht T1) as Hle.
    destruct Ht as (_ & T2 & _). assert (ps_deleg t d = Some x) as T3 by congruence. destruct (T2 _ _ T3) as [T4 _].
    assert (ps_deleg_balance t d = bal) as T5 by congruence. assert (ps_pool_balance t (dd_pool x) = pb) as T6 by congruence.
    split; [lia|]. destruct (B1 (dd_pool x)) as (_ & E & _). rewrite E. cbn. rewrite Hpd. cbn. rewrite put_eq. congruence.
  - intros d' Hn. destruct (B2 d') as [_ E], (A2 d') as [_ E']. rewrite E, E'. cbn. rewrite put_ne by congruence.
    destruct (ps_pool s (dd_pool x)); reflexivity.
  - intros p Hn. destruct (B1 p) as (_ & E & _), (A1 p) as (_ & E' & _). rewrite E, E'. cbn.
    destruct (ps_pool s (dd_pool x)); cbn; [rewrite put_ne; congruence|reflexivity].
  - intros p. destruct (B1 p) as (E & _), (A1 p) as (E' & _). rewrite E, E'. cbn. destruct (ps_pool s (dd_pool x)); reflexivity.
  - intros d'. destruct (B2 d') as [E _], (A2 d') as [E' _]. rewrite E, E'. cbn. destruct (ps_pool s (dd_pool x)); reflexivity.
Qed.

(** Deciding the conditions of concrete runs. *)
Definition current (m : (pos_state * list pos_state) * list (pos_state * list pos_state)) : pos_state :=
  match m.2 with (s, _) :: _ => s | [] => m.1.1 end.
Definition pos_fitsb (s : pos_state) (o : pos_op) : bool :=
  match o with
  | CreatePool p x => match ps_pool s p with None => false | Some _ => true end
  | IncreaseRewards p a => (Z.of_N (ps_pool_balance s p + a) <=? I128_MAX)%Z
  | Delegate d a => match ps_deleg s d with
      | Some x => (Z.of_N (ps_deleg_balance s d + a) <=? I128_MAX)%Z && (Z.of_N (ps_pool_balance s (dd_pool x) + a) <=? I128_MAX)%Z
      | None => true end
  | SpendShare d a => a <=? ps_deleg_balance s d
  | _ => true
  end.
Lemma fits_do m o : pos_fitsb (current m) o = true -> fits_command pos_fits m (Do o).
Proof.
  unfold fits_command, current. destruct m as [b [|[s l] ls]]; cbn; [trivial|].
  destruct o as [q x|q|q a|q k key|k|k a|k a]; cbn; trivial.
  - destruct (ps_pool s q); discriminate.
  - intros H _. apply Z.leb_le in H. exact H.
  - intros H x Hx. rewrite Hx in H. apply andb_true_iff in H as [H1 H2]. apply Z.leb_le in H1. apply Z.leb_le in H2. auto.
  - intros H. apply N.leb_le in H. exact H.
Qed.
Lemma fits_create m p x : (Z.of_N (pd_pledge x) <= I128_MAX)%Z -> pd_rewards x = 0 -> (forall d, ps_share (current m) (p, d) = 0) ->
  fits_command pos_fits m (Do (CreatePool p x)).
Proof. unfold fits_command, current. destruct m as [b [|[s l] ls]]; cbn; auto. Qed.
