(** A delta over a parent, seen as a table of values: lemmas shared by tokens, orders and staking accounting. *)
From Verif Require Import Base BaseProofs AmountModel DeltaModel DeltaProofs DeltaDbModel.
Local Open Scope Z_scope.

Definition fupd {K} `{EqDecision K} {V} (s : K -> V) (k : K) (v : V) : K -> V :=
  fun k' => if decide (k = k') then v else s k'.

Lemma fupd_eq {K} `{EqDecision K} {V} (s : K -> V) k v : fupd s k v k = v.
Proof. unfold fupd. destruct (decide (k = k)); congruence. Qed.
Lemma fupd_ne {K} `{EqDecision K} {V} (s : K -> V) k v k' : k <> k' -> fupd s k v k' = s k'.
Proof. unfold fupd. destruct (decide (k = k')); congruence. Qed.
Lemma fupd_id {K} `{EqDecision K} {V} (s : K -> V) k k' : fupd s k (s k) k' = s k'.
Proof. unfold fupd. destruct (decide (k = k')); congruence. Qed.

Section collect.
Context {K : Type} {EqK : EqDecision K} {CntK : Countable K} {V X U E : Type}.
Variable f : gmap K V -> K -> X -> gmap K V * res E U.
Variable g : option V -> X -> res E (option V).
Variable h : X -> U.
Hypothesis f_ok : forall m k x o, g (m !! k) x = Ok o -> f m k x = (partial_alter (fun _ => o) k m, Ok (h x)).
Hypothesis f_inv : forall m k x m' u, f m k x = (m', Ok u) -> exists o, g (m !! k) x = Ok o.

Lemma collect_fold_ok l m u m' u' :
  NoDup l.*1 -> collect_fold f l m u = (m', Ok u') ->
  keyed_result (fun _ => g) l m m' /\
  forall k, u' !! k = match (list_to_map l : gmap K X) !! k with Some x => Some (h x) | None => u !! k end.
Proof.
  revert m u. induction l as [|[k x] l IH]; intros m u Hnd Hf.
  - cbn in Hf. injection Hf as <- <-. split; intros k; reflexivity.
  - cbn [fmap list_fmap fst] in Hnd. apply NoDup_cons in Hnd as [Hk Hnd].
    cbn [collect_fold] in Hf. destruct (f m k x) as [m1 [v| |]] eqn:Hs; try discriminate Hf.
    destruct (f_inv _ _ _ _ _ Hs) as [o Ho].
    rewrite (f_ok _ _ _ _ Ho) in Hs. injection Hs as <- <-.
    destruct (IH _ _ Hnd Hf) as [IH1 IH2].
    assert ((list_to_map l : gmap K X) !! k = None) as Hn by (apply not_elem_of_list_to_map_1; exact Hk).
    split; intros k'; [specialize (IH1 k')|specialize (IH2 k')]; cbn;
      destruct (decide (k = k')) as [<-|Hne].
    + rewrite lookup_insert. rewrite Hn in IH1. rewrite IH1, lookup_partial_alter. exact Ho.
    + rewrite lookup_insert_ne by exact Hne. rewrite lookup_partial_alter_ne in IH1 by exact Hne. exact IH1.
    + rewrite lookup_insert. rewrite Hn in IH2. rewrite IH2, lookup_insert. reflexivity.
    + rewrite lookup_insert_ne by exact Hne. rewrite lookup_insert_ne in IH2 by exact Hne. exact IH2.
Qed.

Lemma collect_fold_succeeds l m u :
  NoDup l.*1 -> (forall k x, (k, x) ∈ l -> is_ok (g (m !! k) x)) -> exists m' u', collect_fold f l m u = (m', Ok u').
Proof.
  revert m u. induction l as [|[k x] l IH]; intros m u Hnd Hall.
  - do 2 eexists. reflexivity.
  - cbn [fmap list_fmap fst] in Hnd. apply NoDup_cons in Hnd as [Hk Hnd].
    destruct (Hall k x) as [o Ho]; [left|].
    cbn [collect_fold]. rewrite (f_ok _ _ _ _ Ho). apply IH; [exact Hnd|].
    intros k' x' Hin. assert (k <> k') as Hne.
    { intros ->. apply Hk. apply elem_of_list_fmap. exists (k', x'). split; [reflexivity|exact Hin]. }
    rewrite lookup_partial_alter_ne by exact Hne. apply Hall. right. exact Hin.
Qed.
End collect.

Section amounts.
Context {K : Type} {EqK : EqDecision K} {CntK : Countable K}.
Implicit Types p s : K -> N.
Implicit Types m d : amount_coll K.

Definition bounded p : Prop := forall k, Z.of_N (p k) <= I128_MAX.
(** Delta [m] over parent values [p] reads as [s]. *)
Definition areads p m s : Prop := forall k, Z.of_N (s k) = Z.of_N (p k) + dval m k.

Lemma areads_empty p : areads p ∅ p.
Proof. intros k. unfold dval. rewrite lookup_empty. cbn. lia. Qed.

Lemma areads_combine p m s k :
  bounded p -> bounded s -> areads p m s -> combine_amount_delta (p k) (m !! k) = Ok (s k).
Proof.
  intros Hp Hs Hr. specialize (Hr k). specialize (Hp k). specialize (Hs k). unfold dval in Hr.
  rewrite combine_amount_delta_ok; [f_equal; lia|assumption|lia].
Qed.

Lemma combine_areads p m s :
  (forall k, combine_amount_delta (p k) (m !! k) = Ok (s k)) -> areads p m s.
Proof. intros H k. specialize (H k). apply combine_amount_delta_val in H. exact H. Qed.

Lemma combine_bounded p m s :
  bounded p -> (forall k, combine_amount_delta (p k) (m !! k) = Ok (s k)) -> bounded s.
Proof.
  intros Hp H k. specialize (H k). destruct (m !! k) as [z|].
  - apply combine_amount_delta_some in H. unfold in_i128 in H. lia.
  - injection H as <-. apply Hp.
Qed.

Lemma I128_facts : 0 < I128_MAX /\ I128_MIN = - I128_MAX - 1.
Proof. unfold I128_MAX, I128_MIN. lia. Qed.

Lemma add_unsigned_spec m k a :
  amounts_wf m -> Z.of_N a <= I128_MAX -> in_i128 (dval m k + Z.of_N a) ->
  exists m', add_unsigned m k a = (m', Ok tt) /\ amounts_wf m' /\
    forall k', dval m' k' = if decide (k = k') then dval m k + Z.of_N a else dval m k'.
Proof.
  intros Hwf Ha Hin. unfold add_unsigned.
  assert (into_signed a = Some (Z.of_N a)) as -> by (apply into_signed_spec; lia).
  apply merge_elem_spec; [exact Hwf| |exact Hin]. pose proof I128_facts. unfold in_i128. lia.
Qed.

Lemma add_unsigned_inv m k a m' :
  amounts_wf m -> add_unsigned m k a = (m', Ok tt) ->
  Z.of_N a <= I128_MAX /\ in_i128 (dval m k + Z.of_N a) /\ amounts_wf m' /\
    forall k', dval m' k' = if decide (k = k') then dval m k + Z.of_N a else dval m k'.
Proof.
  intros Hwf. unfold add_unsigned. destruct (into_signed a) as [z|] eqn:Hz; [|discriminate].
  apply into_signed_spec in Hz as [-> Ha]. intros H.
  apply merge_elem_inv_spec in H; [tauto|exact Hwf|]. pose proof I128_facts. unfold in_i128. lia.
Qed.

Lemma add_unsigned_fail m k a m' r :
  add_unsigned m k a = (m', r) -> r = Ok tt \/ (m' = m /\ is_err r).
Proof.
  unfold add_unsigned, merge_delta_amount_element, combine_signed_amount_delta, ok_or.
  destruct (into_signed a) as [z|].
  - destruct (m !! k) as [v|].
    + destruct (samount_add v z) as [s|].
      * destruct (s =? 0); intros [= <- <-]; left; reflexivity.
      * intros [= <- <-]. right. split; [reflexivity|eexists; reflexivity].
    + destruct (z =? 0); intros [= <- <-]; left; reflexivity.
  - intros [= <- <-]. right. split; [reflexivity|eexists; reflexivity].
Qed.

Lemma sub_unsigned_spec m k a :
  amounts_wf m -> Z.of_N a <= I128_MAX -> in_i128 (dval m k - Z.of_N a) ->
  exists m', sub_unsigned m k a = (m', Ok tt) /\ amounts_wf m' /\
    forall k', dval m' k' = if decide (k = k') then dval m k - Z.of_N a else dval m k'.
Proof.
  intros Hwf Ha Hin. unfold sub_unsigned. pose proof I128_facts as HI.
  assert (into_signed a = Some (Z.of_N a)) as -> by (apply into_signed_spec; lia).
  assert (samount_neg (Z.of_N a) = Some (- Z.of_N a)) as -> by (apply samount_neg_spec; lia).
  unfold Z.sub in Hin |- *. apply merge_elem_spec; [exact Hwf| |exact Hin]. unfold in_i128. lia.
Qed.

Lemma sub_unsigned_inv m k a m' :
  amounts_wf m -> sub_unsigned m k a = (m', Ok tt) ->
  Z.of_N a <= I128_MAX /\ in_i128 (dval m k - Z.of_N a) /\ amounts_wf m' /\
    forall k', dval m' k' = if decide (k = k') then dval m k - Z.of_N a else dval m k'.
Proof.
  intros Hwf. unfold sub_unsigned. pose proof I128_facts as HI.
  destruct (into_signed a) as [z|] eqn:Hz; [|discriminate].
  apply into_signed_spec in Hz as [-> Ha].
  destruct (samount_neg (Z.of_N a)) as [n|] eqn:Hn; [|discriminate]. apply samount_neg_spec in Hn as [-> _].
  intros H. unfold Z.sub. apply merge_elem_inv_spec in H; [tauto|exact Hwf|]. unfold in_i128. lia.
Qed.

Lemma sub_unsigned_fail m k a m' r :
  sub_unsigned m k a = (m', r) -> r = Ok tt \/ (m' = m /\ is_err r).
Proof.
  unfold sub_unsigned, merge_delta_amount_element, combine_signed_amount_delta, ok_or.
  destruct (into_signed a) as [z0|].
  - destruct (samount_neg z0) as [z|].
    + destruct (m !! k) as [v|].
      * destruct (samount_add v z) as [s|].
        -- destruct (s =? 0); intros [= <- <-]; left; reflexivity.
        -- intros [= <- <-]. right. split; [reflexivity|eexists; reflexivity].
      * destruct (z =? 0); intros [= <- <-]; left; reflexivity.
    + intros [= <- <-]. right. split; [reflexivity|eexists; reflexivity].
  - intros [= <- <-]. right. split; [reflexivity|eexists; reflexivity].
Qed.

Lemma areads_add p m s k a :
  amounts_wf m -> bounded p -> bounded s -> areads p m s -> Z.of_N (s k + a) <= I128_MAX ->
  exists m', add_unsigned m k a = (m', Ok tt) /\ amounts_wf m' /\
    areads p m' (fupd s k (s k + a)%N) /\ bounded (fupd s k (s k + a)%N).
Proof.
  intros Hwf Hp Hs Hr Ha. pose proof (Hr k) as Hk. pose proof (Hp k) as Hpk. pose proof I128_facts as HI.
  destruct (add_unsigned_spec m k a Hwf) as (m' & Hm & Hwf' & Hv).
  - lia.
  - unfold in_i128. lia.
  - exists m'. split; [exact Hm|]. split; [exact Hwf'|]. split.
    + intros k'. rewrite Hv. unfold fupd. specialize (Hr k'). destruct (decide (k = k')) as [<-|]; lia.
    + intros k'. unfold fupd. destruct (decide (k = k')); [lia|apply Hs].
Qed.

Lemma areads_sub p m s k a :
  amounts_wf m -> bounded p -> bounded s -> areads p m s -> (a <= s k)%N ->
  exists m', sub_unsigned m k a = (m', Ok tt) /\ amounts_wf m' /\
    areads p m' (fupd s k (s k - a)%N) /\ bounded (fupd s k (s k - a)%N).
Proof.
  intros Hwf Hp Hs Hr Ha. pose proof (Hr k) as Hk. pose proof (Hp k) as Hpk. pose proof (Hs k) as Hsk.
  pose proof I128_facts as HI.
  destruct (sub_unsigned_spec m k a Hwf) as (m' & Hm & Hwf' & Hv).
  - lia.
  - unfold in_i128. lia.
  - exists m'. split; [exact Hm|]. split; [exact Hwf'|]. split.
    + intros k'. rewrite Hv. unfold fupd. specialize (Hr k'). destruct (decide (k = k')) as [<-|]; lia.
    + intros k'. unfold fupd. destruct (decide (k = k')); [lia|apply Hs].
Qed.

Lemma areads_merge p m s d s' :
  amounts_wf m -> amounts_wf d -> bounded p -> bounded s' -> areads p m s -> areads s d s' ->
  exists m', merge_delta_amounts m d = (m', Ok tt) /\ amounts_wf m' /\ areads p m' s'.
Proof.
  intros Hm Hd Hp Hs' Hr Hr'. pose proof I128_facts as HI.
  destruct (merge_delta_amounts_succeeds m d Hm Hd) as [m' H].
  { intros k. specialize (Hr k). specialize (Hr' k). specialize (Hp k). specialize (Hs' k). unfold in_i128. lia. }
  exists m'. split; [exact H|]. destruct (merge_delta_amounts_spec _ _ _ Hm Hd H) as [W V]. split; [exact W|].
  intros k. rewrite V. specialize (Hr k). specialize (Hr' k). lia.
Qed.

(** Database write-back. *)
Definition db_val (db : gmap K N) (k : K) : N := default 0%N (db !! k).
(** Zero balances are not stored. *)
Definition db_canonical (db : gmap K N) : Prop := forall k, db !! k <> Some 0%N.

Definition gdb (o : option N) (z : Z) : res acc_err (option N) :=
  match combine_amount_delta (default 0%N o) (Some z) with
  | Ok r => Ok (if (0 <? r)%N then Some r else None)
  | Err e => Err e
  | Panic => Panic
  end.

Lemma combine_some_not_min b z r : combine_amount_delta b (Some z) = Ok r -> z <> I128_MIN.
Proof. intros H. apply combine_amount_delta_some in H. pose proof I128_facts. lia. Qed.

Lemma db_merge_balance_ok (db : gmap K N) k z o :
  gdb (db !! k) z = Ok o -> db_merge_balance db k z = (partial_alter (fun _ => o) k db, Ok (- z)).
Proof.
  unfold gdb, db_merge_balance. destruct (combine_amount_delta _ _) as [r| |] eqn:Hc; try discriminate.
  pose proof (combine_some_not_min _ _ _ Hc) as Hmin.
  assert (samount_neg z = Some (- z)) as -> by (apply samount_neg_spec; tauto).
  destruct (0 <? r)%N; intros [= <-]; reflexivity.
Qed.

Lemma db_merge_balance_inv (db : gmap K N) k z (m1 : gmap K N) u :
  db_merge_balance db k z = (m1, Ok u) -> exists o, gdb (db !! k) z = Ok o.
Proof. unfold gdb, db_merge_balance. destruct (combine_amount_delta _ _) as [r| |]; try discriminate. eauto. Qed.

(** The [expect] on the negation can never fire. *)
Lemma db_merge_balance_no_panic (db : gmap K N) k z : (db_merge_balance db k z).2 <> Panic.
Proof.
  unfold db_merge_balance. destruct (combine_amount_delta _ _) as [r| |] eqn:Hc.
  - pose proof (combine_some_not_min _ _ _ Hc) as Hmin.
    assert (samount_neg z = Some (- z)) as -> by (apply samount_neg_spec; tauto). discriminate.
  - discriminate.
  - destruct (combine_amount_delta_no_panic _ _ Hc).
Qed.

Lemma collect_no_panic {S X U E} (f : S -> K -> X -> S * res E U) l (st : S) u :
  (forall (st : S) k x, (f st k x).2 <> Panic) -> (collect_fold f l st u).2 <> Panic.
Proof.
  intros Hf. revert st u. induction l as [|[k x] l IH]; intros st u; cbn [collect_fold]; [discriminate|].
  specialize (Hf st k x). destruct (f st k x) as [s' [v| |]]; cbn in Hf |- *; [apply IH|discriminate|contradiction].
Qed.

Lemma db_merge_balances_no_panic (db : gmap K N) d : (db_merge_balances db d).2 <> Panic.
Proof. apply collect_no_panic. intros s k x. apply db_merge_balance_no_panic. Qed.

Lemma areads_flush_db (db : gmap K N) d s :
  amounts_wf d -> bounded (db_val db) -> bounded s -> areads (db_val db) d s -> db_canonical db ->
  exists db', db_merge_balances db d = (db', Ok (Z.opp <$> d)) /\ (forall k, db_val db' k = s k) /\ db_canonical db'.
Proof.
  intros Hd Hp Hs Hr Hc.
  assert (forall k z, d !! k = Some z -> gdb (db !! k) z = Ok (if (0 <? s k)%N then Some (s k) else None)) as Hg.
  { intros k z Hz. pose proof (areads_combine _ _ _ k Hp Hs Hr) as H. rewrite Hz in H. unfold gdb, db_val in *.
    rewrite H. reflexivity. }
  destruct (collect_fold_succeeds _ _ Z.opp db_merge_balance_ok (map_to_list d) db ∅
              (NoDup_fst_map_to_list d)) as (db' & u & Hm).
  { intros k z Hz. apply elem_of_map_to_list in Hz. rewrite (Hg _ _ Hz). eexists; reflexivity. }
  destruct (collect_fold_ok _ _ Z.opp db_merge_balance_ok db_merge_balance_inv _ _ _ _ _
              (NoDup_fst_map_to_list d) Hm) as [Hk Hu].
  unfold keyed_result in Hk. rewrite list_to_map_to_list in Hk, Hu.
  exists db'. split; [|split].
  - unfold db_merge_balances. rewrite Hm. f_equal. f_equal. apply map_eq. intros k.
    rewrite Hu, lookup_fmap, lookup_empty. destruct (d !! k); reflexivity.
  - intros k. specialize (Hk k). unfold db_val at 1. destruct (d !! k) as [z|] eqn:Hz.
    + rewrite (Hg _ _ Hz) in Hk. injection Hk as <-. destruct (N.ltb_spec 0 (s k)); cbn; [reflexivity|lia].
    + rewrite Hk. specialize (Hr k). unfold dval in Hr. rewrite Hz in Hr. unfold db_val in Hr. cbn in Hr. lia.
  - intros k. specialize (Hk k). destruct (d !! k) as [z|] eqn:Hz.
    + rewrite (Hg _ _ Hz) in Hk. injection Hk as <-. destruct (N.ltb_spec 0 (s k)); [|discriminate]. intros [= H0]. lia.
    + rewrite Hk. apply Hc.
Qed.
End amounts.

Section data.
Context {K : Type} {EqK : EqDecision K} {CntK : Countable K} {T : Type} {EqT : EqDecision T}.
Implicit Types p s : K -> option T.
Implicit Types m d : data_coll K T.

(** Delta [m] over parent records [p] reads as [s], and the "old" halves agree with the parent. *)
Definition dreads p m s : Prop := forall k,
  match m !! k with Some d => d_old d = p k /\ s k = d_new d | None => s k = p k end.

Lemma dreads_empty p : dreads p ∅ p.
Proof. intros k. rewrite lookup_empty. reflexivity. Qed.

Lemma dreads_get p m s k :
  dreads p m s -> match get_data m k with Present t => s k = Some t | Deleted => s k = None | Missing => s k = p k end.
Proof.
  intros H. specialize (H k). unfold get_data. destruct (m !! k) as [d|]; [|exact H].
  destruct H as [_ H]. destruct (d_new d); exact H.
Qed.

Lemma dreads_set p m s k old new :
  dreads p m s -> s k = old ->
  exists m', merge_delta_data_element m k (DataDelta old new) = (m', Ok (DataDelta new old)) /\
    dreads p m' (fupd s k new).
Proof.
  intros H Hold. pose proof (H k) as Hk. unfold merge_delta_data_element.
  destruct (m !! k) as [d|] eqn:Hd.
  - destruct Hk as [Ho Hn].
    assert (combine_delta_data d (DataDelta old new) = Ok (DataDelta (d_old d) new)) as ->.
    { apply combine_delta_data_ok. split; [cbn; congruence|reflexivity]. }
    eexists. split; [reflexivity|]. intros k'. unfold fupd. destruct (decide (k = k')) as [<-|Hne].
    + rewrite lookup_insert. split; [exact Ho|reflexivity].
    + rewrite lookup_insert_ne by exact Hne. apply H.
  - eexists. split; [reflexivity|]. intros k'. unfold fupd. destruct (decide (k = k')) as [<-|Hne].
    + rewrite lookup_insert. cbn. split; congruence.
    + rewrite lookup_insert_ne by exact Hne. apply H.
Qed.

Lemma dreads_merge p m s d s' :
  dreads p m s -> dreads s d s' -> exists m', merge_delta_data m d = (m', Ok (invert <$> d)) /\ dreads p m' s'.
Proof.
  intros H1 H2. destruct (merge_delta_data_succeeds m d) as [m' Hm].
  { intros k x y Hx Hy. specialize (H1 k). specialize (H2 k). rewrite Hx in H1. rewrite Hy in H2.
    destruct H1, H2. congruence. }
  exists m'. split; [exact Hm|]. destruct (merge_delta_data_spec _ _ _ _ Hm) as [M _].
  intros k. specialize (M k). specialize (H1 k). specialize (H2 k).
  destruct (m !! k) as [x|]; destruct (d !! k) as [y|].
  - destruct M as [_ ->]. cbn. tauto.
  - rewrite M. destruct H1. split; congruence.
  - rewrite M. destruct H2. split; congruence.
  - rewrite M. congruence.
Qed.

Definition gdd (o : option T) (x : data_delta T) : res acc_err (option T) := combine_data_with_delta o (Some x).

Lemma db_merge_datum_ok (db : gmap K T) k x o :
  gdd (db !! k) x = Ok o -> db_merge_datum db k x = (partial_alter (fun _ => o) k db, Ok (invert x)).
Proof. unfold gdd, db_merge_datum. intros ->. destruct o; reflexivity. Qed.

Lemma db_merge_datum_inv (db : gmap K T) k x (m1 : gmap K T) u :
  db_merge_datum db k x = (m1, Ok u) -> exists o, gdd (db !! k) x = Ok o.
Proof.
  unfold gdd, db_merge_datum. destruct (combine_data_with_delta _ _) as [r| |]; try discriminate. eauto.
Qed.

Lemma db_merge_datum_no_panic (db : gmap K T) k x : (db_merge_datum db k x).2 <> Panic.
Proof.
  unfold db_merge_datum. pose proof (combine_data_no_panic (db !! k) (Some x)) as H.
  destruct (combine_data_with_delta _ _) as [[r|]| |]; cbn; congruence.
Qed.

Lemma db_merge_data_no_panic (db : gmap K T) d : (db_merge_data db d).2 <> Panic.
Proof. apply collect_no_panic. intros s k x. apply db_merge_datum_no_panic. Qed.

Lemma dreads_flush_db (db : gmap K T) d s :
  dreads (fun k => db !! k) d s ->
  exists db', db_merge_data db d = (db', Ok (invert <$> d)) /\ forall k, db' !! k = s k.
Proof.
  intros H.
  assert (forall k x, d !! k = Some x -> gdd (db !! k) x = Ok (s k)) as Hg.
  { intros k x Hx. specialize (H k). rewrite Hx in H. unfold gdd. apply combine_data_some. destruct H. split; congruence. }
  destruct (collect_fold_succeeds _ _ invert db_merge_datum_ok (map_to_list d) db ∅
              (NoDup_fst_map_to_list d)) as (db' & u & Hm).
  { intros k x Hx. apply elem_of_map_to_list in Hx. rewrite (Hg _ _ Hx). eexists; reflexivity. }
  destruct (collect_fold_ok _ _ invert db_merge_datum_ok db_merge_datum_inv _ _ _ _ _
              (NoDup_fst_map_to_list d) Hm) as [Hk Hu].
  unfold keyed_result in Hk. rewrite list_to_map_to_list in Hk, Hu.
  exists db'. split.
  - unfold db_merge_data. rewrite Hm. f_equal. f_equal. apply map_eq. intros k.
    rewrite Hu, lookup_fmap, lookup_empty. destruct (d !! k); reflexivity.
  - intros k. specialize (Hk k). specialize (H k). destruct (d !! k) as [x|] eqn:Hx.
    + rewrite (Hg _ _ Hx) in Hk. congruence.
    + congruence.
Qed.
End data.
