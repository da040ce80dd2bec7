(** Lemmas about balance and data deltas. *)
From Verif Require Import Base BaseProofs AmountModel DeltaModel.
Local Open Scope Z_scope.

Definition in_i128 (z : Z) : Prop := I128_MIN <= z <= I128_MAX.

Lemma samount_add_spec a b s : samount_add a b = Some s <-> s = a + b /\ in_i128 (a + b).
Proof.
  unfold samount_add, in_i128. destruct ((I128_MIN <=? a + b) && (a + b <=? I128_MAX))%Z eqn:Hb.
  - apply andb_true_iff in Hb as [H1 H2]. split.
    + intros [= <-]. lia.
    + intros [-> _]. reflexivity.
  - apply andb_false_iff in Hb. split; [discriminate|]. intros [_ ?]. lia.
Qed.

Lemma samount_neg_spec a n : samount_neg a = Some n <-> n = - a /\ a <> I128_MIN.
Proof. unfold samount_neg. destruct (Z.eqb_spec a I128_MIN); split; intros H; try discriminate; try tauto.
  - injection H as <-. tauto.
  - destruct H as [-> _]. reflexivity.
Qed.

Lemma into_signed_spec a z : into_signed a = Some z <-> z = Z.of_N a /\ Z.of_N a <= I128_MAX.
Proof. unfold into_signed. destruct (Z.leb_spec (Z.of_N a) I128_MAX); split; intros H'; try discriminate.
  - injection H' as <-. lia.
  - destruct H' as [-> _]. reflexivity.
  - lia.
Qed.

Lemma into_unsigned_spec z a : into_unsigned z = Some a <-> 0 <= z /\ Z.of_N a = z.
Proof. unfold into_unsigned. destruct (Z.leb_spec 0 z); split; intros H'; try discriminate.
  - injection H' as <-. lia.
  - f_equal. lia.
  - lia.
Qed.

Section amounts.
Context {K : Type} {EqK : EqDecision K} {CntK : Countable K}.
Implicit Types m d e : amount_coll K.

(** The value a collection assigns to a key: absent means "no change". *)
Definition dval m (k : K) : Z := default 0 (m !! k).

(** Every collection the API can produce: no explicit zero entries, entries within i128. *)
Definition amounts_wf m : Prop := forall k z, m !! k = Some z -> z <> 0 /\ in_i128 z.

Lemma amounts_wf_empty : amounts_wf ∅.
Proof. intros k z H. rewrite lookup_empty in H. discriminate. Qed.

Lemma dval_in m k : amounts_wf m -> in_i128 (dval m k).
Proof.
  intros Hwf. unfold dval. destruct (m !! k) as [z|] eqn:Hz; cbn [default from_option].
  - apply (Hwf _ _ Hz).
  - unfold in_i128, I128_MIN, I128_MAX. lia.
Qed.

Lemma amounts_eq m d : amounts_wf m -> amounts_wf d -> (forall k, dval m k = dval d k) -> m = d.
Proof.
  intros Hm Hd Heq. apply map_eq. intros k. specialize (Heq k). unfold dval in Heq.
  destruct (m !! k) as [z|] eqn:Hz; destruct (d !! k) as [z'|] eqn:Hz'; cbn in Heq; subst.
  - reflexivity.
  - destruct (Hm _ _ Hz). congruence.
  - destruct (Hd _ _ Hz'). congruence.
  - reflexivity.
Qed.

(** What merging one signed amount does to a key. *)
Definition merge1 (o : option Z) (z : Z) : res acc_err (option Z) :=
  match combine_signed_amount_delta o z with
  | Ok s => Ok (if (s =? 0)%Z then None else Some s)
  | Err er => Err er
  | Panic => Panic
  end.

Lemma merge_elem_ok m k z o :
  merge1 (m !! k) z = Ok o -> merge_delta_amount_element m k z = (partial_alter (fun _ => o) k m, Ok tt).
Proof.
  unfold merge1, merge_delta_amount_element.
  destruct (combine_signed_amount_delta (m !! k) z) as [s| |]; try discriminate.
  destruct (Z.eqb s 0); intros [= <-]; f_equal.
Qed.

Lemma merge_elem_inv m k z m' :
  merge_delta_amount_element m k z = (m', Ok tt) -> exists o, merge1 (m !! k) z = Ok o.
Proof.
  unfold merge1, merge_delta_amount_element.
  destruct (combine_signed_amount_delta (m !! k) z) as [s| |]; try discriminate. eauto.
Qed.

Lemma merge1_spec o z o' :
  in_i128 z -> (merge1 o z = Ok o' <->
     in_i128 (default 0 o + z) /\ o' = (if Z.eqb (default 0 o + z) 0 then None else Some (default 0 o + z))).
Proof.
  intros Hz. unfold merge1, combine_signed_amount_delta. destruct o as [v|]; cbn [default from_option].
  - unfold ok_or. destruct (samount_add v z) as [s|] eqn:Hs.
    + apply samount_add_spec in Hs as [-> Hin]. split.
      * intros [= <-]. split; [exact Hin|reflexivity].
      * intros [_ ->]. reflexivity.
    + split; [discriminate|]. intros [Hin _].
      assert (samount_add v z = Some (v + z)) by (apply samount_add_spec; split; [reflexivity|exact Hin]). congruence.
  - replace (0 + z) with z by lia. split.
    + intros [= <-]. split; [exact Hz|reflexivity].
    + intros [_ ->]. reflexivity.
Qed.

Lemma merge1_fails_or o z : in_i128 z -> ~ in_i128 (default 0 o + z) -> merge1 o z = Err DeltaAdditionFailed.
Proof.
  intros Hz Hn. unfold merge1, combine_signed_amount_delta. destruct o as [v|]; cbn in Hn.
  - unfold ok_or. destruct (samount_add v z) as [s|] eqn:Hs; [|reflexivity].
    apply samount_add_spec in Hs as [_ ?]. contradiction.
  - exfalso. apply Hn. replace (0 + z) with z by lia. exact Hz.
Qed.

(** One-element merge: succeeds exactly when the sum fits. *)
Lemma merge_elem_spec m k z :
  amounts_wf m -> in_i128 z -> in_i128 (dval m k + z) ->
  exists m', merge_delta_amount_element m k z = (m', Ok tt) /\ amounts_wf m' /\
     forall k', dval m' k' = if decide (k = k') then dval m k + z else dval m k'.
Proof.
  intros Hwf Hz Hin.
  assert (merge1 (m !! k) z = Ok (if Z.eqb (dval m k + z) 0 then None else Some (dval m k + z))) as H1.
  { apply merge1_spec; [exact Hz|]. split; [exact Hin|reflexivity]. }
  eexists. split; [apply merge_elem_ok; exact H1|]. split.
  - intros k' z'. destruct (decide (k = k')) as [<-|Hne].
    + rewrite lookup_partial_alter. destruct (Z.eqb_spec (dval m k + z) 0); [discriminate|].
      intros [= <-]. split; assumption.
    + rewrite lookup_partial_alter_ne by exact Hne. apply Hwf.
  - intros k'. unfold dval at 1. destruct (decide (k = k')) as [<-|Hne].
    + rewrite lookup_partial_alter. destruct (Z.eqb_spec (dval m k + z) 0) as [->|]; reflexivity.
    + rewrite lookup_partial_alter_ne by exact Hne. reflexivity.
Qed.

Lemma merge_elem_inv_spec m k z m' :
  amounts_wf m -> in_i128 z -> merge_delta_amount_element m k z = (m', Ok tt) ->
  in_i128 (dval m k + z) /\ amounts_wf m' /\
     forall k', dval m' k' = if decide (k = k') then dval m k + z else dval m k'.
Proof.
  intros Hwf Hz Hm. destruct (merge_elem_inv _ _ _ _ Hm) as [o Ho].
  apply merge1_spec in Ho as [Hin _]; [|exact Hz].
  split; [exact Hin|].
  destruct (merge_elem_spec m k z Hwf Hz Hin) as (m2 & Hm2 & H). rewrite Hm2 in Hm. injection Hm as <-. exact H.
Qed.

Lemma merge_elem_err m k z : amounts_wf m -> in_i128 z -> ~ in_i128 (dval m k + z) ->
  merge_delta_amount_element m k z = (m, Err DeltaAdditionFailed).
Proof.
  intros Hwf Hz Hn. pose proof (merge1_fails_or _ _ Hz Hn) as H. unfold merge1 in H. unfold merge_delta_amount_element.
  destruct (combine_signed_amount_delta (m !! k) z) as [s|er|]; try discriminate H. injection H as ->. reflexivity.
Qed.

Definition merge_list (l : list (K * Z)) m := try_fold (fun m kz => merge_delta_amount_element m kz.1 kz.2) l m.

Lemma merge_list_keyed l m m' : NoDup l.*1 -> merge_list l m = (m', Ok tt) -> keyed_result (fun _ => merge1) l m m'.
Proof.
  apply try_fold_keyed_ok.
  - intros m0 k x o. apply merge_elem_ok.
  - intros m0 k x m1. apply merge_elem_inv.
Qed.

Lemma merge_list_succeeds l m :
  NoDup l.*1 -> (forall k x, (k, x) ∈ l -> is_ok (merge1 (m !! k) x)) -> exists m', merge_list l m = (m', Ok tt).
Proof. apply (try_fold_keyed_succeeds _ (fun _ => merge1)). intros m0 k x o. apply merge_elem_ok. Qed.

Lemma merge_delta_amounts_spec m d m' :
  amounts_wf m -> amounts_wf d -> merge_delta_amounts m d = (m', Ok tt) ->
  amounts_wf m' /\ forall k, dval m' k = dval m k + dval d k.
Proof.
  intros Hm Hd Hmd. apply merge_list_keyed in Hmd; [|apply NoDup_fst_map_to_list].
  unfold keyed_result in Hmd. rewrite list_to_map_to_list in Hmd.
  assert (forall k, dval m' k = dval m k + dval d k /\ (forall z, m' !! k = Some z -> z <> 0 /\ in_i128 z)) as H.
  { intros k. specialize (Hmd k). unfold dval. destruct (d !! k) as [x|] eqn:Hx; cbn [default from_option].
    - apply merge1_spec in Hmd as [Hin Heq]; [|apply (Hd _ _ Hx)]. rewrite Heq.
      destruct (Z.eqb_spec (default 0 (m !! k) + x) 0) as [H0|H0]; cbn [default from_option].
      + split; [cbn; lia|discriminate].
      + split; [reflexivity|]. intros z [= <-]. tauto.
    - rewrite Hmd. split; [lia|]. intros z Hz. apply (Hm _ _ Hz). }
  split; [intros k z; apply H|apply H].
Qed.

Lemma merge_delta_amounts_succeeds m d :
  amounts_wf m -> amounts_wf d -> (forall k, in_i128 (dval m k + dval d k)) ->
  exists m', merge_delta_amounts m d = (m', Ok tt).
Proof.
  intros Hm Hd Hin. apply merge_list_succeeds; [apply NoDup_fst_map_to_list|].
  intros k x Hx. apply elem_of_map_to_list in Hx. specialize (Hin k). unfold dval in Hin. rewrite Hx in Hin. cbn in Hin.
  eexists. apply merge1_spec; [apply (Hd _ _ Hx)|]. split; [exact Hin|reflexivity].
Qed.

(** Success needs no more than that: whenever some key overflows the merge reports an error. *)
Lemma merge_delta_amounts_inv m d m' :
  amounts_wf m -> amounts_wf d -> merge_delta_amounts m d = (m', Ok tt) -> forall k, in_i128 (dval m k + dval d k).
Proof.
  intros Hm Hd Hmd k. destruct (merge_delta_amounts_spec _ _ _ Hm Hd Hmd) as [Hwf Hv].
  rewrite <- Hv. apply dval_in. exact Hwf.
Qed.

(** The order in which the entries are visited does not matter. *)
Lemma merge_order_irrelevant l1 l2 m m1 :
  NoDup l1.*1 -> l1 ≡ₚ l2 -> merge_list l1 m = (m1, Ok tt) -> merge_list l2 m = (m1, Ok tt).
Proof.
  intros Hnd Hp H1.
  assert (NoDup l2.*1) as Hnd2. { rewrite <- Hp. exact Hnd. }
  assert ((list_to_map l1 : gmap K Z) = list_to_map l2) as Hl by (apply list_to_map_proper; assumption).
  pose proof (merge_list_keyed _ _ _ Hnd H1) as Hk1.
  destruct (merge_list_succeeds l2 m Hnd2) as [m2 H2].
  { intros k x Hx. specialize (Hk1 k). rewrite Hl in Hk1.
    apply elem_of_list_to_map_1 in Hx; [|exact Hnd2]. rewrite Hx in Hk1. eexists; exact Hk1. }
  rewrite H2. f_equal.
  eapply keyed_result_unique; [symmetry; exact Hl|apply merge_list_keyed; eassumption|exact Hk1].
Qed.

Lemma merge_assoc m d e md de r1 r2 :
  amounts_wf m -> amounts_wf d -> amounts_wf e ->
  merge_delta_amounts m d = (md, Ok tt) -> merge_delta_amounts md e = (r1, Ok tt) ->
  merge_delta_amounts d e = (de, Ok tt) -> merge_delta_amounts m de = (r2, Ok tt) -> r1 = r2.
Proof.
  intros Hm Hd He H1 H2 H3 H4.
  destruct (merge_delta_amounts_spec _ _ _ Hm Hd H1) as [W1 V1].
  destruct (merge_delta_amounts_spec _ _ _ W1 He H2) as [W2 V2].
  destruct (merge_delta_amounts_spec _ _ _ Hd He H3) as [W3 V3].
  destruct (merge_delta_amounts_spec _ _ _ Hm W3 H4) as [W4 V4].
  apply amounts_eq; [assumption..|]. intros k. rewrite V2, V1, V4, V3. lia.
Qed.

Lemma merge_comm m d r :
  amounts_wf m -> amounts_wf d -> merge_delta_amounts m d = (r, Ok tt) -> merge_delta_amounts d m = (r, Ok tt).
Proof.
  intros Hm Hd H. destruct (merge_delta_amounts_spec _ _ _ Hm Hd H) as [W V].
  destruct (merge_delta_amounts_succeeds d m Hd Hm) as [r2 H2].
  { intros k. rewrite Z.add_comm, <- V. apply dval_in. exact W. }
  rewrite H2. f_equal. destruct (merge_delta_amounts_spec _ _ _ Hd Hm H2) as [W2 V2].
  apply amounts_eq; [assumption..|]. intros k. rewrite V, V2. lia.
Qed.

Definition undo1 (o : option Z) (z : Z) : res acc_err (option Z) :=
  match samount_neg z with Some n => merge1 o n | None => Err DeltaUndoNegationError end.

Lemma undo_merge_spec m d m' :
  amounts_wf m -> amounts_wf d -> (forall k, d !! k <> Some I128_MIN) ->
  merge_delta_amounts m d = (m', Ok tt) -> undo_merge_delta_amounts m' d = (m, Ok tt).
Proof.
  intros Hm Hd Hmin H. destruct (merge_delta_amounts_spec _ _ _ Hm Hd H) as [W V].
  unfold undo_merge_delta_amounts.
  set (f := fun (m0 : amount_coll K) (kz : K * samount) => match samount_neg kz.2 with
      | Some nz => merge_delta_amount_element m0 kz.1 nz | None => (m0, Err DeltaUndoNegationError) end).
  assert (forall m0 k x o, undo1 (m0 !! k) x = Ok o -> f m0 (k, x) = (partial_alter (fun _ => o) k m0, Ok tt)) as Fok.
  { intros m0 k x o. unfold undo1, f. cbn. destruct (samount_neg x) as [n|]; [|discriminate]. apply merge_elem_ok. }
  assert (forall m0 k x m1, f m0 (k, x) = (m1, Ok tt) -> exists o, undo1 (m0 !! k) x = Ok o) as Ffail.
  { intros m0 k x m1. unfold undo1, f. cbn. destruct (samount_neg x) as [n|]; [|discriminate]. apply merge_elem_inv. }
  assert (forall k x, d !! k = Some x ->
     samount_neg x = Some (- x) /\ in_i128 (- x) /\ undo1 (m' !! k) x = Ok (m !! k)) as Hk.
  { intros k x Hx. assert (x <> I128_MIN) as Hx' by (intros ->; apply (Hmin _ Hx)).
    destruct (Hd _ _ Hx) as [_ Hxin].
    assert (in_i128 (- x)) as Hnin by (unfold in_i128, I128_MIN, I128_MAX in *; lia).
    assert (samount_neg x = Some (- x)) as Hneg by (apply samount_neg_spec; tauto).
    split; [exact Hneg|]. split; [exact Hnin|].
    unfold undo1. rewrite Hneg. apply merge1_spec; [exact Hnin|].
    specialize (V k). unfold dval in V. rewrite Hx in V. cbn in V.
    replace (default 0 (m' !! k) + - x) with (default 0 (m !! k)) by lia.
    split; [apply dval_in; exact Hm|].
    destruct (m !! k) as [v|] eqn:Hv; cbn.
    - destruct (Hm _ _ Hv) as [Hv0 _]. destruct (Z.eqb_spec v 0); [contradiction|reflexivity].
    - reflexivity. }
  destruct (try_fold_keyed_succeeds f (fun _ => undo1) Fok (map_to_list d) m') as [r Hr].
  { apply NoDup_fst_map_to_list. }
  { intros k x Hx. apply elem_of_map_to_list in Hx. destruct (Hk _ _ Hx) as (_ & _ & Hu). eexists; exact Hu. }
  rewrite Hr. f_equal.
  pose proof (try_fold_keyed_ok f (fun _ => undo1) Fok Ffail _ _ _ (NoDup_fst_map_to_list d) Hr) as Hkr.
  unfold keyed_result in Hkr. rewrite list_to_map_to_list in Hkr.
  apply map_eq. intros k. specialize (Hkr k). destruct (d !! k) as [x|] eqn:Hx.
  - destruct (Hk _ _ Hx) as (_ & _ & Hu). congruence.
  - rewrite Hkr. specialize (V k). unfold dval in V. rewrite Hx in V. cbn in V.
    destruct (m' !! k) as [v'|] eqn:Hv'; destruct (m !! k) as [v|] eqn:Hv; cbn in V.
    + f_equal. lia.
    + destruct (W _ _ Hv'). lia.
    + destruct (Hm _ _ Hv). lia.
    + reflexivity.
Qed.

(** ** Applying to balances *)
Lemma combine_amount_delta_some b z r :
  combine_amount_delta b (Some z) = Ok r <-> Z.of_N b <= I128_MAX /\ in_i128 (Z.of_N b + z) /\ Z.of_N r = Z.of_N b + z.
Proof.
  unfold combine_amount_delta, rbind, ok_or.
  destruct (into_signed b) as [v|] eqn:Hv.
  - apply into_signed_spec in Hv as [-> Hb]. destruct (samount_add (Z.of_N b) z) as [s|] eqn:Hs.
    + apply samount_add_spec in Hs as [-> Hin]. destruct (into_unsigned (Z.of_N b + z)) as [u|] eqn:Hu.
      * apply into_unsigned_spec in Hu as [H0 Hu]. split.
        -- intros [= <-]. tauto.
        -- intros (_ & _ & Hr). f_equal. lia.
      * split; [discriminate|]. intros (_ & _ & Hr).
        assert (into_unsigned (Z.of_N b + z) = Some r) by (apply into_unsigned_spec; lia). congruence.
    + split; [discriminate|]. intros (_ & Hin & _).
      assert (samount_add (Z.of_N b) z = Some (Z.of_N b + z)) by (apply samount_add_spec; tauto). congruence.
  - split; [discriminate|]. intros (Hb & _).
    assert (into_signed b = Some (Z.of_N b)) by (apply into_signed_spec; lia). congruence.
Qed.

Lemma combine_amount_delta_val b o r :
  combine_amount_delta b o = Ok r -> Z.of_N r = Z.of_N b + default 0 o.
Proof.
  destruct o as [z|].
  - intros H. apply combine_amount_delta_some in H. cbn. tauto.
  - intros [= <-]. cbn. lia.
Qed.

Lemma combine_amount_delta_ok b o :
  Z.of_N b <= I128_MAX -> 0 <= Z.of_N b + default 0 o <= I128_MAX ->
  combine_amount_delta b o = Ok (Z.to_N (Z.of_N b + default 0 o)).
Proof.
  intros Hb Hr. destruct o as [z|]; cbn in *.
  - apply combine_amount_delta_some. unfold in_i128, I128_MIN. lia.
  - f_equal. lia.
Qed.

(** Never panics. *)
Lemma combine_amount_delta_no_panic b o : combine_amount_delta b o <> Panic.
Proof.
  unfold combine_amount_delta. destruct o as [z|]; [|discriminate].
  unfold rbind, ok_or. destruct (into_signed b); [|discriminate]. destruct (samount_add _ _); [|discriminate].
  destruct (into_unsigned _); discriminate.
Qed.

(** Applying a merged delta equals applying the parts in order. *)
Lemma apply_merge b m d m' k b1 b2 :
  amounts_wf m -> amounts_wf d -> merge_delta_amounts m d = (m', Ok tt) ->
  combine_amount_delta b (m !! k) = Ok b1 -> combine_amount_delta b1 (d !! k) = Ok b2 ->
  combine_amount_delta b (m' !! k) = Ok b2.
Proof.
  intros Hm Hd H H1 H2. destruct (merge_delta_amounts_spec _ _ _ Hm Hd H) as [W V].
  pose proof (combine_amount_delta_val _ _ _ H1) as E1. pose proof (combine_amount_delta_val _ _ _ H2) as E2.
  specialize (V k). unfold dval in V.
  destruct (m' !! k) as [v|] eqn:Hv; cbn in V.
  - destruct (m !! k) as [x|] eqn:Hx; destruct (d !! k) as [y|] eqn:Hy; cbn in V, E1, E2.
    + apply combine_amount_delta_some in H1. apply combine_amount_delta_some in H2.
      apply combine_amount_delta_some. unfold in_i128 in *. repeat split; lia.
    + apply combine_amount_delta_some in H1. apply combine_amount_delta_some. unfold in_i128 in *. repeat split; lia.
    + apply combine_amount_delta_some in H2. apply combine_amount_delta_some. cbn in H1. injection H1 as <-.
      unfold in_i128 in *. repeat split; lia.
    + destruct (W _ _ Hv). lia.
  - cbn. f_equal. lia.
Qed.
End amounts.

Section data.
Context {K : Type} {EqK : EqDecision K} {CntK : Countable K} {T : Type} {EqT : EqDecision T}.
Implicit Types m d e : data_coll K T.
Implicit Types x y z : data_delta T.

Lemma data_delta_eta x : DataDelta (d_old x) (d_new x) = x. Proof. destruct x; reflexivity. Qed.
Lemma invert_involutive x : invert (invert x) = x. Proof. destruct x; reflexivity. Qed.

Lemma combine_delta_data_ok x y z :
  combine_delta_data x y = Ok z <-> d_new x = d_old y /\ z = DataDelta (d_old x) (d_new y).
Proof.
  unfold combine_delta_data. destruct (decide (d_new x = d_old y)); split; intros H; try discriminate; try tauto.
  - injection H as <-. tauto.
  - destruct H as [_ ->]. reflexivity.
Qed.

Lemma combine_delta_data_no_panic x y : combine_delta_data x y <> Panic.
Proof. unfold combine_delta_data. destruct (decide _); discriminate. Qed.

Definition dmerge1 (o : option (data_delta T)) x : res acc_err (option (data_delta T)) :=
  match o with
  | None => Ok (Some x)
  | Some y => rmap Some (combine_delta_data y x)
  end.

Lemma dmerge_elem_ok m k x o : dmerge1 (m !! k) x = Ok o ->
  merge_delta_data_element m k x = (partial_alter (fun _ => o) k m, Ok (invert x)).
Proof.
  unfold dmerge1, merge_delta_data_element. destruct (m !! k) as [y|].
  - destruct (combine_delta_data y x) as [z| |]; cbn; try discriminate. intros [= <-]. reflexivity.
  - intros [= <-]. reflexivity.
Qed.

Lemma dmerge_elem_inv m k x m' u : merge_delta_data_element m k x = (m', Ok u) ->
  exists o, dmerge1 (m !! k) x = Ok o /\ u = invert x /\ m' = partial_alter (fun _ => o) k m.
Proof.
  unfold dmerge1, merge_delta_data_element. destruct (m !! k) as [y|].
  - destruct (combine_delta_data y x) as [z| |]; cbn; try discriminate. intros [= <- <-]. eauto.
  - intros [= <- <-]. eauto.
Qed.

Definition strip (f : data_coll K T -> K -> data_delta T -> data_coll K T * res acc_err (data_delta T))
  (m : data_coll K T) (kx : K * data_delta T) : data_coll K T * res acc_err unit :=
  match f m kx.1 kx.2 with (m', r) => (m', rmap (fun _ => tt) r) end.

Lemma dmerge_list_strip l m u m' r :
  merge_delta_data_list m l u = (m', r) ->
  try_fold (strip merge_delta_data_element) l m = (m', rmap (fun _ => tt) r).
Proof.
  revert m u. induction l as [|[k x] l IH]; intros m u; cbn [merge_delta_data_list try_fold].
  - intros [= <- <-]. reflexivity.
  - unfold strip at 1. cbn. destruct (merge_delta_data_element m k x) as [m1 [v| |]]; cbn.
    + apply IH.
    + intros [= <- <-]. reflexivity.
    + intros [= <- <-]. reflexivity.
Qed.

Lemma dmerge_list_undo l m u m' u' :
  NoDup l.*1 -> merge_delta_data_list m l u = (m', Ok u') ->
  forall k, u' !! k = match (list_to_map l : gmap K _) !! k with Some x => Some (invert x) | None => u !! k end.
Proof.
  revert m u. induction l as [|[k x] l IH]; intros m u Hnd; cbn [merge_delta_data_list].
  - intros [= <- <-] k. reflexivity.
  - cbn [fmap list_fmap fst] in Hnd. apply NoDup_cons in Hnd as [Hk Hnd].
    destruct (merge_delta_data_element m k x) as [m1 [v| |]] eqn:Hm; try discriminate.
    apply dmerge_elem_inv in Hm as (o & _ & -> & _).
    intros H k'. rewrite (IH _ _ Hnd H k'). cbn.
    destruct (decide (k = k')) as [<-|Hne].
    + rewrite lookup_insert.
      rewrite (not_elem_of_list_to_map_1 _ _ Hk). rewrite lookup_insert. reflexivity.
    + rewrite !lookup_insert_ne by exact Hne. reflexivity.
Qed.

Lemma strip_ok m k x o : dmerge1 (m !! k) x = Ok o ->
  strip merge_delta_data_element m (k, x) = (partial_alter (fun _ => o) k m, Ok tt).
Proof. intros H. unfold strip. cbn. rewrite (dmerge_elem_ok _ _ _ _ H). reflexivity. Qed.

Lemma strip_inv m k x m' : strip merge_delta_data_element m (k, x) = (m', Ok tt) -> exists o, dmerge1 (m !! k) x = Ok o.
Proof.
  unfold strip. cbn. destruct (merge_delta_data_element m k x) as [m1 [v| |]] eqn:Hm; cbn; try discriminate.
  intros _. destruct (dmerge_elem_inv _ _ _ _ _ Hm) as (o & Ho & _). eauto.
Qed.

(** Pointwise meaning of a successful merge. *)
Definition merged m d (r : data_coll K T) : Prop := forall k,
  match m !! k, d !! k with
  | None, o => r !! k = o
  | o, None => r !! k = o
  | Some x, Some y => d_new x = d_old y /\ r !! k = Some (DataDelta (d_old x) (d_new y))
  end.

Lemma merge_delta_data_spec m d r u :
  merge_delta_data m d = (r, Ok u) -> merged m d r /\ u = invert <$> d.
Proof.
  intros H. unfold merge_delta_data in H.
  pose proof (dmerge_list_undo _ _ _ _ _ (NoDup_fst_map_to_list d) H) as Hu.
  apply dmerge_list_strip in H. cbn in H.
  pose proof (try_fold_keyed_ok _ (fun _ => dmerge1) strip_ok strip_inv _ _ _ (NoDup_fst_map_to_list d) H) as Hk.
  unfold keyed_result in Hk. rewrite list_to_map_to_list in Hk, Hu. split.
  - intros k. specialize (Hk k). destruct (m !! k) as [x|] eqn:Hx; destruct (d !! k) as [y|] eqn:Hy; cbn in Hk.
    + destruct (combine_delta_data x y) as [z| |] eqn:Hz; try discriminate. cbn in Hk. injection Hk as Hk.
      apply combine_delta_data_ok in Hz as [? ->]. split; [assumption|congruence].
    + exact Hk.
    + congruence.
    + exact Hk.
  - apply map_eq. intros k. rewrite Hu, lookup_fmap, lookup_empty. destruct (d !! k); reflexivity.
Qed.

Lemma merge_delta_data_succeeds m d :
  (forall k x y, m !! k = Some x -> d !! k = Some y -> d_new x = d_old y) ->
  exists r, merge_delta_data m d = (r, Ok (invert <$> d)).
Proof.
  intros Hall.
  destruct (try_fold_keyed_succeeds _ (fun _ => dmerge1) strip_ok (map_to_list d) m (NoDup_fst_map_to_list d)) as [r Hr].
  { intros k x Hx. apply elem_of_map_to_list in Hx. destruct (m !! k) as [y|] eqn:Hy; cbn.
    - eexists. assert (combine_delta_data y x = Ok (DataDelta (d_old y) (d_new x))) as ->; [|reflexivity].
      apply combine_delta_data_ok. split; [eapply Hall; eassumption|reflexivity].
    - eexists; reflexivity. }
  unfold merge_delta_data. destruct (merge_delta_data_list m (map_to_list d) ∅) as [r' r0] eqn:Hm.
  pose proof (dmerge_list_strip _ _ _ _ _ Hm) as Hs. rewrite Hr in Hs. injection Hs as -> Hr0.
  destruct r0 as [u| |]; try discriminate. exists r'. f_equal. f_equal.
  apply (merge_delta_data_spec m d r' u). exact Hm.
Qed.

Lemma merged_unique m d r1 r2 : merged m d r1 -> merged m d r2 -> r1 = r2.
Proof.
  intros H1 H2. apply map_eq. intros k. specialize (H1 k). specialize (H2 k).
  destruct (m !! k), (d !! k); try congruence. destruct H1, H2. congruence.
Qed.

Lemma merged_assoc m d e md de r1 r2 :
  merged m d md -> merged md e r1 -> merged d e de -> merged m de r2 -> r1 = r2.
Proof.
  intros H1 H2 H3 H4. apply map_eq. intros k.
  specialize (H1 k). specialize (H2 k). specialize (H3 k). specialize (H4 k).
  destruct (m !! k) as [x|]; destruct (d !! k) as [y|]; destruct (e !! k) as [z|];
    repeat match goal with
    | H : _ /\ _ |- _ => destruct H
    | H : ?a !! k = ?b |- _ => rewrite H in *; clear H
    end; cbn in *; congruence.
Qed.

(** If one bracketing succeeds and all the pairwise merges do, so does the other. *)
Lemma merge_assoc_succeeds m d e md u1 r1 u2 :
  merge_delta_data m d = (md, Ok u1) -> merge_delta_data md e = (r1, Ok u2) ->
  exists de u3 u4, merge_delta_data d e = (de, Ok u3) /\ merge_delta_data m de = (r1, Ok u4).
Proof.
  intros H1 H2. destruct (merge_delta_data_spec _ _ _ _ H1) as [M1 _].
  destruct (merge_delta_data_spec _ _ _ _ H2) as [M2 _].
  destruct (merge_delta_data_succeeds d e) as [de Hde].
  { intros k x y Hx Hy. specialize (M1 k). specialize (M2 k). rewrite Hx, Hy in *.
    destruct (m !! k) as [w|].
    - destruct M1 as [_ M1]. rewrite M1 in M2. destruct M2 as [M2 _]. exact M2.
    - rewrite M1 in M2. tauto. }
  destruct (merge_delta_data_spec _ _ _ _ Hde) as [M3 _].
  destruct (merge_delta_data_succeeds m de) as [r2 Hr2].
  { intros k x y Hx Hy. specialize (M1 k). specialize (M3 k). specialize (M2 k). rewrite Hx in *. rewrite Hy in *.
    destruct (d !! k) as [w|]; destruct (e !! k) as [v|].
    - destruct M3 as [_ M3]. injection M3 as ->. cbn. tauto.
    - injection M3 as ->. tauto.
    - injection M3 as ->. rewrite M1 in M2. tauto.
    - discriminate. }
  destruct (merge_delta_data_spec _ _ _ _ Hr2) as [M4 _].
  exists de. do 2 eexists. split; [exact Hde|]. rewrite Hr2. f_equal. symmetry.
  apply (merged_assoc m d e md de r1 r2 M1 M2 M3 M4).
Qed.

(** Undoing a merge. The entry may remain as an identity delta [(v,v)] where there was none. *)
Definition same_effect (m r : data_coll K T) (touched : K -> Prop) : Prop := forall k,
  m !! k = r !! k \/ (touched k /\ m !! k = None /\ exists v, r !! k = Some (DataDelta v v)).

Lemma undo_elem_eq m k x :
  undo_merge_delta_data_element m k x = strip merge_delta_data_element m (k, x).
Proof. reflexivity. Qed.

Lemma undo_merge_data_spec m d m' u :
  merge_delta_data m d = (m', Ok u) ->
  exists r, undo_merge_delta_data m' u = (r, Ok tt) /\ same_effect m r (fun k => is_Some (d !! k)).
Proof.
  intros H. destruct (merge_delta_data_spec _ _ _ _ H) as [M ->].
  set (u := invert <$> d).
  destruct (try_fold_keyed_succeeds _ (fun _ => dmerge1) strip_ok (map_to_list u) m' (NoDup_fst_map_to_list u)) as [r Hr].
  { intros k x Hx. apply elem_of_map_to_list in Hx. unfold u in Hx. rewrite lookup_fmap in Hx.
    destruct (d !! k) as [y|] eqn:Hy; [|discriminate]. injection Hx as <-. specialize (M k). rewrite Hy in M.
    destruct (m !! k) as [w|].
    - destruct M as [_ ->]. cbn. eexists.
      assert (combine_delta_data (DataDelta (d_old w) (d_new y)) (invert y) = Ok (DataDelta (d_old w) (d_old y))) as ->;
        [|reflexivity]. apply combine_delta_data_ok. split; reflexivity.
    - rewrite M. cbn. eexists.
      assert (combine_delta_data y (invert y) = Ok (DataDelta (d_old y) (d_old y))) as ->;
        [|reflexivity]. apply combine_delta_data_ok. split; reflexivity. }
  exists r. split; [exact Hr|].
  pose proof (try_fold_keyed_ok _ (fun _ => dmerge1) strip_ok strip_inv _ _ _ (NoDup_fst_map_to_list u) Hr) as Hk.
  unfold keyed_result in Hk. rewrite list_to_map_to_list in Hk.
  intros k. specialize (Hk k). specialize (M k). unfold u in Hk. rewrite lookup_fmap in Hk.
  destruct (d !! k) as [y|] eqn:Hy; cbn in Hk.
  - destruct (m !! k) as [w|].
    + destruct M as [Hn M]. rewrite M in Hk. cbn in Hk.
      destruct (combine_delta_data _ _) as [z| |] eqn:Hz; try discriminate. cbn in Hk. injection Hk as Hk.
      apply combine_delta_data_ok in Hz as [_ ->]. left. rewrite <- Hk. cbn. rewrite <- Hn. f_equal.
      symmetry. apply data_delta_eta.
    + rewrite M in Hk. cbn in Hk.
      destruct (combine_delta_data _ _) as [z| |] eqn:Hz; try discriminate. cbn in Hk. injection Hk as Hk.
      apply combine_delta_data_ok in Hz as [_ ->]. right. split; [eauto|]. split; [reflexivity|].
      exists (d_old y). rewrite <- Hk. reflexivity.
  - left. rewrite Hk. destruct (m !! k); congruence.
Qed.

(** Applying deltas to data. *)
Lemma combine_data_some b x r :
  combine_data_with_delta b (Some x) = Ok r <-> b = d_old x /\ r = d_new x.
Proof.
  unfold combine_data_with_delta. destruct x as [o n]; cbn. destruct b as [v|]; destruct o as [w|].
  - destruct (decide (v = w)) as [->|Hne]; split; intros H.
    + injection H as <-. tauto.
    + destruct H as [_ ->]. reflexivity.
    + discriminate.
    + destruct H as [[= ->] _]. contradiction.
  - destruct n; split; try discriminate; intros [? _]; discriminate.
  - destruct n; split; try discriminate; intros [? _]; discriminate.
  - split; [intros [= <-]; tauto|intros [_ ->]; reflexivity].
Qed.

Lemma combine_data_no_panic b o : combine_data_with_delta b o <> @Panic acc_err (option T).
Proof.
  unfold combine_data_with_delta. destruct b as [v|]; destruct o as [[[w|] [n|]]|]; cbn; try discriminate;
  try (destruct (decide _); discriminate).
Qed.

Lemma apply_merge_data b m d m' u k b1 b2 :
  merge_delta_data m d = (m', Ok u) ->
  combine_data_with_delta b (m !! k) = Ok b1 -> combine_data_with_delta b1 (d !! k) = Ok b2 ->
  combine_data_with_delta b (m' !! k) = Ok b2.
Proof.
  intros H H1 H2. destruct (merge_delta_data_spec _ _ _ _ H) as [M _]. specialize (M k).
  destruct (m !! k) as [x|]; destruct (d !! k) as [y|].
  - destruct M as [Hn ->]. apply combine_data_some in H1 as [-> ->]. apply combine_data_some in H2 as [_ ->].
    apply combine_data_some. split; reflexivity.
  - rewrite M. apply combine_data_some in H1 as [-> ->]. 
    assert (b2 = d_new x) as ->. { destruct (d_new x); cbn in H2; congruence. }
    apply combine_data_some. split; reflexivity.
  - rewrite M. assert (b1 = b) as ->. { destruct b; cbn in H1; congruence. } exact H2.
  - rewrite M. destruct b; destruct b1; cbn in *; congruence.
Qed.
End data.

From Verif Require Import DeltaSpec.

Lemma fits_iff z : fits_i128 z <-> in_i128 z.
Proof.
  unfold fits_i128, in_i128, I128_MIN, I128_MAX. change (2 ^ 127) with 170141183460469231731687303715884105728. lia.
Qed.

Section spec_bridge.
Context {K : Type} {EqK : EqDecision K} {CntK : Countable K}.
Implicit Types m d e : amount_coll K.

Lemma canonical_wf m : canonical m <-> amounts_wf m.
Proof. split; intros H k z Hz; destruct (H k z Hz); split; try assumption; apply fits_iff; assumption. Qed.

Lemma change_dval m k : change_at m k = dval m k.
Proof. unfold change_at, dval. destruct (m !! k); reflexivity. Qed.

Lemma balance_merge_meaning m d :
  canonical m -> canonical d ->
  ((exists m', merge_delta_amounts m d = (m', Ok tt)) <-> forall k, fits_i128 (change_at m k + change_at d k)) /\
  forall m', merge_delta_amounts m d = (m', Ok tt) ->
     canonical m' /\ forall k, change_at m' k = change_at m k + change_at d k.
Proof.
  intros Hm Hd. rewrite canonical_wf in Hm, Hd. split; [split|].
  - intros [m' H] k. rewrite !change_dval. apply fits_iff. eapply merge_delta_amounts_inv; eassumption.
  - intros H. apply merge_delta_amounts_succeeds; [assumption..|]. intros k. apply fits_iff. rewrite <- !change_dval. apply H.
  - intros m' H. destruct (merge_delta_amounts_spec _ _ _ Hm Hd H) as [W V].
    split; [apply canonical_wf; exact W|]. intros k. rewrite !change_dval. apply V.
Qed.

Lemma balance_merge_applies m d m' b0 b1 b2 :
  canonical m -> canonical d -> merge_delta_amounts m d = (m', Ok tt) ->
  applies_to m b0 b1 -> applies_to d b1 b2 -> applies_to m' b0 b2.
Proof.
  rewrite !canonical_wf. intros Hm Hd H H1 H2 k.
  eapply apply_merge; [exact Hm|exact Hd|exact H|apply H1|apply H2].
Qed.

Lemma balance_merge_assoc m d e md de r1 r2 :
  canonical m -> canonical d -> canonical e ->
  merge_delta_amounts m d = (md, Ok tt) -> merge_delta_amounts md e = (r1, Ok tt) ->
  merge_delta_amounts d e = (de, Ok tt) -> merge_delta_amounts m de = (r2, Ok tt) -> r1 = r2.
Proof. rewrite !canonical_wf. apply merge_assoc. Qed.

Lemma balance_merge_comm m d r :
  canonical m -> canonical d -> merge_delta_amounts m d = (r, Ok tt) -> merge_delta_amounts d m = (r, Ok tt).
Proof. rewrite !canonical_wf. apply merge_comm. Qed.

Lemma balance_merge_undo m d m' :
  canonical m -> canonical d -> (forall k, change_at d k <> - 2 ^ 127) ->
  merge_delta_amounts m d = (m', Ok tt) -> undo_merge_delta_amounts m' d = (m, Ok tt).
Proof.
  rewrite !canonical_wf. intros Hm Hd Hmin. apply undo_merge_spec; [assumption..|].
  intros k Hk. specialize (Hmin k). unfold change_at in Hmin. rewrite Hk in Hmin. apply Hmin. reflexivity.
Qed.
End spec_bridge.

Section data_bridge.
Context {K : Type} {EqK : EqDecision K} {CntK : Countable K} {T : Type} {EqT : EqDecision T}.
Implicit Types m d e : data_coll K T.

Lemma data_merge_applies m d m' u b0 b1 b2 :
  merge_delta_data m d = (m', Ok u) ->
  data_applies_to m b0 b1 -> data_applies_to d b1 b2 -> data_applies_to m' b0 b2.
Proof. intros H H1 H2 k. eapply apply_merge_data; [exact H|apply H1|apply H2]. Qed.

Lemma data_merge_succeeds_if_applies m d b0 b1 b2 :
  data_applies_to m b0 b1 -> data_applies_to d b1 b2 -> exists m' u, merge_delta_data m d = (m', Ok u).
Proof.
  intros H1 H2. destruct (merge_delta_data_succeeds m d) as [r Hr]; [|eauto].
  intros k x y Hx Hy. specialize (H1 k). specialize (H2 k). rewrite Hx in H1. rewrite Hy in H2.
  apply combine_data_some in H1 as [_ H1]. apply combine_data_some in H2 as [H2 _]. congruence.
Qed.

Lemma data_merge_undo_applies m d m' u b0 b1 b2 :
  merge_delta_data m d = (m', Ok u) -> data_applies_to m b0 b1 -> data_applies_to d b1 b2 ->
  exists r, undo_merge_delta_data m' u = (r, Ok tt) /\ data_applies_to r b0 b1 /\
    (forall k, r !! k = m !! k \/ (is_Some (d !! k) /\ m !! k = None /\ r !! k = Some (DataDelta (b0 k) (b0 k)))).
Proof.
  intros H H1 H2. destruct (undo_merge_data_spec _ _ _ _ H) as (r & Hr & Hs).
  destruct (merge_delta_data_spec _ _ _ _ H) as [M Hu].
  exists r. split; [exact Hr|].
  assert (forall k, r !! k = m !! k \/ (is_Some (d !! k) /\ m !! k = None /\ r !! k = Some (DataDelta (b0 k) (b0 k)))) as Hall.
  { intros k. destruct (Hs k) as [Hk|(Ht & Hm & v & Hv)]; [left; congruence|]. right.
    split; [exact Ht|]. split; [exact Hm|].
    (* the identity entry carries the value that was there *)
    destruct Ht as [y Hy]. specialize (H1 k). rewrite Hm in H1.
    assert (b1 k = b0 k) as E. { destruct (b0 k); cbn in H1; congruence. }
    specialize (H2 k). rewrite Hy in H2. apply combine_data_some in H2 as [H2 _].
    pose proof Hr as Hr'. unfold undo_merge_delta_data in Hr'.
    pose proof (try_fold_keyed_ok _ (fun _ => dmerge1) strip_ok strip_inv _ _ _ (NoDup_fst_map_to_list u) Hr') as Hk.
    specialize (Hk k). rewrite list_to_map_to_list, Hu, lookup_fmap, Hy in Hk. cbn in Hk.
    specialize (M k). rewrite Hm, Hy in M. rewrite M in Hk. cbn in Hk.
    destruct (combine_delta_data y (invert y)) as [z| |] eqn:Hz; try discriminate. cbn in Hk.
    apply combine_delta_data_ok in Hz as [_ ->]. rewrite Hv in Hk. cbn in Hk. injection Hk as <-.
    rewrite Hv. congruence. }
  split; [|exact Hall].
  intros k. destruct (Hall k) as [Hk|(Ht & Hm & Hk)].
  - rewrite Hk. apply H1.
  - rewrite Hk. specialize (H1 k). rewrite Hm in H1. apply combine_data_some. split; [reflexivity|].
    destruct (b0 k); cbn in H1 |- *; congruence.
Qed.

Lemma data_merge_assoc m d e md u1 r1 u2 :
  merge_delta_data m d = (md, Ok u1) -> merge_delta_data md e = (r1, Ok u2) ->
  exists de u3 u4, merge_delta_data d e = (de, Ok u3) /\ merge_delta_data m de = (r1, Ok u4).
Proof. apply merge_assoc_succeeds. Qed.

Lemma combine_invert_combine (x : data_delta T) :
  exists y z, combine_delta_data x (invert x) = Ok y /\ combine_delta_data y x = Ok z /\ z = x.
Proof.
  exists (DataDelta (d_old x) (d_old x)), x. split; [|split; [|reflexivity]].
  - apply combine_delta_data_ok. split; reflexivity.
  - apply combine_delta_data_ok. split; [reflexivity|]. destruct x; reflexivity.
Qed.
End data_bridge.
