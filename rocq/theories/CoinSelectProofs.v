(** Facts about the wallet's coin selection. *)
From Coq Require Import ZArith NArith Permutation.
From Verif Require Import Base CoinSelectModel CoinSelectSpec.

Section Proofs.
Context {O : Type}.
Implicit Types (g : group O) (r : selection O) (pool heap chosen gs : list (group O)) (pf : pay_fee).

(** * Sums *)

Lemma total_nil f : total (O := O) f [] = 0%N.
Proof. done. Qed.
Lemma total_cons f g gs : total f (g :: gs) = (f g + total f gs)%N.
Proof. done. Qed.

Lemma total_app f gs hs : total f (gs ++ hs) = (total (O := O) f gs + total f hs)%N.
Proof. unfold total. induction gs as [|g gs IH]; cbn in *; lia. Qed.

Lemma total_perm f gs hs : gs ≡ₚ hs -> total (O := O) f gs = total f hs.
Proof. unfold total. induction 1; cbn in *; lia. Qed.

Lemma total_submseteq f gs hs : gs ⊆+ hs -> (total (O := O) f gs <= total f hs)%N.
Proof.
  intros H. apply submseteq_Permutation in H as [k H]. rewrite (total_perm f _ _ H), total_app. lia.
Qed.

Lemma total_take_drop f n gs : (total f (take n gs) + total (O := O) f (drop n gs) = total f gs)%N.
Proof. rewrite <- total_app, take_drop. done. Qed.

Lemma eff_contribution pf g : eff pf g = contribution pf g.
Proof. by destruct pf. Qed.

Definition diff g : Z := (Z.of_N (g_fee g) - Z.of_N (g_long_term_fee g))%Z.
Definition total_diff gs : Z := foldr (fun g acc => diff g + acc)%Z 0%Z gs.

Lemma total_diff_app gs hs : total_diff (gs ++ hs) = (total_diff gs + total_diff hs)%Z.
Proof. unfold total_diff. induction gs as [|g gs IH]; cbn in *; lia. Qed.

Lemma total_diff_bounds gs :
  (- Z.of_N (total g_long_term_fee gs) <= total_diff gs <= Z.of_N (total g_fee gs))%Z.
Proof. unfold total_diff, total, diff. induction gs as [|g gs IH]; cbn in *; lia. Qed.

Lemma in_i128_some z x : in_i128 z = Some x -> x = z /\ (I128_MIN <= z <= I128_MAX)%Z.
Proof. unfold in_i128. destruct (_ && _)%Z eqn:E; intros [= <-]. lia. Qed.

Lemma in_i128_ok z : (I128_MIN <= z <= I128_MAX)%Z -> in_i128 z = Some z.
Proof.
  unfold in_i128. intros H. replace ((I128_MIN <=? z) && (z <=? I128_MAX))%Z with true; [done|]. symmetry. lia.
Qed.

Lemma into_signed_some a z : into_signed a = Some z -> z = Z.of_N a.
Proof. unfold into_signed. by destruct (_ <=? _)%Z; intros [= <-]. Qed.

Lemma into_signed_ok a : (Z.of_N a <= I128_MAX)%Z -> into_signed a = Some (Z.of_N a).
Proof. unfold into_signed. intros H. by rewrite (proj2 (Z.leb_le _ _) H). Qed.

Lemma fee_difference_some g z : fee_difference g = Some z -> z = diff g.
Proof.
  unfold fee_difference. destruct (into_signed (g_fee g)) as [a|] eqn:E; [|done].
  destruct (into_signed (g_long_term_fee g)) as [b|] eqn:E2; [|done].
  apply into_signed_some in E as ->. apply into_signed_some in E2 as ->.
  unfold signed_sub. intros H. apply in_i128_some in H as [-> _]. done.
Qed.

Lemma fee_difference_ok g :
  (Z.of_N (g_fee g) <= I128_MAX)%Z -> (Z.of_N (g_long_term_fee g) <= I128_MAX)%Z -> fee_difference g = Some (diff g).
Proof.
  intros H1 H2. unfold fee_difference. rewrite !into_signed_ok by done. unfold signed_sub, diff. apply in_i128_ok.
  unfold I128_MIN, I128_MAX in *. lia.
Qed.

Lemma amount_add_some a b c : amount_add a b = Some c -> c = (a + b)%N /\ (c <= U128_MAX)%N.
Proof. unfold amount_add, checked_add. destruct (_ <=? _)%N eqn:E; intros [= <-]. lia. Qed.

Lemma amount_add_ok a b : (a + b <= U128_MAX)%N -> amount_add a b = Some (a + b)%N.
Proof. unfold amount_add, checked_add. intros H. by rewrite (proj2 (N.leb_le _ _) H). Qed.

Lemma checked_sub_some a b c : checked_sub a b = Some c -> c = (a - b)%N /\ (b <= a)%N.
Proof. unfold checked_sub. destruct (_ <=? _)%N eqn:E; intros [= <-]. lia. Qed.

Lemma checked_sub_ok a b : (b <= a)%N -> checked_sub a b = Some (a - b)%N.
Proof. unfold checked_sub. intros H. by rewrite (proj2 (N.leb_le _ _) H). Qed.

Lemma sum_effective_from pf gs a :
  foldl (fun acc g => match acc with Some a => amount_add a (eff pf g) | None => None end) (Some a) gs
  = if decide (gs = [] \/ (a + total (eff pf) gs <= U128_MAX)%N) then Some (a + total (eff pf) gs)%N else None.
Proof.
  revert a. induction gs as [|g gs IH]; intros a.
  - cbn [foldl]. rewrite decide_True, total_nil by auto. f_equal. lia.
  - cbn [foldl]. unfold amount_add at 2, checked_add. destruct (_ <=? _)%N eqn:E.
    + rewrite IH, total_cons.
      destruct (decide (gs = [] \/ _)) as [H|H].
      * rewrite decide_True; [f_equal; lia|]. right. destruct H as [-> |H]; [rewrite total_nil; lia|lia].
      * rewrite decide_False; [done|]. intros [?|H']; [done|]. apply H. right. lia.
    + assert (foldl (fun acc g => match acc with Some a => amount_add a (eff pf g) | None => None end) None gs = None) as ->
        by (clear; induction gs; auto).
      rewrite total_cons, decide_False; [done|].
      intros [?|H']; [done|]. lia.
Qed.

Lemma sum_effective_ok pf gs : (total (eff pf) gs <= U128_MAX)%N -> sum_effective pf gs = Some (total (eff pf) gs).
Proof. intros H. unfold sum_effective. rewrite sum_effective_from, decide_True by (right; lia). done. Qed.

Lemma sum_effective_some pf gs a :
  sum_effective pf gs = Some a -> a = total (eff pf) gs /\ (a <= U128_MAX)%N.
Proof.
  unfold sum_effective. rewrite sum_effective_from. destruct (decide _) as [[-> |H]|H]; intros [= <-].
  - split; [done|]. rewrite total_nil. lia.
  - lia.
Qed.

Lemma total_available_from pf gs a x :
  (a <= U128_MAX)%N ->
  rfold (fun acc g => let? e := get_effective_value pf g in ok_or (amount_add acc e) AmountArithmeticError) gs a = Ok x ->
  x = (a + total (eff pf) gs)%N /\ (x <= U128_MAX)%N /\ worth_spending pf gs.
Proof.
  revert a. induction gs as [|g gs IH]; intros a Ha; cbn [rfold].
  - intros [= <-]. rewrite total_nil. split_and!; [lia|lia|]. constructor.
  - destruct (get_effective_value pf g) as [e|e|] eqn:Ee; cbn [rbind]; [|done..].
    unfold ok_or. destruct (amount_add a e) as [b|] eqn:Eb; [|done]. apply amount_add_some in Eb as [-> Hb].
    intros H. apply IH in H as (-> & Hx & Hw); [|done].
    assert (e = eff pf g /\ (pf = PayFeeWithThisCurrency -> g_fee g <= g_value g)%N) as [-> Hg].
    { unfold get_effective_value in Ee. destruct pf; cbn in *.
      - unfold expect in Ee. destruct (checked_sub _ _) eqn:E; [|done]. injection Ee as <-.
        apply checked_sub_some in E as [-> E]. auto.
      - injection Ee as <-. split; [done|]. intros [=]. }
    rewrite total_cons. split_and!; [lia|lia|].
    intros Hpf. constructor; [auto|]. auto.
Qed.

Lemma total_available_spec pf gs x :
  total_available_value pf gs = Ok x ->
  x = total (eff pf) gs /\ (x <= U128_MAX)%N /\ worth_spending pf gs.
Proof. intros H. apply total_available_from in H; [|lia]. exact H. Qed.

Lemma total_available_ok pf gs :
  worth_spending pf gs -> (total (eff pf) gs <= U128_MAX)%N -> total_available_value pf gs = Ok (total (eff pf) gs).
Proof.
  intros Hw Hb. unfold total_available_value.
  assert (forall a, a + total (eff pf) gs <= U128_MAX ->
    rfold (fun acc g => let? e := get_effective_value pf g in ok_or (amount_add acc e) AmountArithmeticError) gs a
    = Ok (E := select_error) (a + total (eff pf) gs))%N as H; [|rewrite H; [f_equal; lia|lia]].
  clear Hb. induction gs as [|g gs IH]; intros a Ha.
  - rewrite total_nil. cbn. f_equal. lia.
  - rewrite total_cons in *. cbn [rfold].
    assert (get_effective_value pf g = Ok (eff pf g)) as ->.
    { unfold get_effective_value, eff. destruct pf; [|done]. rewrite checked_sub_ok; [done|].
      specialize (Hw eq_refl). by apply Forall_cons in Hw as [? _]. }
    cbn [rbind]. rewrite amount_add_ok by lia. cbn [ok_or]. rewrite IH; [f_equal; lia| |lia].
    intros Hpf. specialize (Hw Hpf). by apply Forall_cons in Hw as [_ ?].
Qed.

Lemma worth_spending_sub pf gs hs : gs ⊆+ hs -> worth_spending pf hs -> worth_spending pf gs.
Proof.
  intros Hs Hw Hpf. specialize (Hw Hpf). rewrite Forall_forall in *. intros g Hg. apply Hw.
  by eapply elem_of_submseteq.
Qed.

Lemma total_value_eff pf gs : worth_spending pf gs -> total g_value gs = (total (eff pf) gs + fees_taken pf gs)%N.
Proof.
  intros Hw. destruct pf; cbn [fees_taken].
  - specialize (Hw eq_refl). induction Hw as [|g gs Hg _ IH]; [done|]. rewrite !total_cons. cbn [eff] in *. lia.
  - change (eff DoNotPayFeeWithThisCurrency) with (g_value (O := O)). lia.
Qed.

Lemma total_eff_value pf gs : (total (eff pf) gs <= total g_value gs)%N.
Proof.
  induction gs as [|g gs IH]; [done|]. rewrite !total_cons. assert (eff pf g <= g_value g)%N; [destruct pf; cbn; lia|lia].
Qed.

(** * Selections built from groups *)

Definition built pf (target : N) gs r : Prop :=
  made_of gs r /\ s_effective_value r = total (eff pf) gs /\ s_target r = target /\ s_waste r = total_diff gs /\
  s_change r = 0%N.

Lemma add_input_spec pf r g r' :
  add_input pf r g = Ok r' ->
  s_outputs r' = s_outputs r ++ g_outputs g /\ s_effective_value r' = (s_effective_value r + eff pf g)%N /\
  s_target r' = s_target r /\ s_waste r' = (s_waste r + diff g)%Z /\ s_weight r' = (s_weight r + g_weight g)%N /\
  s_fees r' = (s_fees r + g_fee g)%N /\ s_change r' = s_change r.
Proof.
  unfold add_input, ok_or. destruct (amount_add _ (eff pf g)) as [e|] eqn:E1; cbn [rbind]; [|done].
  destruct (fee_difference g) as [d|] eqn:E2; [|done]. cbn [rbind].
  destruct (signed_add _ d) as [w|] eqn:E3; cbn [rbind]; [|done].
  destruct (amount_add _ (g_fee g)) as [f|] eqn:E4; cbn [rbind]; [|done].
  intros [= <-]. cbn. apply amount_add_some in E1 as [-> _]. apply amount_add_some in E4 as [-> _].
  apply fee_difference_some in E2 as ->. apply in_i128_some in E3 as [-> _]. done.
Qed.

Lemma add_inputs_from pf target gs done_ r r' :
  built pf target done_ r -> add_inputs pf r gs = Ok r' -> built pf target (done_ ++ gs) r'.
Proof.
  revert done_ r. induction gs as [|g gs IH]; intros done_ r Hb; cbn.
  - intros [= <-]. by rewrite app_nil_r.
  - destruct (add_input pf r g) as [r1|e|] eqn:E; [|done..]. intros H.
    replace (done_ ++ g :: gs) with ((done_ ++ [g]) ++ gs) by (by rewrite <- app_assoc).
    apply (IH _ r1); [|done]. apply add_input_spec in E as (E1 & E2 & E3 & E4 & E5 & E6 & E7).
    destruct Hb as ((B1 & B2 & B3) & B4 & B5 & B6 & B7). unfold built, made_of.
    rewrite E1, E2, E3, E4, E5, E6, E7, map_app, concat_app, !total_app, total_diff_app, !total_cons, !total_nil. cbn.
    rewrite app_nil_r, B1. split_and!; [done|lia..].
Qed.

Lemma built_nil pf target : built pf target [] (new_selection target).
Proof. done. Qed.

Lemma add_inputs_built pf target gs r : add_inputs pf (new_selection target) gs = Ok r -> built pf target gs r.
Proof. intros H. by apply (add_inputs_from pf target gs [] (new_selection target)). Qed.

Lemma add_input_built pf target g r : add_input pf (new_selection target) g = Ok r -> built pf target [g] r.
Proof. intros H. apply add_inputs_built. cbn. by rewrite H. Qed.

Lemma add_input_no_panic pf r g : add_input pf r g <> Panic.
Proof.
  unfold add_input, ok_or. destruct (amount_add _ (eff pf g)); cbn [rbind]; [|done].
  destruct (fee_difference g) as [d|]; [|done]. destruct (signed_add _ d); cbn [rbind]; [|done].
  by destruct (amount_add _ (g_fee g)).
Qed.

Lemma add_inputs_no_panic pf r gs : add_inputs pf r gs <> Panic.
Proof.
  revert r. induction gs as [|g gs IH]; intros r; cbn; [done|].
  destruct (add_input pf r g) eqn:E; [apply IH|done|]. by apply add_input_no_panic in E.
Qed.

Lemma add_input_err pf r g e : add_input pf r g = Err e -> e = AmountArithmeticError.
Proof.
  unfold add_input, ok_or. destruct (amount_add _ (eff pf g)); cbn [rbind]; [|congruence].
  destruct (fee_difference g) as [d|]; cbn [rbind]; [|congruence]. destruct (signed_add _ d); cbn [rbind]; [|congruence].
  destruct (amount_add _ (g_fee g)); cbn [rbind]; congruence.
Qed.

Lemma add_inputs_err pf r gs e : add_inputs pf r gs = Err e -> e = AmountArithmeticError.
Proof.
  revert r. induction gs as [|g gs IH]; intros r; cbn; [done|].
  destruct (add_input pf r g) eqn:E; [apply IH|intros [= <-]; by eapply add_input_err|done].
Qed.

(** with moderate amounts all additions succeed *)
Definition small gs : Prop :=
  (Z.of_N (total g_value gs + total g_fee gs + total g_long_term_fee gs) <= I128_MAX)%Z.

Lemma add_input_ok pf target done_ g r :
  built pf target done_ r -> small (done_ ++ [g]) -> exists r', add_input pf r g = Ok r'.
Proof.
  intros ((B1 & B2 & B3) & B4 & B5 & B6 & B7) Hm. unfold small in Hm.
  pose proof (total_eff_value pf (done_ ++ [g])) as Hv.
  pose proof (total_diff_bounds (done_ ++ [g])) as Hd.
  rewrite total_diff_app in Hd. cbn [total_diff foldr] in Hd.
  rewrite !total_app, !total_cons, !total_nil in *.
  assert (I128_MIN = - I128_MAX - 1)%Z as Hmin by done.
  assert (Z.of_N U128_MAX = 2 * I128_MAX + 1)%Z as Hmax by done.
  unfold add_input.
  rewrite B4, amount_add_ok by (clear - Hm Hv Hmax; generalize dependent U128_MAX; generalize dependent I128_MAX; intros; lia).
  cbn [ok_or rbind].
  rewrite fee_difference_ok by (clear - Hm; generalize dependent I128_MAX; intros; lia).
  unfold signed_add. rewrite B6, in_i128_ok
    by (clear - Hm Hd Hmin; generalize dependent I128_MIN; generalize dependent I128_MAX; intros; lia).
  cbn [ok_or rbind].
  rewrite B3, amount_add_ok by (clear - Hm Hv Hmax; generalize dependent U128_MAX; generalize dependent I128_MAX; intros; lia).
  cbn [ok_or rbind]. eauto.
Qed.

Lemma small_sub gs hs : gs ⊆+ hs -> small hs -> small gs.
Proof.
  intros Hs Hm. unfold small in *. pose proof (total_submseteq g_value _ _ Hs).
  pose proof (total_submseteq g_fee _ _ Hs). pose proof (total_submseteq g_long_term_fee _ _ Hs).
  clear - Hm H H0 H1. generalize dependent I128_MAX. intros. lia.
Qed.

Lemma add_inputs_ok_from pf target done_ gs r :
  built pf target done_ r -> small (done_ ++ gs) -> exists r', add_inputs pf r gs = Ok r'.
Proof.
  revert done_ r. induction gs as [|g gs IH]; intros done_ r Hb Hm; cbn.
  - eauto.
  - destruct (add_input_ok pf target done_ g r) as [r1 E]; [done| |].
    { eapply small_sub; [|exact Hm]. apply submseteq_app; [done|]. apply submseteq_skip, submseteq_nil_l. }
    rewrite E. apply (IH (done_ ++ [g])).
    + apply (add_inputs_from pf target [g] done_ r); [done|]. cbn. by rewrite E.
    + by rewrite <- app_assoc.
Qed.

Lemma add_inputs_ok pf target gs : small gs -> exists r, add_inputs pf (new_selection target) gs = Ok r.
Proof. intros H. by apply (add_inputs_ok_from pf target []). Qed.

(** * The change *)

(** What [compute_and_set_waste] makes of a selection. *)
Lemma compute_spec pf target coc gs r r' :
  built pf target gs r -> compute_and_set_waste r coc coc coc pf = Ok r' ->
  made_of gs r' /\ (target <= total (eff pf) gs)%N /\
  s_change r' = (let left := total (eff pf) gs - target - change_fee_taken pf coc in if left <? coc then 0 else left)%N /\
  s_waste r' = (total_diff gs + if (s_change r' =? 0)%N then Z.of_N (total (eff pf) gs - target) else Z.of_N coc)%Z /\
  s_effective_value r' = total (eff pf) gs.
Proof.
  intros ((B1 & B2 & B3) & B4 & B5 & B6 & B7). unfold compute_and_set_waste, calculate_change.
  destruct (checked_sub _ _) as [c|] eqn:Ec; cbn [expect rbind]; [|done].
  apply checked_sub_some in Ec as [-> Hc]. rewrite B4, B5 in *.
  set (c0 := match pf with PayFeeWithThisCurrency => _ | DoNotPayFeeWithThisCurrency => _ end).
  assert (c0 = total (eff pf) gs - target - change_fee_taken pf coc)%N as ->.
  { subst c0. unfold change_fee_taken, checked_sub. destruct pf; [|lia]. destruct (_ <=? _)%N eqn:E; lia. }
  set (change := if (_ <? coc)%N then 0%N else _).
  destruct (change =? 0)%N eqn:E0; cbn [negb].
  - cbn [expect rbind]. unfold ok_or.
    destruct (into_signed _) as [d|] eqn:Ed; [|done]. destruct (signed_add _ d) as [w|] eqn:Ew; cbn [rbind]; [|done].
    intros [= <-]. cbn. apply into_signed_some in Ed as ->. apply in_i128_some in Ew as [-> _]. rewrite E0, B6.
    split_and!; [done..|lia|done|done|done].
  - unfold ok_or.
    destruct (into_signed _) as [d|] eqn:Ed; [|done]. destruct (signed_add _ d) as [w|] eqn:Ew; cbn [rbind]; [|done].
    intros [= <-]. cbn. apply into_signed_some in Ed as ->. apply in_i128_some in Ew as [-> _]. rewrite E0, B6.
    split_and!; [done..|lia|done|done|done].
Qed.

Lemma compute_books pf target coc gs r r' :
  worth_spending pf gs -> built pf target gs r -> compute_and_set_waste r coc coc coc pf = Ok r' ->
  books_balance pf target coc gs (s_change r').
Proof.
  intros Hw Hb Hc. eapply compute_spec in Hc as (_ & Ht & -> & _); [|done].
  exists (total (eff pf) gs - target)%N. rewrite (total_value_eff pf) by done. split; [lia|]. cbv zeta.
  destruct (_ <? coc)%N eqn:E.
  - right. split; [done|]. right. lia.
  - destruct (decide (total (eff pf) gs - target - change_fee_taken pf coc = 0)%N) as [H0|Hn].
    + right. split; [exact H0|]. left. lia.
    + left. split_and!; lia.
Qed.

Lemma compute_panics_only_short pf target coc gs r :
  built pf target gs r -> (target <= total (eff pf) gs)%N -> compute_and_set_waste r coc coc coc pf <> Panic.
Proof.
  intros ((B1 & B2 & B3) & B4 & B5 & B6 & B7) Ht. unfold compute_and_set_waste, calculate_change.
  rewrite B4, B5, checked_sub_ok by done. cbn [expect rbind].
  destruct (negb _); [|cbn [expect rbind]]; unfold ok_or; destruct (into_signed _); try done; by destruct (signed_add _ _).
Qed.

Lemma compute_err pf coc r e : compute_and_set_waste r coc coc coc pf = Err e -> e = AmountArithmeticError.
Proof.
  unfold compute_and_set_waste. destruct (calculate_change r coc coc pf) as [c|e'|] eqn:Ec; cbn [rbind].
  - destruct (negb _).
    + destruct (into_signed _) as [d|]; cbn [ok_or rbind]; [|congruence].
      destruct (signed_add _ _) as [w|]; cbn [ok_or rbind]; congruence.
    + destruct (checked_sub _ _) as [d|]; cbn [expect rbind]; [|done].
      destruct (into_signed _) as [z|]; cbn [ok_or rbind]; [|congruence].
      destruct (signed_add _ _) as [w|]; cbn [ok_or rbind]; congruence.
  - unfold calculate_change in Ec. by destruct (checked_sub (s_effective_value r) (s_target r)).
  - done.
Qed.

Lemma compute_panics_when_short pf target coc gs r :
  built pf target gs r -> (total (eff pf) gs < target)%N -> compute_and_set_waste r coc coc coc pf = Panic.
Proof.
  intros ((B1 & B2 & B3) & B4 & B5 & B6 & B7) Ht. unfold compute_and_set_waste, calculate_change.
  rewrite B4, B5. unfold checked_sub. by rewrite (proj2 (N.leb_gt _ _)) by done.
Qed.

Lemma compute_ok pf target coc gs pool r :
  gs ⊆+ pool -> moderate pool target coc ->
  built pf target gs r -> (target <= total (eff pf) gs)%N -> exists r', compute_and_set_waste r coc coc coc pf = Ok r'.
Proof.
  intros Hs Hm ((B1 & B2 & B3) & B4 & B5 & B6 & B7) Ht. unfold compute_and_set_waste, calculate_change.
  rewrite B4, B5, checked_sub_ok by done. cbn [expect rbind].
  pose proof (total_eff_value pf gs) as Hv. pose proof (total_diff_bounds gs) as Hd. unfold moderate in Hm.
  pose proof (total_submseteq g_value _ _ Hs) as H1.
  pose proof (total_submseteq g_fee _ _ Hs) as H2. pose proof (total_submseteq g_long_term_fee _ _ Hs) as H3.
  assert (I128_MIN = - I128_MAX - 1)%Z as Hmin by done.
  unfold signed_add.
  destruct (negb _); [|cbn [expect rbind]].
  - rewrite into_signed_ok by (clear - Hm; generalize dependent I128_MAX; intros; lia).
    rewrite B6, in_i128_ok by (clear - Hm Hd H1 H2 H3 Hmin; generalize dependent I128_MIN; generalize dependent I128_MAX; intros; lia).
    cbn. eauto.
  - rewrite into_signed_ok by (clear - Hm Hv H1; generalize dependent I128_MAX; intros; lia).
    rewrite B6, in_i128_ok by (clear - Hm Hd Hv H1 H2 H3 Hmin; generalize dependent I128_MIN; generalize dependent I128_MAX; intros; lia).
    cbn. eauto.
Qed.

End Proofs.
