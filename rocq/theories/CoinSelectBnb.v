(** Facts about the branch and bound search. *)
From Coq Require Import ZArith NArith Permutation.
From Verif Require Import Base CoinSelectModel CoinSelectSpec CoinSelectProofs CoinSelectKnapsack.

Section Proofs.
Context {O : Type}.
Implicit Types (g : group O) (r : selection O) (chosen gs : list (group O)).

(** indexes in falling order below a bound *)
Fixpoint below (n : nat) (sel : list nat) : Prop :=
  match sel with [] => True | i :: rest => (i < n)%nat /\ below i rest end.

Lemma below_weaken n m sel : (n <= m)%nat -> below n sel -> below m sel.
Proof. destruct sel as [|i rest]; cbn; [done|]. intros H [H1 H2]. split; [lia|done]. Qed.

Section Pool.
Context (pool : list (group O)).

Definition at_sel (sel : list nat) : list (group O) := omap (fun i => pool !! i) (rev sel).

Lemma at_sel_cons i rest g : pool !! i = Some g -> at_sel (i :: rest) = at_sel rest ++ [g].
Proof. intros H. unfold at_sel. cbn [rev]. rewrite omap_app. cbn. by rewrite H. Qed.

Lemma at_sel_sub n sel : below n sel -> (n <= length pool)%nat -> at_sel sel ⊆+ take n pool.
Proof.
  revert n. induction sel as [|i rest IH]; intros n; cbn [below].
  - intros _ _. apply submseteq_nil_l.
  - intros [Hi Hr] Hn. destruct (lookup_lt_is_Some_2 pool i) as [g Hg]; [lia|].
    rewrite (at_sel_cons _ _ g Hg). etrans; [apply submseteq_app; [apply (IH i); [done|lia]|reflexivity]|].
    rewrite <- (take_S_r _ _ _ Hg). apply sublist_submseteq.
    replace (take (S i) pool) with (take (S i) (take n pool)) by (rewrite take_take; f_equal; lia).
    apply sublist_take.
Qed.

Lemma at_sel_sub_pool n sel : below n sel -> (n <= length pool)%nat -> at_sel sel ⊆+ pool.
Proof. intros H1 H2. etrans; [by eapply at_sel_sub|]. apply sublist_submseteq, sublist_take. Qed.

Lemma mapM_at_sel n sel :
  below n sel -> (n <= length pool)%nat -> mapM (fun i => pool !! i) (rev sel) = Some (at_sel sel).
Proof.
  intros H Hn. apply mapM_Some. unfold at_sel.
  assert (Forall (fun i => i < length pool)%nat (rev sel)) as Hall.
  { revert n H Hn. induction sel as [|i rest IH]; intros n; cbn [below rev]; [constructor|].
    intros [Hi Hr] Hn. apply Forall_app. split; [apply (IH i); [done|lia]|]. constructor; [lia|constructor]. }
  clear H. induction Hall as [|i l Hi Hl IH]; cbn; [constructor|].
  destruct (lookup_lt_is_Some_2 pool i) as [g Hg]; [done|]. rewrite Hg. by constructor.
Qed.

Context (pf : pay_fee) (target coc mw : N) (high : bool).

(** The best selection recorded is within the range, within the weight, and its waste is recorded. *)
Definition best_ok (best : list nat) (waste : Z) : Prop :=
  best = [] \/
  (below (length pool) best /\ (target <= total (eff pf) (at_sel best) <= target + coc)%N /\
   (total g_weight (at_sel best) <= mw)%N /\
   waste = (total_diff (at_sel best) + Z.of_N (total (eff pf) (at_sel best) - target))%Z).

(** The variables of the search say what they should of the groups selected and of those not yet looked at. *)
Definition bnb_inv (s : bnb_state) : Prop :=
  below (b_index s) (b_selection s) /\ (b_index s <= length pool)%nat /\
  b_value s = total (eff pf) (at_sel (b_selection s)) /\ b_weight s = total g_weight (at_sel (b_selection s)) /\
  b_waste s = total_diff (at_sel (b_selection s)) /\
  b_available s = total (eff pf) (drop (b_index s) pool) /\
  best_ok (b_best s) (b_best_waste s).

Lemma bnb_bound s : bnb_inv s -> (b_value s + b_available s <= total (eff pf) pool)%N.
Proof.
  intros (H1 & H2 & H3 & _ & _ & H6 & _).
  pose proof (total_submseteq (eff pf) _ _ (at_sel_sub _ _ H1 H2)) as H.
  pose proof (total_take_drop (eff pf) (b_index s) pool). lia.
Qed.

Hypothesis Hfit : (total (eff pf) pool <= U128_MAX)%N.

Lemma bnb_backtrack_spec s :
  bnb_inv s ->
  match bnb_backtrack target coc mw high s with
  | Ok (back, s') => bnb_inv s' /\ (back = false -> (b_index s' < length pool)%nat)
  | Err e => e = AmountArithmeticError
  | Panic => False
  end.
Proof using Hfit.
  intros Hs. pose proof (bnb_bound s Hs) as Hb. unfold bnb_backtrack.
  rewrite amount_add_ok by lia. cbn [expect rbind].
  destruct (_ <? target)%N eqn:E1; [done|].
  destruct (amount_add target coc) as [limit|] eqn:El; cbn [ok_or rbind]; [|done].
  apply amount_add_some in El as [-> _].
  destruct (_ || _) eqn:E2; [done|]. destruct (mw <? _)%N eqn:E3; [done|].
  destruct (target <=? b_value s)%N eqn:E4.
  - rewrite checked_sub_ok by lia. cbn [expect rbind]. unfold ok_or.
    destruct (into_signed _) as [d|] eqn:Ed; [|done]. destruct (signed_add _ d) as [w|] eqn:Ew; cbn [rbind]; [|done].
    apply into_signed_some in Ed as ->. apply in_i128_some in Ew as [-> _].
    split; [|done]. destruct (_ <=? _)%Z; [|done].
    destruct Hs as (H1 & H2 & H3 & H4 & H5 & H6 & H7). unfold bnb_inv. cbn. split_and!; try done.
    right. split_and!; [by eapply below_weaken|lia|lia|lia|]. rewrite <- H3, <- H5. done.
  - split; [done|]. intros _. destruct Hs as (H1 & H2 & H3 & H4 & H5 & H6 & H7).
    destruct (decide (b_index s = length pool)) as [He|]; [|lia].
    rewrite He, drop_all, total_nil in H6. lia.
Qed.

Lemma bnb_back_spec s :
  bnb_inv s ->
  match bnb_back pf pool s with
  | Ok (Some s') => bnb_inv s'
  | Ok None => True
  | Err e => e = AmountArithmeticError
  | Panic => False
  end.
Proof using Hfit.
  intros Hs. pose proof (bnb_bound s Hs) as Hbd. destruct Hs as (H1 & H2 & H3 & H4 & H5 & H6 & H7). unfold bnb_back.
  destruct (b_selection s) as [|i rest] eqn:Esel; [done|]. cbn [below] in H1. destruct H1 as [Hi Hr].
  replace ((S i <=? b_index s) && (b_index s <=? length pool))%nat with true by (symmetry; lia). cbn [expect rbind].
  destruct (lookup_lt_is_Some_2 pool i) as [g Hg]; [lia|].
  assert (total (eff pf) (take (b_index s - S i) (drop (S i) pool)) + total (eff pf) (drop (b_index s) pool)
          = total (eff pf) (drop (S i) pool))%N as Hsl.
  { replace (drop (b_index s) pool) with (drop (b_index s - S i) (drop (S i) pool)) by (rewrite drop_drop; f_equal; lia).
    apply total_take_drop. }
  pose proof (total_take_drop (eff pf) (S i) pool) as Htd.
  rewrite sum_effective_ok by lia. cbn [expect rbind]. rewrite amount_add_ok by lia. cbn [expect rbind].
  rewrite Hg. cbn [expect rbind]. rewrite (at_sel_cons _ _ g Hg), total_app, total_cons, total_nil in H3, H4.
  rewrite (at_sel_cons _ _ g Hg), total_diff_app in H5. cbn [total_diff foldr] in H5.
  rewrite checked_sub_ok by lia. cbn [expect rbind]. unfold ok_or.
  destruct (fee_difference g) as [d|] eqn:Ed; cbn [rbind]; [|done]. apply fee_difference_some in Ed as ->.
  destruct (signed_sub _ _) as [w|] eqn:Ew; cbn [rbind]; [|done]. apply in_i128_some in Ew as [-> _].
  rewrite checked_sub_ok by lia. cbn [expect rbind].
  unfold bnb_inv. cbn [b_index b_selection b_value b_weight b_waste b_available b_best b_best_waste].
    split_and!; [by eapply below_weaken; [|exact Hr]; lia|lia|lia|lia|lia|lia|done].
Qed.

Lemma bnb_forward_spec s :
  bnb_inv s -> (b_index s < length pool)%nat ->
  match bnb_forward pf pool s with
  | Ok s' => bnb_inv s'
  | Err e => e = AmountArithmeticError
  | Panic => False
  end.
Proof using Hfit.
  intros Hs Hlt. pose proof (bnb_bound s Hs) as Hbd. destruct Hs as (H1 & H2 & H3 & H4 & H5 & H6 & H7). unfold bnb_forward.
  destruct (lookup_lt_is_Some_2 pool (b_index s)) as [g Hg]; [done|]. rewrite Hg. cbn [expect rbind].
  assert (b_available s = eff pf g + total (eff pf) (drop (S (b_index s)) pool))%N as Hav.
  { rewrite H6, (drop_S _ _ _ Hg), total_cons. done. }
  rewrite checked_sub_ok by lia. cbn [expect rbind].
  assert (exists b, bnb_includes pf pool s g = Ok b) as [b ->].
  { unfold bnb_includes. destruct (b_selection s) as [|i rest]; [eauto|]. cbn [below] in H1.
    destruct (b_index s) as [|n]; [lia|]. cbn [expect rbind]. destruct (n =? i)%nat; [eauto|].
    destruct (lookup_lt_is_Some_2 pool n) as [g' Hg']; [lia|]. rewrite Hg'. cbn. eauto. }
  cbn [rbind]. destruct b.
  - rewrite amount_add_ok by lia. cbn [expect rbind]. unfold ok_or.
    destruct (fee_difference g) as [d|] eqn:Ed; cbn [rbind]; [|done]. apply fee_difference_some in Ed as ->.
    destruct (signed_add _ _) as [w|] eqn:Ew; cbn [rbind]; [|done]. apply in_i128_some in Ew as [-> _].
    unfold bnb_inv. cbn [b_index b_selection b_value b_weight b_waste b_available b_best b_best_waste below].
    rewrite (at_sel_cons _ _ g Hg), !total_app, !total_cons, !total_nil, total_diff_app. cbn [total_diff foldr].
    split_and!; [lia|done|lia|lia|lia|lia|lia|done].
  - unfold bnb_inv. cbn [b_index b_selection b_value b_weight b_waste b_available b_best b_best_waste].
    split_and!; [by eapply below_weaken; [|exact H1]; lia|lia|done|done|done|lia|done].
Qed.

Lemma bnb_loop_spec tries s :
  bnb_inv s ->
  match bnb_loop tries pf pool target coc mw high s with
  | Ok s' => best_ok (b_best s') (b_best_waste s')
  | Err e => e = AmountArithmeticError
  | Panic => False
  end.
Proof using Hfit.
  revert s. induction tries as [|n IH]; intros s Hs; cbn [bnb_loop]; [apply Hs|].
  pose proof (bnb_backtrack_spec s Hs) as H. destruct (bnb_backtrack _ _ _ _ s) as [[back s1]|e|]; cbn [rbind]; [|done..].
  destruct H as [Hs1 Hlt]. destruct back.
  - pose proof (bnb_back_spec s1 Hs1) as H. destruct (bnb_back pf pool s1) as [[s2|]|e|]; cbn [rbind]; [by apply IH| |done..].
    apply Hs1.
  - pose proof (bnb_forward_spec s1 Hs1 (Hlt eq_refl)) as H.
    destruct (bnb_forward pf pool s1) as [s2|e|]; cbn [rbind]; [by apply IH|done..].
Qed.

End Pool.

(** Every selection it returns is made of the groups offered, its value is between the target and the target with the
    cost of change, and it is within the weight; the search never panics, and so the assertion at its end holds. *)
Lemma bnb_spec pf utxos target coc mw :
  utxos <> [] -> (total (eff pf) utxos <= U128_MAX)%N ->
  match select_coins_bnb (O := O) utxos target coc mw pf with
  | Ok r => exists chosen r0, chosen ⊆+ utxos /\ built pf target chosen r0 /\
                              compute_and_set_waste r0 coc coc coc pf = Ok r /\
                              (target <= total (eff pf) chosen <= target + coc)%N /\ (total g_weight chosen <= mw)%N
  | Err e => e = AmountArithmeticError \/ e = NoSolutionFound \/ e = MaxWeightExceeded \/
             (e = NotEnoughFunds (total (eff pf) utxos) target /\ (total (eff pf) utxos < target)%N)
  | Panic => False
  end.
Proof.
  intros Hne Hu. unfold select_coins_bnb. rewrite sum_effective_ok by done. cbn [ok_or rbind].
  destruct (_ <? target)%N eqn:Et; cbn [negb ensure rbind].
  { right. right. right. split; [done|]. lia. }
  set (pool := sort_largest_first pf utxos).
  assert (pool ≡ₚ utxos) as Hp by apply sort_perm.
  destruct pool as [|g0 pool'] eqn:Epool; [by apply Permutation_nil in Hp|]. cbn [head expect rbind].
  rewrite <- Epool in *. clear Epool.
  set (high := (_ <? _)%N).
  assert (total (eff pf) pool <= U128_MAX)%N as Hup by (by rewrite (total_perm _ _ _ Hp)).
  pose proof (bnb_loop_spec pool pf target coc mw high Hup (N.to_nat TOTAL_TRIES)
                (BnbState 0 [] 0 (total (eff pf) utxos) 0 [] I128_MAX false 0)) as Hloop.
  destruct (bnb_loop _ _ _ _ _ _ _ _) as [s|e|]; cbn [rbind].
  - destruct Hloop as [Hb|(H1 & H2 & H3 & H4)].
    { unfold bnb_inv. cbn. rewrite drop_0, <- (total_perm _ _ _ Hp). split_and!; [done|lia|done..|by left]. }
    { rewrite Hb. destruct (b_exceeded s); auto. }
    destruct (b_best s) as [|i rest] eqn:Eb; [destruct (b_exceeded s); auto|]. rewrite <- Eb in *. clear Eb i rest.
    rewrite (mapM_at_sel _ _ _ H1) by done. cbn [expect rbind].
    destruct (add_inputs _ _ _) as [r0|e|] eqn:Er0; cbn [rbind].
    2:{ left. by eapply add_inputs_err. }
    2:{ by apply add_inputs_no_panic in Er0. }
    apply add_inputs_built in Er0.
    destruct (compute_and_set_waste r0 coc coc coc pf) as [r|e|] eqn:Er; cbn [rbind].
    + assert (b_best_waste s = s_waste r) as Hwaste.
      { destruct (compute_spec _ _ _ _ _ _ Er0 Er) as (_ & _ & Hch & Hw & _). rewrite Hw, H4. f_equal.
        rewrite Hch. cbv zeta.
        set (left := (total (eff pf) (at_sel pool (b_best s)) - target - change_fee_taken pf coc)%N).
        destruct (left <? coc)%N eqn:E1; [done|]. destruct (left =? 0)%N eqn:E2; [done|].
        f_equal. subst left. clear - E1 E2 H2. unfold change_fee_taken in *. destruct pf; lia. }
      rewrite Hwaste, Z.eqb_refl. cbn [expect rbind].
      exists (at_sel pool (b_best s)), r0. split; [|exact (conj Er0 (conj Er (conj H2 H3)))].
      rewrite <- Hp. by eapply at_sel_sub_pool.
    + left. by eapply compute_err.
    + by apply (compute_panics_only_short _ _ _ _ _ Er0) in Er; [|lia].
  - left. apply Hloop. unfold bnb_inv. cbn. rewrite drop_0, <- (total_perm _ _ _ Hp).
    split_and!; [done|lia|done..|by left].
  - apply Hloop. unfold bnb_inv. cbn. rewrite drop_0, <- (total_perm _ _ _ Hp).
    split_and!; [done|lia|done..|by left].
Qed.

End Proofs.
