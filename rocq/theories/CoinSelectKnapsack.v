(** Facts about the knapsack solver. *)
From Coq Require Import ZArith NArith Permutation.
From Verif Require Import Base CoinSelectModel CoinSelectSpec CoinSelectProofs.

Section Proofs.
Context {O : Type}.
Implicit Types (g : group O) (r : selection O) (pool chosen gs groups shuffled : list (group O)) (pf : pay_fee).

Lemma insert_sorted_perm pf g gs : insert_sorted pf g gs ≡ₚ g :: gs.
Proof.
  induction gs as [|h gs IH]; cbn; [done|]. destruct (_ <=? _)%N; [done|]. rewrite IH. apply Permutation_swap.
Qed.
Lemma sort_perm pf gs : sort_largest_first pf gs ≡ₚ gs.
Proof. induction gs as [|g gs IH]; cbn; [done|]. rewrite insert_sorted_perm. by rewrite IH. Qed.

Lemma selected_of_submseteq flags gs : selected_of flags gs ⊆+ gs.
Proof.
  revert gs. induction flags as [|b flags IH]; intros [|g gs]; cbn; [done|apply submseteq_nil_l|done|].
  destruct b; [by apply submseteq_skip|by apply submseteq_cons].
Qed.

Definition picked pf flags gs : N := total (eff pf) (selected_of flags gs).

Lemma picked_le pf flags gs : (picked pf flags gs <= total (eff pf) gs)%N.
Proof. apply total_submseteq, selected_of_submseteq. Qed.

Lemma picked_all_false pf n gs : picked pf (replicate n false) gs = 0%N.
Proof. unfold picked. revert gs. induction n as [|n IH]; intros [|g gs]; cbn; [done..|]. apply IH. Qed.

Lemma picked_all_true pf gs : picked pf (replicate (length gs) true) gs = total (eff pf) gs.
Proof.
  unfold picked. induction gs as [|g gs IH]; cbn [length replicate selected_of]; [done|]. rewrite !total_cons. lia.
Qed.

Lemma picked_set pf flags gs i g :
  flags !! i = Some false -> gs !! i = Some g -> picked pf (<[i := true]> flags) gs = (picked pf flags gs + eff pf g)%N.
Proof.
  unfold picked. revert gs i. induction flags as [|b flags IH]; intros [|h gs] [|i] Hf Hg; cbn in *; try done.
  - injection Hf as ->. injection Hg as ->. rewrite total_cons. lia.
  - specialize (IH gs i Hf Hg). destruct b; [rewrite !total_cons, <- N.add_assoc, <- IH; done|done].
Qed.

(** * The search for a subset *)

Section Subset.
Context (flip : nat -> bool) (pf : pay_fee) (groups : list (group O)) (target : N).
Hypothesis Hfit : (total (eff pf) groups <= U128_MAX)%N.

(** The current selection and the best one are selections of the groups with the totals recorded. *)
Definition subset_inv (s : subset_state) : Prop :=
  length (ss_included s) = length groups /\ ss_total s = picked pf (ss_included s) groups /\
  length (ss_best s) = length groups /\ ss_best_total s = picked pf (ss_best s) groups /\
  (target <= ss_best_total s)%N.

Lemma subset_step_ok first s i g :
  subset_inv s -> groups !! i = Some g -> (first = true -> ss_included s !! i = Some false) ->
  exists s', subset_step flip pf target first s (i, g) = Ok s' /\ subset_inv s' /\
             (forall j, j <> i -> ss_included s' !! j = ss_included s !! j).
Proof using Hfit.
  intros (L & T & LB & TB & HB) Hg Hfirst. unfold subset_step.
  set (rb := if first then flip (ss_rng s) else _).
  destruct rb eqn:Erb.
  2:{ eexists. split; [done|]. split; [|done]. unfold subset_inv. cbn. done. }
  assert (ss_included s !! i = Some false) as Hi.
  { destruct first; [auto|]. subst rb. destruct (lookup_lt_is_Some_2 (ss_included s) i) as [b Hb].
    - rewrite L. by eapply lookup_lt_Some.
    - rewrite Hb in *. by destruct b. }
  pose proof (picked_set pf _ _ _ _ Hi Hg) as Hset.
  pose proof (picked_le pf (<[i := true]> (ss_included s)) groups) as Hle.
  rewrite T, amount_add_ok by lia. cbn [expect rbind].
  assert (<[i := false]> (<[i := true]> (ss_included s)) = ss_included s) as Hback.
  { rewrite list_insert_insert. by apply list_insert_id. }
  destruct (target <=? _)%N eqn:Et.
  - rewrite checked_sub_ok by lia. cbn [expect rbind]. eexists. split; [done|].
    split; [|intros j Hj; cbn; by rewrite Hback].
    unfold subset_inv. cbn. rewrite Hback. split_and!; [done|lia|..].
    + destruct (_ <? _)%N; [by rewrite insert_length|done].
    + destruct (_ <? _)%N; [lia|done].
    + destruct (_ <? _)%N; lia.
  - eexists. split; [done|]. split.
    + unfold subset_inv. cbn. rewrite insert_length. split_and!; [done|lia|done..].
    + intros j Hj. cbn. by rewrite list_lookup_insert_ne.
Qed.

Lemma subset_pass_from first s k gs :
  (forall j, gs !! j = groups !! (k + j)) ->
  subset_inv s -> (first = true -> forall j, k <= j < length groups -> ss_included s !! j = Some false)%nat ->
  exists s', rfold (subset_step flip pf target first) (imap (fun i g => (k + i, g)%nat) gs) s = Ok s' /\ subset_inv s'.
Proof using Hfit.
  revert k s. induction gs as [|g gs IH]; intros k s Hgs Hs Hfirst.
  - cbn. eauto.
  - cbn [imap rfold]. replace (k + 0)%nat with k by lia.
    assert (groups !! k = Some g) as Hg. { specialize (Hgs 0%nat). cbn in Hgs. by replace (k + 0)%nat with k in Hgs by lia. }
    destruct (subset_step_ok first s k g) as (s' & E & Hs' & Hrest); [done|done| |].
    { intros Hf. apply Hfirst; [done|]. apply lookup_lt_Some in Hg. lia. }
    rewrite E. replace (imap _ gs) with (imap (fun i h => ((S k) + i, h)%nat) gs).
    2:{ apply imap_ext. intros i x _. cbn. f_equal. lia. }
    apply IH; [|done|].
    + intros j. specialize (Hgs (S j)). change ((g :: gs) !! S j) with (gs !! j) in Hgs. rewrite Hgs. f_equal. lia.
    + intros Hf j Hj. rewrite Hrest by lia. apply Hfirst; [done|lia].
Qed.

Lemma subset_pass_ok first s :
  subset_inv s -> (first = true -> ss_included s = replicate (length groups) false) ->
  exists s', subset_pass flip pf target first groups s = Ok s' /\ subset_inv s'.
Proof using Hfit.
  intros Hs Hf. unfold subset_pass. replace (imap pair groups) with (imap (fun i g => (0 + i, g)%nat) groups) by done.
  apply subset_pass_from; [done|done|]. intros Hfst j Hj. rewrite Hf by done. apply lookup_replicate_2. lia.
Qed.

Lemma subset_rounds_ok n s :
  length (ss_best s) = length groups -> ss_best_total s = picked pf (ss_best s) groups -> (target <= ss_best_total s)%N ->
  exists s', subset_rounds flip n pf target groups s = Ok s' /\
    length (ss_best s') = length groups /\ ss_best_total s' = picked pf (ss_best s') groups /\ (target <= ss_best_total s')%N.
Proof using Hfit.
  revert s. induction n as [|n IH]; intros s H1 H2 H3; cbn [subset_rounds]; [eauto|].
  unfold subset_round.
  set (s0 := SubsetState _ _ _ _ _ _).
  assert (subset_inv s0) as Hs0.
  { unfold subset_inv. cbn. rewrite replicate_length, picked_all_false. done. }
  destruct (subset_pass_ok true s0) as (s1 & E1 & Hs1); [done|done|]. rewrite E1. cbn [rbind].
  destruct (ss_reached s1).
  - cbn [rbind]. destruct Hs1 as (_ & _ & ? & ? & ?). by apply IH.
  - destruct (subset_pass_ok false s1) as (s2 & E2 & Hs2); [done|done|]. rewrite E2. cbn [rbind].
    destruct Hs2 as (_ & _ & ? & ? & ?). by apply IH.
Qed.

Lemma approximate_best_subset_ok rng :
  (target <= total (eff pf) groups)%N ->
  exists rng' best best_total,
    approximate_best_subset flip pf groups (total (eff pf) groups) target rng = Ok (rng', best, best_total) /\
    best_total = picked pf best groups /\ (target <= best_total)%N.
Proof using Hfit.
  intros Ht. unfold approximate_best_subset.
  destruct (subset_rounds_ok (N.to_nat SUBSET_ROUNDS)
              (SubsetState rng [] 0 false (replicate (length groups) true) (total (eff pf) groups)))
    as (s & E & H1 & H2 & H3).
  - cbn. apply replicate_length.
  - cbn. by rewrite picked_all_true.
  - done.
  - rewrite E. cbn [rbind]. eauto 10.
Qed.

End Subset.

(** * The scan *)

Lemma knapsack_scan_spec pf target twc groups applicable total_lower lowest out :
  total_lower = total (eff pf) applicable -> (total_lower <= U128_MAX)%N ->
  (forall g, lowest = Some g -> twc <= eff pf g)%N ->
  knapsack_scan pf target twc groups applicable total_lower lowest = Ok out ->
  match out with
  | PerfectMatch g => g ∈ groups /\ eff pf g = target
  | Scanned applicable' total_lower' lowest' =>
      total_lower' = total (eff pf) applicable' /\ (total_lower' <= U128_MAX)%N /\
      applicable' ++ option_list lowest' ⊆+ groups ++ applicable ++ option_list lowest /\
      (forall g, lowest' = Some g -> twc <= eff pf g)%N /\
      (is_Some lowest -> is_Some lowest') /\
      (lowest' = None -> applicable' ≡ₚ groups ++ applicable)
  end.
Proof.
  revert applicable total_lower lowest. induction groups as [|g groups IH]; intros applicable total_lower lowest Ht Hu Hl;
    cbn [knapsack_scan].
  - intros [= <-]. done.
  - destruct (eff pf g =? target)%N eqn:E1.
    { intros [= <-]. split; [left|lia]. }
    destruct (eff pf g <? twc)%N eqn:E2.
    + destruct (amount_add _ _) as [tl|] eqn:Ea; cbn [ok_or rbind]; [|done]. apply amount_add_some in Ea as [-> Ha].
      intros H. apply IH in H; [|rewrite total_app, total_cons, total_nil; lia|done|done].
      destruct out as [p|ap tl lw]; [split; [right|]; apply H|].
      destruct H as (H1 & H2 & H3 & H4 & H6 & H5). split_and!; [done|done| |done| |].
      * etrans; [exact H3|]. apply Permutation_submseteq. cbn [app]. rewrite <- !app_assoc. cbn.
        rewrite !(assoc_L (++)). by rewrite <- Permutation_middle.
      * done.
      * intros Hn. rewrite (H5 Hn). cbn [app]. rewrite (assoc_L (++)). by rewrite <- Permutation_cons_append.
    + set (lw' := match lowest with Some _ => _ | None => _ end).
      assert ((lw' = Some g) \/ (lw' = lowest /\ is_Some lowest)) as Hlw.
      { subst lw'. destruct lowest as [c|]; [|by left]. destruct (eff pf g <? eff pf c)%N; [by left|]. right. split; [done|by eexists]. }
      intros H. apply IH in H; [|done|done|].
      2:{ intros g' Hg'. destruct Hlw as [Hlw|[Hlw _]]; rewrite Hlw in Hg'; [injection Hg' as <-; lia|by apply Hl]. }
      destruct out as [p|ap tl lw]; [split; [right|]; apply H|].
      destruct H as (H1 & H2 & H3 & H4 & H6 & H5). split_and!; [done|done| |done| |].
      * etrans; [exact H3|]. destruct Hlw as [->|[-> _]]; cbn [app option_list].
        -- rewrite !(assoc_L (++)). etrans; [apply Permutation_submseteq; symmetry; apply Permutation_cons_append|].
           apply submseteq_skip. apply submseteq_inserts_r. done.
        -- by apply submseteq_cons.
      * intros Hs. apply H6. destruct Hlw as [->|[-> _]]; eauto.
      * intros Hn. exfalso. destruct Hlw as [Hlw|[Hlw Hs]]; rewrite Hlw in *; destruct H6 as [? H6]; eauto; congruence.
Qed.

Lemma knapsack_scan_ok pf target twc groups applicable total_lower lowest :
  (total_lower + total (eff pf) groups <= U128_MAX)%N ->
  exists out, knapsack_scan pf target twc groups applicable total_lower lowest = Ok out.
Proof.
  revert applicable total_lower lowest. induction groups as [|g groups IH]; intros applicable total_lower lowest Ht;
    cbn [knapsack_scan]; [eauto|]. rewrite total_cons in Ht.
  destruct (_ =? _)%N; [eauto|]. destruct (_ <? _)%N.
  - rewrite amount_add_ok by lia. cbn [ok_or rbind]. apply IH. lia.
  - apply IH. lia.
Qed.

(** * The solver *)

(** Every selection it returns is made of the groups offered, covers the target and is within the weight; it never
    panics; and it finds one if all groups together are within the weight and cover the target. *)
Lemma knapsack_impl_spec flip pf shuffled target coc mw :
  (total (eff pf) shuffled <= U128_MAX)%N ->
  match knapsack_solver_impl flip shuffled target coc mw pf with
  | Ok r => exists chosen, chosen ⊆+ shuffled /\ built pf target chosen r /\ (target <= total (eff pf) chosen)%N
  | Err e => e = AmountArithmeticError \/ (e = NoSolutionFound /\ (total (eff pf) shuffled < target)%N) \/
             (e = MaxWeightExceeded /\ (mw < total g_weight shuffled)%N)
  | Panic => False
  end.
Proof.
  intros Hu. unfold knapsack_solver_impl.
  assert (forall gs, gs ⊆+ shuffled -> (target <= total (eff pf) gs)%N ->
    match add_inputs pf (new_selection target) gs with
    | Ok r => exists chosen, chosen ⊆+ shuffled /\ built pf target chosen r /\ (target <= total (eff pf) chosen)%N
    | Err e => e = AmountArithmeticError \/ (e = NoSolutionFound /\ (total (eff pf) shuffled < target)%N) \/
               (e = MaxWeightExceeded /\ (mw < total g_weight shuffled)%N)
    | Panic => False
    end) as Hadd.
  { intros gs Hs Ht. destruct (add_inputs pf (new_selection target) gs) as [r|e|] eqn:E.
    - exists gs. split_and!; [done| |done]. by apply add_inputs_built.
    - left. by eapply add_inputs_err.
    - by apply add_inputs_no_panic in E. }
  assert (forall g, add_input pf (new_selection target) g = add_inputs pf (new_selection target) [g]) as Hone.
  { intros g. cbn. by destruct (add_input _ _ g). }
  destruct (amount_add target coc) as [twc|] eqn:Etwc; cbn [ok_or rbind]; [|auto].
  apply amount_add_some in Etwc as [Htwc _].
  destruct (knapsack_scan_ok pf target twc shuffled [] 0 None) as [out Escan]; [lia|].
  rewrite Escan. cbn [rbind]. apply knapsack_scan_spec in Escan; [|done|lia|done].
  destruct out as [g|applicable total_lower lowest].
  - destruct Escan as [Hin <-]. rewrite Hone. apply Hadd.
    + by apply singleton_submseteq_l.
    + rewrite total_cons, total_nil. lia.
  - cbn [option_list] in Escan. rewrite !app_nil_r in Escan. destruct Escan as (-> & Hau & Hsub & Hlow & _ & Hnone).
    assert (forall g, lowest = Some g -> [g] ⊆+ shuffled /\ (target <= total (eff pf) [g])%N) as Hlowest.
    { intros g ->. split; [|rewrite total_cons, total_nil; specialize (Hlow g eq_refl); lia].
      etrans; [|exact Hsub]. cbn. by apply submseteq_inserts_l. }
    assert (applicable ⊆+ shuffled) as Happ.
    { etrans; [|exact Hsub]. by apply submseteq_inserts_r. }
    destruct (_ =? _)%N eqn:E1.
    { apply Hadd; [done|lia]. }
    destruct (_ <? _)%N eqn:E2.
    { destruct lowest as [g|].
      - rewrite Hone. by apply Hadd; apply Hlowest.
      - right. left. split; [done|]. rewrite <- (total_perm _ _ _ (Hnone eq_refl)). lia. }
    set (sorted := sort_largest_first pf applicable).
    assert (sorted ≡ₚ applicable) as Hsorted by apply sort_perm.
    rewrite <- (total_perm (eff pf) _ _ Hsorted) in *.
    destruct (approximate_best_subset_ok flip pf sorted target Hau 0) as (rng & best & bt & E & Hbt & Hbest); [lia|].
    rewrite E. cbn [rbind].
    set (second := if (_ && _)%N then _ else _).
    assert (exists rng' best' bt', second = Ok (rng', best', bt') /\ bt' = picked pf best' sorted /\ (target <= bt')%N)
      as (rng' & best' & bt' & -> & Hbt' & Hbest').
    { subst second. destruct (_ && _)%N eqn:E3; [|eauto 10].
      destruct (approximate_best_subset_ok flip pf sorted twc Hau rng) as (rng' & best' & bt' & E4 & H1 & H2); [lia|].
      exists rng', best', bt'. split_and!; [done|done|lia]. }
    cbn [rbind].
    set (take_larger := match lowest with Some _ => _ | None => _ end).
    destruct take_larger as [g|] eqn:Etl.
    { assert (lowest = Some g) as Hg.
      { subst take_larger. destruct lowest as [g'|]; [|done]. by destruct (_ || _)%N; simplify_eq. }
      rewrite Hone. by apply Hadd; apply Hlowest. }
    specialize (Hadd (selected_of best' sorted)).
    assert (selected_of best' sorted ⊆+ shuffled) as Hsel.
    { etrans; [apply selected_of_submseteq|]. rewrite Hsorted. done. }
    destruct (add_inputs pf (new_selection target) (selected_of best' sorted)) as [r|e|] eqn:Er; cbn [rbind].
    + destruct (mw <? s_weight r)%N eqn:Ew.
      * destruct lowest as [g|].
        -- pose proof (add_inputs_built _ _ _ _ Er) as ((_ & _ & _) & _ & Htarget & _ & Hch).
           assert (clear_selection r = new_selection target) as ->.
           { unfold clear_selection, new_selection. by rewrite Htarget, Hch. }
           rewrite Hone. destruct (Hlowest g eq_refl) as [Hg1 Hg2].
           destruct (add_inputs pf (new_selection target) [g]) as [r'|e|] eqn:E5.
           ++ exists [g]. split_and!; [done| |done]. by apply add_inputs_built.
           ++ left. by eapply add_inputs_err.
           ++ by apply add_inputs_no_panic in E5.
        -- right. right. split; [done|].
           pose proof (add_inputs_built _ _ _ _ Er) as ((_ & Hw & _) & _). rewrite Hw in Ew.
           pose proof (total_submseteq g_weight _ _ Hsel). lia.
      * apply Hadd; [done|]. unfold picked in Hbt'. lia.
    + apply Hadd; [done|]. unfold picked in Hbt'. lia.
    + apply Hadd; [done|]. unfold picked in Hbt'. lia.
Qed.

Lemma knapsack_spec flip pf shuffled target coc mw :
  (total (eff pf) shuffled <= U128_MAX)%N ->
  match knapsack_solver flip shuffled target coc mw pf with
  | Ok r => exists chosen, chosen ⊆+ shuffled /\ built pf target chosen r /\ (target <= total (eff pf) chosen)%N /\
                           (total g_weight chosen <= mw)%N
  | Err e => e = AmountArithmeticError \/ (e = NoSolutionFound /\ (total (eff pf) shuffled < target)%N) \/
             (e = MaxWeightExceeded /\ (mw < total g_weight shuffled)%N)
  | Panic => False
  end.
Proof.
  intros Hu. pose proof (knapsack_impl_spec flip pf shuffled target coc mw Hu) as H. unfold knapsack_solver.
  destruct (knapsack_solver_impl _ _ _ _ _ _) as [r|e|]; cbn [rbind]; [|done..].
  destruct H as (chosen & Hs & Hb & Ht). destruct (_ <=? _)%N eqn:E; cbn [ensure rbind].
  - exists chosen. split_and!; [done..|]. destruct Hb as ((_ & Hw & _) & _). lia.
  - right. right. split; [done|]. destruct Hb as ((_ & Hw & _) & _).
    pose proof (total_submseteq g_weight _ _ Hs). lia.
Qed.

(** with moderate amounts it does not run into an arithmetic error *)
Lemma knapsack_impl_no_arith flip pf shuffled target coc mw :
  (total (eff pf) shuffled <= U128_MAX)%N -> (target + coc <= U128_MAX)%N -> small shuffled ->
  knapsack_solver_impl flip shuffled target coc mw pf <> Err AmountArithmeticError.
Proof.
  intros Hu Htc Hm. unfold knapsack_solver_impl.
  assert (forall gs, gs ⊆+ shuffled -> exists r, add_inputs pf (new_selection target) gs = Ok r) as Hadd.
  { intros gs Hs. apply add_inputs_ok. by eapply small_sub. }
  assert (forall g, add_input pf (new_selection target) g = add_inputs pf (new_selection target) [g]) as Hone.
  { intros g. cbn. by destruct (add_input _ _ g). }
  rewrite amount_add_ok by done. cbn [ok_or rbind].
  destruct (knapsack_scan_ok pf target (target + coc) shuffled [] 0 None) as [out Escan]; [lia|].
  rewrite Escan. cbn [rbind]. apply knapsack_scan_spec in Escan; [|done|lia|done].
  destruct out as [g|applicable total_lower lowest].
  - destruct Escan as [Hin <-]. rewrite Hone. destruct (Hadd [g]) as [r ->]; [by apply singleton_submseteq_l|done].
  - cbn [option_list] in Escan. rewrite !app_nil_r in Escan. destruct Escan as (-> & Hau & Hsub & Hlow & _ & Hnone).
    assert (forall g, lowest = Some g -> [g] ⊆+ shuffled) as Hlowest.
    { intros g ->. etrans; [|exact Hsub]. cbn. by apply submseteq_inserts_l. }
    assert (applicable ⊆+ shuffled) as Happ.
    { etrans; [|exact Hsub]. by apply submseteq_inserts_r. }
    destruct (_ =? _)%N eqn:E1.
    { by destruct (Hadd applicable) as [r ->]. }
    destruct (_ <? _)%N eqn:E2.
    { destruct lowest as [g|]; [|done]. rewrite Hone. destruct (Hadd [g]) as [r ->]; [by apply Hlowest|done]. }
    set (sorted := sort_largest_first pf applicable).
    assert (sorted ≡ₚ applicable) as Hsorted by apply sort_perm.
    rewrite <- (total_perm (eff pf) _ _ Hsorted) in *.
    destruct (approximate_best_subset_ok flip pf sorted target Hau 0) as (rng & best & bt & E & Hbt & Hbest); [lia|].
    rewrite E. cbn [rbind].
    set (second := if (_ && _)%N then _ else _).
    assert (exists rng' best' bt', second = Ok (rng', best', bt')) as (rng' & best' & bt' & ->).
    { subst second. destruct (_ && _)%N eqn:E3; [|eauto 10].
      destruct (approximate_best_subset_ok flip pf sorted (target + coc) Hau rng) as (rng' & best' & bt' & E4 & H1 & H2); [lia|].
      eauto. }
    cbn [rbind].
    set (take_larger := match lowest with Some _ => _ | None => _ end).
    destruct take_larger as [g|] eqn:Etl.
    { assert (lowest = Some g) as Hg.
      { subst take_larger. destruct lowest as [g'|]; [|done]. by destruct (_ || _)%N; simplify_eq. }
      rewrite Hone. destruct (Hadd [g]) as [r ->]; [by apply Hlowest|done]. }
    destruct (Hadd (selected_of best' sorted)) as [r Er].
    { etrans; [apply selected_of_submseteq|]. by rewrite Hsorted. }
    rewrite Er. cbn [rbind]. destruct (mw <? s_weight r)%N eqn:Ew; [|done].
    destruct lowest as [g|]; [|done].
    pose proof (add_inputs_built _ _ _ _ Er) as ((_ & _ & _) & _ & Htarget & _ & Hch).
    assert (clear_selection r = new_selection target) as ->.
    { unfold clear_selection, new_selection. by rewrite Htarget, Hch. }
    rewrite Hone. destruct (Hadd [g]) as [r' ->]; [by apply Hlowest|done].
Qed.

Lemma knapsack_finds flip pf shuffled target coc mw :
  (total (eff pf) shuffled <= U128_MAX)%N -> (target + coc <= U128_MAX)%N -> small shuffled ->
  (target <= total (eff pf) shuffled)%N -> (total g_weight shuffled <= mw)%N ->
  exists r, knapsack_solver flip shuffled target coc mw pf = Ok r.
Proof.
  intros Hu Htc Hm Ht Hw. pose proof (knapsack_spec flip pf shuffled target coc mw Hu) as H.
  pose proof (knapsack_impl_no_arith flip pf shuffled target coc mw Hu Htc Hm) as H'.
  destruct (knapsack_solver flip shuffled target coc mw pf) as [r|e|] eqn:E; [eauto| |done].
  exfalso. destruct H as [->|[[-> H]|[-> H]]]; [|lia|lia]. apply H'. unfold knapsack_solver in E.
  destruct (knapsack_solver_impl _ _ _ _ _ _) as [r|e|]; cbn [rbind] in E; [|by injection E as ->|done].
  destruct (_ <=? _)%N; done.
Qed.

End Proofs.
