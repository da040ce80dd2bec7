(** C68, C69: what the wallet's coin selection returns, and when. *)
From Coq Require Import ZArith NArith Permutation.
From Verif Require Import Base CoinSelectModel CoinSelectSpec CoinSelectProofs CoinSelectSrd CoinSelectKnapsack CoinSelectBnb.

Section Properties.
Context {O : Type}.
Implicit Types (o : oracle O) (pool chosen : list (group O)) (r : selection O).

(** what the attempts of one random selection leave *)
Lemma select_random_sources o pool target coc pf mw r :
  fair pf o -> pool <> [] -> (total (eff pf) pool <= U128_MAX)%N ->
  select_random_coins o pool target coc pf mw = Ok r ->
  exists chosen r0, chosen ⊆+ pool /\ built pf target chosen r0 /\ compute_and_set_waste r0 coc coc coc pf = Ok r /\
                    (total g_weight chosen <= mw)%N.
Proof.
  intros (Hd & Hsh & Hpop) Hne Hu. unfold select_random_coins.
  set (good := fun r => exists chosen r0, chosen ⊆+ pool /\ built pf target chosen r0 /\
                 compute_and_set_waste r0 coc coc coc pf = Ok r /\ (total g_weight chosen <= mw)%N).
  assert (forall results, Forall good results -> forall r, min_waste results = Some r -> good r) as Hmin.
  { intros results Hall. unfold min_waste.
    assert (forall acc, (forall b, acc = Some b -> good b) ->
      forall r, foldl (fun acc (r : selection O) => match acc with
                     | Some best => if (s_waste r <? s_waste best)%Z then Some r else acc
                     | None => Some r end) acc results = Some r -> good r) as H; [|apply H; done].
    induction Hall as [|x results Hx Hall IH]; intros acc Hacc r'; cbn [foldl]; [apply Hacc|].
    apply IH. intros b. destruct acc as [c|]; [|congruence]. destruct (_ <? _)%Z; [congruence|]. apply Hacc. }
  assert (or_draw o pool ⊆+ pool) as Hdp by (by rewrite Hd).
  destruct (attempt (select_coins_srd _ _ _ _ _ _) _ [] []) as [[res1 er1]|e|] eqn:E1; cbn [rbind]; [|done..].
  assert (Forall good res1) as H1.
  { unfold attempt in E1. destruct (select_coins_srd _ _ _ _ _ _) as [r1|e|] eqn:Es; [|by injection E1 as <- <-|done].
    destruct (compute_and_set_waste r1 coc coc coc pf) as [r2|e|] eqn:Ec; cbn [rbind] in E1; [|done..].
    injection E1 as <- <-. constructor; [|constructor].
    apply (srd_spec pf) in Es as (chosen & Hs & Hb & Hw); [|done]. exists chosen, r1.
    split_and!; [by etrans|by apply Hb..|done|done]. }
  clear E1. destruct (attempt (knapsack_solver _ _ _ _ _ _) _ res1 er1) as [[res2 er2]|e|] eqn:E2; cbn [rbind]; [|done..].
  assert (Forall good res2) as H2.
  { unfold attempt in E2. pose proof (knapsack_spec (or_flip o) pf (or_shuffle o pool) target coc mw) as Hk.
    destruct (knapsack_solver _ _ _ _ _ _) as [r1|e|] eqn:Es; [|by injection E2 as <- <-|done].
    destruct (compute_and_set_waste r1 coc coc coc pf) as [r2|e|] eqn:Ec; cbn [rbind] in E2; [|done..].
    injection E2 as <- <-. apply Forall_app. split; [done|]. constructor; [|constructor].
    destruct Hk as (chosen & Hs & Hb & _ & Hw); [by rewrite (total_perm _ _ _ (Hsh pool))|]. exists chosen, r1.
    split_and!; [by rewrite Hsh in Hs|by apply Hb..|done|done]. }
  clear E2. destruct (attempt (select_coins_bnb _ _ _ _ _) _ res2 er2) as [[res3 er3]|e|] eqn:E3; cbn [rbind]; [|done..].
  assert (Forall good res3) as H3.
  { unfold attempt in E3. pose proof (bnb_spec pf (or_shuffle o pool) target coc mw) as Hk.
    destruct (select_coins_bnb _ _ _ _ _) as [r1|e|] eqn:Es; [|by injection E3 as <- <-|done].
    cbn [rbind] in E3. injection E3 as <- <-. apply Forall_app. split; [done|]. constructor; [|constructor].
    destruct Hk as (chosen & r0 & Hs & Hb & Hc & _ & Hw).
    - intros Hn. apply Hne. specialize (Hsh pool). rewrite Hn in Hsh. by apply Permutation_nil in Hsh.
    - by rewrite (total_perm _ _ _ (Hsh pool)).
    - exists chosen, r0. split; [by rewrite Hsh in Hs|]. done. }
  destruct (min_waste res3) as [rm|] eqn:Em; [|done]. intros [= <-]. by apply (Hmin res3).
Qed.

(** Whatever the random choices: a selection that is returned is made of the groups offered, each used at most once; it
    accounts for all they are worth (target, fees, change, and a rest only if it is too small for an output); a random
    selection is within the weight limit and a prescribed one uses all the groups; for the target 0 nothing is spent. *)
Theorem C68_selection_pays_and_accounts o pool target pf coc algo mw r :
  fair pf o -> select_coins o pool target pf coc algo mw = Ok r ->
  exists chosen,
    chosen ⊆+ pool /\ made_of chosen r /\ books_balance pf target coc chosen (s_change r) /\
    (algo = Randomize -> (total g_weight chosen <= mw)%N) /\
    (algo = UsePreselected -> target <> 0%N -> chosen = pool) /\
    (target = 0%N -> chosen = []).
Proof.
  intros Ho. unfold select_coins. destruct (target =? 0)%N eqn:E0.
  { intros [= <-]. exists []. split_and!; try done.
    - apply submseteq_nil_l.
    - exists 0%N. cbn. rewrite !total_nil. split; [destruct pf; cbn [fees_taken]; rewrite ?total_nil; lia|]. right. split; [done|]. left. lia.
    - intros _. rewrite total_nil. lia.
    - lia. }
  destruct pool as [|g0 pool'] eqn:Ep; [done|]. rewrite <- Ep. cbn [ensure rbind].
  destruct (total_available_value pf pool) as [x|e|] eqn:Et; cbn [rbind]; [|done..].
  apply total_available_spec in Et as (-> & Hu & Hw). destruct (_ <=? _)%N eqn:Ele; cbn [ensure rbind]; [|done].
  destruct algo.
  - unfold select_all_coins. destruct (add_inputs _ _ _) as [r0|e|] eqn:Ea; cbn [rbind]; [|done..].
    apply add_inputs_built in Ea. intros Hc. exists pool. split_and!; [done| | |done|done|lia].
    + by eapply compute_spec.
    + by eapply compute_books.
  - intros H. apply select_random_sources in H as (chosen & r0 & Hs & Hb & Hc & Hmw); [|done|by rewrite Ep|done].
    exists chosen. split_and!; [done| | |done|done|lia].
    + by eapply compute_spec.
    + eapply compute_books; [by eapply worth_spending_sub|done|done].
Qed.

(** A currency the fees are not paid in and whose change costs nothing (the wallet selects tokens this way): not an atom
    is lost. *)
Corollary C68_tokens_lose_nothing o pool target algo mw r :
  fair DoNotPayFeeWithThisCurrency o ->
  select_coins o pool target DoNotPayFeeWithThisCurrency 0 algo mw = Ok r ->
  exists chosen, chosen ⊆+ pool /\ made_of chosen r /\ (total g_value chosen = target + s_change r)%N.
Proof.
  intros Ho H. apply C68_selection_pays_and_accounts in H as (chosen & Hs & Hm & (rest & Hv & Hr) & _); [|done].
  exists chosen. split_and!; [done|by apply Hm..|]. cbn in *. lia.
Qed.

(** "Not enough funds" is reported exactly when what the groups contribute together does not reach the target, and with
    these two amounts. *)
Theorem C68_short_iff_short o pool target pf coc algo mw :
  fair pf o -> pool <> [] -> target <> 0%N -> worth_spending pf pool -> (total (contribution pf) pool <= U128_MAX)%N ->
  (exists got requested, select_coins o pool target pf coc algo mw = Err (NotEnoughFunds got requested)) <->
  (total (contribution pf) pool < target)%N.
Proof.
  intros (Hd & Hsh & Hpop) Hne H0 Hw Hu. change (contribution pf) with (eff (O := O) pf) in *. unfold select_coins.
  rewrite (proj2 (N.eqb_neq _ _) H0). destruct pool as [|g0 pool'] eqn:Ep; [done|]. rewrite <- Ep in *. clear Ep.
  cbn [ensure rbind]. rewrite total_available_ok by done. cbn [rbind].
  destruct (target <=? _)%N eqn:Ele; cbn [ensure rbind].
  2:{ split; [lia|]. eauto. }
  split; [|lia]. intros (got & requested & H). exfalso. destruct algo.
  - unfold select_all_coins in H. destruct (add_inputs _ _ _) as [r0|e|] eqn:Ea; cbn [rbind] in H.
    + by apply compute_err in H.
    + injection H as ->. by apply add_inputs_err in Ea.
    + done.
  - unfold select_random_coins in H.
    assert (forall m results errors res' er', attempt m (fun r => compute_and_set_waste r coc coc coc pf) results errors = Ok (res', er') ->
      Forall (fun e => forall a b, e <> NotEnoughFunds a b) errors -> (forall a b, m <> Err (NotEnoughFunds a b)) ->
      Forall (fun e => forall a b, e <> NotEnoughFunds a b) er') as Hatt.
    { intros m results errors res' er' Ha He Hm. unfold attempt in Ha. destruct m as [r|e|]; [|injection Ha as <- <-|done].
      - destruct (compute_and_set_waste r coc coc coc pf); cbn [rbind] in Ha; [|done..]. by injection Ha as <- <-.
      - apply Forall_app. split; [done|]. constructor; [|constructor]. intros a b ->. by apply (Hm a b). }
    destruct (attempt (select_coins_srd _ _ _ _ _ _) _ [] []) as [[res1 er1]|e|] eqn:E1; cbn [rbind] in H.
    2:{ injection H as ->. unfold attempt in E1. destruct (select_coins_srd _ _ _ _ _ _) as [r1|e|]; [|done..].
        destruct (compute_and_set_waste r1 coc coc coc pf) as [r2|e|] eqn:Ec; cbn [rbind] in E1; [done| |done].
        injection E1 as ->. by apply compute_err in Ec. }
    2:{ done. }
    apply Hatt in E1; [|constructor|].
    2:{ intros a b. unfold select_coins_srd. destruct (amount_add _ _) as [T|]; cbn [ok_or rbind]; [|done]. intros Hs.
        by apply srd_loop_err in Hs as [?|[?|?]]. }
    destruct (attempt (knapsack_solver _ _ _ _ _ _) _ res1 er1) as [[res2 er2]|e|] eqn:E2; cbn [rbind] in H.
    2:{ injection H as ->. unfold attempt in E2. destruct (knapsack_solver _ _ _ _ _ _) as [r1|e|]; [|done..].
        destruct (compute_and_set_waste r1 coc coc coc pf) as [r2|e|] eqn:Ec; cbn [rbind] in E2; [done| |done].
        injection E2 as ->. by apply compute_err in Ec. }
    2:{ done. }
    apply Hatt in E2; [|done|].
    2:{ intros a b Hs. pose proof (knapsack_spec (or_flip o) pf (or_shuffle o pool) target coc mw) as Hk.
        rewrite Hs in Hk. destruct Hk as [?|[[? _]|[? _]]]; [by rewrite (total_perm _ _ _ (Hsh pool))|done..]. }
    pose proof (bnb_spec pf (or_shuffle o pool) target coc mw) as Hk.
    unfold attempt in H. destruct (select_coins_bnb _ _ _ _ _) as [r1|e|] eqn:Eb; cbn [rbind] in H.
    + destruct (min_waste (res2 ++ [r1])); [done|]. injection H as H.
      destruct (last er2) as [e|] eqn:El; [|done]. cbn in H. subst e.
      rewrite Forall_forall in E2. apply last_Some_elem_of in El. by apply (E2 _ El got requested).
    + destruct (min_waste res2); [done|]. injection H as H. rewrite last_snoc in H. cbn in H. subst e.
      destruct Hk as [?|[?|[?|[_ Hk]]]]; [| |done..|].
      * intros Hn. apply Hne. specialize (Hsh pool). rewrite Hn in Hsh. by apply Permutation_nil in Hsh.
      * by rewrite (total_perm _ _ _ (Hsh pool)).
      * rewrite (total_perm _ _ _ (Hsh pool)) in Hk. lia.
    + done.
Qed.

(** what is asked of the offered coins for the random draw to be sound: together they fit into a transaction, or they all
    have the same weight *)
Definition draw_is_sound pool (mw : N) : Prop :=
  (total g_weight pool <= mw)%N \/ (exists w, Forall (fun g => g_weight g = w) pool).

Lemma srd_covers o pool target pf coc mw r :
  fair pf o -> target <> 0%N -> draw_is_sound pool mw ->
  select_coins_srd (or_pop o) (or_draw o pool) target coc mw pf = Ok r -> (target <= s_effective_value r)%N.
Proof.
  intros (Hd & Hsh & Hpop) H0 [Hl|[w Hw]] H.
  - eapply srd_covers_light; [done| |done]. by rewrite (total_perm _ _ _ (Hd pool)).
  - eapply (srd_covers_equal _ _ Hpop w); [done| |done]. by rewrite Hd.
Qed.

(** No panic, for any target, limit and random choices, if the offered coins together fit into a transaction or have the
    same weight. *)
Theorem C69_no_panic o pool target pf coc algo mw :
  fair pf o -> worth_spending pf pool -> draw_is_sound pool mw -> select_coins o pool target pf coc algo mw <> Panic.
Proof.
  intros Ho Hw Hd. pose proof Ho as (Hdr & Hsh & Hpop). unfold select_coins. destruct (target =? 0)%N eqn:E0; [done|].
  destruct pool as [|g0 pool'] eqn:Ep; [done|]. rewrite <- Ep in *. cbn [ensure rbind].
  destruct (total_available_value pf pool) as [x|e|] eqn:Et; cbn [rbind]; [|done|].
  2:{ exfalso. revert Et Hw. clear. unfold total_available_value. generalize 0%N.
      induction pool as [|g pool IH]; intros a H Hw; cbn [rfold] in H; [done|].
      assert (get_effective_value pf g = Ok (eff pf g)) as E.
      { unfold get_effective_value, eff. destruct pf; [|done]. rewrite checked_sub_ok; [done|].
        specialize (Hw eq_refl). by apply Forall_cons in Hw as [? _]. }
      rewrite E in H. cbn [rbind] in H. unfold ok_or in H. destruct (amount_add _ _); [|done]. apply IH in H; [done|].
      intros Hpf. specialize (Hw Hpf). by apply Forall_cons in Hw as [_ ?]. }
  apply total_available_spec in Et as (-> & Hu & _). destruct (_ <=? _)%N eqn:Ele; cbn [ensure rbind]; [|done].
  destruct algo.
  - unfold select_all_coins. destruct (add_inputs _ _ _) as [r0|e|] eqn:Ea; cbn [rbind]; [|done|].
    + apply add_inputs_built in Ea. eapply compute_panics_only_short; [done|lia].
    + by apply add_inputs_no_panic in Ea.
  - unfold select_random_coins.
    destruct (attempt (select_coins_srd _ _ _ _ _ _) _ [] []) as [[res1 er1]|e|] eqn:E1; cbn [rbind]; [|done|].
    2:{ exfalso. unfold attempt in E1. destruct (select_coins_srd _ _ _ _ _ _) as [r1|e|] eqn:Es; [|done|].
        - pose proof Es as Hc. apply srd_covers in Hc; [|done|lia|done].
          apply (srd_spec pf) in Es as (chosen & _ & Hb & _); [|done].
          pose proof Hb as (_ & He & _). rewrite He in Hc.
          pose proof (compute_panics_only_short _ _ coc _ _ Hb Hc) as Hn.
          by destruct (compute_and_set_waste r1 coc coc coc pf).
        - by apply srd_no_panic in Es. }
    destruct (attempt (knapsack_solver _ _ _ _ _ _) _ res1 er1) as [[res2 er2]|e|] eqn:E2; cbn [rbind]; [|done|].
    2:{ exfalso. unfold attempt in E2. pose proof (knapsack_spec (or_flip o) pf (or_shuffle o pool) target coc mw) as Hk.
        rewrite (total_perm _ _ _ (Hsh pool)) in Hk. specialize (Hk Hu).
        destruct (knapsack_solver _ _ _ _ _ _) as [r1|e|] eqn:Es; [|done|done].
        destruct Hk as (chosen & _ & Hb & Hc & _).
        pose proof (compute_panics_only_short _ _ coc _ _ Hb Hc) as Hn.
        by destruct (compute_and_set_waste r1 coc coc coc pf). }
    unfold attempt. pose proof (bnb_spec pf (or_shuffle o pool) target coc mw) as Hk.
    rewrite (total_perm _ _ _ (Hsh pool)) in Hk.
    destruct (select_coins_bnb _ _ _ _ _) as [r1|e|]; cbn [rbind]; [by destruct (min_waste _)..|].
    exfalso. apply Hk; [|done]. intros Hn. specialize (Hsh pool). rewrite Hn in Hsh. apply Permutation_nil in Hsh. by rewrite Hsh in Ep.
Qed.

(** Enough funds, and coins that fit into one transaction: the selection succeeds, whatever the random choices. *)
Theorem C69_succeeds_with_enough_funds o pool target pf coc algo mw :
  fair pf o -> worth_spending pf pool -> moderate pool target coc ->
  target <> 0%N -> (target <= total (contribution pf) pool)%N -> (total g_weight pool <= mw)%N ->
  exists r, select_coins o pool target pf coc algo mw = Ok r.
Proof.
  intros Ho Hw Hm H0 Ht Hl. pose proof (C69_no_panic o pool target pf coc algo mw Ho Hw (or_introl Hl)) as Hnp.
  pose proof Ho as (Hdr & Hsh & Hpop).
  change (contribution pf) with (eff (O := O) pf) in *.
  assert (small pool /\ (target + coc <= U128_MAX)%N /\ (total (eff pf) pool <= U128_MAX)%N) as (Hsmall & Htc & Hu).
  { pose proof (total_eff_value pf pool) as Hv. unfold moderate in Hm. unfold small.
    assert (Z.of_N U128_MAX = 2 * I128_MAX + 1)%Z as Hmax by done.
    clear - Hm Hv Hmax. generalize dependent U128_MAX. generalize dependent I128_MAX. intros. lia. }
  revert Hnp. unfold select_coins. rewrite (proj2 (N.eqb_neq _ _) H0).
  destruct pool as [|g0 pool'] eqn:Ep; [cbn in Ht; rewrite total_nil in Ht; lia|]. rewrite <- Ep in *. cbn [ensure rbind].
  rewrite total_available_ok by done. cbn [rbind]. rewrite (proj2 (N.leb_le _ _) Ht). cbn [ensure rbind].
  destruct algo.
  - intros _. unfold select_all_coins. destruct (add_inputs_ok pf target pool Hsmall) as [r0 E]. rewrite E. cbn [rbind].
    apply add_inputs_built in E. by eapply compute_ok.
  - unfold select_random_coins.
    assert (forall m results errors, (forall r1, m = Ok r1 -> exists chosen, chosen ⊆+ pool /\ built pf target chosen r1 /\
              (target <= total (eff pf) chosen)%N) -> m <> Panic ->
       exists results' errors', attempt m (fun r => compute_and_set_waste r coc coc coc pf) results errors = Ok (results', errors')
         /\ (results' = [] -> results = [] /\ forall r1, m <> Ok r1)) as Hatt.
    { intros m results errors Hgood Hp. unfold attempt. destruct m as [r1|e|]; [|eauto 10|done].
      destruct (Hgood r1 eq_refl) as (chosen & Hs & Hb & Hc).
      destruct (compute_ok pf target coc chosen pool r1 Hs Hm Hb Hc) as [r2 E]. rewrite E. cbn [rbind].
      eexists _, _. split; [done|]. intros Hn. by apply app_nil in Hn as [_ ?]. }
    destruct (Hatt (select_coins_srd (or_pop o) (or_draw o pool) target coc mw pf) [] []) as (res1 & er1 & E1 & _).
    { intros r1 Es. pose proof Es as Hc. apply srd_covers in Hc; [|done|done|by left].
      apply (srd_spec pf) in Es as (chosen & Hs & Hb & _); [|done]. exists chosen. rewrite Hdr in Hs. split_and!; [done|by apply Hb..|].
      by destruct Hb as (_ & <- & _). }
    { by apply srd_no_panic. }
    rewrite E1. cbn [rbind].
    pose proof (knapsack_spec (or_flip o) pf (or_shuffle o pool) target coc mw) as Hk.
    rewrite (total_perm _ _ _ (Hsh pool)) in Hk. specialize (Hk Hu).
    destruct (knapsack_finds (or_flip o) pf (or_shuffle o pool) target coc mw) as [rk Ek].
    { by rewrite (total_perm _ _ _ (Hsh pool)). }
    { done. }
    { eapply small_sub; [|exact Hsmall]. by rewrite Hsh. }
    { by rewrite (total_perm _ _ _ (Hsh pool)). }
    { by rewrite (total_perm _ _ _ (Hsh pool)). }
    destruct (Hatt (knapsack_solver (or_flip o) (or_shuffle o pool) target coc mw pf) res1 er1) as (res2 & er2 & E2 & Hres2).
    { intros r1 Es. rewrite Es in Hk. destruct Hk as (chosen & Hs & Hb & Hc & _). exists chosen. rewrite Hsh in Hs.
      split_and!; [done|by apply Hb..|done]. }
    { rewrite Ek. done. }
    rewrite E2. cbn [rbind].
    assert (res2 <> []) as Hne2.
    { intros Hn. destruct (Hres2 Hn) as [_ Hno]. by apply (Hno rk). }
    assert (forall rs : list (selection O), rs <> [] -> exists r, min_waste rs = Some r) as Hmin.
    { intros [|x rs] Hn; [done|]. unfold min_waste. cbn [foldl]. clear. generalize x.
      induction rs as [|y rs IH]; intros z; cbn [foldl]; [eauto|]. destruct (_ <? _)%Z; apply IH. }
    unfold attempt.
    destruct (select_coins_bnb _ _ _ _ _) as [r3|e|]; cbn [rbind]; [| |done].
    + intros _. destruct (Hmin (res2 ++ [r3])) as [r ->]; [|eauto]. by destruct res2.
    + intros _. destruct (Hmin res2 Hne2) as [r ->]. eauto.
Qed.

End Properties.

(** * Examples and what fails *)

(** a heap that takes out the first of its largest elements *)
Fixpoint pop_first_largest {O} pf (heap : list (group O)) : option (group O * list (group O)) :=
  match heap with
  | [] => None
  | g :: heap' =>
      match pop_first_largest pf heap' with
      | None => Some (g, [])
      | Some (h, rest) => if (eff pf h <=? eff pf g)%N then Some (g, heap') else Some (h, g :: rest)
      end
  end.

Lemma pop_first_largest_ok {O} pf : pops_largest pf (pop_first_largest (O := O) pf).
Proof.
  intros heap. induction heap as [|g heap IH]; cbn [pop_first_largest]; [done|].
  destruct (pop_first_largest pf heap) as [[h rest]|]; [|by subst].
  change (contribution pf) with (eff (O := O) pf) in *.
  destruct IH as [Hp Hmax]. destruct (_ <=? _)%N eqn:E; cbn.
  - split; [done|]. rewrite Hp. constructor; [lia|]. eapply Forall_impl; [exact Hmax|]. cbn. intros x Hx. lia.
  - split; [rewrite Hp; apply Permutation_swap|]. constructor; [lia|done].
Qed.

Definition plain_oracle {O} pf : oracle O := Oracle (fun l => l) (pop_first_largest pf) (fun l => rev l) (fun _ => true).

Lemma plain_oracle_fair {O} pf : fair pf (plain_oracle (O := O) pf).
Proof. split; [done|]. split; [intros l; symmetry; apply Permutation_rev|apply pop_first_largest_ok]. Qed.

(** five coins; 1000 to pay *)
Definition sample_coins : list (group N) :=
  [Group [1%N] 700 20 10 2; Group [2%N] 400 20 10 2; Group [3%N] 90 20 10 2; Group [4%N] 2000 40 20 4; Group [5%N] 50 20 10 2].

Example ex_select_hypotheses :
  worth_spending PayFeeWithThisCurrency sample_coins /\ moderate sample_coins 1000 30 /\ draw_is_sound sample_coins 100.
Proof. split; [|split; [|left]]; [intros _; repeat constructor; vm_compute; congruence|vm_compute; congruence..]. Qed.

Example ex_select :
  select_coins (plain_oracle PayFeeWithThisCurrency) sample_coins 1000 PayFeeWithThisCurrency 30 Randomize 100
  = Ok (Selection [1%N; 2%N] 1060 1000 50 4 40 30).
Proof. vm_compute. reflexivity. Qed.

(** ** The random draw and the weight limit

    When the groups drawn exceed the weight limit the loop takes the most valuable ones out of the heap again (the comment
    says the least valuable), and it takes one out too many without subtracting its value. *)

(** One draw after which the selection falls short of the target; computing its change then panics. *)
Theorem C69_no_panic_for_any_weights_refuted :
  ~ (forall (o : oracle N) pool target pf coc algo mw,
       fair pf o -> worth_spending pf pool -> moderate pool target coc -> select_coins o pool target pf coc algo mw <> Panic).
Proof.
  intros H.
  apply (H (plain_oracle DoNotPayFeeWithThisCurrency)
           [Group [1%N] 3 0 0 1; Group [2%N] 3 0 0 1; Group [3%N] 4 0 0 5; Group [4%N] 4 0 0 1]
           10%N DoNotPayFeeWithThisCurrency 0%N Randomize 3%N).
  - apply plain_oracle_fair.
  - intros [=].
  - vm_compute. congruence.
  - vm_compute. reflexivity.
Qed.

(** One draw in which no selection is found although two of the coins fit and pay the target. *)
Theorem C69_finds_a_fitting_selection_refuted :
  ~ (forall (o : oracle N) pool target pf coc mw chosen,
       fair pf o -> worth_spending pf pool -> moderate pool target coc ->
       chosen ⊆+ pool -> (target + coc <= total (contribution pf) chosen)%N -> (total g_weight chosen <= mw)%N ->
       exists r, select_coins o pool target pf coc Randomize mw = Ok r).
Proof.
  intros H.
  edestruct (H (plain_oracle DoNotPayFeeWithThisCurrency)
           [Group [1%N] 1 0 0 1; Group [2%N] 1 0 0 1; Group [3%N] 1 0 0 1; Group [4%N] 1 0 0 1; Group [5%N] 6 0 0 1;
            Group [6%N] 6 0 0 1]
           10%N DoNotPayFeeWithThisCurrency 0%N 2%N
           [Group [5%N] 6 0 0 1; Group [6%N] 6 0 0 1]) as [r Hr].
  - apply plain_oracle_fair.
  - intros [=].
  - vm_compute. congruence.
  - do 4 apply submseteq_cons. done.
  - vm_compute. congruence.
  - vm_compute. congruence.
  - vm_compute in Hr. discriminate Hr.
Qed.

Print Assumptions C68_selection_pays_and_accounts.
Print Assumptions C68_tokens_lose_nothing.
Print Assumptions C68_short_iff_short.
Print Assumptions C69_no_panic.
Print Assumptions C69_succeeds_with_enough_funds.
Print Assumptions C69_no_panic_for_any_weights_refuted.
Print Assumptions C69_finds_a_fitting_selection_refuted.
