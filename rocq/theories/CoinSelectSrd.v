(** Facts about the single random draw. *)
From Coq Require Import ZArith NArith Permutation.
From Verif Require Import Base CoinSelectModel CoinSelectSpec CoinSelectProofs.

Section Proofs.
Context {O : Type}.
Implicit Types (g : group O) (r : selection O) (pool heap chosen gs todo : list (group O)).
Context (pf : pay_fee) (pop : list (group O) -> option (group O * list (group O))).
Hypothesis Hpop : pops_largest pf pop.

Lemma pop_some heap g rest : pop heap = Some (g, rest) -> heap ≡ₚ g :: rest /\ Forall (fun h => eff pf h <= eff pf g)%N rest.
Proof. intros H. pose proof (Hpop heap) as Hp. by rewrite H in Hp. Qed.
Lemma pop_none heap : pop heap = None -> heap = [].
Proof. intros H. pose proof (Hpop heap) as Hp. by rewrite H in Hp. Qed.

Lemma drain_heap_perm n heap : n = length heap -> drain_heap pop n heap ≡ₚ heap.
Proof using Hpop.
  revert heap. induction n as [|n IH]; intros heap Hn; cbn.
  - symmetry in Hn. apply nil_length_inv in Hn as ->. done.
  - destruct (pop heap) as [[g rest]|] eqn:E.
    + apply pop_some in E as [E _]. rewrite E. rewrite IH; [done|].
      apply Permutation_length in E. cbn in E. lia.
    + apply pop_none in E as ->. done.
Qed.

(** What is left after dropping: a part of the heap, whose weight is not above the weight recorded; and either the
    weight is within the limit or nothing is left. *)
Lemma drop_overweight_spec n mw heap sel w heap' sel' w' :
  n = length heap -> (total g_weight heap <= w)%N ->
  drop_overweight pop n pf mw heap sel w = Ok (heap', sel', w') ->
  heap' ⊆+ heap /\ (total g_weight heap' <= w')%N /\ ((w' <= mw)%N \/ heap' = []).
Proof using Hpop.
  revert heap sel w. induction n as [|n IH]; intros heap sel w Hn Hw; cbn.
  - symmetry in Hn. apply nil_length_inv in Hn as ->. intros [= <- <- <-]. auto.
  - destruct (pop heap) as [[g rest]|] eqn:E.
    + apply pop_some in E as [E _]. pose proof (Permutation_length E) as El. cbn in El.
      pose proof (total_perm g_weight _ _ E) as Ew. rewrite total_cons in Ew.
      destruct (w <=? mw)%N eqn:Ele.
      * intros [= <- <- <-]. split_and!; [|lia|left; lia]. rewrite E. by apply submseteq_cons.
      * destruct (checked_sub sel _) as [s1|]; cbn [ok_or rbind]; [|done].
        destruct (checked_sub w _) as [w1|] eqn:Ew1; cbn [expect rbind]; [|done].
        apply checked_sub_some in Ew1 as [-> Hle]. intros H. apply IH in H as (H1 & H2 & H3); [|lia|lia].
        split_and!; [|done|done]. rewrite E, H1. by apply submseteq_cons.
    + apply pop_none in E as ->. intros [= <- <- <-]. auto.
Qed.

Lemma drop_overweight_no_panic n mw heap sel w :
  n = length heap -> (total g_weight heap <= w)%N -> drop_overweight pop n pf mw heap sel w <> Panic.
Proof using Hpop.
  revert heap sel w. induction n as [|n IH]; intros heap sel w Hn Hw; cbn; [done|].
  destruct (pop heap) as [[g rest]|] eqn:E; [|done].
  apply pop_some in E as [E _]. pose proof (Permutation_length E) as El. cbn in El.
  pose proof (total_perm g_weight _ _ E) as Ew. rewrite total_cons in Ew.
  destruct (w <=? mw)%N eqn:Ele; [done|].
  destruct (checked_sub sel _) as [s1|]; cbn [ok_or rbind]; [|done].
  rewrite checked_sub_ok by lia. cbn [expect rbind]. apply IH; lia.
Qed.

(** A selection that is returned consists of groups offered and is within the weight. *)
Lemma srd_loop_spec target mw T todo heap sel w exceeded r0 r :
  built pf target [] r0 -> (total g_weight heap <= w)%N ->
  srd_loop pop pf mw T r0 todo heap sel w exceeded = Ok r ->
  exists chosen, chosen ⊆+ todo ++ heap /\ built pf target chosen r /\ (total g_weight chosen <= mw)%N.
Proof using Hpop.
  intros Hb. revert heap sel w exceeded. induction todo as [|g todo IH]; intros heap sel w exceeded Hw; cbn [srd_loop]; [done|].
  destruct (amount_add sel _) as [s1|]; cbn [ok_or rbind]; [|done].
  assert (total g_weight (g :: heap) <= w + g_weight g)%N as Hw1 by (rewrite total_cons; lia).
  destruct (if (mw <? w + g_weight g)%N then _ else _) as [[[h' s'] w']|e|] eqn:E; cbn [rbind]; [|done..].
  assert (h' ⊆+ g :: heap /\ (total g_weight h' <= w')%N /\ ((w' <= mw)%N \/ h' = [])) as (H1 & H2 & H3).
  { destruct (mw <? w + g_weight g)%N eqn:Eo.
    - by apply drop_overweight_spec in E.
    - injection E as <- <- <-. split_and!; [done|done|left; lia]. }
  destruct (T <=? s')%N eqn:ET.
  - intros H. exists (drain_heap pop (length h') h'). rewrite (drain_heap_perm _ _ eq_refl) at 1. split_and!.
    + rewrite H1. cbn [app]. apply submseteq_skip, submseteq_inserts_l. done.
    + by apply (add_inputs_from pf target _ [] r0).
    + rewrite (total_perm _ _ _ (drain_heap_perm _ h' eq_refl)). destruct H3 as [H3| ->]; [lia|rewrite total_nil; lia].
  - intros H. apply IH in H as (chosen & Hs & Hc & Hcw); [|done]. exists chosen. split_and!; [|done|done].
    etrans; [exact Hs|]. etrans; [apply submseteq_app; [done|exact H1]|]. cbn [app]. by rewrite Permutation_middle.
Qed.

Lemma srd_loop_no_panic mw T todo heap sel w exceeded r0 :
  (total g_weight heap <= w)%N -> srd_loop pop pf mw T r0 todo heap sel w exceeded <> Panic.
Proof using Hpop.
  revert heap sel w exceeded. induction todo as [|g todo IH]; intros heap sel w exceeded Hw; cbn [srd_loop]; [done|].
  destruct (amount_add sel _) as [s1|]; cbn [ok_or rbind]; [|done].
  assert (total g_weight (g :: heap) <= w + g_weight g)%N as Hw1 by (rewrite total_cons; lia).
  destruct (if (mw <? w + g_weight g)%N then _ else _) as [[[h' s'] w']|e|] eqn:E; cbn [rbind]; [|done|].
  - assert (total g_weight h' <= w')%N as H2.
    { destruct (mw <? w + g_weight g)%N eqn:Eo.
      - by apply drop_overweight_spec in E as (_ & ? & _).
      - by injection E as <- <- <-. }
    destruct (T <=? s')%N eqn:ET; [apply add_inputs_no_panic|]. by apply IH.
  - destruct (mw <? w + g_weight g)%N eqn:Eo; [|done]. by apply drop_overweight_no_panic in E.
Qed.

Lemma srd_spec shuffled target coc mw r :
  select_coins_srd pop shuffled target coc mw pf = Ok r ->
  exists chosen, chosen ⊆+ shuffled /\ built pf target chosen r /\ (total g_weight chosen <= mw)%N.
Proof using Hpop.
  unfold select_coins_srd. destruct (amount_add _ _) as [T|]; cbn [ok_or rbind]; [|done]. intros H.
  apply (srd_loop_spec target) in H as (chosen & Hs & ?); [|done|rewrite total_nil; lia]. rewrite app_nil_r in Hs. eauto.
Qed.

Lemma srd_no_panic shuffled target coc mw : select_coins_srd pop shuffled target coc mw pf <> Panic.
Proof using Hpop.
  unfold select_coins_srd. destruct (amount_add _ _) as [T|]; cbn [ok_or rbind]; [|done].
  apply srd_loop_no_panic. rewrite total_nil. lia.
Qed.

(** ** As long as the weight is not exceeded, what is returned covers the target. *)
Lemma srd_loop_covers target mw T todo heap sel w r0 r exceeded :
  built pf target [] r0 -> w = total g_weight heap -> sel = total (eff pf) heap ->
  (total g_weight (todo ++ heap) <= mw)%N ->
  srd_loop pop pf mw T r0 todo heap sel w exceeded = Ok r -> (T <= s_effective_value r)%N.
Proof using Hpop.
  intros Hb. revert heap sel w exceeded. induction todo as [|g todo IH]; intros heap sel w exceeded -> -> Hmw; cbn [srd_loop]; [done|].
  destruct (amount_add _ _) as [s1|] eqn:Es; cbn [ok_or rbind]; [|done]. apply amount_add_some in Es as [-> _].
  cbn [app] in Hmw. rewrite total_cons, total_app in Hmw.
  rewrite (proj2 (N.ltb_ge _ _)) by lia. cbn [rbind].
  destruct (T <=? _)%N eqn:ET.
  - intros H. apply (add_inputs_from pf target _ [] r0) in H as (_ & -> & _); [|done]. cbn [app].
    rewrite (total_perm _ _ _ (drain_heap_perm _ (g :: heap) eq_refl)), total_cons. lia.
  - apply IH; [rewrite total_cons; lia|rewrite total_cons; lia|]. rewrite total_app, total_cons. lia.
Qed.

Lemma srd_covers_light shuffled target coc mw r :
  (total g_weight shuffled <= mw)%N ->
  select_coins_srd pop shuffled target coc mw pf = Ok r -> (target <= s_effective_value r)%N.
Proof using Hpop.
  intros Hl. unfold select_coins_srd. destruct (amount_add _ _) as [T|] eqn:ET; cbn [ok_or rbind]; [|done].
  apply amount_add_some in ET as [-> _]. intros H.
  apply (srd_loop_covers target) in H; [lia|done|done|done|]. by rewrite app_nil_r.
Qed.

(** ** With equal weights, a draw that once exceeded the weight never succeeds. *)
Lemma srd_loop_stuck u target mw T todo heap sel w r0 :
  Forall (fun g => g_weight g = u) todo -> Forall (fun g => g_weight g = u) heap ->
  (w <= mw)%N -> (mw < w + u)%N -> (sel < T)%N ->
  forall r exceeded, built pf target [] r0 -> srd_loop pop pf mw T r0 todo heap sel w exceeded <> Ok r.
Proof using Hpop.
  intros Ht. revert heap sel w. induction Ht as [|g todo Hg Ht IH]; intros heap sel w Hh Hw Hwu Hs r exceeded Hb; cbn [srd_loop]; [done|].
  destruct (amount_add _ _) as [s1|] eqn:Es; cbn [ok_or rbind]; [|done]. apply amount_add_some in Es as [-> _].
  rewrite (proj2 (N.ltb_lt _ _)) by lia. cbn [length drop_overweight].
  assert (Forall (fun g => g_weight g = u) (g :: heap)) as Hall by (by constructor).
  destruct (pop (g :: heap)) as [[g1 rest]|] eqn:E1.
  2:{ apply pop_none in E1. done. }
  apply pop_some in E1 as [E1 Hmax]. rewrite E1 in Hall. apply Forall_cons in Hall as [Hg1 Hrest].
  assert (eff pf g <= eff pf g1)%N as Hle.
  { assert (g ∈ g1 :: rest) as Hin by (rewrite <- E1; left).
    apply elem_of_cons in Hin as [->|Hin]; [done|]. rewrite Forall_forall in Hmax. by apply Hmax. }
  rewrite (proj2 (N.leb_gt _ _)) by lia.
  destruct (checked_sub (sel + eff pf g) _) as [s2|] eqn:Es2; cbn [ok_or rbind]; [|done].
  apply checked_sub_some in Es2 as [-> _].
  destruct (checked_sub (w + g_weight g) _) as [w2|] eqn:Ew2; cbn [expect rbind]; [|done].
  apply checked_sub_some in Ew2 as [-> _].
  assert (exists rest', drop_overweight pop (length heap) pf mw rest (sel + eff pf g - eff pf g1) (w + g_weight g - g_weight g1)
          = Ok (rest', sel + eff pf g - eff pf g1, w + g_weight g - g_weight g1)%N /\ rest' ⊆+ rest) as (rest' & -> & Hsub).
  { destruct (length heap) as [|n]; cbn [drop_overweight]; [eauto|].
    destruct (pop rest) as [[g2 rest2]|] eqn:E2; [|eauto].
    rewrite (proj2 (N.leb_le _ _)) by lia. exists rest2. split; [done|].
    apply pop_some in E2 as [E2 _]. rewrite E2. by apply submseteq_cons. }
  cbn [rbind]. rewrite (proj2 (N.leb_gt _ _)) by lia. apply IH; [|lia|lia|lia|done].
  rewrite Forall_forall in *. intros x Hx. apply Hrest. by eapply elem_of_submseteq.
Qed.

Lemma srd_loop_covers_equal u target mw T todo heap sel w r0 r exceeded :
  built pf target [] r0 -> Forall (fun g => g_weight g = u) todo -> Forall (fun g => g_weight g = u) heap ->
  w = total g_weight heap -> sel = total (eff pf) heap -> (w <= mw)%N -> (sel < T)%N ->
  srd_loop pop pf mw T r0 todo heap sel w exceeded = Ok r -> (T <= s_effective_value r)%N.
Proof using Hpop.
  intros Hb Ht. revert heap sel w exceeded. induction Ht as [|g todo Hg Ht IH]; intros heap sel w exceeded Hh Hw Hs Hmw HT H; [done|].
  destruct (decide (mw < w + u)%N) as [Hover|Hover].
  - exfalso. apply (srd_loop_stuck u target mw T (g :: todo) heap sel w r0) in H; [done|by constructor|done|done|done|done|done].
  - subst w sel. revert H. cbn [srd_loop].
    destruct (amount_add _ _) as [s1|] eqn:Es; cbn [ok_or rbind]; [|done]. apply amount_add_some in Es as [-> _].
    rewrite (proj2 (N.ltb_ge _ _)) by lia. cbn [rbind].
    destruct (T <=? _)%N eqn:ET.
    + intros H. apply (add_inputs_from pf target _ [] r0) in H as (_ & -> & _); [|done]. cbn [app].
      rewrite (total_perm _ _ _ (drain_heap_perm _ (g :: heap) eq_refl)), total_cons. lia.
    + apply IH; [by constructor|rewrite total_cons; lia|rewrite total_cons; lia|lia|lia].
Qed.

Lemma srd_covers_equal u shuffled target coc mw r :
  target <> 0%N -> Forall (fun g => g_weight g = u) shuffled ->
  select_coins_srd pop shuffled target coc mw pf = Ok r -> (target <= s_effective_value r)%N.
Proof using Hpop.
  intros H0 Hu. unfold select_coins_srd. destruct (amount_add _ _) as [T|] eqn:ET; cbn [ok_or rbind]; [|done].
  apply amount_add_some in ET as [-> _]. intros H.
  apply (srd_loop_covers_equal u target) in H; [lia|done|done|done|done|done|lia|lia].
Qed.


Lemma drop_overweight_err n mw heap sel w e :
  drop_overweight pop n pf mw heap sel w = Err e -> e = AmountArithmeticError.
Proof.
  revert heap sel w. induction n as [|n IH]; intros heap sel w; cbn; [done|].
  destruct (pop heap) as [[g rest]|]; [|done]. destruct (w <=? mw)%N; [done|].
  destruct (checked_sub sel _); cbn [ok_or rbind]; [|congruence].
  destruct (checked_sub w _); cbn [expect rbind]; [|done]. apply IH.
Qed.

Lemma srd_loop_err mw T todo heap sel w exceeded r0 e :
  srd_loop pop pf mw T r0 todo heap sel w exceeded = Err e ->
  e = AmountArithmeticError \/ e = MaxWeightExceeded \/ e = NoSolutionFound.
Proof.
  revert heap sel w exceeded. induction todo as [|g todo IH]; intros heap sel w exceeded; cbn [srd_loop].
  - destruct exceeded; intros [= <-]; auto.
  - destruct (amount_add sel _) as [s1|]; cbn [ok_or rbind]; [|intros [= <-]; auto].
    destruct (if (mw <? w + g_weight g)%N then _ else _) as [[[h' s'] w']|e'|] eqn:E; cbn [rbind]; [| |done].
    + destruct (T <=? s')%N; [|apply IH]. intros H. left. by eapply add_inputs_err.
    + intros [= <-]. left. destruct (mw <? w + g_weight g)%N; [|done]. by eapply drop_overweight_err.
Qed.

End Proofs.
