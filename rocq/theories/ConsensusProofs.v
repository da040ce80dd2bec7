(** Proofs about consensus arithmetic. *)
From Verif Require Import Base BaseProofs AmountModel UintModel UintSpec UintProofs UintShiftProofs PrimModel PrimProofs ScheduleModel ConsensusModel ConsensusSpec.
Local Open Scope N_scope.

Lemma from_u128_words n x : (1 < n)%nat -> x <= U128_MAX -> words n (from_u128 n x) /\ uval (from_u128 n x) = x.
Proof.
  intros Hn Hx. destruct n as [|[|n]]; [lia..|]. unfold from_u128. cbn [zero repeat].
  assert (Hq : x / W < W) by (apply N.div_lt_upper_bound; unfold U128_MAX, W in *; lia).
  assert (E : (<[1%nat := x / W mod W]> (<[0%nat := x mod W]> (0 :: 0 :: repeat 0 n)) : list N) = x mod W :: x / W :: repeat 0 n).
  { rewrite (N.mod_small (x / W)) by done. reflexivity. }
  rewrite E. split.
  - split; [cbn; by rewrite repeat_length|]. change (2 ^ 64) with W. repeat constructor; [apply N.mod_lt; done|done|]. apply Forall_forall. intros y Hy. apply elem_of_list_In, repeat_spec in Hy. subst. done.
  - unfold uval. cbn [number]. rewrite number_zeros. change (2 ^ 64) with W. pose proof (N.div_mod x W). unfold W in *. lia.
Qed.
Lemma umul n a b : words n a -> words n b -> uval a * uval b < capacity n -> exists r, uchecked_mul a b = Ok r /\ words n r /\ uval r = uval a * uval b.
Proof. intros Ha Hb. apply (uchecked_mul_spec n); done. Qed.
Lemma umul_err n a b : words n a -> words n b -> capacity n <= uval a * uval b -> uchecked_mul a b = Err tt.
Proof. intros Ha Hb. apply (uchecked_mul_spec n); done. Qed.
Lemma usub n a b : (0 < n)%nat -> words n a -> words n b -> uval b <= uval a -> exists r, uchecked_sub a b = Some r /\ words n r /\ uval r = uval a - uval b.
Proof. intros Hn Ha Hb. apply (uchecked_sub_spec n); done. Qed.
Lemma udiv n a b : (0 < n)%nat -> words n a -> words n b -> uval b <> 0 -> exists r, uchecked_div a b = Ok r /\ words n r /\ uval r = uval a / uval b.
Proof. intros Hn Ha Hb. apply (uchecked_div_spec n); done. Qed.
Lemma udiv_err n a b : (0 < n)%nat -> words n a -> words n b -> uval b = 0 -> uchecked_div a b = Err tt.
Proof. intros Hn Ha Hb. apply (uchecked_div_spec n); done. Qed.

(** The arithmetic of the shortfall *)
Lemma term1_le s z sigma : s <= sigma -> s * (z - sigma) <= z * sigma.
Proof. intros. transitivity (sigma * (z - sigma)); [apply N.mul_le_mono_r; done|]. rewrite N.mul_comm. apply N.mul_le_mono_r. lia. Qed.
Lemma term2_le s z sigma : s <= z -> s * (z * sigma - s * (z - sigma)) <= sigma * (z * z).
Proof.
  intros. transitivity (z * (z * sigma)); [apply N.mul_le_mono; lia|]. lia.
Qed.
Lemma shortfall_le s z sigma : shortfall sigma s z <= sigma * (z * z).
Proof. unfold shortfall. apply N.le_sub_l. Qed.

Lemma adjustment_le an ad sigma zz X : 0 < zz -> 0 < an + ad -> X <= sigma * zz -> an * X / ((an + ad) * zz) <= sigma.
Proof.
  intros Hz Ha HX. apply N.div_le_upper_bound; [apply N.neq_mul_0; lia|]. transitivity (an * (sigma * zz)); [apply N.mul_le_mono_l; done|].
  rewrite <- (N.mul_assoc (an + ad)), (N.mul_comm zz). apply N.mul_le_mono_r. lia.
Qed.

Section EB.
  Variables (pledge balance supply : N).
  Let z := saturation supply.
  Let sigma := capped balance supply.
  Let s := capped pledge supply.
  Hypotheses (Hs : supply <= U128_MAX) (Hb : balance < supply) (Hp : pledge <= balance).
  Lemma eb_spec : let X := shortfall sigma s z in
    effective_pool_balance pledge balance supply =
      if (1000 <=? supply) && (sigma * (z * z) <? capacity 4) && (X * influence_n <? capacity 4)
      then Ok (documented_balance pledge balance supply) else Err EbArithmetic.
  Proof.
    intro X. unfold effective_pool_balance, effective_pool_balance_impl.
    rewrite (proj2 (N.ltb_lt 0 supply)) by lia. rewrite (proj2 (N.ltb_lt balance supply)) by lia. rewrite (proj2 (N.leb_le pledge balance)) by lia. cbn [negb].
    unfold SATURATION_NUMER, SATURATION_DENOM, checked_mul, checked_div, checked_sub, checked_add. rewrite N.mul_1_r. rewrite (proj2 (N.leb_le supply U128_MAX)) by done. cbn [ok_or rbind].
    change (1000 =? 0) with false. cbn [ok_or rbind eb_arith rmap_err]. fold (saturation supply). fold (capped balance supply). fold (capped pledge supply). fold z sigma s.
    assert (Lz : z * 1000 <= supply) by (unfold z, saturation; rewrite N.mul_comm; apply N.mul_div_le; done).
    assert (Z : z <= U128_MAX / 1000) by (apply N.div_le_mono; done).
    assert (Sz : sigma <= z) by (unfold sigma, capped, z; lia). assert (Ss : s <= sigma) by (unfold s, sigma, capped; lia).
    assert (SU : sigma <= U128_MAX) by (unfold U128_MAX in *; lia).
    destruct (from_u128_words 4 z) as [Wz Vz]; [lia|unfold U128_MAX in *; lia|]. destruct (from_u128_words 4 sigma) as [Wg Vg]; [lia|unfold U128_MAX in *; lia|].
    destruct (from_u128_words 4 s) as [Ws Vs]; [lia|unfold U128_MAX in *; lia|].
    set (uz := from_u128 4 z) in *. set (ug := from_u128 4 sigma) in *. set (us := from_u128 4 s) in *. clearbody uz ug us.
    assert (CapZ : z * z < capacity 4). { apply N.le_lt_trans with ((U128_MAX / 1000) * (U128_MAX / 1000)); [apply N.mul_le_mono; done|]. vm_compute. done. }
    assert (Small : forall a b, a <= z -> b <= z -> a * b < capacity 4). { intros a b Ha Hb'. apply N.le_lt_trans with (z * z); [apply N.mul_le_mono; done|done]. }
    set (C := capacity 4) in *. assert (Cx : C = capacity 4) by done. clearbody C.
    destruct (umul 4 uz uz Wz Wz) as (zz & -> & Wzz & Vzz); [rewrite Vz, <- Cx; done|]. cbn [rbind eb_arith rmap_err].
    destruct (usub 4 uz ug) as (d & -> & Wd & Vd); [lia|done|done|rewrite Vz, Vg; done|]. cbn [ok_or rbind].
    destruct (umul 4 d us Wd Ws) as (t1 & -> & Wt1 & Vt1); [rewrite Vd, Vs, Vz, Vg, <- Cx; apply Small; lia|]. cbn [rbind eb_arith rmap_err].
    destruct (umul 4 uz ug Wz Wg) as (zg & -> & Wzg & Vzg); [rewrite Vz, Vg, <- Cx; apply Small; lia|]. cbn [rbind].
    assert (T1 : uval t1 = s * (z - sigma)) by (rewrite Vt1, Vd, Vs, Vz, Vg; apply N.mul_comm).
    pose proof (term1_le s z sigma Ss) as L1. destruct (usub 4 zg t1) as (d2 & -> & Wd2 & Vd2); [lia|done|done|rewrite T1, Vzg, Vz, Vg; done|]. cbn [ok_or rbind].
    assert (T2 : uval d2 = z * sigma - s * (z - sigma)) by (rewrite Vd2, T1, Vzg, Vz, Vg; done).
    assert (L2 : s * (z * sigma - s * (z - sigma)) <= sigma * (z * z)) by (apply term2_le; lia).
    destruct (N.lt_ge_cases (sigma * (z * z)) C) as [F1|F1].
    2: { rewrite (proj2 (N.ltb_ge _ _) F1). rewrite andb_false_r. cbn [andb]. destruct (N.lt_ge_cases (uval d2 * uval us) C) as [F2|F2].
      - destruct (umul 4 d2 us Wd2 Ws) as (t2 & -> & Wt2 & Vt2); [rewrite <- Cx; done|]. cbn [rbind eb_arith rmap_err].
        rewrite (umul_err 4 ug zz Wg Wzz); [done|]. rewrite Vg, Vzz, Vz, <- Cx. done.
      - rewrite (umul_err 4 d2 us Wd2 Ws); [done|]. rewrite <- Cx. done. }
    rewrite (proj2 (N.ltb_lt _ _) F1), andb_true_r.
    destruct (umul 4 d2 us Wd2 Ws) as (t2 & -> & Wt2 & Vt2); [rewrite T2, Vs, <- Cx, N.mul_comm; lia|]. cbn [rbind eb_arith rmap_err].
    assert (T2' : uval t2 = s * (z * sigma - s * (z - sigma))) by (rewrite Vt2, T2, Vs; apply N.mul_comm).
    destruct (umul 4 ug zz Wg Wzz) as (g & -> & Wgg & Vgg); [rewrite Vg, Vzz, Vz, <- Cx; done|]. cbn [rbind].
    rewrite Vg, Vzz, Vz in Vgg.
    destruct (usub 4 g t2) as (x & -> & Wx & Vx); [lia|done|done|rewrite T2', Vgg; done|]. cbn [ok_or rbind].
    assert (Ex : uval x = X) by (rewrite Vx, Vgg, T2'; done).
    destruct (from_u128_words 4 INFLUENCE_NUMER) as [Wi Vi]; [lia|vm_compute; done|]. set (ui := from_u128 4 INFLUENCE_NUMER) in *. clearbody ui.
    change INFLUENCE_NUMER with influence_n in *. change INFLUENCE_DENOM with influence_d in *.
    destruct (N.lt_ge_cases (X * influence_n) C) as [F3|F3].
    2: { rewrite (proj2 (N.ltb_ge _ _) F3), andb_false_r. rewrite (umul_err 4 x ui Wx Wi); [done|]. rewrite Ex, Vi, <- Cx. done. }
    rewrite (proj2 (N.ltb_lt _ _) F3), andb_true_r. destruct (umul 4 x ui Wx Wi) as (nu & -> & Wn & Vn); [rewrite Ex, Vi, <- Cx; done|]. cbn [rbind eb_arith rmap_err].
    assert (Ean : (influence_n + influence_d <=? U128_MAX) = true) by (vm_compute; done). rewrite Ean. cbn [ok_or rbind eb_arith rmap_err].
    destruct (from_u128_words 4 (influence_n + influence_d)) as [Wa Va]; [lia|vm_compute; done|]. set (ua := from_u128 4 (influence_n + influence_d)) in *. clearbody ua.
    destruct (udiv 4 nu ua) as (q1 & -> & Wq1 & Vq1); [lia|done|done|rewrite Va; vm_compute; done|]. cbn [rbind].
    destruct (1000 <=? supply) eqn:E1000.
    2: { assert (Ez : z = 0) by (unfold z, saturation; apply N.div_small; lia). rewrite (udiv_err 4 q1 zz); [done|lia|done|done|]. rewrite Vzz, Vz, Ez. done. }
    assert (Zpos : 0 < z) by (unfold z, saturation; apply N.div_str_pos; lia). assert (Zne : 0 < z * z) by (apply N.mul_pos_pos; done).
    destruct (udiv 4 q1 zz) as (q & -> & Wq & Vq); [lia|done|done|rewrite Vzz, Vz; lia|]. cbn [rbind eb_arith rmap_err].
    assert (Eq : uval q = influence_n * X / ((influence_n + influence_d) * (z * z))).
    { rewrite Vq, Vq1, Va, Vn, Ex, Vi, Vzz, Vz. rewrite N.div_div by (vm_compute; done) || lia. by rewrite (N.mul_comm X). }
    assert (Qle : uval q <= sigma).
    { rewrite Eq. apply adjustment_le; [lia|vm_compute; done|apply shortfall_le]. }
    destruct (u128_of_u256_spec q Wq) as [U _]. rewrite U by (exact (N.le_trans _ _ _ Qle SU)). cbn [rbind rmap_err].
    rewrite (proj2 (N.leb_le _ _) Qle). cbn [ok_or rbind]. rewrite (proj2 (N.leb_le (sigma - uval q) sigma)) by apply N.le_sub_l. unfold documented_balance. fold z sigma s X. by rewrite Eq.
  Qed.
End EB.

(** ** Shape of the effective balance *)
Lemma stake_gain_mono s1 s2 z sigma : sigma <= z -> s1 <= s2 -> s2 <= sigma -> 2 * s2 * (z - sigma) <= z * sigma ->
  s1 * (z * sigma - s1 * (z - sigma)) <= s2 * (z * sigma - s2 * (z - sigma)).
Proof.
  intros H1 H2 H3 H4. pose proof (term1_le s1 z sigma ltac:(lia)). pose proof (term1_le s2 z sigma ltac:(lia)).
  set (d := z - sigma) in *. assert (z = sigma + d) by lia. clearbody d. set (p := z * sigma) in *. clearbody p. subst z.
  assert (E1 : s1 * (p - s1 * d) + s1 * (s1 * d) = s1 * p) by nia. assert (E2 : s2 * (p - s2 * d) + s2 * (s2 * d) = s2 * p) by nia.
  assert (s2 * (s2 * d) + s1 * p <= s2 * p + s1 * (s1 * d)).
  { assert (K : (s2 - s1) * ((s1 + s2) * d) <= (s2 - s1) * p) by (apply N.mul_le_mono_l; nia). set (g := s2 - s1) in *. assert (s2 = s1 + g) by lia. clearbody g. subst s2. nia. }
  lia.
Qed.
Lemma stake_gain_anti s1 s2 z sigma : sigma <= z -> s1 <= s2 -> s2 <= sigma -> z * sigma <= 2 * s1 * (z - sigma) ->
  s2 * (z * sigma - s2 * (z - sigma)) <= s1 * (z * sigma - s1 * (z - sigma)).
Proof.
  intros H1 H2 H3 H4. pose proof (term1_le s1 z sigma ltac:(lia)). pose proof (term1_le s2 z sigma ltac:(lia)).
  set (d := z - sigma) in *. assert (z = sigma + d) by lia. clearbody d. set (p := z * sigma) in *. clearbody p. subst z.
  assert (E1 : s1 * (p - s1 * d) + s1 * (s1 * d) = s1 * p) by nia. assert (E2 : s2 * (p - s2 * d) + s2 * (s2 * d) = s2 * p) by nia.
  assert (s2 * p + s1 * (s1 * d) <= s2 * (s2 * d) + s1 * p).
  { assert (K : (s2 - s1) * p <= (s2 - s1) * ((s1 + s2) * d)) by (apply N.mul_le_mono_l; nia). set (g := s2 - s1) in *. assert (s2 = s1 + g) by lia. clearbody g. subst s2. nia. }
  lia.
Qed.
Lemma documented_mono b supply p1 p2 : 1000 <= supply ->
  shortfall (capped b supply) (capped p2 supply) (saturation supply) <= shortfall (capped b supply) (capped p1 supply) (saturation supply) ->
  documented_balance p1 b supply <= documented_balance p2 b supply.
Proof.
  intros Hs H. unfold documented_balance. apply N.sub_le_mono_l. assert (0 < saturation supply) by (apply N.div_str_pos; lia).
  apply N.div_le_mono; [apply N.neq_mul_0; split; [vm_compute; done|nia]|]. apply N.mul_le_mono_l, H.
Qed.
Lemma documented_pledge_mono b supply p1 p2 : 1000 <= supply -> p1 <= p2 -> p2 <= b ->
  2 * capped p2 supply * (saturation supply - capped b supply) <= saturation supply * capped b supply -> documented_balance p1 b supply <= documented_balance p2 b supply.
Proof.
  intros Hs H1 H2 H3. apply documented_mono; [done|]. unfold shortfall. apply N.sub_le_mono_l. apply stake_gain_mono; unfold capped in *; lia.
Qed.
Lemma documented_pledge_anti b supply p1 p2 : 1000 <= supply -> p1 <= p2 -> p2 <= b ->
  saturation supply * capped b supply <= 2 * capped p1 supply * (saturation supply - capped b supply) -> documented_balance p2 b supply <= documented_balance p1 b supply.
Proof.
  intros Hs H1 H2 H3. apply documented_mono; [done|]. unfold shortfall. apply N.sub_le_mono_l. apply stake_gain_anti; unfold capped in *; lia.
Qed.
Lemma div_shift a b c D : D <> 0 -> a <= b + c * D -> a / D <= b / D + c.
Proof. intros HD H. rewrite <- N.div_add by done. by apply N.div_le_mono. Qed.
Lemma documented_balance_mono p b1 b2 supply : 1000 <= supply -> p <= b1 -> b1 <= b2 -> documented_balance p b1 supply <= documented_balance p b2 supply.
Proof.
  intros Hs Hp Hb. unfold documented_balance. set (z := saturation supply). set (g1 := capped b1 supply). set (g2 := capped b2 supply). set (s := capped p supply).
  assert (Hz : 0 < z) by (apply N.div_str_pos; lia). assert (G : g1 <= g2 <= z) by (unfold g1, g2, capped, z; lia). assert (S : s <= g1) by (unfold s, g1, capped; lia).
  clearbody z g1 g2 s. assert (Zne : 0 < z * z) by (apply N.mul_pos_pos; done).
  assert (Sh : shortfall g2 s z <= shortfall g1 s z + (g2 - g1) * (z * z)).
  { unfold shortfall. pose proof (term1_le s z g1 ltac:(lia)). pose proof (term1_le s z g2 ltac:(lia)). pose proof (term2_le s z g1 ltac:(lia)). pose proof (term2_le s z g2 ltac:(lia)).
    assert (s * (z * g1 - s * (z - g1)) <= s * (z * g2 - s * (z - g2))).
    { apply N.mul_le_mono_l. assert (z * g1 <= z * g2) by (apply N.mul_le_mono_l; lia). assert (s * (z - g2) <= s * (z - g1)) by (apply N.mul_le_mono_l; lia). lia. }
    assert (E : g2 * (z * z) = g1 * (z * z) + (g2 - g1) * (z * z)) by (rewrite <- N.mul_add_distr_r; f_equal; lia). lia. }
  assert (A : influence_n * shortfall g2 s z / ((influence_n + influence_d) * (z * z)) <= influence_n * shortfall g1 s z / ((influence_n + influence_d) * (z * z)) + (g2 - g1)).
  { apply div_shift; [apply N.neq_mul_0; split; [vm_compute; done|lia]|]. transitivity (influence_n * (shortfall g1 s z + (g2 - g1) * (z * z))); [apply N.mul_le_mono_l; done|].
    rewrite N.mul_add_distr_l. apply N.add_le_mono_l. rewrite N.mul_assoc, (N.mul_comm influence_n), <- !N.mul_assoc. apply N.mul_le_mono_l. apply N.mul_le_mono_r. vm_compute. done. }
  pose proof (adjustment_le influence_n influence_d g1 (z * z) (shortfall g1 s z) Zne ltac:(vm_compute; done) (shortfall_le _ _ _)). lia.
Qed.
Lemma documented_floor p b supply : 1000 <= supply -> capped b supply * influence_d <= documented_balance p b supply * (influence_n + influence_d).
Proof.
  intros Hs. unfold documented_balance. set (z := saturation supply). set (g := capped b supply). set (s := capped p supply).
  assert (Hz : 0 < z) by (apply N.div_str_pos; lia). clearbody z g s. assert (Zne : 0 < z * z) by (apply N.mul_pos_pos; done).
  set (a := influence_n * shortfall g s z / ((influence_n + influence_d) * (z * z))).
  assert (A : a * (influence_n + influence_d) <= influence_n * g).
  { pose proof (shortfall_le s z g) as SL. assert (B : (influence_n + influence_d) * (z * z) * a <= influence_n * shortfall g s z) by (apply N.mul_div_le; apply N.neq_mul_0; split; [vm_compute; done|lia]).
    assert (B2 : influence_n * shortfall g s z <= influence_n * g * (z * z)) by (rewrite <- N.mul_assoc; apply N.mul_le_mono_l; done).
    apply (N.mul_le_mono_pos_r _ _ (z * z) Zne). lia. }
  rewrite N.mul_sub_distr_r. unfold influence_n, influence_d in *. lia.
Qed.

(** ** Hash check *)
Lemma words_capacity n a : words n a -> uval a < capacity n.
Proof. apply uval_bound. Qed.
Lemma cap_mono n m : (n <= m)%nat -> capacity n <= capacity m.
Proof. intro H. unfold capacity. apply N.pow_le_mono_r; lia. Qed.
Lemma cap_add n m : capacity (n + m) = capacity n * capacity m.
Proof. unfold capacity. rewrite <- N.pow_add_r. f_equal. lia. Qed.
Lemma hash_below_spec hash target balance : words 4 hash -> words 4 target -> balance <= U128_MAX ->
  hash_below hash target balance = if uval hash <=? balance * uval target then Ok tt else Err HashTooHigh.
Proof.
  intros Hh Ht Hb. unfold hash_below. destruct (from_u128_words 8 balance) as [Wb Vb]; [lia|done|].
  destruct (widen_spec 4 4 target Ht) as [Wt Vt]. destruct (widen_spec 4 4 hash Hh) as [Wh Vh]. cbn [Nat.add] in Wt, Wh.
  assert (B : balance * uval target < capacity 8).
  { apply N.lt_le_trans with (capacity 4 * capacity 4); [|rewrite <- cap_add; apply cap_mono; lia]. pose proof (words_capacity _ _ Ht) as Bt.
    assert (balance < capacity 4) by (apply N.le_lt_trans with U128_MAX; [done|vm_compute; done]). apply N.mul_lt_mono; done. }
  destruct (umul 8 _ _ Wb Wt) as (r & -> & Wr & Vr); [rewrite Vb, Vt; done|]. rewrite (ucompare_spec 8) by done. rewrite Vr, Vb, Vt, Vh.
  destruct (N.compare_spec (uval hash) (balance * uval target)) as [E|E|E].
  - by rewrite (proj2 (N.leb_le _ _)) by lia.
  - by rewrite (proj2 (N.leb_le _ _)) by lia.
  - by rewrite (proj2 (N.leb_gt _ _)) by lia.
Qed.

(** ** Targets *)
Lemma u64_words n x : (0 < n)%nat -> x <= U64_MAX -> words n (from_u64 n x) /\ uval (from_u64 n x) = x.
Proof. intros Hn Hx. apply from_u64_words; [done|]. unfold U64_MAX, W in *. lia. Qed.
Lemma pos_new_target_spec cf prev actual spacing : words 4 prev -> words 4 (target_limit cf) -> actual <= U64_MAX -> 0 < spacing -> spacing <= U64_MAX -> change_limit cf <= 1000 ->
  exists v, words 4 v /\ pos_new_target cf prev actual spacing = compact_encode v /\
    uval v = N.min (uval (target_limit cf)) (clamp (uval prev * N.max 1 actual / spacing) (uval prev - uval prev * change_limit cf / 1000) (uval prev + uval prev * change_limit cf / 1000)).
Proof.
  intros Hp Hl Ha Hs Hs' Hc. unfold pos_new_target. set (p := uval prev). set (L := uval (target_limit cf)).
  destruct (widen_spec 4 4 prev Hp) as [Wp Vp]. cbn [Nat.add] in Wp. set (wp := widen 4 prev) in *. clearbody wp. fold p in Vp.
  assert (Bp : p < capacity 4) by (apply words_capacity; done). assert (BL : L < capacity 4) by (apply words_capacity; done).
  assert (Ea : (if actual =? 0 then 1 else actual) = N.max 1 actual) by (destruct (actual =? 0) eqn:E; lia). rewrite Ea. set (a := N.max 1 actual) in *.
  assert (Ba : a <= U64_MAX) by (unfold a, U64_MAX in *; lia). clearbody a. clear Ea Ha.
  destruct (u64_words 8 a) as [Wa Va]; [lia|done|]. destruct (u64_words 8 spacing) as [Wsp Vsp]; [lia|done|].
  assert (Bc : change_limit cf <= U64_MAX) by (unfold U64_MAX; lia). destruct (u64_words 8 (change_limit cf)) as [Wc Vc]; [lia|done|].
  destruct (u64_words 8 1000) as [Wk Vk]; [lia|vm_compute; done|].
  set (ua := from_u64 8 a) in *. set (us := from_u64 8 spacing) in *. set (uc := from_u64 8 (change_limit cf)) in *. set (uk := from_u64 8 1000) in *. clearbody ua us uc uk.
  assert (Sm : forall x, x <= U64_MAX -> p * x < capacity 8).
  { intros x Hx. apply N.lt_le_trans with (capacity 4 * capacity 1).
    - apply N.mul_lt_mono; [done|]. apply N.le_lt_trans with U64_MAX; [done|vm_compute; done].
    - rewrite <- cap_add. apply cap_mono. lia. }
  assert (C8 : capacity 4 + capacity 4 <= capacity 8) by (vm_compute; done).
  destruct (umul 8 wp ua Wp Wa) as (n1 & -> & Wn1 & Vn1); [rewrite Vp, Va; apply Sm; done|]. cbn [rbind].
  destruct (udiv 8 n1 us) as (nt & -> & Wnt & Vnt); [lia|done|done|rewrite Vsp; lia|]. cbn [rexpect rbind].
  destruct (umul 8 wp uc Wp Wc) as (n2 & -> & Wn2 & Vn2); [rewrite Vp, Vc; apply Sm; done|]. cbn [rbind].
  destruct (udiv 8 n2 uk) as (ch & -> & Wch & Vch); [lia|done|done|rewrite Vk; done|]. cbn [rexpect rbind].
  assert (Ec : uval ch = p * change_limit cf / 1000) by (rewrite Vch, Vn2, Vp, Vc, Vk; done). set (delta := p * change_limit cf / 1000) in *.
  assert (Dp : delta <= p) by (apply N.div_le_upper_bound; [done|]; rewrite N.mul_comm; apply N.mul_le_mono_r; done).
  assert (En : uval nt = p * a / spacing) by (rewrite Vnt, Vn1, Vp, Va, Vsp; done). set (q := p * a / spacing) in *.
  clearbody delta q.
  destruct (usub 8 wp ch) as (lo & -> & Wlo & Vlo); [lia|done|done|rewrite Vp, Ec; done|]. cbn [expect rbind].
  destruct (uchecked_add_spec 8 wp ch Wp Wch) as [A _]. destruct A as (hi & -> & Whi & Vhi); [rewrite Vp, Ec; lia|]. cbn [expect rbind].
  rewrite !(ugeb_spec 8) by done. rewrite Vlo, Vhi, Vp, Ec, En. rewrite (proj2 (N.leb_le (p - delta) (p + delta))) by lia. cbn [rbind].
  set (nt' := if negb (p - delta <=? q) then lo else if negb (q <=? p + delta) then hi else nt).
  assert (X : words 8 nt' /\ uval nt' = clamp q (p - delta) (p + delta)).
  { unfold nt', clamp. rewrite Vp, Ec in Vlo, Vhi. clear -Wlo Whi Wnt Vlo Vhi En Dp. destruct (p - delta <=? q) eqn:E1; cbn [negb]; [destruct (q <=? p + delta) eqn:E2; cbn [negb]|]; split; try done; lia. }
  destruct X as [Wn' Vn']. clearbody nt'. set (c := clamp q (p - delta) (p + delta)) in *. clearbody c.
  destruct (u256_of_u512_spec nt' Wn') as [S1 S2]. destruct (N.lt_ge_cases (uval nt') (capacity 4)) as [F|F].
  - destruct (S1 F) as (r & -> & Wr & Vr). cbn [rbind]. eexists. split; [|split; [reflexivity|]].
    + destruct (ugeb r (target_limit cf)); done.
    + rewrite (ugeb_spec 4) by done. rewrite Vr, Vn'. fold L. destruct (L <=? c) eqn:E; [fold L; lia|rewrite Vr, Vn'; lia].
  - rewrite (S2 F). cbn [rbind]. exists (target_limit cf). split; [done|]. split.
    + destruct (ugeb (target_limit cf) (target_limit cf)); done.
    + fold L. rewrite Vn' in F. lia.
Qed.
Lemma words_max : words 4 (repeat (W - 1) 4) /\ uval (repeat (W - 1) 4) = capacity 4 - 1.
Proof. split; [split; [done|repeat constructor; vm_compute; done]|vm_compute; done]. Qed.
Lemma pow_new_target_spec actual timespan bits limit old : compact_decode bits = Ok old -> words 4 limit -> actual <= U64_MAX -> 0 < timespan -> timespan <= U64_MAX ->
  exists v, words 4 v /\ pow_new_target actual timespan bits limit = rexpect (compact_encode v) /\
    uval v = N.min (uval limit) (N.min (uval old * actual) (capacity 4 - 1) / timespan).
Proof.
  intros Hd Hl Ha Ht Ht'. unfold pow_new_target. rewrite Hd. cbn [rmap_err rbind]. destruct (decode_ok bits old Hd) as (_ & _ & _ & Wo & _).
  destruct (u64_words 4 actual) as [Wa Va]; [lia|done|]. destruct (u64_words 4 timespan) as [Wt Vt]; [lia|done|].
  set (ua := from_u64 4 actual) in *. set (ut := from_u64 4 timespan) in *. clearbody ua ut.
  destruct words_max as [Wm Vm]. set (um := repeat (W - 1) 4) in *. clearbody um. set (C := capacity 4) in *. assert (Cx : C = capacity 4) by done. assert (0 < C) by (apply capacity_pos). clearbody C.
  set (pr := match uchecked_mul old ua with Ok v => Ok v | Err _ => Ok um | Panic => Panic end : res pow_err (list N)).
  assert (X : exists x, pr = Ok x /\ words 4 x /\ uval x = N.min (uval old * actual) (C - 1)).
  { unfold pr. destruct (N.lt_ge_cases (uval old * actual) C) as [F|F].
    - destruct (umul 4 old ua Wo Wa) as (r & -> & Wr & Vr); [rewrite Va, <- Cx; done|]. exists r. split_and!; [done|done|]. rewrite Vr, Va. lia.
    - rewrite (umul_err 4 old ua Wo Wa); [|rewrite Va, <- Cx; done]. exists um. split_and!; [done|done|]. rewrite Vm. lia. }
  destruct X as (x & -> & Wx & Vx). cbn [rbind]. destruct (udiv 4 x ut) as (q & -> & Wq & Vq); [lia|done|done|rewrite Vt; lia|]. cbn [rexpect rbind].
  eexists. split; [|split; [reflexivity|]].
  - destruct (ugeb limit q); done.
  - rewrite (ugeb_spec 4) by done. rewrite Vt, Vx in Vq. set (y := N.min (uval old * actual) (C - 1) / timespan) in *. clearbody y.
    destruct (uval q <=? uval limit) eqn:E; lia.
Qed.
