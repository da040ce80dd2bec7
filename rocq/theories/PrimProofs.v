(** Proofs about small primitives. *)
From Coq Require Import Ascii QArith.
From Verif Require Import Base AmountModel TextModel TextSpec TextProofs UintModel UintSpec UintProofs UintShiftProofs PrimModel PrimSpec.
Local Open Scope N_scope.

(** ** Heights and time locks *)
Lemma height_add_spec h d : (I64_MIN <= d <= I64_MAX)%Z ->
  (forall r, height_add h d = Ok r <-> (Z.of_N h <= I64_MAX /\ Z.of_N h + d <= I64_MAX /\ Z.of_N r = Z.of_N h + d)%Z) /\
  (height_add h d = Panic <-> (Z.of_N h <= I64_MAX /\ I64_MAX < Z.of_N h + d)%Z).
Proof.
  intros Hd. unfold height_add, i64_of_u64, i64_checked, u64_of_i64, I64_MAX, I64_MIN in *.
  destruct (Z.leb_spec (Z.of_N h) 9223372036854775807); cbn [rbind ok_or expect].
  - destruct (Z.leb_spec (-9223372036854775808) (Z.of_N h + d)), (Z.leb_spec (Z.of_N h + d) 9223372036854775807); cbn [andb expect rbind]; try lia.
    + destruct (Z.leb_spec 0 (Z.of_N h + d)); cbn [ok_or]; split; [|split; [done|lia]| |split; [done|lia]].
      * intros r. split; [intros [= <-]; lia|]. intros (_ & _ & E). f_equal. lia.
      * intros r. split; [done|lia].
    + split; [|split; [lia|done]]. intros r. split; [done|lia].
  - split; [|split; [done|lia]]. intros r. split; [done|lia].
Qed.
Lemma height_sub_spec h d : (I64_MIN <= d <= I64_MAX)%Z ->
  height_sub h d <> Panic /\
  forall r, height_sub h d = Ok r <-> (Z.of_N h <= I64_MAX /\ Z.of_N h - d <= I64_MAX /\ Z.of_N r = Z.of_N h - d)%Z.
Proof.
  intros Hd. unfold height_sub, i64_of_u64, i64_checked, u64_of_i64, I64_MAX, I64_MIN in *.
  destruct (Z.leb_spec (Z.of_N h) 9223372036854775807); cbn [rbind ok_or].
  - destruct (Z.ltb_spec (Z.of_N h) 0); [lia|].
    destruct (Z.leb_spec (-9223372036854775808) (Z.of_N h - d)), (Z.leb_spec (Z.of_N h - d) 9223372036854775807); cbn [andb rbind ok_or]; try lia.
    + destruct (Z.ltb_spec (Z.of_N h - d) 0), (Z.leb_spec 0 (Z.of_N h - d)); cbn [ok_or]; try lia; (split; [done|]); intros r.
      * split; [done|lia].
      * split; [intros [= <-]; lia|]. intros (_ & _ & E). f_equal. lia.
    + split; [done|]. intros r. split; [done|lia].
  - split; [done|]. intros r. split; [done|lia].
Qed.
Lemma height_diff_spec h1 h2 : (Z.of_N h1 <= I64_MAX)%Z -> (Z.of_N h2 <= I64_MAX)%Z ->
  height_diff h1 h2 = Ok (Z.of_N h1 - Z.of_N h2)%Z.
Proof.
  intros H1 H2. unfold height_diff, i64_of_u64, i64_checked. unfold I64_MAX, I64_MIN in *.
  rewrite (proj2 (Z.leb_le _ _) H1), (proj2 (Z.leb_le _ _) H2). cbn [ok_or rbind].
  destruct (Z.leb_spec (-9223372036854775808) (Z.of_N h1 - Z.of_N h2)), (Z.leb_spec (Z.of_N h1 - Z.of_N h2) 9223372036854775807); cbn [andb ok_or]; try lia. done.
Qed.

Lemma check_at_least_ok cur req e : check_at_least cur req e = Ok tt <-> req <= cur.
Proof. unfold check_at_least. destruct (N.leb_spec req cur); split; intros; try done; lia. Qed.
Lemma check_timelock_ok sh st lock h t : (Z.of_N h <= I64_MAX)%Z -> t <= U64_MAX ->
  check_timelock sh st lock h t = Ok tt <-> unlocked sh st lock h t.
Proof.
  intros Hh Ht. destruct lock as [k|k|n|dt]; cbn [check_timelock unlocked].
  - apply check_at_least_ok.
  - apply check_at_least_ok.
  - unfold i64_of_u64. destruct (Z.leb_spec (Z.of_N n) I64_MAX) as [Hn|Hn]; cbn [ok_or rbind]; [|split; [done|lia]].
    assert (Hd : (I64_MIN <= Z.of_N n <= I64_MAX)%Z) by (unfold I64_MIN in *; lia).
    destruct (height_add_spec sh (Z.of_N n) Hd) as [Hok Hpan]. destruct (height_add sh (Z.of_N n)) as [r|[]|] eqn:E; cbn [rmap_err rbind].
    + destruct (proj1 (Hok r) eq_refl) as (H1 & H2 & H3). rewrite check_at_least_ok. lia.
    + split; [done|]. intros Hu. assert (Err tt = Ok (sh + n)) as F; [|done]. apply Hok. lia.
    + split; [done|]. intros Hu. destruct (proj1 Hpan eq_refl). lia.
  - unfold add_int_seconds, checked_add. destruct (N.leb_spec (st + dt) U64_MAX); cbn [ok_or rbind]; [apply check_at_least_ok|].
    split; [done|lia].
Qed.
Lemma check_timelock_sound sh st lock h t : check_timelock sh st lock h t = Ok tt -> unlocked sh st lock h t.
Proof.
  destruct lock as [k|k|n|dt]; cbn [check_timelock unlocked].
  - apply check_at_least_ok.
  - apply check_at_least_ok.
  - unfold i64_of_u64. destruct (Z.leb_spec (Z.of_N n) I64_MAX) as [Hn|Hn]; cbn [ok_or rbind]; [|done].
    assert (Hd : (I64_MIN <= Z.of_N n <= I64_MAX)%Z) by (unfold I64_MIN in *; lia).
    destruct (height_add_spec sh (Z.of_N n) Hd) as [Hok _]. destruct (height_add sh (Z.of_N n)) as [r|[]|] eqn:E; cbn [rmap_err rbind]; try done.
    destruct (proj1 (Hok r) eq_refl) as (H1 & H2 & H3). rewrite check_at_least_ok. lia.
  - unfold add_int_seconds, checked_add. destruct (N.leb_spec (st + dt) U64_MAX); cbn [ok_or rbind]; [apply check_at_least_ok|done].
Qed.
Lemma check_timelock_stays sh st lock h t h' t' : check_timelock sh st lock h t = Ok tt -> h <= h' -> t <= t' ->
  check_timelock sh st lock h' t' = Ok tt.
Proof.
  intros H Hh Ht. destruct lock as [k|k|n|dt]; cbn [check_timelock] in *.
  - rewrite check_at_least_ok in *. lia.
  - rewrite check_at_least_ok in *. lia.
  - destruct (ok_or (i64_of_u64 n) HeightArith) as [d|e|]; cbn [rbind] in *; try done.
    destruct (rmap_err (fun _ => HeightArith) (height_add sh d)) as [r|e|]; cbn [rbind] in *; try done. rewrite check_at_least_ok in *. lia.
  - destruct (ok_or (add_int_seconds st dt) TimestampArith) as [r|e|]; cbn [rbind] in *; try done. rewrite check_at_least_ok in *. lia.
Qed.
Lemma check_timelock_panics sh st lock h t :
  check_timelock sh st lock h t = Panic <->
  exists n, lock = ForBlockCount n /\ (Z.of_N sh <= I64_MAX /\ Z.of_N n <= I64_MAX /\ I64_MAX < Z.of_N sh + Z.of_N n)%Z.
Proof.
  destruct lock as [k|k|n|dt]; cbn [check_timelock].
  - unfold check_at_least. split; [|intros (? & [=] & _)]. by destruct (k <=? h).
  - unfold check_at_least. split; [|intros (? & [=] & _)]. by destruct (k <=? t).
  - unfold i64_of_u64. destruct (Z.leb_spec (Z.of_N n) I64_MAX) as [Hn|Hn]; cbn [ok_or rbind].
    + assert (Hd : (I64_MIN <= Z.of_N n <= I64_MAX)%Z) by (unfold I64_MIN in *; lia).
      destruct (height_add_spec sh (Z.of_N n) Hd) as [_ Hpan]. destruct (height_add sh (Z.of_N n)) as [r|[]|]; cbn [rmap_err rbind].
      * split; [unfold check_at_least; by destruct (r <=? h)|]. intros (m & [= <-] & H). assert (Ok r = @Panic unit N) as F; [|done]. apply Hpan. lia.
      * split; [done|]. intros (m & [= <-] & H). assert (Err tt = @Panic unit N) as F; [|done]. apply Hpan. lia.
      * split; [|done]. intros _. exists n. split; [done|]. destruct (proj1 Hpan eq_refl). lia.
    + split; [done|]. intros (m & [= <-] & H). lia.
  - split; [|intros (? & [=] & _)]. unfold add_int_seconds, checked_add. destruct (st + dt <=? U64_MAX); cbn [ok_or rbind]; [|done].
    unfold check_at_least. by destruct (st + dt <=? t).
Qed.

(** ** Rationals *)
Lemma ueqb_true a b : ueqb a b = true <-> a = b.
Proof. unfold ueqb. apply bool_decide_eq_true. Qed.
Lemma mul_compare_l p a b : p <> 0 -> (p * a ?= p * b) = (a ?= b).
Proof.
  intros Hp. destruct (N.compare_spec a b) as [->|H|H]; [apply N.compare_refl|apply N.compare_lt_iff|apply N.compare_gt_iff];
    apply N.mul_lt_mono_pos_l; lia.
Qed.
Lemma rational_cmp_cross x y : fraction x -> fraction y -> (uval (numer x) <> 0 \/ uval (numer y) <> 0 \/ denom x = denom y) ->
  rational_cmp x y = Ok (uval (numer x) * uval (denom y) ?= uval (numer y) * uval (denom x)).
Proof.
  intros (Hxn & Hxd & Hx0) (Hyn & Hyd & Hy0) Hnz. unfold rational_cmp.
  destruct (ueqb (denom x) (denom y)) eqn:E1; [|destruct (ueqb (numer x) (numer y)) eqn:E2].
  - apply ueqb_true in E1. rewrite E1, (ucompare_spec 4) by done. f_equal. symmetry.
    rewrite !(N.mul_comm _ (uval (denom y))). by apply mul_compare_l.
  - apply ueqb_true in E2. rewrite E2, (ucompare_spec 4) by done. f_equal. symmetry. apply mul_compare_l.
    rewrite E2 in Hnz. destruct Hnz as [|[|Hd]]; auto. rewrite Hd in E1. assert (ueqb (denom y) (denom y) = true) by by apply ueqb_true. congruence.
  - destruct (widen_spec 4 4 _ Hxn) as [H1 V1]. destruct (widen_spec 4 4 _ Hyd) as [H2 V2].
    destruct (widen_spec 4 4 _ Hyn) as [H3 V3]. destruct (widen_spec 4 4 _ Hxd) as [H4 V4]. cbn [Nat.add] in *.
    assert (Hcap : forall u v, u < capacity 4 -> v < capacity 4 -> u * v < capacity 8).
    { intros u v Hu Hv. change (capacity 8) with (capacity 4 * capacity 4). nia. }
    pose proof (uval_bound 4 _ Hxn). pose proof (uval_bound 4 _ Hxd). pose proof (uval_bound 4 _ Hyn). pose proof (uval_bound 4 _ Hyd).
    destruct (proj1 (uchecked_mul_spec 8 _ _ H1 H2)) as (r & -> & Hr & Vr); [rewrite V1, V2; auto|].
    destruct (proj1 (uchecked_mul_spec 8 _ _ H3 H4)) as (q & -> & Hq & Vq); [rewrite V3, V4; auto|].
    cbn [compare_options]. rewrite (ucompare_spec 8) by done. rewrite Vr, Vq, V1, V2, V3, V4. done.
Qed.
Lemma ratio_compare x y : fraction x -> fraction y ->
  (ratio x ?= ratio y)%Q = (uval (numer x) * uval (denom y) ?= uval (numer y) * uval (denom x)).
Proof.
  intros (_ & _ & Hx0) (_ & _ & Hy0). unfold Qcompare, ratio. cbn [Qnum Qden].
  rewrite !Z2Pos.id by lia. rewrite <- !N2Z.inj_mul. apply N2Z.inj_compare.
Qed.
Lemma rational_cmp_value x y : fraction x -> fraction y -> (uval (numer x) <> 0 \/ uval (numer y) <> 0 \/ denom x = denom y) ->
  rational_cmp x y = Ok (ratio x ?= ratio y)%Q.
Proof. intros Hx Hy H. rewrite ratio_compare by done. by apply rational_cmp_cross. Qed.

(** ** Compact targets *)
Lemma land_bit23 m : (N.land m 8388608 =? 0) = negb (N.testbit m 23).
Proof.
  change 8388608 with (2 ^ 23). destruct (N.testbit m 23) eqn:E; cbn [negb].
  - apply N.eqb_neq. intros H. apply (f_equal (fun z => N.testbit z 23)) in H.
    rewrite N.land_spec, N.pow2_bits_true, E, N.bits_0 in H. done.
  - apply N.eqb_eq. apply N.bits_inj. intros i. rewrite N.land_spec, N.pow2_bits_eqb, N.bits_0.
    destruct (N.eqb_spec 23 i) as [<-|]; [by rewrite E|apply andb_false_r].
Qed.
Lemma testbit_top m k : m < 2 ^ (k + 1) -> N.testbit m k = (2 ^ k <=? m).
Proof.
  intros H. pose proof (two_pow_nz k) as Hk. rewrite N.pow_add_r, N.pow_1_r in H.
  assert (m / 2 ^ k < 2) as Hq by (apply N.div_lt_upper_bound; lia).
  destruct (N.leb_spec (2 ^ k) m) as [Hle|Hlt].
  - apply N.testbit_true. assert (m / 2 ^ k = 1) as ->; [|done]. apply N.le_antisymm; [lia|]. apply N.div_le_lower_bound; lia.
  - apply N.testbit_false. rewrite N.div_small by done. done.
Qed.

(** The size in bytes *)
Lemma byte_size u k : k = (N.size u + 7) / 8 -> u < 256 ^ k /\ (0 < u -> 256 ^ (k - 1) <= u /\ 1 <= k).
Proof.
  intros Ek. assert (H8 : 8 * k <= N.size u + 7) by (subst k; apply N.mul_div_le; lia).
  assert (H9 : N.size u + 7 < 8 * (k + 1)) by (subst k; rewrite N.add_1_r; apply N.mul_succ_div_gt; lia). clear Ek.
  rewrite !pow256. split.
  - eapply N.lt_le_trans; [apply N.size_gt|]. apply N.pow_le_mono_r; lia.
  - intros Hu. assert (N.size u <> 0) as Hz by (intros E; apply (proj1 (size_zero_iff _)) in E; lia).
    split; [|lia]. etransitivity; [|by apply size_lower]. apply N.pow_le_mono_r; lia.
Qed.
Lemma pow256_nz k : 256 ^ k <> 0. Proof. apply N.pow_nonzero. lia. Qed.
Lemma pow256_add a b : 256 ^ (a + b) = 256 ^ a * 256 ^ b. Proof. apply N.pow_add_r. Qed.
Lemma low_u64_spec n a : (0 < n)%nat -> words n a -> low_u64 a = uval a mod W.
Proof. intros Hn Ha. unfold low_u64. rewrite (words_digit n) by done. cbn [N.of_nat]. by rewrite N.pow_0_r, N.div_1_r. Qed.

(** What the encoder computes *)
Definition encoded (u m s : N) : Prop :=
  m < 2 ^ 23 /\ s <= 33 /\ (s = 33 -> m < 2 ^ 16) /\
  (s <= 3 /\ m = u * 256 ^ (3 - s) \/ 3 < s /\ m = u / 256 ^ (s - 3) /\ 2 ^ 15 <= m).

Lemma mantissa_bounds u k : k = (N.size u + 7) / 8 ->
  let m0 := if k <=? 3 then u * 256 ^ (3 - k) else u / 256 ^ (k - 3) in
  m0 < 2 ^ 24 /\ (0 < u -> 2 ^ 16 <= m0).
Proof.
  intros Ek. destruct (byte_size u k Ek) as [Hlt Hge]. clear Ek. cbv zeta. destruct (N.leb_spec k 3) as [Hk|Hk].
  - split.
    + change (2 ^ 24) with (256 ^ 3). replace 3 with (k + (3 - k)) at 2 by lia. rewrite pow256_add.
      apply N.mul_lt_mono_pos_r; [|done]. pose proof (pow256_nz (3 - k)). lia.
    + intros Hu. destruct (Hge Hu) as [Hle H1]. change (2 ^ 16) with (256 ^ 2). replace 2 with (k - 1 + (3 - k)) by lia.
      rewrite pow256_add. by apply N.mul_le_mono_r.
  - assert (E : 256 ^ k = 256 ^ (k - 3) * 2 ^ 24) by (change (2 ^ 24) with (256 ^ 3); rewrite <- pow256_add; f_equal; lia).
    assert (E2 : 256 ^ (k - 1) = 256 ^ (k - 3) * 2 ^ 16) by (change (2 ^ 16) with (256 ^ 2); rewrite <- pow256_add; f_equal; lia).
    split.
    + apply N.div_lt_upper_bound; [apply pow256_nz|]. by rewrite <- E.
    + intros Hu. destruct (Hge Hu) as [Hle H1]. apply N.div_le_lower_bound; [apply pow256_nz|]. by rewrite <- E2.
Qed.
Lemma encode_spec v : words 4 v -> exists m s, compact_encode v = Ok (m + 2 ^ 24 * s) /\ encoded (uval v) m s.
Proof.
  intros Hv. unfold compact_encode. rewrite (bits_spec 4) by (auto; lia). pose proof (uval_bound 4 v Hv) as Hb.
  set (u := uval v) in *. remember ((N.size u + 7) / 8) as k eqn:Ek. pose proof (mantissa_bounds u k Ek) as [Hm24 Hm16].
  destruct (byte_size u k Ek) as [Hlt Hge].
  assert (Hk32 : k <= 32).
  { subst k. apply N.lt_succ_r. apply N.div_lt_upper_bound; [lia|]. pose proof (size_upper u 256 Hb). lia. }
  assert (Hk0 : u = 0 -> k = 0) by (intros E; rewrite Ek, E; done).
  clear Ek. set (m0 := if k <=? 3 then u * 256 ^ (3 - k) else u / 256 ^ (k - 3)) in *.
  assert (Ecompact : (if k <=? 3 then Ok (N.shiftl (low_u64 v) (8 * (3 - k)) mod W)
                      else let? bn := ushr v (8 * (k - 3)) in Ok (low_u64 bn)) = @Ok unit N m0).
  { unfold m0 in *. destruct (N.leb_spec k 3) as [Hk|Hk].
    - f_equal. rewrite (low_u64_spec 4) by (auto; lia). fold u. rewrite N.shiftl_mul_pow2, <- pow256.
      assert (u <= u * 256 ^ (3 - k)) as Hle by (pose proof (pow256_nz (3 - k)); nia).
      assert (2 ^ 24 < W) by (unfold W; cbn; lia). rewrite (N.mod_small u) by lia. apply N.mod_small. lia.
    - destruct (ushr_spec 4 v (8 * (k - 3)) Hv) as (bn & -> & Hbn & Ebn). cbn [rbind]. f_equal.
      rewrite (low_u64_spec 4) by (auto; lia). rewrite Ebn. fold u. rewrite <- pow256. apply N.mod_small.
      eapply N.lt_trans; [exact Hm24|]. unfold W; cbn; lia. }
  rewrite Ecompact. cbn [rbind]. rewrite land_bit23, testbit_top by exact Hm24. rewrite negb_involutive.
  assert (Efin : forall m s, m < 2 ^ 23 -> s <= 33 -> N.lor (m mod 2 ^ 32) (N.shiftl s 24 mod 2 ^ 32) = m + 2 ^ 24 * s).
  { intros m s Hm Hs. assert (m < 2 ^ 32) by (eapply N.lt_trans; [exact Hm|]; cbn; lia). rewrite (N.mod_small m) by done.
    rewrite N.mod_small. - apply lor_shifted. eapply N.lt_trans; [exact Hm|]; cbn; lia.
    - rewrite N.shiftl_mul_pow2. change (2 ^ 24) with 16777216. change (2 ^ 32) with 4294967296. lia. }
  destruct (N.leb_spec (2 ^ 23) m0) as [Htop|Htop].
  - exists (m0 / 256), (k + 1). rewrite N.shiftr_div_pow2. change (2 ^ 8) with 256.
    assert (Hm : m0 / 256 < 2 ^ 16) by (apply N.div_lt_upper_bound; [lia|exact Hm24]).
    assert (Hm' : m0 / 256 < 2 ^ 23) by (eapply N.lt_trans; [exact Hm|]; cbn; lia).
    split; [rewrite Efin by (auto; lia); done|]. split; [done|]. split; [lia|]. split; [done|].
    assert (Hm15 : 2 ^ 15 <= m0 / 256) by (apply N.div_le_lower_bound; [lia|exact Htop]).
    unfold m0 in *. destruct (N.leb_spec k 3) as [Hk|Hk].
    + destruct (N.eq_dec k 3) as [->|Hk3].
      * right. split; [lia|]. split; [|done]. rewrite N.mul_1_r. done.
      * left. split; [lia|]. replace (3 - k) with (3 - (k + 1) + 1) by lia. rewrite pow256_add, N.pow_1_r, N.mul_assoc.
        apply N.div_mul. lia.
    + right. split; [lia|]. split; [|done]. rewrite N.div_div by (try apply pow256_nz; lia). f_equal.
      replace (k + 1 - 3) with (k - 3 + 1) by lia. rewrite pow256_add, N.pow_1_r. done.
  - exists m0, k. split; [rewrite Efin by (auto; lia); done|]. split; [done|]. split; [lia|]. split; [lia|].
    unfold m0 in *. destruct (N.leb_spec k 3) as [Hk|Hk]; [left; done|]. right. split; [done|]. split; [done|].
    destruct (N.eq_dec u 0) as [Hu|Hu].
    + specialize (Hk0 Hu). lia.
    + etransitivity; [|apply Hm16; lia]. cbn; lia.
Qed.

(** What the decoder computes *)
Definition represents (m s : N) : N := if s <=? 3 then m / 256 ^ (3 - s) else m * 256 ^ (s - 3).
Definition word_of (m s : N) : N := if s <=? 3 then m / 256 ^ (3 - s) else m.
(** Too large for 256 bits *)
Definition oversized (word s : N) : bool := (34 <? s) || ((255 <? word) && (33 <? s)) || ((65535 <? word) && (32 <? s)).
Lemma represents_small m s : m < 2 ^ 23 -> m = 0 \/ oversized (word_of m s) s = false -> represents m s < capacity 4.
Proof.
  intros Hm Hsz. unfold represents. destruct Hsz as [->|Hsz].
  { destruct (s <=? 3); [rewrite N.div_0_l by apply pow256_nz|rewrite N.mul_0_l]; apply capacity_pos. }
  unfold word_of, oversized in Hsz. destruct (N.leb_spec s 3) as [Hs|Hs].
  - eapply N.le_lt_trans; [apply N.div_le_upper_bound with (q := m); [apply pow256_nz|pose proof (pow256_nz (3 - s)); nia]|].
    eapply N.lt_trans; [exact Hm|]. by vm_compute.
  - apply orb_false_iff in Hsz as [[E1 E2]%orb_false_iff E3]. apply N.ltb_ge in E1.
    assert (Hpow : forall j b, s - 3 <= j -> m < b -> b * 256 ^ j <= capacity 4 -> m * 256 ^ (s - 3) < capacity 4).
    { intros j b Hj Hmb Hcap. eapply N.lt_le_trans; [|exact Hcap]. apply N.le_lt_trans with (m * 256 ^ j).
      - apply N.mul_le_mono_l, N.pow_le_mono_r; lia.
      - apply N.mul_lt_mono_pos_r; [|done]. pose proof (pow256_nz j); lia. }
    destruct (N.ltb_spec 33 s).
    + rewrite andb_true_r in E2. apply N.ltb_ge in E2. apply (Hpow 31 256); [lia|lia|]. by vm_compute.
    + destruct (N.ltb_spec 32 s).
      * rewrite andb_true_r in E3. apply N.ltb_ge in E3. apply (Hpow 30 65536); [lia|lia|]. by vm_compute.
      * apply (Hpow 29 (2 ^ 23)); [lia|done|]. by vm_compute.
Qed.
Lemma decode_spec c m s : m = c mod 2 ^ 23 -> s = c / 2 ^ 24 ->
  if negb (word_of m s =? 0) && (N.testbit c 23 || oversized (word_of m s) s) then compact_decode c = Err tt
  else exists w, compact_decode c = Ok w /\ words 4 w /\ uval w = represents m s.
Proof.
  intros Em Es. unfold compact_decode. rewrite N.shiftr_div_pow2. rewrite <- Es.
  change 8388607 with (N.ones 23). rewrite N.land_ones, <- Em.
  assert (Hm : m < 2 ^ 23) by (rewrite Em; apply N.mod_lt; cbn; lia).
  rewrite (N.shiftr_div_pow2 m), <- pow256. rewrite land_bit23, negb_involutive. fold (word_of m s).
  assert (HW : word_of m s <= m).
  { unfold word_of. destruct (s <=? 3); [|done]. apply N.div_le_upper_bound; [apply pow256_nz|]. pose proof (pow256_nz (3 - s)); nia. }
  assert (HwW : word_of m s < W) by (eapply N.le_lt_trans; [exact HW|]; eapply N.lt_trans; [exact Hm|]; unfold W; cbn; lia).
  destruct (from_u64_words 4 (word_of m s) ltac:(lia) HwW) as [H1 H2].
  assert (Hval : exists r, (if s <=? 3 then Ok (from_u64 4 (word_of m s)) else ushl (from_u64 4 (word_of m s)) (8 * (s - 3))) = Ok r /\ words 4 r /\
     uval r = represents m s mod capacity 4).
  { destruct (N.leb_spec s 3) as [Hs|Hs].
    - exists (from_u64 4 (word_of m s)). split; [done|]. split; [done|]. rewrite H2. unfold represents, word_of in *. rewrite (proj2 (N.leb_le s 3)) in * by lia.
      symmetry. apply N.mod_small. eapply N.lt_trans; [exact HwW|]. by vm_compute.
    - destruct (ushl_spec 4 _ (8 * (s - 3)) H1) as (r & Er & Hr & Vr). exists r. split; [done|]. split; [done|]. rewrite Vr, H2, <- pow256.
      unfold represents, word_of. rewrite (proj2 (N.leb_gt s 3)) by lia. done. }
  destruct Hval as (r & -> & Hr & Vr). cbn [rbind]. fold (oversized (word_of m s) s). rewrite <- andb_orb_distrib_r.
  destruct (negb (word_of m s =? 0) && (N.testbit c 23 || oversized (word_of m s) s)) eqn:E; [done|].
  exists r. split; [done|]. split; [done|]. rewrite Vr. apply N.mod_small.
  destruct (N.eqb_spec (word_of m s) 0) as [E0|E0].
  - unfold represents, word_of in *. destruct (s <=? 3); rewrite E0; [apply capacity_pos|rewrite N.mul_0_l; apply capacity_pos].
  - apply represents_small; [done|]. right. cbn [negb andb] in E. by apply orb_false_iff in E as [_ E].
Qed.
Lemma decode_ok c w : compact_decode c = Ok w ->
  exists m s, m < 2 ^ 23 /\ words 4 w /\ uval w = represents m s.
Proof.
  intros E. pose proof (decode_spec c _ _ eq_refl eq_refl) as H.
  destruct (negb _ && _) in H; [congruence|]. destruct H as (w' & E' & Hw & Vw). rewrite E in E'. injection E' as <-.
  exists (c mod 2 ^ 23), (c / 2 ^ 24). split; [apply N.mod_lt; cbn; lia|done].
Qed.
Lemma decode_no_panic c : compact_decode c <> Panic.
Proof.
  pose proof (decode_spec c _ _ eq_refl eq_refl) as H. destruct (negb _ && _) in H; [congruence|]. destruct H as (w & -> & _). done.
Qed.
Lemma decode_encoded m s : m < 2 ^ 23 -> s <= 33 -> (s = 33 -> m < 2 ^ 16) ->
  exists w, compact_decode (m + 2 ^ 24 * s) = Ok w /\ words 4 w /\ uval w = represents m s.
Proof.
  intros Hm Hs H33. assert (m < 2 ^ 24) as Hm24 by (eapply N.lt_trans; [exact Hm|]; cbn; lia).
  assert (Esize : (m + 2 ^ 24 * s) / 2 ^ 24 = s).
  { rewrite (N.mul_comm (2 ^ 24)), N.div_add, N.div_small by (auto using two_pow_nz). done. }
  assert (Eword : (m + 2 ^ 24 * s) mod 2 ^ 23 = m).
  { change (2 ^ 24) with (2 * 2 ^ 23). replace (m + 2 * 2 ^ 23 * s) with (m + (2 * s) * 2 ^ 23) by lia.
    rewrite N.mod_add by apply two_pow_nz. by apply N.mod_small. }
  assert (Ebit : N.testbit (m + 2 ^ 24 * s) 23 = false).
  { rewrite <- lor_shifted by done. rewrite N.lor_spec, N.shiftl_spec_low by lia. rewrite testbit_top by done.
    rewrite (proj2 (N.leb_gt _ _) Hm). done. }
  pose proof (decode_spec (m + 2 ^ 24 * s) m s (eq_sym Eword) (eq_sym Esize)) as H. rewrite Ebit in H. cbn [orb] in H.
  assert (oversized (word_of m s) s = false) as Eo.
  { unfold oversized, word_of. destruct (N.leb_spec s 3).
    - rewrite !(proj2 (N.ltb_ge _ s)) by lia. by rewrite !andb_false_r.
    - rewrite (proj2 (N.ltb_ge 34 s)), (proj2 (N.ltb_ge 33 s)) by lia. rewrite andb_false_r. cbn [orb].
      destruct (N.ltb_spec 32 s); [|apply andb_false_r]. rewrite (proj2 (N.ltb_ge 65535 m)); [done|].
      assert (s = 33) as E by lia. specialize (H33 E). change (2 ^ 16) with 65536 in H33. lia. }
  rewrite Eo, andb_false_r in H. exact H.
Qed.

Lemma represents_encoded u m s : encoded u m s ->
  (s <= 3 /\ represents m s = u) \/
  (3 < s /\ represents m s = m * 256 ^ (s - 3) /\ m = u / 256 ^ (s - 3) /\ 2 ^ 15 <= m < 2 ^ 23).
Proof.
  intros (Hm & _ & _ & [[Hs ->]|(Hs & Em & Hm15)]); unfold represents.
  - left. split; [done|]. rewrite (proj2 (N.leb_le s 3)) by done. apply N.div_mul, pow256_nz.
  - right. rewrite (proj2 (N.leb_gt s 3)) by done. auto.
Qed.
(** The largest representable value not above [u] *)
Lemma represents_max u m s m' s' : encoded u m s -> m' < 2 ^ 23 -> represents m' s' <= u ->
  represents m s <= u /\ represents m' s' <= represents m s.
Proof.
  intros He Hm' Hle. destruct (represents_encoded u m s He) as [[Hs ->]|(Hs & -> & Em & Hm15 & Hm23)]; [done|].
  assert (Hwu : m * 256 ^ (s - 3) <= u) by (rewrite Em, N.mul_comm; apply N.mul_div_le, pow256_nz).
  split; [done|]. revert Hle. unfold represents. destruct (N.leb_spec s' 3) as [Hs'|Hs']; intros Hle.
  - assert (m' / 256 ^ (3 - s') <= m') by (apply N.div_le_upper_bound; [apply pow256_nz|]; pose proof (pow256_nz (3 - s')); nia).
    assert (256 <= 256 ^ (s - 3)) as Hp by (rewrite <- (N.pow_1_r 256) at 1; apply N.pow_le_mono_r; lia).
    assert (2 ^ 15 * 256 <= m * 256 ^ (s - 3)) by (by apply N.mul_le_mono). change (2 ^ 15 * 256) with (2 ^ 23) in *. lia.
  - destruct (N.le_gt_cases s s') as [Hss|Hss].
    + assert (E : 256 ^ (s' - 3) = 256 ^ (s' - s) * 256 ^ (s - 3)) by (rewrite <- pow256_add; f_equal; lia).
      rewrite E, N.mul_assoc in *. apply N.mul_le_mono_r. rewrite Em. apply N.div_le_lower_bound; [apply pow256_nz|]. lia.
    + assert (E : 256 ^ (s - 3) = 256 * (256 ^ (s - s' - 1) * 256 ^ (s' - 3))).
      { rewrite <- pow256_add. rewrite <- (N.pow_1_r 256) at 2. rewrite <- pow256_add. f_equal. lia. }
      assert (256 ^ (s' - 3) <= 256 ^ (s - s' - 1) * 256 ^ (s' - 3)) by (pose proof (pow256_nz (s - s' - 1)); nia).
      set (p := 256 ^ (s - s' - 1) * 256 ^ (s' - 3)) in *. clearbody p.
      assert (m' * 256 ^ (s' - 3) <= 2 ^ 23 * p) by (apply N.mul_le_mono; lia).
      assert (2 ^ 15 * (256 * p) <= m * 256 ^ (s - 3)) by (rewrite E; apply N.mul_le_mono_r; done).
      change (2 ^ 23) with (2 ^ 15 * 256) in *. lia.
Qed.
Lemma represents_loss u m s : encoded u m s -> (u - represents m s) * 2 ^ 15 <= represents m s.
Proof.
  intros He. destruct (represents_encoded u m s He) as [[Hs ->]|(Hs & -> & Em & Hm15 & Hm23)]; [lia|].
  pose proof (N.mul_succ_div_gt u (256 ^ (s - 3)) (pow256_nz _)) as Hg. rewrite <- Em in Hg.
  set (p := 256 ^ (s - 3)) in *. clearbody p. assert (u - m * p <= p) by lia.
  etransitivity; [apply N.mul_le_mono_r; eassumption|]. rewrite N.mul_comm. by apply N.mul_le_mono_r.
Qed.
Lemma encoded_unique u m s m' s' : encoded u m s -> encoded (represents m s) m' s' -> represents m s = u \/ (m' = m /\ s' = s).
Proof.
  intros He He'. destruct (represents_encoded u m s He) as [[Hs E]|(Hs & E & Em & Hm15 & Hm23)]; [by left|]. right. rewrite E in He'. clear E Em He u.
  destruct He' as (Hm' & _ & _ & [[Hs' Em']|(Hs' & Em' & Hm15')]).
  - exfalso. assert (256 <= 256 ^ (s - 3)) as Hp by (rewrite <- (N.pow_1_r 256) at 1; apply N.pow_le_mono_r; lia).
    assert (2 ^ 15 * 256 <= m * 256 ^ (s - 3)) by (by apply N.mul_le_mono). change (2 ^ 15 * 256) with (2 ^ 23) in *.
    pose proof (pow256_nz (3 - s')). nia.
  - assert (s' = s) as ->.
    + destruct (N.lt_trichotomy s' s) as [Hlt|[->|Hgt]]; [|done|]; exfalso.
      * pose proof (N.mul_succ_div_gt (m * 256 ^ (s - 3)) (256 ^ (s' - 3)) (pow256_nz _)) as Hg. rewrite <- Em' in Hg.
        assert (E : 256 ^ (s - 3) = 256 * (256 ^ (s - s' - 1) * 256 ^ (s' - 3))).
        { rewrite <- pow256_add. rewrite <- (N.pow_1_r 256) at 2. rewrite <- pow256_add. f_equal. lia. }
        assert (256 ^ (s' - 3) <= 256 ^ (s - s' - 1) * 256 ^ (s' - 3)) by (pose proof (pow256_nz (s - s' - 1)); nia).
        set (p := 256 ^ (s - s' - 1) * 256 ^ (s' - 3)) in *. clearbody p.
        assert (2 ^ 15 * (256 * p) <= m * 256 ^ (s - 3)) by (rewrite E; apply N.mul_le_mono_r; done).
        assert (256 ^ (s' - 3) * N.succ m' <= p * 2 ^ 23) by (apply N.mul_le_mono; lia).
        change (2 ^ 23) with (2 ^ 15 * 256) in *. lia.
      * pose proof (N.mul_div_le (m * 256 ^ (s - 3)) (256 ^ (s' - 3)) (pow256_nz _)) as Hg. rewrite <- Em' in Hg.
        assert (E : 256 ^ (s' - 3) = 256 * (256 ^ (s' - s - 1) * 256 ^ (s - 3))).
        { rewrite <- pow256_add. rewrite <- (N.pow_1_r 256) at 2. rewrite <- pow256_add. f_equal. lia. }
        assert (256 ^ (s - 3) <= 256 ^ (s' - s - 1) * 256 ^ (s - 3)) by (pose proof (pow256_nz (s' - s - 1)); nia).
        set (p := 256 ^ (s' - s - 1) * 256 ^ (s - 3)) in *. clearbody p.
        assert (256 * p * 2 ^ 15 <= m * 256 ^ (s - 3)) by (etransitivity; [|exact Hg]; rewrite E; apply N.mul_le_mono_l; done).
        assert (m * 256 ^ (s - 3) < 2 ^ 23 * 256 ^ (s - 3)) by (apply N.mul_lt_mono_pos_r; [pose proof (pow256_nz (s - 3)); lia|done]).
        assert (2 ^ 23 * 256 ^ (s - 3) <= 2 ^ 23 * p) by (by apply N.mul_le_mono_l). change (2 ^ 23) with (2 ^ 15 * 256) in *. lia.
    + split; [|done]. rewrite Em'. apply N.div_mul, pow256_nz.
Qed.

Lemma compact_round v : words 4 v ->
  exists c w, compact_encode v = Ok c /\ c < 2 ^ 32 /\ compact_decode c = Ok w /\ words 4 w /\
    uval w <= uval v /\ (uval v - uval w) * 2 ^ 15 <= uval w /\
    (forall c' w', compact_decode c' = Ok w' -> uval w' <= uval v -> uval w' <= uval w) /\
    compact_encode w = Ok c.
Proof.
  intros Hv. destruct (encode_spec v Hv) as (m & s & Ee & He). pose proof He as (Hm & Hs & H33 & _).
  destruct (decode_encoded m s Hm Hs H33) as (w & Ed & Hw & Vw).
  exists (m + 2 ^ 24 * s), w. split; [done|].
  split; [change (2 ^ 23) with 8388608 in *; change (2 ^ 24) with 16777216; change (2 ^ 32) with 4294967296; lia|].
  split; [done|]. split; [done|]. rewrite Vw.
  assert (Hmax : forall m' s', m' < 2 ^ 23 -> represents m' s' <= uval v -> represents m s <= uval v /\ represents m' s' <= represents m s).
  { intros m' s'. by apply represents_max. }
  split; [apply (Hmax 0 0); [done|]; cbn; lia|]. split; [by apply represents_loss|].
  split.
  - intros c' w' E' Hle. destruct (decode_ok c' w' E') as (m' & s' & Hm' & _ & Vw'). rewrite Vw' in *. by apply (Hmax m' s').
  - destruct (encode_spec w Hw) as (m' & s' & Ee' & He'). rewrite Vw in He'.
    destruct (encoded_unique _ _ _ _ _ He He') as [E|[-> ->]]; [|done].
    rewrite <- Vw in E. apply (uval_inj 4 w v Hw Hv) in E. subst w. rewrite Ee in Ee'. by rewrite Ee.
Qed.

(** ** Per-thousand values *)
Lemma numeral_chars s i f c : numeral s i f -> c ∈ s ->
  c = " "%char \/ c = "_"%char \/ c = "."%char \/ is_digit c = true.
Proof.
  intros (Hi & Hf & _ & a & b & t & -> & Ht) Hc.
  assert (Hdig : forall d (l : text), all_digits l -> d ∈ l -> is_digit d = true).
  { intros d l Hl Hd. destruct (Hl d Hd) as (n & Hn & E). unfold is_digit. rewrite E.
    rewrite (proj2 (N.leb_le 48 (48 + n))), (proj2 (N.leb_le (48 + n) 57)) by lia. done. }
  apply elem_of_app in Hc as [Hc|[Hc|Hc]%elem_of_app].
  - left. unfold spaces in Hc. apply elem_of_list_In, repeat_spec in Hc. done.
  - destruct (decide (c = "_"%char)) as [->|Hu]; [by right; left|].
    assert (c ∈ filter (fun c => c <> "_"%char) t) as Hin by (apply elem_of_list_filter; done).
    destruct Ht as [E|[E _]]; rewrite E in Hin.
    + apply elem_of_app in Hin as [Hin|[->|Hin]%elem_of_cons]; [|by right; right; left|]; right; right; right; eauto.
    + right; right; right; eauto.
  - left. unfold spaces in Hc. apply elem_of_list_In, repeat_spec in Hc. done.
Qed.
Lemma numeral_no_percent s i f : numeral s i f -> "%"%char ∉ s.
Proof. intros Hn Hin. destruct (numeral_chars s i f _ Hn Hin) as [|[|[|H]]]; try done. Qed.
Lemma reads_as_iff s d a : (d <= 38)%nat -> from_fixedpoint_str s d = Ok a <-> a <= U128_MAX /\ reads_as s d a.
Proof.
  intros Hd. rewrite from_text_spec. unfold reads_as. split.
  - intros (i & f & H1 & H2 & H3 & H4 & H5 & H6 & _). split; [done|]. exists i, f. auto.
  - intros (H5 & i & f & H1 & H2 & H3 & H4 & H6). exists i, f. auto 10.
Qed.
Lemma drop_percents_rev t n : (forall c t', t = c :: t' -> c <> "%"%char) -> drop_percents (percents n ++ t) = t.
Proof.
  intros Ht. induction n as [|n IH]; cbn [percents repeat app drop_percents].
  - destruct t as [|c t]; [done|]. cbn [drop_percents]. destruct (Ascii.eqb_spec c "%"%char) as [->|]; [|done]. by destruct (Ht "%"%char t).
  - exact IH.
Qed.
Lemma drop_percents_split s : exists n, s = percents n ++ drop_percents s.
Proof.
  induction s as [|c s [n IH]]; [by exists 0%nat|]. cbn [drop_percents]. destruct (Ascii.eqb_spec c "%"%char) as [->|].
  - exists (S n). cbn [percents repeat app]. f_equal. exact IH.
  - by exists 0%nat.
Qed.
Lemma rev_percents n : rev (percents n) = percents n.
Proof.
  unfold percents. induction n as [|n IH]; [done|]. cbn [repeat rev]. rewrite IH.
  clear IH. induction n as [|n IH]; [done|]. cbn [repeat app]. by rewrite IH.
Qed.
Lemma ends_with_percent_in s : ends_with_percent s = true -> "%"%char ∈ s.
Proof.
  unfold ends_with_percent. intros H. apply elem_of_list_In, in_rev, elem_of_list_In. revert H. generalize (rev s). clear s.
  intros s. induction s as [|c s IH]; cbn [drop_spaces]; [done|]. destruct (is_space c).
  - intros H. right. by apply IH.
  - intros H%Ascii.eqb_eq. subst c. left.
Qed.
Lemma per_thousand_spec s v :
  per_thousand_from_str s = Ok v <->
  v <= 1000 /\ ((exists t n, s = t ++ percents (S n) /\ reads_as t 1 v) \/ reads_as s 3 v).
Proof.
  unfold per_thousand_from_str.
  assert (Hfin : forall a, (let? v := ok_or (if a <=? 65535 then Some a else None) tt in ok_or (per_thousand_new v) tt) = Ok v <-> a = v /\ v <= 1000).
  { intros a. destruct (N.leb_spec a 65535) as [Ha|Ha]; cbn [ok_or rbind].
    - unfold per_thousand_new. destruct (N.leb_spec a 1000); cbn [ok_or]; split.
      + intros [= <-]. done.
      + by intros [-> _].
      + done.
      + intros [-> ?]. lia.
    - split; [done|]. intros [-> ?]. lia. }
  assert (HU : v <= 1000 -> v <= U128_MAX) by (unfold U128_MAX; lia).
  split.
  - destruct (ends_with_percent s) eqn:Ep.
    + destruct (from_fixedpoint_str (trim_end_percents s) 1) as [a|[]|] eqn:Ef; cbn [rbind]; try done. intros [-> Hv]%Hfin.
      split; [done|]. left. apply reads_as_iff in Ef as [_ Hr]; [|lia].
      destruct (drop_percents_split (rev s)) as [n E]. unfold trim_end_percents in *.
      assert (Es : s = rev (drop_percents (rev s)) ++ percents n).
      { rewrite <- (rev_involutive s) at 1. rewrite E at 1. rewrite rev_app_distr, rev_percents. done. }
      destruct n as [|n].
      * exfalso. cbn [percents repeat] in Es. rewrite app_nil_r in Es. rewrite <- Es in Hr. destruct Hr as (i & f & Hn & _).
        eapply numeral_no_percent; [exact Hn|]. by apply ends_with_percent_in.
      * exists (rev (drop_percents (rev s))), n. done.
    + destruct (from_fixedpoint_str s 3) as [a|[]|] eqn:Ef; cbn [rbind]; try done. intros [-> Hv]%Hfin.
      split; [done|]. right. by apply reads_as_iff in Ef as [_ Hr]; [|lia].
  - intros [Hv [(t & n & -> & Hr)|Hr]].
    + assert (ends_with_percent (t ++ percents (S n)) = true) as ->.
      { unfold ends_with_percent. rewrite rev_app_distr, rev_percents. reflexivity. }
      assert (trim_end_percents (t ++ percents (S n)) = t) as ->.
      { unfold trim_end_percents. rewrite rev_app_distr, rev_percents, drop_percents_rev; [apply rev_involutive|].
        intros c t' E ->. destruct Hr as (i & f & Hn & _). eapply numeral_no_percent; [exact Hn|].
        apply elem_of_list_In, in_rev. rewrite E. by left. }
      rewrite (proj2 (reads_as_iff t 1 v ltac:(lia))) by auto. cbn [rbind]. by apply Hfin.
    + assert (ends_with_percent s = false) as ->.
      { apply not_true_is_false. intros H%ends_with_percent_in. destruct Hr as (i & f & Hn & _). eapply numeral_no_percent; eauto. }
      rewrite (proj2 (reads_as_iff s 3 v ltac:(lia))) by auto. cbn [rbind]. by apply Hfin.
Qed.
Lemma per_thousand_round v : v <= 1000 ->
  (exists s, to_percentage_str v = Ok s /\ per_thousand_from_str s = Ok v) /\
  (exists s, to_decimal_str v = Ok s /\ per_thousand_from_str s = Ok v).
Proof.
  intros Hv. assert (HU : v <= U128_MAX) by (unfold U128_MAX; lia). split.
  - destruct (text_round_trip v 1 HU ltac:(lia) ltac:(lia)) as (s & E1 & E2). unfold to_percentage_str. rewrite E1. cbn [rbind].
    exists (s ++ ["%"%char]). split; [done|]. apply per_thousand_spec. split; [done|]. left. exists s, 0%nat. split; [done|].
    by apply reads_as_iff in E2 as [_ ?]; [|lia].
  - destruct (text_round_trip v 3 HU ltac:(lia) ltac:(lia)) as (s & E1 & E2). exists s. split; [done|].
    apply per_thousand_spec. split; [done|]. right. by apply reads_as_iff in E2 as [_ ?]; [|lia].
Qed.
