(** Proofs about big integers. *)
From Verif Require Import Base UintModel UintSpec.
Local Open Scope N_scope.

(** ** Positional numbers in any base *)
Section number.
Context (b : N).
Local Notation num := (number b).
Lemma number_app l1 l2 : num (l1 ++ l2) = num l1 + b ^ N.of_nat (length l1) * num l2.
Proof.
  induction l1 as [|d l1 IH]; cbn [app number length].
  - rewrite N.pow_0_r. lia.
  - rewrite IH, Nat2N.inj_succ, N.pow_succ_r'. nia.
Qed.
Lemma number_zeros n : num (repeat 0 n) = 0.
Proof. induction n as [|n IH]; cbn [repeat number]; [done|]. rewrite IH. lia. Qed.
Lemma number_insert l k x v : l !! k = Some x ->
  num (<[k := v]> l) + b ^ N.of_nat k * x = num l + b ^ N.of_nat k * v.
Proof.
  revert k. induction l as [|d l IH]; intros [|k] E; try done; cbn in E.
  - injection E as ->. cbn [insert list_insert number]. rewrite N.pow_0_r. lia.
  - specialize (IH k E). cbn [insert list_insert number]. change (list_insert k v l) with (<[k:=v]> l).
    rewrite Nat2N.inj_succ, N.pow_succ_r'. apply (f_equal (N.mul b)) in IH. rewrite !N.mul_add_distr_l in IH. rewrite <- !N.mul_assoc, <- !N.add_assoc. f_equal. exact IH.
Qed.
Context (Hb : 1 < b).

Lemma number_bound l : Forall (fun d => d < b) l -> num l < b ^ N.of_nat (length l).
Proof.
  induction 1 as [|d l Hd Hl IH]; cbn [number length]; [rewrite N.pow_0_r; lia|].
  rewrite Nat2N.inj_succ, N.pow_succ_r'. nia.
Qed.
Lemma number_inj l1 l2 : length l1 = length l2 -> Forall (fun d => d < b) l1 -> Forall (fun d => d < b) l2 ->
  num l1 = num l2 -> l1 = l2.
Proof.
  revert l2. induction l1 as [|d l1 IH]; intros [|e l2] Hlen H1 H2 E; cbn [length number] in *; try done; try lia.
  apply Forall_cons in H1 as [Hd H1]. apply Forall_cons in H2 as [He H2].
  assert (d = e /\ num l1 = num l2) as [-> E'].
  { assert (Ed : (d + b * num l1) mod b = (e + b * num l2) mod b) by (rewrite E; done).
    rewrite !(N.mul_comm b), !N.mod_add, !N.mod_small in Ed by lia. split; [done|]. subst e.
    assert (b * num l1 = b * num l2) by lia. nia. }
  f_equal. apply IH; auto.
Qed.
Lemma number_digit l i : Forall (fun d => d < b) l -> nth i l 0 = num l / b ^ N.of_nat i mod b.
Proof.
  intros H. revert i. induction H as [|d l Hd Hl IH]; intros i.
  - cbn [number]. rewrite N.div_0_l by (apply N.pow_nonzero; lia). rewrite N.mod_0_l by lia. by destruct i.
  - destruct i as [|i]; cbn [nth number].
    + rewrite N.pow_0_r, N.div_1_r, (N.mul_comm b), N.mod_add by lia. by rewrite N.mod_small.
    + rewrite IH, Nat2N.inj_succ, N.pow_succ_r', <- N.div_div by (try apply N.pow_nonzero; lia).
      do 2 f_equal. rewrite (N.mul_comm b), N.div_add, (N.div_small d) by lia. done.
Qed.
Lemma number_zero_iff l : num l = 0 <-> l = repeat 0 (length l).
Proof.
  split.
  - induction l as [|d l IH]; cbn [number length repeat]; [done|]. intros E. apply N.eq_add_0 in E as [-> E]. f_equal. apply IH. apply N.eq_mul_0 in E as [E|E]; [lia|done].
  - intros E. rewrite E. apply number_zeros.
Qed.
Lemma number_firstn l n : (n <= length l)%nat -> Forall (fun d => d < b) l ->
  num (firstn n l) = num l mod b ^ N.of_nat n.
Proof.
  intros Hn H. rewrite <- (firstn_skipn n l) at 2. rewrite number_app, firstn_length_le by done.
  rewrite (N.mul_comm (b ^ _)), N.mod_add by (apply N.pow_nonzero; lia).
  rewrite N.mod_small; [done|]. rewrite <- (firstn_length_le l Hn) at 2. apply number_bound. by apply Forall_take.
Qed.
Lemma number_skipn l n : (n <= length l)%nat -> Forall (fun d => d < b) l ->
  num (skipn n l) = num l / b ^ N.of_nat n.
Proof.
  intros Hn H. rewrite <- (firstn_skipn n l) at 2. rewrite number_app, firstn_length_le by done.
  rewrite (N.mul_comm (b ^ _)), N.div_add by (apply N.pow_nonzero; lia).
  rewrite N.div_small; [done|]. rewrite <- (firstn_length_le l Hn) at 2. apply number_bound. by apply Forall_take.
Qed.
End number.

(** ** Words *)
Lemma W_pow : 2 ^ 64 = W. Proof. reflexivity. Qed.
Lemma W_gt1 : 1 < W. Proof. unfold W; lia. Qed.
Lemma uval_unfold a : uval a = number W a. Proof. reflexivity. Qed.
Lemma words_iff n a : words n a <-> length a = n /\ Forall (fun w => w < W) a. Proof. reflexivity. Qed.
Lemma capacity_W n : capacity n = W ^ N.of_nat n.
Proof. unfold capacity. by rewrite N.pow_mul_r. Qed.
Lemma capacity_pos n : 0 < capacity n.
Proof. rewrite capacity_W. pose proof W_gt1. apply N.neq_0_lt_0, N.pow_nonzero. lia. Qed.
Lemma capacity_S n : capacity (S n) = W * capacity n.
Proof. rewrite !capacity_W, Nat2N.inj_succ, N.pow_succ_r'. done. Qed.
Lemma uval_bound n a : words n a -> uval a < capacity n.
Proof. intros [<- H]. rewrite capacity_W. apply number_bound, H. apply W_gt1. Qed.
Lemma uval_inj n a c : words n a -> words n c -> uval a = uval c -> a = c.
Proof. intros [H1 H2] [H3 H4]. apply number_inj; auto using W_gt1. by rewrite H1, H3. Qed.
Lemma words_zero n : words n (zero n).
Proof. split; [apply repeat_length|]. unfold zero. induction n; cbn; constructor; done. Qed.
Lemma uval_zero n : uval (zero n) = 0.
Proof. apply number_zeros. Qed.
Lemma words_cons n x a : words (S n) (x :: a) <-> x < W /\ words n a.
Proof.
  unfold words. cbn [length]. rewrite Forall_cons. change (2 ^ 64) with W.
  split; [intros [? [? ?]]|intros [? [? ?]]]; repeat split; auto; lia.
Qed.
Lemma words_insert n a k v : words n a -> v < W -> words n (<[k := v]> a).
Proof. intros [H1 H2] Hv. split; [by rewrite insert_length|]. by apply Forall_insert. Qed.
Lemma words_nth n a i : words n a -> nth i a 0 < W.
Proof.
  intros [H1 H2]. destruct (decide (i < length a)%nat) as [Hi|Hi].
  - rewrite Forall_forall in H2. apply H2. apply elem_of_list_In, nth_In. done.
  - rewrite nth_overflow by lia. pose proof W_gt1. lia.
Qed.

Lemma from_u64_words n x : (0 < n)%nat -> x < W -> words n (from_u64 n x) /\ uval (from_u64 n x) = x.
Proof.
  intros Hn Hx. split; [apply words_insert; [apply words_zero|done]|].
  pose proof (number_insert W (zero n) 0 0 x) as E.
  assert (zero n !! 0%nat = Some 0) as E0 by (destruct n; [lia|done]).
  specialize (E E0). rewrite N.pow_0_r, !N.mul_1_l in E.
  change (number W (zero n)) with (uval (zero n)) in E. rewrite uval_zero in E.
  unfold uval, from_u64. rewrite W_pow. lia.
Qed.

(** ** Addition and subtraction *)
Definition b2n (c : bool) : N := if c then 1 else 0.
Lemma word_add_spec x y : x < W -> y < W ->
  (word_add x y).1 < W /\ (word_add x y).1 + W * b2n (word_add x y).2 = x + y.
Proof.
  intros Hx Hy. unfold word_add, b2n. cbn [fst snd]. destruct (N.leb_spec W (x + y)).
  - assert ((x + y) mod W = x + y - W) as ->; [|lia].
    replace (x + y) with (x + y - W + 1 * W) at 1 by lia. rewrite N.mod_add by (unfold W; lia). apply N.mod_small. lia.
  - rewrite N.mod_small by lia. lia.
Qed.
Lemma add_with_carry_spec n a c cin : words n a -> words n c ->
  words n (add_with_carry a c cin).1 /\
  uval (add_with_carry a c cin).1 + capacity n * b2n (add_with_carry a c cin).2 = uval a + uval c + b2n cin.
Proof.
  revert a c cin. induction n as [|n IH]; intros a c cin Ha Hc.
  - destruct Ha as [Ha _], Hc as [Hc _]. destruct a; [|done]. destruct c; [|done].
    cbn [add_with_carry fst snd]. split; [split; [done|constructor]|]. unfold uval. cbn [number]. change (capacity 0) with 1. lia.
  - destruct a as [|x a]; [by destruct Ha|]. destruct c as [|y c]; [by destruct Hc|].
    apply words_cons in Ha as [Hx Ha]. apply words_cons in Hc as [Hy Hc]. cbn [add_with_carry].
    pose proof (word_add_spec x y Hx Hy) as S1. destruct (word_add x y) as [ab ab_c]. cbn [fst snd] in S1. destruct S1 as [Hab E1].
    change (if cin then 1 else 0) with (b2n cin).
    pose proof (word_add_spec ab (b2n cin) Hab) as S2.
    assert (b2n cin < W /\ b2n cin <= 1) as [Hcin Hcin1] by (pose proof W_gt1; unfold b2n; destruct cin; lia). specialize (S2 Hcin).
    destruct (word_add ab (b2n cin)) as [abc abc_c]. cbn [fst snd] in S2. destruct S2 as [Habc E2].
    specialize (IH a c (ab_c || abc_c) Ha Hc). destruct (add_with_carry a c (ab_c || abc_c)) as [r cc]. cbn [fst snd] in *.
    destruct IH as [Hr E3]. split; [by apply words_cons|].
    rewrite capacity_S. unfold uval in *. rewrite W_pow in *. cbn [number].
    assert (Hb : b2n (ab_c || abc_c) = b2n ab_c + b2n abc_c).
    { destruct ab_c, abc_c; try done. exfalso. cbn [b2n] in E1, E2. lia. }
    rewrite Hb in E3. apply (f_equal (N.mul W)) in E3. rewrite !N.mul_add_distr_l in E3. lia.
Qed.
Lemma uchecked_add_spec n a c : words n a -> words n c ->
  (uval a + uval c < capacity n -> exists r, uchecked_add a c = Some r /\ words n r /\ uval r = uval a + uval c) /\
  (capacity n <= uval a + uval c -> uchecked_add a c = None).
Proof.
  intros Ha Hc. unfold uchecked_add, overflowing_add. pose proof (add_with_carry_spec n a c false Ha Hc) as [Hr E].
  destruct (add_with_carry a c false) as [r cy]. cbn [fst snd] in *. pose proof (uval_bound n r Hr).
  destruct cy; cbn [b2n] in E; split; intros; try done; try lia. exists r. split; [done|]. split; [done|]. lia.
Qed.
Lemma unot_spec n a : words n a -> words n (unot a) /\ uval (unot a) + uval a + 1 = capacity n.
Proof.
  revert a. induction n as [|n IH]; intros a Ha.
  - destruct Ha as [Ha _]. destruct a; [|done]. split; [split; [done|constructor]|done].
  - destruct a as [|x a]; [by destruct Ha|]. apply words_cons in Ha as [Hx Ha]. destruct (IH a Ha) as [H1 E].
    unfold unot in *. cbn [map]. split; [apply words_cons; split; [lia|done]|].
    rewrite capacity_S, <- E. unfold uval. rewrite W_pow. cbn [number]. nia.
Qed.
Lemma unchecked_sub_spec n a c : (0 < n)%nat -> words n a -> words n c -> uval c <= uval a ->
  words n (unchecked_sub a c) /\ uval (unchecked_sub a c) = uval a - uval c.
Proof.
  intros Hn Ha Hc Hle. unfold unchecked_sub, overflowing_add, one. destruct (unot_spec n c Hc) as [Hnc Ec].
  destruct (add_with_carry_spec n a (unot c) false Ha Hnc) as [H1 E1].
  destruct (add_with_carry a (unot c) false) as [r cy]. cbn [fst snd] in *.
  assert (length a = n) as -> by apply Ha.
  destruct (from_u64_words n 1 Hn W_gt1) as [Ho Eo].
  destruct (add_with_carry_spec n r _ false H1 Ho) as [H2 E2].
  split; [done|]. rewrite Eo in E2. pose proof (uval_bound _ _ H2). pose proof (uval_bound _ _ H1). pose proof (uval_bound _ _ Ha).
  destruct cy, (add_with_carry r (from_u64 n 1) false) as [r' cy']; cbn [fst snd b2n] in *; destruct cy'; cbn [b2n] in *; lia.
Qed.

(** ** Comparison *)
Lemma compare_words_spec a c : length a = length c -> Forall (fun w => w < W) a -> Forall (fun w => w < W) c ->
  compare_words a c = (uval (rev a) ?= uval (rev c)).
Proof.
  revert c. induction a as [|x a IH]; intros [|y c] Hl Ha Hc; try done; cbn [compare_words rev].
  apply Forall_cons in Ha as [Hx Ha]. apply Forall_cons in Hc as [Hy Hc]. cbn [length] in Hl.
  unfold uval in *. rewrite !number_app. rewrite !rev_length. replace (length c) with (length a) by lia.
  pose proof (number_bound W W_gt1 (rev a)) as B1. pose proof (number_bound W W_gt1 (rev c)) as B2.
  rewrite rev_length in B1, B2. replace (length c) with (length a) in B2 by lia.
  specialize (B1 (Forall_rev Ha)). specialize (B2 (Forall_rev Hc)). rewrite W_pow.
  cbn [number]. rewrite !N.mul_0_r, !N.add_0_r. set (P := W ^ _) in *. clearbody P.
  destruct (N.ltb_spec x y); [symmetry; apply N.compare_lt_iff; nia|].
  destruct (N.ltb_spec y x); [symmetry; apply N.compare_gt_iff; nia|].
  assert (x = y) as -> by lia. rewrite IH by (auto; lia). rewrite W_pow.
  destruct (N.compare_spec (number W (rev a)) (number W (rev c))); symmetry;
    [apply N.compare_eq_iff|apply N.compare_lt_iff|apply N.compare_gt_iff]; lia.
Qed.
Lemma ucompare_spec n a c : words n a -> words n c -> ucompare a c = (uval a ?= uval c).
Proof.
  intros [H1 H2] [H3 H4]. unfold ucompare. rewrite compare_words_spec.
  - by rewrite !rev_involutive.
  - rewrite !rev_length. lia.
  - by apply Forall_rev.
  - by apply Forall_rev.
Qed.
Lemma ugeb_spec n a c : words n a -> words n c -> ugeb a c = (uval c <=? uval a).
Proof.
  intros Ha Hc. unfold ugeb. rewrite (ucompare_spec n) by done.
  destruct (N.compare_spec (uval a) (uval c)); symmetry; [apply N.leb_le|apply N.leb_gt|apply N.leb_le]; lia.
Qed.
Lemma ueqb_zero n a : words n a -> ueqb a (zero n) = (uval a =? 0).
Proof.
  intros Ha. unfold ueqb. destruct (N.eqb_spec (uval a) 0) as [E|E].
  - apply bool_decide_eq_true. apply (uval_inj n); auto using words_zero. by rewrite uval_zero.
  - apply bool_decide_eq_false. intros ->. by rewrite uval_zero in E.
Qed.
Lemma uchecked_sub_spec n a c : (0 < n)%nat -> words n a -> words n c ->
  (uval c <= uval a -> exists r, uchecked_sub a c = Some r /\ words n r /\ uval r = uval a - uval c) /\
  (uval a < uval c -> uchecked_sub a c = None).
Proof.
  intros Hn Ha Hc. unfold uchecked_sub. rewrite (ugeb_spec n) by done. split; intros H.
  - rewrite (proj2 (N.leb_le _ _) H). eexists. split; [done|]. by apply unchecked_sub_spec.
  - by rewrite (proj2 (N.leb_gt _ _) H).
Qed.

(** ** Multiplication *)
Lemma mul_u64_from_spec n a k cin : words n a -> k < W -> cin < W - 1 ->
  exists r c, mul_u64_from a k cin = Ok (r, c) /\ words n r /\ c < W - 1 /\
    uval r + capacity n * c = uval a * k + cin.
Proof.
  revert a cin. induction n as [|n IH]; intros a cin Ha Hk Hc.
  - destruct Ha as [Ha _]. destruct a; [|done]. exists [], cin. split; [done|]. split; [split; [done|constructor]|].
    split; [done|]. unfold uval. cbn [number]. change (capacity 0) with 1. lia.
  - destruct a as [|x a]; [by destruct Ha|]. apply words_cons in Ha as [Hx Ha]. cbn [mul_u64_from].
    rewrite (proj2 (N.ltb_lt _ _) Hc).
    assert (Hp : x * k <= (W - 1) * (W - 1)) by (apply N.mul_le_mono; lia).
    rewrite (proj2 (N.leb_le _ _) Hp). assert (Hp2 : x * k + cin < (W - 1) * (W - 1) + (W - 1)) by lia.
    rewrite (proj2 (N.ltb_lt _ _) Hp2).
    assert (HW : W <> 0) by (unfold W; lia).
    assert (Hq : (x * k + cin) / W < W - 1).
    { apply N.div_lt_upper_bound; [done|]. pose proof W_gt1. nia. }
    destruct (IH a ((x * k + cin) / W) Ha Hk Hq) as (r & c & -> & Hr & Hcc & E). cbn [rbind].
    exists ((x * k + cin) mod W :: r), c. split; [done|].
    split; [apply words_cons; split; [by apply N.mod_lt|done]|]. split; [done|].
    rewrite capacity_S. unfold uval in *. rewrite W_pow in *. cbn [number].
    pose proof (N.div_mod (x * k + cin) W HW) as D. set (q := (x * k + cin) / W) in *. set (m := (x * k + cin) mod W) in *.
    clearbody q m. nia.
Qed.
Lemma mul_u32_spec n a k : words n a -> k < 2 ^ 32 ->
  exists r, mul_u32 a k = Ok r /\ words n r /\ uval r = (uval a * k) mod capacity n.
Proof.
  intros Ha Hk. unfold mul_u32, widening_mul_u64.
  assert (k < W) as HkW by (etransitivity; [exact Hk|]; unfold W; lia).
  destruct (mul_u64_from_spec n a k 0 Ha HkW) as (r & c & -> & Hr & Hc & E); [pose proof W_gt1; unfold W; lia|].
  cbn [rbind]. exists r. split; [done|]. split; [done|]. rewrite N.add_0_r in E. rewrite <- E.
  rewrite (N.mul_comm (capacity n)), N.mod_add by (pose proof (capacity_pos n); lia). symmetry. apply N.mod_small. by apply uval_bound.
Qed.
Lemma pred_product C w : 0 < C -> 1 < w -> (C - 1) * (w - 1) + C <= w * C.
Proof.
  intros HC Hw. rewrite <- (N.sub_add 1 C) at 2 3 by lia. rewrite <- (N.sub_add 1 w) at 2 by lia.
  set (c := C - 1). set (v := w - 1). clearbody c v. clear. lia.
Qed.
Lemma widening_mul_loop_spec n a other i lo hi : (i + length other = n)%nat -> words n a -> Forall (fun w => w < W) other ->
  words n lo -> words n hi -> uval lo + capacity n * uval hi < W ^ N.of_nat i * capacity n ->
  exists lo' hi', widening_mul_loop a other i lo hi = Ok (lo', hi') /\ words n lo' /\ words n hi' /\
    uval lo' + capacity n * uval hi' = uval lo + capacity n * uval hi + W ^ N.of_nat i * uval a * number W other.
Proof.
  revert i lo hi. induction other as [|k other IH]; intros i lo hi Hlen Ha Ho Hlo Hhi Hbnd; cbn [widening_mul_loop].
  - exists lo, hi. split; [done|]. split; [done|]. split; [done|]. cbn [number]. lia.
  - apply Forall_cons in Ho as [Hk Ho]. cbn [length] in Hlen.
    destruct (mul_u64_from_spec n a k 0 Ha Hk) as (r & c & Er & Hr & Hc & E); [pose proof W_gt1; unfold W; lia|].
    unfold widening_mul_u64. rewrite Er. cbn [rbind]. pose proof Hr as [Hrl Hrf]. pose proof Ha as [Hal _].
    unfold shl_words, shr_words. rewrite Hrl, Hal. rewrite (proj2 (Nat.leb_le i n)) by lia. rewrite (proj2 (Nat.leb_le (n - i) n)) by lia.
    cbn [rbind]. set (lo1 := repeat 0 i ++ firstn (n - i) r). set (hi1 := <[i:=c]> (skipn (n - i) r ++ repeat 0 (n - i))).
    assert (Hlo1 : words n lo1).
    { split; [unfold lo1; rewrite app_length, repeat_length, firstn_length_le; lia|].
      apply Forall_app. split; [apply words_zero|]. by apply Forall_take. }
    assert (Hhi0 : words n (skipn (n - i) r ++ repeat 0 (n - i))).
    { split; [rewrite app_length, repeat_length, skipn_length; lia|].
      apply Forall_app. split; [by apply Forall_drop|apply words_zero]. }
    assert (Hhi1 : words n hi1) by (apply words_insert; [done|lia]).
    assert (Ehi0 : (skipn (n - i) r ++ repeat 0 (n - i)) !! i = Some 0).
    { rewrite lookup_app_r by (rewrite skipn_length; lia). rewrite skipn_length.
      replace (i - (length r - (n - i)))%nat with 0%nat by lia. destruct (n - i)%nat as [|m] eqn:Em; [lia|done]. }
    assert (Ehi1 : uval hi1 = uval r / W ^ N.of_nat (n - i) + W ^ N.of_nat i * c).
    { pose proof (number_insert W _ i 0 c Ehi0) as E1. fold hi1 in E1.
      rewrite number_app, number_zeros, (number_skipn W W_gt1) in E1 by (auto; lia).
      unfold uval. rewrite W_pow. lia. }
    assert (Elo1 : uval lo1 = W ^ N.of_nat i * (uval r mod W ^ N.of_nat (n - i))).
    { unfold uval, lo1. rewrite W_pow, number_app, number_zeros, repeat_length, (number_firstn W W_gt1) by (auto; lia). lia. }
    assert (Ecap : capacity n = W ^ N.of_nat i * W ^ N.of_nat (n - i)).
    { rewrite capacity_W, <- N.pow_add_r. f_equal. lia. }
    assert (HP : W ^ N.of_nat (n - i) <> 0) by (apply N.pow_nonzero; unfold W; lia).
    pose proof (N.div_mod (uval r) (W ^ N.of_nat (n - i)) HP) as Dr.
    assert (Etot : uval lo1 + capacity n * uval hi1 = W ^ N.of_nat i * (uval a * k)).
    { rewrite Elo1, Ehi1, Ecap. rewrite N.add_0_r in E. rewrite <- E, Ecap.
      set (q := uval r / _) in *. set (m := uval r mod _) in *. rewrite Dr. clearbody q m. nia. }
    destruct (add_with_carry_spec n lo lo1 false Hlo Hlo1) as [Hs1 Es1]. unfold overflowing_add.
    destruct (add_with_carry lo lo1 false) as [lo2 c0]. cbn [fst snd] in *.
    destruct (add_with_carry_spec n hi hi1 c0 Hhi Hhi1) as [Hs2 Es2].
    destruct (add_with_carry hi hi1 c0) as [hi2 c1]. cbn [fst snd b2n] in *.
    pose proof (uval_bound _ _ Ha) as Ba. pose proof (capacity_pos n) as Cp.
    assert (Wi : 0 < W ^ N.of_nat i) by (apply N.neq_0_lt_0, N.pow_nonzero; unfold W; lia).
    assert (Hsum : uval lo2 + capacity n * uval hi2 + capacity n * capacity n * b2n c1 =
                   uval lo + capacity n * uval hi + W ^ N.of_nat i * (uval a * k)).
    { rewrite <- Etot. nia. }
    assert (Hbnd2 : uval lo + capacity n * uval hi + W ^ N.of_nat i * (uval a * k) < W ^ N.of_nat (S i) * capacity n).
    { rewrite Nat2N.inj_succ, N.pow_succ_r'. set (p := W ^ N.of_nat i) in *. clearbody p. set (C := capacity n) in *. clearbody C.
      assert (uval a * k <= (C - 1) * (W - 1)) by (apply N.mul_le_mono; lia).
      assert (p * (uval a * k) <= p * ((C - 1) * (W - 1))) by (apply N.mul_le_mono_l; done).
      assert (p * ((C - 1) * (W - 1)) + p * C <= W * p * C); [|lia].
      replace (W * p * C) with (p * (W * C)) by lia. rewrite <- N.mul_add_distr_l. apply N.mul_le_mono_l.
      pose proof W_gt1. by apply pred_product. }
    assert (c1 = false) as ->.
    { destruct c1; [|done]. exfalso. cbn [b2n] in Hsum.
      assert (W ^ N.of_nat (S i) <= capacity n).
      { rewrite capacity_W. apply N.pow_le_mono_r; [unfold W; lia|lia]. }
      assert (W ^ N.of_nat (S i) * capacity n <= capacity n * capacity n) by (apply N.mul_le_mono_r; done). lia. }
    cbn [b2n] in Hsum. rewrite N.mul_0_r, N.add_0_r in Hsum.
    destruct (IH (S i) lo2 hi2) as (lo' & hi' & -> & Hlo' & Hhi' & E'); auto; [lia|by rewrite Hsum|].
    exists lo', hi'. split; [done|]. split; [done|]. split; [done|]. rewrite E', Hsum. cbn [number].
    rewrite Nat2N.inj_succ, N.pow_succ_r'. lia.
Qed.
Lemma widening_mul_spec n a c : words n a -> words n c ->
  exists lo hi, widening_mul a c = Ok (lo, hi) /\ words n lo /\ words n hi /\
    uval lo + capacity n * uval hi = uval a * uval c.
Proof.
  intros Ha Hc. unfold widening_mul. assert (length a = n) as -> by apply Ha.
  destruct (widening_mul_loop_spec n a c 0 (zero n) (zero n)) as (lo & hi & E & H1 & H2 & H3); auto using words_zero.
  - apply Hc.
  - apply Hc.
  - rewrite !uval_zero. cbn [N.of_nat]. rewrite N.pow_0_r. pose proof (capacity_pos n). lia.
  - exists lo, hi. split; [done|]. split; [done|]. split; [done|]. rewrite H3, !uval_zero.
    cbn [N.of_nat]. rewrite N.pow_0_r. unfold uval. rewrite W_pow. lia.
Qed.
Lemma uchecked_mul_spec n a c : words n a -> words n c ->
  (uval a * uval c < capacity n -> exists r, uchecked_mul a c = Ok r /\ words n r /\ uval r = uval a * uval c) /\
  (capacity n <= uval a * uval c -> uchecked_mul a c = Err tt).
Proof.
  intros Ha Hc. unfold uchecked_mul. destruct (widening_mul_spec n a c Ha Hc) as (lo & hi & -> & Hlo & Hhi & E). cbn [rbind].
  assert (length a = n) as -> by apply Ha. rewrite (ueqb_zero n) by done. pose proof (uval_bound _ _ Hlo). pose proof (capacity_pos n).
  destruct (N.eqb_spec (uval hi) 0) as [Z|Z].
  - rewrite Z, N.mul_0_r, N.add_0_r in E. split; intros; [|lia]. exists lo. split; [done|]. split; [done|lia].
  - split; intros; [exfalso|done].
    assert (capacity n * 1 <= capacity n * uval hi) by (apply N.mul_le_mono_l; lia). lia.
Qed.
