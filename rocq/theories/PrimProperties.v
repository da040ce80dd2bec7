(** C02, C30, C34, C44, C45: heights, time locks, compact targets, rationals and per-thousand values. *)
From Coq Require Import Ascii String QArith.
From Verif Require Import Base TextModel TextSpec TextProperties UintModel UintSpec PrimModel PrimSpec PrimProofs.
Local Open Scope N_scope.
Local Open Scope list_scope.

(** C02. Adding a distance to a height: the exact height, or nothing, or a crash, precisely when. *)
Theorem C02_height_plus_distance h d : (I64_MIN <= d <= I64_MAX)%Z ->
  (forall r, height_add h d = Ok r <-> (Z.of_N h <= I64_MAX /\ Z.of_N h + d <= I64_MAX /\ Z.of_N r = Z.of_N h + d)%Z) /\
  (height_add h d = Panic <-> (Z.of_N h <= I64_MAX /\ I64_MAX < Z.of_N h + d)%Z).
Proof. exact (height_add_spec h d). Qed.
Print Assumptions C02_height_plus_distance.
(** C02. Subtracting a distance never crashes and is exact. *)
Theorem C02_height_minus_distance h d : (I64_MIN <= d <= I64_MAX)%Z ->
  height_sub h d <> Panic /\
  forall r, height_sub h d = Ok r <-> (Z.of_N h <= I64_MAX /\ Z.of_N h - d <= I64_MAX /\ Z.of_N r = Z.of_N h - d)%Z.
Proof. exact (height_sub_spec h d). Qed.
Print Assumptions C02_height_minus_distance.
(** C02. The check of a time lock crashes exactly for block counts that fit in a signed 64-bit integer but whose sum with the
    height of the output does not. *)
Theorem C02_timelock_crashes_exactly source_height source_time lock h t :
  check_timelock source_height source_time lock h t = Panic <->
  exists n, lock = ForBlockCount n /\
    (Z.of_N source_height <= I64_MAX /\ Z.of_N n <= I64_MAX /\ I64_MAX < Z.of_N source_height + Z.of_N n)%Z.
Proof. exact (check_timelock_panics source_height source_time lock h t). Qed.
Print Assumptions C02_timelock_crashes_exactly.
(** The claim of C02 is false: whoever creates an output, at any height but zero, can pick a block count that crashes every
    node checking the lock, whatever the spending height and time. *)
Theorem C02_timelock_never_crashes_refuted source_height : 0 < source_height -> (Z.of_N source_height <= I64_MAX)%Z ->
  exists n, n <= U64_MAX /\ forall source_time h t, check_timelock source_height source_time (ForBlockCount n) h t = Panic.
Proof.
  intros H0 H1. exists (Z.to_N I64_MAX). split; [done|]. intros st h t. apply check_timelock_panics.
  exists (Z.to_N I64_MAX). split; [done|]. unfold I64_MAX in *. lia.
Qed.
Print Assumptions C02_timelock_never_crashes_refuted.
(** C02. Below that bound, no lock crashes. *)
Theorem C02_timelock_safe_below_bound source_height source_time lock h t :
  (forall n, lock = ForBlockCount n -> (Z.of_N source_height + Z.of_N n <= I64_MAX)%Z) ->
  check_timelock source_height source_time lock h t <> Panic.
Proof. intros H (n & E & _ & _ & Hn)%check_timelock_panics. specialize (H n E). lia. Qed.
Print Assumptions C02_timelock_safe_below_bound.

Example C02_examples :
  height_add 5 (-5) = Ok 0 /\ height_add 5 (-6) = Err tt /\ height_add 5 I64_MAX = Panic /\ height_sub 5 6 = Err tt /\
  check_timelock 100 7 (ForBlockCount 9223372036854775708) 200 8 = Panic /\
  check_timelock 100 7 (ForBlockCount 9223372036854775707) 200 8 = Err (HeightLocked 200 9223372036854775807) /\
  check_timelock 100 7 (ForBlockCount 9223372036854775808) 200 8 = Err HeightArith.
Proof. vm_compute. repeat split; reflexivity. Qed.

(** C34. For spending heights that fit in a signed 64-bit integer (all that can occur), an output can be spent exactly when its
    lock has expired. *)
Theorem C34_lock_means_what_it_says source_height source_time lock h t : (Z.of_N h <= I64_MAX)%Z -> t <= U64_MAX ->
  check_timelock source_height source_time lock h t = Ok tt <-> unlocked source_height source_time lock h t.
Proof. exact (check_timelock_ok source_height source_time lock h t). Qed.
Print Assumptions C34_lock_means_what_it_says.
(** C34. Never before, with no assumption at all. *)
Theorem C34_never_early source_height source_time lock h t :
  check_timelock source_height source_time lock h t = Ok tt -> unlocked source_height source_time lock h t.
Proof. exact (check_timelock_sound source_height source_time lock h t). Qed.
Print Assumptions C34_never_early.
(** C34. And forever after. *)
Theorem C34_stays_unlocked source_height source_time lock h t h' t' :
  check_timelock source_height source_time lock h t = Ok tt -> h <= h' -> t <= t' ->
  check_timelock source_height source_time lock h' t' = Ok tt.
Proof. exact (check_timelock_stays source_height source_time lock h t h' t'). Qed.
Print Assumptions C34_stays_unlocked.
(** C34. An output whose lock passed the maturity check cannot be spent for that many blocks. *)
Theorem C34_mature_outputs_stay_locked required source_height source_time lock h t :
  check_output_maturity lock required = Ok tt -> check_timelock source_height source_time lock h t = Ok tt ->
  source_height + required <= h.
Proof.
  intros Hm Hu%check_timelock_sound. destruct lock as [|?|n|?]; cbn in Hm; try done. unfold ensure in Hm.
  destruct (N.leb_spec required n); [|done]. cbn in Hu. lia.
Qed.
Print Assumptions C34_mature_outputs_stay_locked.
Example C34_examples :
  check_timelock 100 7 (ForBlockCount 10) 109 0 = Err (HeightLocked 109 110) /\ check_timelock 100 7 (ForBlockCount 10) 110 0 = Ok tt /\
  check_timelock 100 7 (ForSeconds 10) 0 16 = Err (TimestampLocked 16 17) /\ check_timelock 100 7 (ForSeconds 10) 0 17 = Ok tt /\
  check_timelock 0 0 (UntilHeight 5) 5 0 = Ok tt /\ check_timelock 0 0 (UntilTime 5) 9 4 = Err (TimestampLocked 4 5) /\
  check_output_maturity (ForBlockCount 7200) 7200 = Ok tt /\ check_output_maturity (ForBlockCount 7199) 7200 = Err (InvalidOutputMaturityDistance 7199 7200).
Proof. vm_compute. repeat split; reflexivity. Qed.

(** C44. Fractions that are not both zero (or share the denominator) compare as the rational numbers they stand for. *)
Theorem C44_fractions_compare_by_value x y : fraction x -> fraction y ->
  (uval (numer x) <> 0 \/ uval (numer y) <> 0 \/ denom x = denom y) ->
  rational_cmp x y = Ok (ratio x ?= ratio y)%Q.
Proof. exact (rational_cmp_value x y). Qed.
Print Assumptions C44_fractions_compare_by_value.
(** Two zeroes with different denominators compare as different. *)
Theorem C44_zeroes_compare_equal_refuted :
  exists x y, fraction x /\ fraction y /\ (ratio x == ratio y)%Q /\ rational_cmp x y = Ok Gt.
Proof.
  exists (Rational [0; 0; 0; 0] [2; 0; 0; 0]), (Rational [0; 0; 0; 0] [3; 0; 0; 0]).
  assert (H : forall k, k < 2 ^ 64 -> words 4 [k; 0; 0; 0]) by (intros k Hk; split; [done|]; repeat constructor; done || exact Hk).
  split; [split; [by apply H|]; split; [by apply H|]; done|]. split; [split; [by apply H|]; split; [by apply H|]; done|].
  split; [|by vm_compute]. done.
Qed.
Print Assumptions C44_zeroes_compare_equal_refuted.
Example C44_example :
  fraction (Rational [1; 0; 0; 0] [3; 0; 0; 0]) /\
  rational_cmp (Rational [1; 0; 0; 0] [3; 0; 0; 0]) (Rational [2; 0; 0; 0] [6; 0; 0; 0]) = Ok Eq /\
  rational_cmp (Rational [1; 0; 0; 5] [3; 0; 0; 7]) (Rational [2; 0; 0; 5] [3; 0; 0; 8]) = Ok Gt.
Proof.
  split; [split; [split; [done|repeat constructor; done]|]; split; [split; [done|repeat constructor; done]|done]|].
  vm_compute. split; reflexivity.
Qed.

(** C30. Encoding a target gives the compact form of the largest representable target that is not above it; the loss is below
    one part in 2^15; and encoding the decoded target gives the same compact form again. *)
Theorem C30_compact_rounds_down v : words 4 v ->
  exists c w, compact_encode v = Ok c /\ c < 2 ^ 32 /\ compact_decode c = Ok w /\ words 4 w /\
    uval w <= uval v /\ (uval v - uval w) * 2 ^ 15 <= uval w /\
    (forall c' w', compact_decode c' = Ok w' -> uval w' <= uval v -> uval w' <= uval w) /\
    compact_encode w = Ok c.
Proof. exact (compact_round v). Qed.
Print Assumptions C30_compact_rounds_down.
(** C30. A target that was decoded from a compact form survives encoding unchanged. *)
Theorem C30_decoded_target_survives c w : compact_decode c = Ok w ->
  exists c', compact_encode w = Ok c' /\ compact_decode c' = Ok w.
Proof.
  intros E. destruct (decode_ok c w E) as (_ & _ & _ & Hw & _). destruct (compact_round w Hw) as (c' & w' & H1 & _ & H3 & Hw' & H4 & _ & H6 & _).
  exists c'. split; [exact H1|]. rewrite H3. f_equal. apply (UintProofs.uval_inj 4); auto. apply N.le_antisymm; [exact H4|].
  exact (H6 c w E (N.le_refl _)).
Qed.
Print Assumptions C30_decoded_target_survives.
(** C30. Decoding never crashes and yields 256-bit integers. *)
Theorem C30_decode_total c : compact_decode c <> Panic /\ forall w, compact_decode c = Ok w -> words 4 w.
Proof. split; [exact (decode_no_panic c)|]. intros w E. by destruct (decode_ok c w E) as (_ & _ & _ & Hw & _). Qed.
Print Assumptions C30_decode_total.
(** C30. A larger target never becomes smaller by encoding. *)
Theorem C30_monotone v v' c c' w w' : words 4 v -> words 4 v' -> uval v <= uval v' ->
  compact_encode v = Ok c -> compact_decode c = Ok w -> compact_encode v' = Ok c' -> compact_decode c' = Ok w' -> uval w <= uval w'.
Proof.
  intros Hv Hv' Hle E1 E2 E3 E4. destruct (compact_round v Hv) as (c1 & w1 & F1 & _ & F2 & _ & F3 & _).
  destruct (compact_round v' Hv') as (c2 & w2 & G1 & _ & G2 & _ & _ & _ & G3 & _).
  rewrite E1 in F1. injection F1 as <-. rewrite E2 in F2. injection F2 as <-.
  rewrite E3 in G1. injection G1 as <-. rewrite E4 in G2. injection G2 as <-. apply (G3 _ _ E2). lia.
Qed.
Print Assumptions C30_monotone.
Example C30_examples :
  words 4 [0; 0; 0; 4294967295] /\
  compact_encode [0; 0; 0; 4294967295] = Ok 486604799 /\ compact_decode 486604799 = Ok [0; 0; 0; 4294901760] /\
  compact_encode [128; 0; 0; 0] = Ok 33587200 /\ compact_decode 33587200 = Ok [128; 0; 0; 0] /\ compact_decode 4286578687 = Err tt.
Proof. split; [split; [done|repeat constructor; done]|]. vm_compute. repeat split; reflexivity. Qed.

(** C45. Both printed forms of every value parse back to it. *)
Theorem C45_print_then_parse v : v <= 1000 ->
  (exists s, to_percentage_str v = Ok s /\ per_thousand_from_str s = Ok v) /\
  (exists s, to_decimal_str v = Ok s /\ per_thousand_from_str s = Ok v).
Proof. exact (per_thousand_round v). Qed.
Print Assumptions C45_print_then_parse.
(** C45. A text is accepted exactly if it is a numeral of at most 1000 thousandths, or a numeral followed by percent signs of
    at most 100 percent; the result is its exact value. *)
Theorem C45_parse_is_exact s v :
  per_thousand_from_str s = Ok v <->
  v <= 1000 /\ ((exists t n, s = t ++ percents (S n) /\ reads_as t 1 v) \/ reads_as s 3 v).
Proof. exact (per_thousand_spec s v). Qed.
Print Assumptions C45_parse_is_exact.
(** C45. Decoding accepts nothing above 1000. *)
Theorem C45_decode_range raw v : per_thousand_decode raw = Ok v <-> raw = v /\ v <= 1000.
Proof.
  unfold per_thousand_decode, per_thousand_new. destruct (N.leb_spec raw 1000); cbn; split; try done.
  - by intros [= <-].
  - by intros [-> _].
  - intros [-> ?]. lia.
Qed.
Print Assumptions C45_decode_range.
Example C45_examples :
  to_percentage_str 55 = Ok (txt "5.5%") /\ to_decimal_str 55 = Ok (txt "0.055") /\
  per_thousand_from_str (txt "5.5%") = Ok 55 /\ per_thousand_from_str (txt "0.055") = Ok 55 /\
  per_thousand_from_str (txt "100.1%") = Err tt /\ per_thousand_from_str (txt "1.001") = Err tt /\ per_thousand_from_str (txt "1") = Ok 1000 /\
  per_thousand_from_str (txt "5% ") = Err tt /\ per_thousand_from_str (txt "5%%") = Ok 50.
Proof. vm_compute. repeat split; reflexivity. Qed.
