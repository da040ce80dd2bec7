(** Decimal text: parsing and printing. *)
From Coq Require Import Ascii.
From Verif Require Import Base AmountModel TextModel TextSpec.
Local Open Scope N_scope.

Lemma is_digit_spec c : is_digit c = true <-> exists n, n < 10 /\ N_of_ascii c = 48 + n.
Proof.
  unfold is_digit. rewrite andb_true_iff, !N.leb_le. split.
  - intros [H1 H2]. exists (N_of_ascii c - 48). lia.
  - intros (n & H1 & H2). lia.
Qed.
Lemma all_digits_forallb s : forallb is_digit s = true <-> all_digits s.
Proof.
  rewrite forallb_forall. unfold all_digits. split; intros H c Hc.
  - apply is_digit_spec, H. apply elem_of_list_In. exact Hc.
  - apply is_digit_spec, H. apply elem_of_list_In. exact Hc.
Qed.
Lemma all_digits_app s t : all_digits (s ++ t) <-> all_digits s /\ all_digits t.
Proof.
  unfold all_digits. split.
  - intros H. split; intros c Hc; apply H, elem_of_app; auto.
  - intros [H1 H2] c Hc. apply elem_of_app in Hc as [Hc|Hc]; auto.
Qed.
Lemma all_digits_cons c s : all_digits (c :: s) <-> (exists n, n < 10 /\ N_of_ascii c = 48 + n) /\ all_digits s.
Proof.
  unfold all_digits. split.
  - intros H. split; [apply H; left|]. intros d Hd. apply H. right. exact Hd.
  - intros [H1 H2] d Hd. apply elem_of_cons in Hd as [->|Hd]; auto.
Qed.
Lemma digit_not c d : (exists n, n < 10 /\ N_of_ascii c = 48 + n) -> (N_of_ascii d < 48 \/ 57 < N_of_ascii d) -> c <> d.
Proof. intros (n & H1 & H2) H ->. lia. Qed.

(** *** Values *)
Definition value_from (acc : N) (s : text) : N := foldl (fun acc c => 10 * acc + (N_of_ascii c - 48)) acc s.
Lemma value_from_eq acc s : value_from acc s = acc * 10 ^ N.of_nat (length s) + value s.
Proof.
  revert acc. induction s as [|c s IH]; intros acc; [cbn; lia|].
  unfold value. cbn [foldl value_from length]. fold (value_from (10 * acc + (N_of_ascii c - 48)) s).
  fold (value_from (10 * 0 + (N_of_ascii c - 48)) s). rewrite (IH (10 * acc + _)), (IH (10 * 0 + _)).
  rewrite Nat2N.inj_succ, N.pow_succ_r by lia. lia.
Qed.
Lemma value_app s t : value (s ++ t) = value s * 10 ^ N.of_nat (length t) + value t.
Proof. unfold value at 1. rewrite foldl_app. fold (value s). fold (value_from (value s) t). apply value_from_eq. Qed.
Lemma value_from_ge acc s : acc <= value_from acc s.
Proof.
  rewrite value_from_eq. assert (1 <= 10 ^ N.of_nat (length s)) by (pose proof (N.pow_nonzero 10 (N.of_nat (length s))); lia). nia.
Qed.
Lemma parse_digits_spec acc s : acc <= U128_MAX -> all_digits s ->
  parse_digits acc s = if value_from acc s <=? U128_MAX then Some (value_from acc s) else None.
Proof.
  revert acc. induction s as [|c s IH]; intros acc Ha Hd; cbn [parse_digits value_from foldl].
  - destruct (N.leb_spec acc U128_MAX); [reflexivity|lia].
  - apply all_digits_cons in Hd as [(n & Hn & Hc) Hd]. fold (value_from (10 * acc + (N_of_ascii c - 48)) s).
    pose proof (value_from_ge (10 * acc + (N_of_ascii c - 48)) s) as Hge.
    unfold checked_mul, checked_add, digit_value. rewrite (N.mul_comm acc 10).
    destruct (N.leb_spec (10 * acc) U128_MAX).
    + destruct (N.leb_spec (10 * acc + (N_of_ascii c - 48)) U128_MAX); [apply IH; assumption|].
      destruct (N.leb_spec (value_from (10 * acc + (N_of_ascii c - 48)) s) U128_MAX); [lia|reflexivity].
    + destruct (N.leb_spec (value_from (10 * acc + (N_of_ascii c - 48)) s) U128_MAX); [lia|reflexivity].
Qed.
Lemma parse_digits_0 s : all_digits s -> parse_digits 0 (empty_to_zero s) = if value s <=? U128_MAX then Some (value s) else None.
Proof.
  intros H. destruct s as [|c s]; [reflexivity|]. cbn [empty_to_zero]. apply (parse_digits_spec 0 (c :: s)); [lia|exact H].
Qed.

(** *** Printing digits *)
Lemma digit_char_ok n : n < 10 -> N_of_ascii (digit_char n) = 48 + n.
Proof. intros H. unfold digit_char. rewrite N_ascii_embedding; lia. Qed.
Lemma digits_fuel_spec fuel n acc : n < 2 ^ N.of_nat fuel -> (fuel <> 0)%nat ->
  exists p, digits_fuel fuel n acc = p ++ acc /\ all_digits p /\ value p = n /\ p <> [] /\
    forall k, (k <> 0)%nat -> n < 10 ^ N.of_nat k -> (length p <= k)%nat.
Proof.
  revert n acc. induction fuel as [|fuel IH]; intros n acc Hn Hf; [congruence|]. cbn [digits_fuel].
  pose proof (N.div_mod n 10) as Hd. pose proof (N.mod_lt n 10) as Hm.
  assert (Hc : N_of_ascii (digit_char (n mod 10)) = 48 + n mod 10) by (apply digit_char_ok; lia).
  destruct (N.eqb_spec (n / 10) 0) as [Hz|Hz].
  - exists [digit_char (n mod 10)]. split; [reflexivity|]. split.
    + apply all_digits_cons. split; [exists (n mod 10); lia|]. intros c Hx. apply elem_of_nil in Hx. contradiction.
    + split; [unfold value; cbn; rewrite Hc; lia|]. split; [discriminate|]. intros k Hk _. cbn. lia.
  - destruct (IH (n / 10) (digit_char (n mod 10) :: acc)) as (p & Hp & H1 & H2 & H3 & H4).
    + apply N.div_lt_upper_bound; [lia|]. rewrite Nat2N.inj_succ, N.pow_succ_r in Hn by lia. lia.
    + intros ->. rewrite Nat2N.inj_succ, N.pow_succ_r in Hn by lia. cbn in Hn. lia.
    + exists (p ++ [digit_char (n mod 10)]). split; [rewrite Hp, <- app_assoc; reflexivity|]. split.
      * apply all_digits_app. split; [exact H1|]. apply all_digits_cons. split; [exists (n mod 10); lia|].
        intros c Hx. apply elem_of_nil in Hx. contradiction.
      * split; [rewrite value_app, H2; unfold value; cbn; rewrite Hc; lia|]. split; [destruct p; discriminate|].
        intros k Hk Hlt. rewrite app_length. cbn. destruct k as [|[|k]]; [congruence| |].
        { cbn in Hlt. exfalso. apply Hz. apply N.div_small. lia. }
        { assert (length p <= S k)%nat; [|lia]. apply H4; [lia|]. apply N.div_lt_upper_bound; [lia|].
          rewrite (Nat2N.inj_succ (S k)), N.pow_succ_r in Hlt by lia. lia. }
Qed.
Lemma size_bound n : n < 2 ^ N.of_nat (S (N.size_nat n)).
Proof.
  rewrite Nat2N.inj_succ, N.pow_succ_r by lia. destruct n as [|p]; [cbn; lia|].
  assert (N.pos p < 2 ^ N.of_nat (N.size_nat (N.pos p))) as H; [|lia].
  cbn [N.size_nat]. induction p as [p IH|p IH|]; cbn [Pos.size_nat]; [| |cbn; lia];
    rewrite Nat2N.inj_succ, N.pow_succ_r by lia; lia.
Qed.
Lemma digits_spec n : all_digits (digits n) /\ value (digits n) = n /\ digits n <> [] /\
  forall k, (k <> 0)%nat -> n < 10 ^ N.of_nat k -> (length (digits n) <= k)%nat.
Proof.
  unfold digits. destruct (digits_fuel_spec (S (N.size_nat n)) n [] (size_bound n)) as (p & Hp & H); [lia|].
  rewrite Hp, app_nil_r. exact H.
Qed.

(** *** Trimming and splitting *)
Lemma trim_left_spaces a s : trim_left (spaces a ++ s) = trim_left s.
Proof. induction a as [|a IH]; [reflexivity|exact IH]. Qed.
Lemma trim_left_id c s : c <> " "%char -> trim_left (c :: s) = c :: s.
Proof. intros H. cbn. destruct (Ascii.eqb_spec c " "%char); [contradiction|reflexivity]. Qed.
Lemma rev_spaces b : rev (spaces b) = spaces b.
Proof.
  unfold spaces. induction b as [|b IH]; [reflexivity|]. cbn [repeat rev]. rewrite IH. symmetry. apply repeat_cons.
Qed.
Lemma trim_spec a b t : t <> [] -> (forall c, c ∈ t -> c <> " "%char) -> trim (spaces a ++ t ++ spaces b) = t.
Proof.
  intros Hne Hns. unfold trim. rewrite trim_left_spaces.
  destruct t as [|c t]; [congruence|]. cbn [app]. rewrite trim_left_id by (apply Hns; left).
  change (c :: t ++ spaces b) with ((c :: t) ++ spaces b). rewrite rev_app_distr, rev_spaces, trim_left_spaces.
  destruct (rev (c :: t)) as [|d r] eqn:E.
  - apply (f_equal (@length ascii)) in E. rewrite rev_length in E. discriminate.
  - rewrite trim_left_id, <- E, rev_involutive; [reflexivity|]. apply Hns. apply elem_of_list_In, in_rev. rewrite E. left. reflexivity.
Qed.
Lemma trim_left_decomp s : exists a, s = spaces a ++ trim_left s.
Proof.
  induction s as [|c s [a IH]]; [exists 0%nat; reflexivity|]. cbn [trim_left].
  destruct (Ascii.eqb_spec c " "%char) as [->|]; [|exists 0%nat; reflexivity]. exists (S a). cbn [spaces repeat app]. f_equal. exact IH.
Qed.
Lemma trim_decomp s : exists a b, s = spaces a ++ trim s ++ spaces b.
Proof.
  destruct (trim_left_decomp s) as [a Ha]. destruct (trim_left_decomp (rev (trim_left s))) as [b Hb].
  exists a, b. unfold trim. apply (f_equal (@rev ascii)) in Hb. rewrite rev_involutive, rev_app_distr, rev_spaces in Hb. rewrite <- Hb. exact Ha.
Qed.
Lemma no_underscores_filter t : no_underscores t = filter (fun c => c <> "_"%char) t.
Proof.
  induction t as [|c t IH]; [reflexivity|]. rewrite filter_cons. cbn. rewrite <- IH.
  destruct (Ascii.eqb_spec c "_"%char) as [H|H]; cbn.
  - destruct (decide (c <> "_"%char)); [contradiction|reflexivity].
  - destruct (decide (c <> "_"%char)); [reflexivity|contradiction].
Qed.
Lemma split_dot_spec s : let (i, f) := split_dot s in s = i ++ "."%char :: f \/ s = i /\ f = [].
Proof.
  induction s as [|c s IH]; cbn; [auto|]. destruct (Ascii.eqb_spec c "."%char) as [->|]; [left; reflexivity|].
  destruct (split_dot s) as [i f]. destruct IH as [->|[-> ->]]; auto.
Qed.
Lemma split_dot_at i f : (forall c, c ∈ i -> c <> "."%char) -> split_dot (i ++ "."%char :: f) = (i, f).
Proof.
  induction i as [|c i IH]; intros H; [reflexivity|]. cbn.
  destruct (Ascii.eqb_spec c "."%char) as [E|]; [exfalso; apply (H c); [left|exact E]|].
  rewrite IH; [reflexivity|]. intros d Hd. apply H. right. exact Hd.
Qed.
Lemma split_dot_none i : (forall c, c ∈ i -> c <> "."%char) -> split_dot i = (i, []).
Proof.
  induction i as [|c i IH]; intros H; [reflexivity|]. cbn.
  destruct (Ascii.eqb_spec c "."%char) as [E|]; [exfalso; apply (H c); [left|exact E]|].
  rewrite IH; [reflexivity|]. intros d Hd. apply H. right. exact Hd.
Qed.

Lemma digit_ne_dot i : all_digits i -> forall c, c ∈ i -> c <> "."%char.
Proof. intros H c Hc. apply (digit_not _ _ (H c Hc)). left. reflexivity. Qed.

(** What the first part of the parser finds. *)
Lemma numeral_found s i f : numeral s i f ->
  exists r, no_underscores (trim s) = r /\ r <> [] /\ split_dot r = (i, f) /\ all_digits (i ++ f) /\ (0 < length i + length f)%nat.
Proof.
  intros (Hi & Hf & Hne & a & b & t & -> & Ht).
  assert (length i + length f <> 0)%nat as Hl by (rewrite <- app_length; destruct (i ++ f); [congruence|discriminate]).
  set (r := filter (fun c => c <> "_"%char) t) in *. exists r.
  assert (Hr : r = i ++ "."%char :: f \/ r = i /\ f = []) by exact Ht.
  assert (Hchars : forall c, c ∈ r -> c <> " "%char).
  { intros c Hc. destruct Hr as [E|[E _]]; rewrite E in Hc.
    - apply elem_of_app in Hc as [Hc|Hc]; [apply (digit_not _ _ (Hi _ Hc)); left; reflexivity|].
      apply elem_of_cons in Hc as [->|Hc]; [discriminate|apply (digit_not _ _ (Hf _ Hc)); left; reflexivity].
    - apply (digit_not _ _ (Hi _ Hc)); left; reflexivity. }
  assert (r <> []) as Hrne by (destruct Hr as [->|[-> ->]]; [destruct i; discriminate|destruct i; [cbn in Hne; congruence|discriminate]]).
  rewrite trim_spec.
  - split; [apply no_underscores_filter|]. split; [exact Hrne|]. split; [|split; [apply all_digits_app; auto|lia]].
    destruct Hr as [->|[-> ->]]; [apply split_dot_at|apply split_dot_none]; apply digit_ne_dot; exact Hi.
  - intros ->. apply Hrne. reflexivity.
  - intros c Hc. destruct (decide (c = "_"%char)) as [->|Hu]; [discriminate|]. apply Hchars. apply elem_of_list_filter. auto.
Qed.
Lemma found_numeral s i f : split_dot (no_underscores (trim s)) = (i, f) -> all_digits (i ++ f) -> (0 < length i + length f)%nat -> numeral s i f.
Proof.
  intros Hs Hd Hl. apply all_digits_app in Hd as [Hi Hf]. split; [exact Hi|]. split; [exact Hf|]. split.
  - intros E. apply (f_equal (@length ascii)) in E. rewrite app_length in E. cbn in E. lia.
  - destruct (trim_decomp s) as (a & b & E). exists a, b, (trim s). split; [exact E|].
    pose proof (split_dot_spec (no_underscores (trim s))) as H. rewrite Hs in H. rewrite no_underscores_filter in H. exact H.
Qed.
Lemma numeral_unique s i f i' f' : numeral s i f -> numeral s i' f' -> i = i' /\ f = f'.
Proof.
  intros H H'. destruct (numeral_found _ _ _ H) as (r & E & _ & S1 & _), (numeral_found _ _ _ H') as (r' & E' & _ & S2 & _).
  rewrite E in E'. subst r'. rewrite S1 in S2. injection S2 as -> ->. auto.
Qed.

Definition parse_result (i f : text) : res parse_err decimal_amount :=
  if value i <=? U128_MAX then
    if value f <=? U128_MAX then
      if (length f <=? 255)%nat then
        if value (i ++ f) <=? U128_MAX then Ok (DecimalAmount (value (i ++ f)) (length f)) else Err OutOfRange
      else Panic
    else Err IntParse
  else Err IntParse.
Lemma parse_numeral s i f : numeral s i f -> (length s <= 257)%nat -> parse_decimal s = parse_result i f.
Proof.
  intros Hn Hl. destruct (numeral_found _ _ _ Hn) as (r & E & Hr & S1 & Hd & Hpos). unfold parse_decimal.
  destruct (Nat.leb_spec (length s) 257); [|lia]. cbn [ensure rbind]. rewrite E.
  assert ((match r with [] => false | _ => true end) = true) as -> by (destruct r; congruence). cbn [ensure rbind].
  rewrite S1. rewrite (proj2 (all_digits_forallb _) Hd). cbn [ensure rbind].
  destruct (Nat.ltb_spec 0 (length i + length f)); [|lia]. cbn [ensure rbind].
  apply all_digits_app in Hd as [Hi Hf]. rewrite (parse_digits_0 _ Hi), (parse_digits_0 _ Hf). unfold parse_result.
  destruct (N.leb_spec (value i) U128_MAX) as [H1|H1]; cbn [ok_or rbind]; [|reflexivity].
  destruct (N.leb_spec (value f) U128_MAX) as [H2|H2]; cbn [ok_or rbind]; [|reflexivity].
  destruct (Nat.leb_spec (length f) 255) as [H3|H3]; cbn [expect rbind]; [|reflexivity].
  rewrite value_app. set (P := 10 ^ N.of_nat (length f)). unfold checked_pow10. fold P.
  assert (1 <= P) as HP by (pose proof (N.pow_nonzero 10 (N.of_nat (length f))); unfold P; lia).
  destruct (N.eqb_spec (value i) 0) as [Z0|Z0].
  - rewrite Z0. unfold checked_add. rewrite N.mul_0_l. destruct (N.leb_spec (0 + value f) U128_MAX); [reflexivity|lia].
  - destruct (N.leb_spec P U128_MAX) as [H4|H4].
    + unfold checked_mul. destruct (N.leb_spec (value i * P) U128_MAX).
      * unfold checked_add. destruct (N.leb_spec (value i * P + value f) U128_MAX); reflexivity.
      * destruct (N.leb_spec (value i * P + value f) U128_MAX); [lia|reflexivity].
    + destruct (N.leb_spec (value i * P + value f) U128_MAX); [nia|reflexivity].
Qed.
Lemma parse_ok_numeral s : (exists e, parse_decimal s = Err e) \/ (exists i f, numeral s i f /\ (length s <= 257)%nat).
Proof.
  destruct (Nat.leb_spec (length s) 257) as [Hl|Hl].
  - destruct (split_dot (no_underscores (trim s))) as [i f] eqn:S1.
    destruct (forallb is_digit (i ++ f)) eqn:Hd.
    + destruct (Nat.ltb_spec 0 (length i + length f)) as [Hp|Hp].
      * right. exists i, f. split; [|exact Hl]. apply found_numeral; [exact S1|apply all_digits_forallb; exact Hd|exact Hp].
      * left. unfold parse_decimal. destruct (Nat.leb_spec (length s) 257); [|lia]. cbn [ensure rbind].
        destruct (no_underscores (trim s)) eqn:En; [eexists; reflexivity|]. cbn [ensure rbind]. rewrite S1, Hd. cbn [ensure rbind].
        destruct (Nat.ltb_spec 0 (length i + length f)); [lia|]. eexists. reflexivity.
    + left. unfold parse_decimal. destruct (Nat.leb_spec (length s) 257); [|lia]. cbn [ensure rbind].
      destruct (no_underscores (trim s)) eqn:En; [eexists; reflexivity|]. cbn [ensure rbind]. rewrite S1, Hd. eexists. reflexivity.
  - left. unfold parse_decimal. destruct (Nat.leb_spec (length s) 257); [lia|]. eexists. reflexivity.
Qed.

(** *** Changing the number of decimals *)
Lemma pow10_add a b : 10 ^ N.of_nat (a + b) = 10 ^ N.of_nat a * 10 ^ N.of_nat b.
Proof. rewrite Nat2N.inj_add. apply N.pow_add_r. Qed.
Lemma pow10_pos a : 1 <= 10 ^ N.of_nat a.
Proof. pose proof (N.pow_nonzero 10 (N.of_nat a)). lia. Qed.
Lemma unpad_spec d m : let x := unpad m d in
  (da_decimals x <= d)%nat /\ m = da_mantissa x * 10 ^ N.of_nat (d - da_decimals x) /\
  (da_decimals x = 0%nat \/ da_mantissa x mod 10 <> 0) /\ (m = 0 -> da_decimals x = 0%nat).
Proof.
  revert m. induction d as [|d IH]; intros m; cbn [unpad]; [cbn; lia|].
  destruct (N.eqb_spec (m mod 10) 0) as [Hz|Hz]; cbn zeta.
  - specialize (IH (m / 10)). cbn zeta in IH. destruct (unpad (m / 10) d) as [m' k]. cbn [da_mantissa da_decimals] in *. destruct IH as (H1 & H2 & H3 & H4).
    split; [lia|]. split; [|split; [exact H3|]].
    + replace (S d - k)%nat with (S (d - k)) by lia.
      rewrite Nat2N.inj_succ, N.pow_succ_r by lia. pose proof (N.div_mod m 10). lia.
    + intros ->. apply H4. reflexivity.
  - cbn [da_decimals da_mantissa]. split; [lia|]. rewrite Nat.sub_diag. cbn [N.of_nat]. rewrite N.pow_0_r. split; [lia|]. split; [right; exact Hz|].
    intros ->. exfalso. apply Hz. reflexivity.
Qed.

Lemma pow_38 n : 10 ^ N.of_nat n <= U128_MAX <-> (n <= 38)%nat.
Proof.
  assert (10 ^ N.of_nat 38 <= U128_MAX) as H38 by (vm_compute; discriminate).
  assert (U128_MAX < 10 ^ N.of_nat 39) as H39 by (vm_compute; reflexivity).
  split; intros H.
  - destruct (Nat.leb_spec n 38); [assumption|]. assert (10 ^ N.of_nat 39 <= 10 ^ N.of_nat n) by (apply N.pow_le_mono_r; lia). lia.
  - assert (10 ^ N.of_nat n <= 10 ^ N.of_nat 38) by (apply N.pow_le_mono_r; lia). lia.
Qed.
Lemma to_amount_spec m k d a :
  to_amount (DecimalAmount m k) d = Some a <->
  a <= U128_MAX /\ a * 10 ^ N.of_nat k = m * 10 ^ N.of_nat d /\ (m = 0 -> (d <= 38)%nat).
Proof.
  unfold to_amount, without_padding. cbn [da_mantissa da_decimals].
  destruct (unpad_spec k m) as (H1 & H2 & H3 & H4). destruct (unpad m k) as [m' k']. cbn [da_mantissa da_decimals] in *.
  unfold with_decimals. cbn [da_mantissa da_decimals].
  pose proof (pow10_pos (k - k')) as Pk. pose proof (pow10_pos k') as Pk'. pose proof (pow10_pos d) as Pd.
  assert (10 ^ N.of_nat k = 10 ^ N.of_nat (k - k') * 10 ^ N.of_nat k') as Ek by (rewrite <- pow10_add; f_equal; lia).
  assert (Heq : a * 10 ^ N.of_nat k = m * 10 ^ N.of_nat d <-> a * 10 ^ N.of_nat k' = m' * 10 ^ N.of_nat d).
  { rewrite Ek, H2. set (A := 10 ^ N.of_nat (k - k')) in *. set (B := 10 ^ N.of_nat k') in *. set (D := 10 ^ N.of_nat d) in *. clearbody A B D.
    split; intros H; nia. }
  rewrite Heq. clear Heq. destruct (Nat.ltb_spec d k') as [Hlt|Hge].
  - split; [discriminate|]. intros (Ha & He & _). exfalso.
    assert (10 ^ N.of_nat k' = 10 ^ N.of_nat (k' - d) * 10 ^ N.of_nat d) as E by (rewrite <- pow10_add; f_equal; lia).
    rewrite E in He. assert (m' = a * 10 ^ N.of_nat (k' - d)) as Em by nia.
    destruct H3 as [H3|H3]; [lia|]. apply H3. rewrite Em. replace (k' - d)%nat with (S (k' - d - 1)) by lia.
    rewrite Nat2N.inj_succ, N.pow_succ_r by lia. rewrite N.mul_assoc, (N.mul_comm a 10), <- N.mul_assoc, N.mul_comm. apply N.mod_mul. lia.
  - assert (10 ^ N.of_nat d = 10 ^ N.of_nat (d - k') * 10 ^ N.of_nat k') as Ed by (rewrite <- pow10_add; f_equal; lia).
    pose proof (pow10_pos (d - k')) as Pe. unfold checked_pow10, checked_mul. set (E := 10 ^ N.of_nat (d - k')) in *.
    destruct (N.leb_spec E U128_MAX) as [HE|HE].
    + destruct (N.leb_spec (m' * E) U128_MAX) as [HM|HM]; cbn [da_mantissa].
      * split.
        { intros [= <-]. split; [exact HM|]. split; [rewrite Ed; lia|]. intros Hm. specialize (H4 Hm). subst k'.
          apply pow_38. unfold E in HE. rewrite Nat.sub_0_r in HE. exact HE. }
        { intros (Ha & He & _). f_equal. rewrite Ed in He. nia. }
      * split; [discriminate|]. intros (Ha & He & _). rewrite Ed in He. assert (a = m' * E) by nia. lia.
    + split; [discriminate|]. intros (Ha & He & Hz). rewrite Ed in He. assert (a = m' * E) as Ea by nia.
      destruct (N.eq_dec m 0) as [Hm|Hm].
      * specialize (Hz Hm). specialize (H4 Hm). subst k'. apply pow_38 in Hz. unfold E in HE. rewrite Nat.sub_0_r in HE. lia.
      * assert (m' <> 0) by (intros ->; lia). nia.
Qed.

(** *** The whole *)
Theorem from_text_spec s d a :
  from_fixedpoint_str s d = Ok a <->
  exists i f, numeral s i f /\ (length s <= 257)%nat /\ (length f <= 255)%nat /\ value (i ++ f) <= U128_MAX /\
    a <= U128_MAX /\ a * 10 ^ N.of_nat (length f) = value (i ++ f) * 10 ^ N.of_nat d /\ (value (i ++ f) = 0 -> (d <= 38)%nat).
Proof.
  unfold from_fixedpoint_str. split.
  - destruct (parse_ok_numeral s) as [[e ->]|(i & f & Hn & Hl)]; [discriminate|].
    rewrite (parse_numeral _ _ _ Hn Hl). unfold parse_result.
    destruct (value i <=? U128_MAX); [|discriminate]. destruct (value f <=? U128_MAX); [|discriminate].
    destruct (Nat.leb_spec (length f) 255) as [H3|]; [|discriminate]. destruct (N.leb_spec (value (i ++ f)) U128_MAX) as [H4|]; [|discriminate].
    destruct (to_amount (DecimalAmount (value (i ++ f)) (length f)) d) as [x|] eqn:E; [|discriminate]. intros [= <-].
    apply to_amount_spec in E as (E1 & E2 & E3). exists i, f. auto 10.
  - intros (i & f & Hn & Hl & H3 & H4 & H5 & H6 & H7). rewrite (parse_numeral _ _ _ Hn Hl). unfold parse_result.
    pose proof (pow10_pos (length f)) as Pf. assert (value (i ++ f) = value i * 10 ^ N.of_nat (length f) + value f) as Ev by apply value_app.
    destruct (N.leb_spec (value i) U128_MAX) as [|H]; [|nia]. destruct (N.leb_spec (value f) U128_MAX) as [|H8]; [|nia].
    destruct (Nat.leb_spec (length f) 255); [|lia]. destruct (N.leb_spec (value (i ++ f)) U128_MAX); [|lia].
    assert (to_amount (DecimalAmount (value (i ++ f)) (length f)) d = Some a) as -> by (apply to_amount_spec; auto). reflexivity.
Qed.
Theorem from_text_panics s d :
  from_fixedpoint_str s d = Panic <->
  exists i f, numeral s i f /\ (length s <= 257)%nat /\ (255 < length f)%nat /\ value i <= U128_MAX /\ value f <= U128_MAX.
Proof.
  unfold from_fixedpoint_str. split.
  - destruct (parse_ok_numeral s) as [[e ->]|(i & f & Hn & Hl)]; [discriminate|].
    rewrite (parse_numeral _ _ _ Hn Hl). unfold parse_result.
    destruct (N.leb_spec (value i) U128_MAX) as [H1|]; [|discriminate]. destruct (N.leb_spec (value f) U128_MAX) as [H2|]; [|discriminate].
    destruct (Nat.leb_spec (length f) 255) as [H3|H3]; [|intros _; exists i, f; auto 10].
    destruct (value (i ++ f) <=? U128_MAX); [|discriminate]. destruct (to_amount _ d); discriminate.
  - intros (i & f & Hn & Hl & H3 & H1 & H2). rewrite (parse_numeral _ _ _ Hn Hl). unfold parse_result.
    destruct (N.leb_spec (value i) U128_MAX); [|lia]. destruct (N.leb_spec (value f) U128_MAX); [|lia].
    destruct (Nat.leb_spec (length f) 255); [lia|reflexivity].
Qed.
Lemma numeral_length s i f : numeral s i f -> (length i + length f <= length s)%nat.
Proof.
  intros (_ & _ & _ & a & b & t & -> & H). rewrite !app_length. pose proof (filter_length (fun c : ascii => c <> "_"%char) t) as Hl.
  destruct H as [E|[E ->]]; rewrite E in Hl; [rewrite app_length in Hl; cbn in Hl|cbn]; lia.
Qed.
Theorem short_text_no_panic s d : (length s <= 255)%nat -> from_fixedpoint_str s d <> Panic.
Proof. intros H E. apply from_text_panics in E as (i & f & Hn & _ & Hf & _). apply numeral_length in Hn. lia. Qed.

(** Printing. *)
Lemma to_text_spec a d : (d <= 255)%nat -> exists s i f, into_fixedpoint_str a d = Ok s /\
  (s = i ++ "."%char :: f /\ f <> [] /\ value (i ++ f) mod 10 <> 0 \/ s = i /\ f = []) /\ all_digits i /\ all_digits f /\ i <> [] /\
  (length f <= d)%nat /\ a = value (i ++ f) * 10 ^ N.of_nat (d - length f) /\
  (forall k, (k <> 0)%nat -> a < 10 ^ N.of_nat k -> (length i + length f <= Nat.max k (length f + 1))%nat).
Proof.
  intros Hd. unfold into_fixedpoint_str, without_padding, show_decimal. cbn [da_mantissa da_decimals].
  destruct (unpad_spec d a) as (H1 & H2 & H3 & H4). destruct (unpad a d) as [m k]. cbn [da_mantissa da_decimals] in *.
  destruct (digits_spec m) as (D1 & D2 & D3 & D4).
  pose proof (pow10_pos (d - k)) as Pk. assert (m <= a) as Hle by nia.
  destruct (Nat.ltb_spec 0 k) as [Hk|Hk].
  - set (b := pad_left (k + 1) (digits m)).
    assert (length b = Nat.max (k + 1) (length (digits m))) as Lb by (unfold b, pad_left; rewrite app_length, repeat_length; lia).
    assert (all_digits b) as Db.
    { apply all_digits_app. split; [|exact D1]. intros c Hc. apply elem_of_list_In, repeat_spec in Hc. subst c. exists 0. split; [lia|reflexivity]. }
    assert (value b = m) as Vb.
    { unfold b, pad_left. rewrite value_app, D2. assert (forall n, value (repeat "0"%char n) = 0) as ->; [|lia].
      intros n. induction n as [|n IH]; [reflexivity|]. cbn [repeat]. change (value ("0"%char :: repeat "0"%char n)) with (value (repeat "0"%char n)). exact IH. }
    destruct (Nat.ltb_spec k (length b)); [|lia]. set (j := (length b - k)%nat).
    exists (take j b ++ "."%char :: drop j b), (take j b), (drop j b). split; [reflexivity|].
    assert (length (drop j b) = k) as Lf by (rewrite drop_length; lia).
    assert (length (take j b) = j) as Li by (rewrite take_length; lia). rewrite take_drop, Vb.
    rewrite <- (take_drop j b) in Db. apply all_digits_app in Db as [Di Df].
    split; [left; split; [reflexivity|split; [intros E; rewrite E in Lf; cbn in Lf; lia|destruct H3; [lia|assumption]]]|].
    split; [exact Di|]. split; [exact Df|]. split; [intros E; rewrite E in Li; cbn in Li; lia|]. rewrite Lf. split; [exact H1|]. split; [exact H2|].
    intros n Hn Ha. rewrite Li. specialize (D4 n Hn). assert (m < 10 ^ N.of_nat n) by lia. specialize (D4 H0). lia.
  - assert (k = 0)%nat as -> by lia. exists (digits m), (digits m), []. split; [reflexivity|]. rewrite app_nil_r, D2.
    split; [right; auto|]. split; [exact D1|]. split; [intros c Hc; apply elem_of_nil in Hc; contradiction|]. split; [exact D3|].
    cbn [length]. split; [lia|]. split; [exact H2|]. intros n Hn Ha. assert (m < 10 ^ N.of_nat n) by lia. specialize (D4 n Hn H). lia.
Qed.
Lemma shown_numeral i f s : (s = i ++ "."%char :: f /\ f <> [] /\ value (i ++ f) mod 10 <> 0 \/ s = i /\ f = []) ->
  all_digits i -> all_digits f -> i <> [] -> numeral s i f.
Proof.
  intros Hs Hi Hf Hne. split; [exact Hi|]. split; [exact Hf|]. split; [destruct i; [congruence|discriminate]|].
  exists 0%nat, 0%nat, s. split; [cbn; rewrite app_nil_r; reflexivity|].
  assert (forall t : text, (forall c, c ∈ t -> c <> "_"%char) -> filter (fun c => c <> "_"%char) t = t) as Hfil.
  { induction t as [|c t IH]; intros H; [reflexivity|]. rewrite filter_cons. destruct (decide (c <> "_"%char)) as [|Hc].
    - rewrite IH; [reflexivity|]. intros x Hx. apply H. right. exact Hx.
    - exfalso. apply Hc. apply H. left. }
  destruct Hs as [(-> & _)|[-> ->]].
  - left. apply Hfil. intros c Hc. apply elem_of_app in Hc as [Hc|Hc]; [apply (digit_not _ _ (Hi _ Hc)); right; reflexivity|].
    apply elem_of_cons in Hc as [->|Hc]; [discriminate|apply (digit_not _ _ (Hf _ Hc)); right; reflexivity].
  - right. split; [|reflexivity]. apply Hfil. intros c Hc. apply (digit_not _ _ (Hi _ Hc)); right; reflexivity.
Qed.
Theorem text_round_trip a d : a <= U128_MAX -> (d <= 255)%nat -> (a <> 0 \/ (d <= 38)%nat) ->
  exists s, into_fixedpoint_str a d = Ok s /\ from_fixedpoint_str s d = Ok a.
Proof.
  intros Ha Hd Hz. destruct (to_text_spec a d Hd) as (s & i & f & Hs & Hsh & Hi & Hf & Hne & Hl & Hv & Hlen).
  exists s. split; [exact Hs|]. apply from_text_spec. exists i, f. split; [apply (shown_numeral _ _ _ Hsh Hi Hf Hne)|].
  assert (length i + length f <= Nat.max 39 (length f + 1))%nat as HL.
  { apply Hlen; [lia|]. assert (U128_MAX < 10 ^ N.of_nat 39) by (vm_compute; reflexivity). lia. }
  assert (length s <= length i + 1 + length f)%nat as HLs by (destruct Hsh as [(-> & _)|[-> ->]]; [rewrite app_length; cbn; lia|cbn; lia]).
  pose proof (pow10_pos (d - length f)) as Pd. assert (value (i ++ f) <= a) as Hva by nia.
  split; [lia|]. split; [lia|]. split; [lia|]. split; [exact Ha|]. split.
  - rewrite Hv at 1. rewrite <- N.mul_assoc, <- pow10_add. do 3 f_equal. lia.
  - intros E. rewrite E in Hv. lia.
Qed.
