(** C48: arithmetic on amounts is exact or reported. *)
From Verif Require Import Base AmountModel AmountExtraModel.
Local Open Scope N_scope.

(** Specification: an operation gives the exact mathematical result when the type can hold it, and nothing otherwise. *)
Definition exact_in (lo hi : Z) (z : Z) : option Z := if ((lo <=? z) && (z <=? hi))%Z then Some z else None.
Definition exact_u128 (z : Z) : option Z := exact_in 0 (Z.of_N U128_MAX) z.
Definition exact_i128 (z : Z) : option Z := exact_in I128_MIN I128_MAX z.
Definition is_u128 (a : N) : Prop := a <= U128_MAX.
Definition sum_n (l : list N) : N := foldr N.add 0 l.
Definition sum_z (l : list Z) : Z := foldr Z.add 0%Z l.

Lemma exact_in_some lo hi z : (lo <= z <= hi)%Z -> exact_in lo hi z = Some z.
Proof. intro H. unfold exact_in. by rewrite (proj2 (Z.leb_le _ _)), (proj2 (Z.leb_le _ _)) by lia. Qed.
Lemma exact_in_none lo hi z : ~ (lo <= z <= hi)%Z -> exact_in lo hi z = None.
Proof. intro H. unfold exact_in. destruct (lo <=? z)%Z eqn:E1; destruct (z <=? hi)%Z eqn:E2; try done. exfalso. apply H. lia. Qed.

(** Amounts: addition, subtraction, multiplication and division by a number *)
Theorem C48_amounts_exact_or_reported a b : is_u128 a -> is_u128 b ->
  Z.of_N <$> amount_add a b = exact_u128 (Z.of_N a + Z.of_N b) /\
  Z.of_N <$> amount_sub a b = exact_u128 (Z.of_N a - Z.of_N b) /\
  Z.of_N <$> amount_mul a b = exact_u128 (Z.of_N a * Z.of_N b) /\
  Z.of_N <$> amount_div a b = (if b =? 0 then None else exact_u128 (Z.of_N a / Z.of_N b)) /\
  Z.of_N <$> amount_rem a b = (if b =? 0 then None else exact_u128 (Z.of_N a mod Z.of_N b)).
Proof.
  unfold is_u128, exact_u128. intros Ha Hb. unfold amount_add, amount_sub, amount_mul, amount_div, amount_rem, checked_add, checked_sub, checked_mul, checked_div.
  set (M := U128_MAX) in *. clearbody M. split_and!.
  - destruct (a + b <=? M) eqn:E; cbn; [rewrite exact_in_some by lia; f_equal; lia|by rewrite exact_in_none by lia].
  - destruct (b <=? a) eqn:E; cbn; [rewrite exact_in_some by lia; f_equal; lia|by rewrite exact_in_none by lia].
  - destruct (a * b <=? M) eqn:E; cbn; rewrite <- N2Z.inj_mul; [rewrite exact_in_some by lia; done|by rewrite exact_in_none by lia].
  - destruct (b =? 0) eqn:E; cbn; [done|]. rewrite <- N2Z.inj_div. assert (a / b <= a) by (apply N.div_le_upper_bound; nia). set (d := a / b) in *. clearbody d. by rewrite exact_in_some by lia.
  - destruct (b =? 0) eqn:E; cbn; [done|]. rewrite <- N2Z.inj_mod. assert (a mod b <= b) by (pose proof (N.mod_lt a b); lia). set (d := a mod b) in *. clearbody d. by rewrite exact_in_some by lia.
Qed.
Print Assumptions C48_amounts_exact_or_reported.
Example C48_example : is_u128 7 /\ is_u128 U128_MAX /\ amount_add 7 U128_MAX = None /\ amount_sub 7 8 = None /\ amount_mul 7 (U128_MAX / 7) = Some (U128_MAX / 7 * 7) /\
  amount_mul 7 (U128_MAX / 7 + 1) = None /\ amount_div U128_MAX 0 = None /\ amount_div 7 2 = Some 3.
Proof. split_and!; by vm_compute. Qed.

(** Summing amounts gives the exact sum or reports that it does not fit, in whatever order they are listed. *)
Theorem C48_sum_exact_or_reported l : amount_sum l = if sum_n l <=? U128_MAX then Some (sum_n l) else None.
Proof.
  unfold amount_sum. cut (forall acc, acc <= U128_MAX -> amount_sum_from acc l = if acc + sum_n l <=? U128_MAX then Some (acc + sum_n l) else None).
  { intro H. rewrite H by lia. done. }
  induction l as [|a l IH]; intros acc Ha; cbn [amount_sum_from sum_n foldr].
  - rewrite N.add_0_r. by rewrite (proj2 (N.leb_le _ _)) by done.
  - fold (sum_n l). unfold amount_add, checked_add. destruct (acc + a <=? U128_MAX) eqn:E.
    + rewrite IH by lia. by rewrite N.add_assoc.
    + destruct (acc + (a + sum_n l) <=? U128_MAX) eqn:E2; [lia|done].
Qed.
Print Assumptions C48_sum_exact_or_reported.
Theorem C48_sum_order_does_not_matter l l' : l ≡ₚ l' -> amount_sum l = amount_sum l'.
Proof.
  intro P. rewrite !C48_sum_exact_or_reported. replace (sum_n l') with (sum_n l); [done|].
  induction P as [|x l l' _ IH|x y l|l1 l2 l3 _ IH1 _ IH2]; cbn; unfold sum_n in *; [done|lia|lia|congruence].
Qed.
Print Assumptions C48_sum_order_does_not_matter.
Example C48_sum_example : [U128_MAX; 0; 0] ≡ₚ [0; U128_MAX; 0] /\ amount_sum [U128_MAX; 0; 0] = Some U128_MAX /\ amount_sum [1; U128_MAX] = None /\ amount_sum [1; 2; 3] = Some 6.
Proof. split; [constructor|]. split_and!; by vm_compute. Qed.

(** The difference of two amounts never crashes and is the distance between them. *)
Theorem C48_abs_diff_is_distance a b : amount_abs_diff a b = Ok (Z.to_N (Z.abs (Z.of_N a - Z.of_N b))).
Proof.
  unfold amount_abs_diff, amount_sub, checked_sub. destruct (b <? a) eqn:E.
  - rewrite (proj2 (N.leb_le _ _)) by lia. cbn. f_equal. lia.
  - rewrite (proj2 (N.leb_le _ _)) by lia. cbn. f_equal. lia.
Qed.
Print Assumptions C48_abs_diff_is_distance.

(** Signed amounts: addition, subtraction, negation and conversions *)
Theorem C48_signed_exact_or_reported a b : (I128_MIN <= a <= I128_MAX)%Z -> (I128_MIN <= b <= I128_MAX)%Z ->
  samount_add a b = exact_i128 (a + b) /\ samount_sub a b = exact_i128 (a - b) /\ samount_neg a = exact_i128 (- a) /\
  Z.of_N <$> into_unsigned a = exact_u128 a.
Proof.
  intros Ha Hb. split_and!; [done|done| |].
  - unfold samount_neg, exact_i128, exact_in. assert (I128_MIN = - I128_MAX - 1)%Z as E by done. destruct (a =? I128_MIN)%Z eqn:E1.
    + destruct (I128_MIN <=? - a)%Z eqn:E2; destruct (- a <=? I128_MAX)%Z eqn:E3; try done. lia.
    + by rewrite (proj2 (Z.leb_le _ _)), (proj2 (Z.leb_le _ _)) by lia.
  - unfold into_unsigned, exact_u128. assert (I128_MAX <= Z.of_N U128_MAX)%Z by by vm_compute. set (M := Z.of_N U128_MAX) in *. clearbody M. destruct (0 <=? a)%Z eqn:E; cbn.
    + rewrite exact_in_some by lia. f_equal. apply Z2N.id. lia.
    + by rewrite exact_in_none by lia.
Qed.
Print Assumptions C48_signed_exact_or_reported.
Theorem C48_to_signed_exact_or_reported a : is_u128 a -> into_signed a = exact_i128 (Z.of_N a).
Proof.
  intros _. unfold into_signed, exact_i128, exact_in. assert (I128_MIN <= 0)%Z by by vm_compute. by rewrite (proj2 (Z.leb_le I128_MIN _)) by lia.
Qed.
Print Assumptions C48_to_signed_exact_or_reported.
Example C48_signed_example : samount_neg I128_MIN = None /\ samount_add I128_MAX 1 = None /\ samount_sub (-5) 7 = Some (-12)%Z /\ into_unsigned (-1) = None /\
  into_signed U128_MAX = None /\ into_signed 7 = Some 7%Z.
Proof. split_and!; by vm_compute. Qed.
(** A sum of signed amounts is exact when given, but whether it is given depends on the order. *)
Theorem C48_signed_sum_exact_when_given l z : samount_sum l = Some z -> z = sum_z l.
Proof.
  unfold samount_sum. cut (forall acc, samount_sum_from acc l = Some z -> z = acc + sum_z l)%Z.
  { intros H X. apply H in X. lia. }
  induction l as [|a l IH]; intros acc; cbn [samount_sum_from sum_z foldr].
  - intros [= <-]. lia.
  - fold (sum_z l). unfold samount_add. destruct (_ && _); [|done]. intro H. apply IH in H. lia.
Qed.
Print Assumptions C48_signed_sum_exact_when_given.
Example C48_signed_sum_example : samount_sum [5; -7; 3]%Z = Some 1%Z.
Proof. by vm_compute. Qed.
Theorem C48_signed_sum_order_refuted : ~ (forall l l', l ≡ₚ l' -> samount_sum l = samount_sum l').
Proof.
  intro H. assert (P : [I128_MAX; 1; -1]%Z ≡ₚ [I128_MAX; -1; 1]%Z) by (apply perm_skip, perm_swap). apply H in P. by vm_compute in P.
Qed.
Print Assumptions C48_signed_sum_order_refuted.
