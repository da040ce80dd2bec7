(** C46: big integers compute exactly. *)
From Verif Require Import Base UintModel UintSpec UintProofs UintShiftProofs.
Local Open Scope N_scope.

(** C46. Checked addition, subtraction and multiplication of n-word integers return the exact result when it fits in n words
    and nothing otherwise; none of them aborts. *)
Theorem C46_addition_exact n a b : words n a -> words n b ->
  (uval a + uval b < capacity n -> exists r, uchecked_add a b = Some r /\ words n r /\ uval r = uval a + uval b) /\
  (capacity n <= uval a + uval b -> uchecked_add a b = None).
Proof. exact (uchecked_add_spec n a b). Qed.
Print Assumptions C46_addition_exact.
Theorem C46_subtraction_exact n a b : (0 < n)%nat -> words n a -> words n b ->
  (uval b <= uval a -> exists r, uchecked_sub a b = Some r /\ words n r /\ uval r = uval a - uval b) /\
  (uval a < uval b -> uchecked_sub a b = None).
Proof. exact (uchecked_sub_spec n a b). Qed.
Print Assumptions C46_subtraction_exact.
Theorem C46_multiplication_exact n a b : words n a -> words n b ->
  (uval a * uval b < capacity n -> exists r, uchecked_mul a b = Ok r /\ words n r /\ uval r = uval a * uval b) /\
  (capacity n <= uval a * uval b -> uchecked_mul a b = Err tt).
Proof. exact (uchecked_mul_spec n a b). Qed.
Print Assumptions C46_multiplication_exact.
(** C46. The double-width product is exact. *)
Theorem C46_widening_product_exact n a b : words n a -> words n b ->
  exists lo hi, widening_mul a b = Ok (lo, hi) /\ words n lo /\ words n hi /\ uval lo + capacity n * uval hi = uval a * uval b.
Proof. exact (widening_mul_spec n a b). Qed.
Print Assumptions C46_widening_product_exact.
Theorem C46_small_product_wraps n a k : words n a -> k < 2 ^ 32 ->
  exists r, mul_u32 a k = Ok r /\ words n r /\ uval r = (uval a * k) mod capacity n.
Proof. exact (mul_u32_spec n a k). Qed.
Print Assumptions C46_small_product_wraps.
(** C46. Division by long division gives quotient and remainder; by zero it gives nothing. *)
Theorem C46_division_exact n a b : (0 < n)%nat -> words n a -> words n b ->
  (uval b <> 0 -> exists q, uchecked_div a b = Ok q /\ words n q /\ uval q = uval a / uval b) /\
  (uval b = 0 -> uchecked_div a b = Err tt).
Proof. exact (uchecked_div_spec n a b). Qed.
Print Assumptions C46_division_exact.
Theorem C46_remainder_exact n a b : (0 < n)%nat -> words n a -> words n b ->
  (uval b <> 0 -> exists r, uchecked_rem a b = Ok r /\ words n r /\ uval r = uval a mod uval b) /\
  (uval b = 0 -> uchecked_rem a b = Err tt).
Proof. exact (uchecked_rem_spec n a b). Qed.
Print Assumptions C46_remainder_exact.
(** C46. Shifts, bit length and comparison are those of the number, for every shift distance. *)
Theorem C46_left_shift n a shift : words n a ->
  exists r, ushl a shift = Ok r /\ words n r /\ uval r = (uval a * 2 ^ shift) mod capacity n.
Proof. exact (ushl_spec n a shift). Qed.
Print Assumptions C46_left_shift.
Theorem C46_right_shift n a shift : words n a -> exists r, ushr a shift = Ok r /\ words n r /\ uval r = uval a / 2 ^ shift.
Proof. exact (ushr_spec n a shift). Qed.
Print Assumptions C46_right_shift.
Theorem C46_bit_length n a : (0 < n)%nat -> words n a -> bits a = N.size (uval a).
Proof. exact (bits_spec n a). Qed.
Print Assumptions C46_bit_length.
Theorem C46_comparison n a b : words n a -> words n b -> ucompare a b = (uval a ?= uval b).
Proof. exact (ucompare_spec n a b). Qed.
Print Assumptions C46_comparison.
(** C46. Bytes: encoding and decoding in little-endian order preserve the number and are inverse to each other. *)
Theorem C46_bytes_round_trip n a : words n a ->
  byte_value (to_bytes a) = uval a /\ from_slice n (to_bytes a) = Ok a.
Proof.
  intros Ha. destruct (to_bytes_spec n a Ha) as (H1 & H2 & H3). split; [exact H3|]. unfold from_slice. rewrite H1, Nat.eqb_refl. f_equal.
  destruct (from_bytes_spec n (to_bytes a) H1 H2) as [H4 H5]. apply (uval_inj n); auto. congruence.
Qed.
Print Assumptions C46_bytes_round_trip.
Theorem C46_slice_value n l : Forall (fun x => x < 256) l ->
  (length l = (n * 8)%nat -> exists a, from_slice n l = Ok a /\ words n a /\ uval a = byte_value l) /\
  (length l <> (n * 8)%nat -> from_slice n l = Err tt).
Proof.
  intros Hl. unfold from_slice. split; intros E.
  - rewrite E, Nat.eqb_refl. destruct (from_bytes_spec n l E Hl). eauto.
  - by rewrite (proj2 (Nat.eqb_neq _ _) E).
Qed.
Print Assumptions C46_slice_value.
(** C46. Conversions between widths keep the number or refuse. *)
Theorem C46_widening n m a : words n a -> words (n + m) (widen m a) /\ uval (widen m a) = uval a.
Proof. exact (widen_spec n m a). Qed.
Print Assumptions C46_widening.
Theorem C46_narrowing_to_u128 a : words 4 a ->
  (uval a <= U128_MAX -> u128_of_u256 a = Ok (uval a)) /\ (U128_MAX < uval a -> u128_of_u256 a = Err tt).
Proof. exact (u128_of_u256_spec a). Qed.
Print Assumptions C46_narrowing_to_u128.
Theorem C46_narrowing_to_u256 a : words 8 a ->
  (uval a < capacity 4 -> exists r, u256_of_u512 a = Ok r /\ words 4 r /\ uval r = uval a) /\
  (capacity 4 <= uval a -> u256_of_u512 a = Err tt).
Proof. exact (u256_of_u512_spec a). Qed.
Print Assumptions C46_narrowing_to_u256.

Definition sample_a : list N := [18446744073709551615; 5; 0; 77].
Definition sample_b : list N := [3; 18446744073709551615; 0; 0].
Example C46_examples :
  words 4 sample_a /\ words 4 sample_b /\
  uchecked_add sample_a sample_b = Some [2; 5; 1; 77] /\
  uchecked_sub sample_a sample_b = Some [18446744073709551612; 6; 18446744073709551615; 76] /\
  uchecked_sub sample_b sample_a = None /\
  uchecked_mul sample_a sample_b = Err tt /\
  uchecked_mul [7; 1; 0; 0] [0; 0; 2; 0] = Ok [0; 0; 14; 2] /\
  uchecked_div sample_a sample_b = Ok [76; 77; 0; 0] /\
  uchecked_rem sample_a sample_b = Ok [18446744073709551387; 18446744073709551466; 0; 0] /\
  uchecked_div sample_a [0; 0; 0; 0] = Err tt /\
  ushl sample_a 65 = Ok [0; 18446744073709551614; 11; 0] /\ ushr sample_a 65 = Ok [2; 9223372036854775808; 38; 0] /\
  ushl sample_a 300 = Ok [0; 0; 0; 0] /\ bits sample_a = 199 /\
  u128_of_u256 sample_b = Ok 340282366920938463444927863358058659843 /\ u128_of_u256 sample_a = Err tt.
Proof. split; [split; [done|repeat constructor; done]|]. split; [split; [done|repeat constructor; done]|]. vm_compute. repeat split; reflexivity. Qed.
