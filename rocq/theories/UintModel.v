(** Model of the fixed-size big integers: common/src/uint/impls.rs 25-613 (macro [construct_uint], instantiated with 2, 4
    and 8 words at 614-616), conversions 640-700, and common/src/uint/endian.rs.
    A value is the list of its 64-bit words, least significant first; the model works for any number of words.
    [Panic] stands for a failed [assert!], an index out of bounds or a u64 overflow of [+=]. [Err tt] stands for [None]. *)
From Verif Require Import Base.
Local Open Scope N_scope.

Notation uint := (list N).
(** The number of values of a u64 *)
Definition W : N := 18446744073709551616.

(** impls.rs 32 [ZERO], 87-91 [from_u64], 465-471 [one] (an array of n words with the first one set) *)
Definition zero (n : nat) : uint := repeat 0 n.
Definition from_u64 (n : nat) (init : N) : uint := <[0%nat := init]> (zero n).
Definition one (n : nat) : uint := from_u64 n 1.
(** impls.rs 95-100 [from_u128] *)
Definition from_u128 (n : nat) (init : N) : uint := <[1%nat := init / W mod W]> (<[0%nat := init mod W]> (zero n)).
(** impls.rs 46-48 *)
Definition low_u64 (a : uint) : N := nth 0 a 0.

(** u64::overflowing_add *)
Definition word_add (x y : N) : N * bool := ((x + y) mod W, W <=? x + y).
(** u64::leading_zeros *)
Definition leading_zeros (x : N) : N := 64 - N.size x.

(** impls.rs 51-61 [bits]: the loop looks at the words from the most significant one down to index one *)
Fixpoint bits_below (a : uint) (i : nat) : N :=
  match i with
  | O => 64 - leading_zeros (nth 0 a 0)
  | S j => if 0 <? nth i a 0 then 64 * N.of_nat (i + 1) - leading_zeros (nth i a 0) else bits_below a j
  end.
Definition bits (a : uint) : N := bits_below a (length a - 1).

(** impls.rs 68-83 [widening_mul_u64], with its assertions *)
Fixpoint mul_u64_from (a : uint) (rhs carry : N) : res unit (uint * N) :=
  match a with
  | [] => Ok ([], carry)
  | x :: a' =>
      if carry <? W - 1 then
        let prod := x * rhs in
        if prod <=? (W - 1) * (W - 1) then
          let prod := prod + carry in
          if prod <? (W - 1) * (W - 1) + (W - 1) then
            let? (r, c) := mul_u64_from a' rhs (prod / W) in Ok (prod mod W :: r, c)
          else Panic
        else Panic
      else Panic
  end.
Definition widening_mul_u64 (a : uint) (rhs : N) : res unit (uint * N) := mul_u64_from a rhs 0.
(** impls.rs 64-66 *)
Definition mul_u32 (a : uint) (other : N) : res unit uint := let? (r, _) := widening_mul_u64 a other in Ok r.

(** impls.rs 222-232 *)
Fixpoint add_with_carry (a b : uint) (carry : bool) : uint * bool :=
  match a, b with
  | x :: a', y :: b' =>
      let (ab, ab_c) := word_add x y in
      let (abc, abc_c) := word_add ab (if carry then 1 else 0) in
      let (r, c) := add_with_carry a' b' (ab_c || abc_c) in
      (abc :: r, c)
  | _, _ => ([], carry)
  end.
(** impls.rs 234-236 *)
Definition overflowing_add (a b : uint) : uint * bool := add_with_carry a b false.
(** impls.rs 518-530 [Not] *)
Definition unot (a : uint) : uint := map (fun w => W - 1 - w) a.
(** impls.rs 238-242 *)
Definition unchecked_sub (a b : uint) : uint :=
  (overflowing_add (overflowing_add a (unot b)).1 (one (length a))).1.

(** impls.rs 377-394 [Ord]: words compared from the most significant one *)
Fixpoint compare_words (a b : uint) : comparison :=
  match a, b with
  | x :: a', y :: b' => if x <? y then Lt else if y <? x then Gt else compare_words a' b'
  | _, _ => Eq
  end.
Definition ucompare (a b : uint) : comparison := compare_words (rev a) (rev b).
Definition ugeb (a b : uint) : bool := match ucompare a b with Lt => false | _ => true end.
Definition ueqb (a b : uint) : bool := bool_decide (a = b).

(** impls.rs 257-260, 262-264 *)
Definition uchecked_add (a b : uint) : option uint :=
  let (r, carry) := overflowing_add a b in if carry then None else Some r.
Definition uchecked_sub (a b : uint) : option uint :=
  if ugeb a b then Some (unchecked_sub a b) else None.

(** impls.rs 286-296: slices copied into a zeroed array; panics if the shift exceeds the number of words *)
Definition shr_words (a : uint) (n : nat) : res unit uint :=
  if (n <=? length a)%nat then Ok (skipn n a ++ repeat 0 n) else Panic.
Definition shl_words (a : uint) (n : nat) : res unit uint :=
  if (n <=? length a)%nat then Ok (repeat 0 n ++ firstn (length a - n) a) else Panic.

(** impls.rs 266-284 [widening_mul]: the loop over the words of [other], from word [i] on *)
Fixpoint widening_mul_loop (a : uint) (other : uint) (i : nat) (res_lo res_hi : uint) : res unit (uint * uint) :=
  match other with
  | [] => Ok (res_lo, res_hi)
  | rhs_i :: other' =>
      let? (res_i, carry_mul) := widening_mul_u64 a rhs_i in
      let? lo := shl_words res_i i in
      let? hi := shr_words res_i (length a - i) in
      let hi := <[i := carry_mul]> hi in
      let (res_lo_new, carry0) := overflowing_add res_lo lo in
      let (res_hi_new, carry1) := add_with_carry res_hi hi carry0 in
      if carry1 then Panic else widening_mul_loop a other' (S i) res_lo_new res_hi_new
  end.
Definition widening_mul (a b : uint) : res unit (uint * uint) :=
  widening_mul_loop a b 0 (zero (length a)) (zero (length a)).
(** impls.rs 298-301 *)
Definition uchecked_mul (a b : uint) : res unit uint :=
  let? (lo, hi) := widening_mul a b in if ueqb hi (zero (length a)) then Ok lo else Err tt.

(** [ret[k] += v] on an array of u64 *)
Definition add_at (r : uint) (k : nat) (v : N) : res unit uint :=
  match r !! k with
  | Some x => if x + v <? W then Ok (<[k := x + v]> r) else Panic
  | None => Panic
  end.
(** impls.rs 532-553 [Shl]; on words, [x << k] keeps the low 64 bits *)
Definition shl_step (a : uint) (word_shift : nat) (bit_shift : N) (ret : uint) (i : nat) : res unit uint :=
  let? ret := (if (bit_shift <? 64) && (i + word_shift <? length a)%nat
               then add_at ret (i + word_shift) (N.shiftl (nth i a 0) bit_shift mod W) else Ok ret) in
  if (0 <? bit_shift) && (i + word_shift + 1 <? length a)%nat
  then add_at ret (i + word_shift + 1) (N.shiftr (nth i a 0) (64 - bit_shift)) else Ok ret.
Definition ushl (a : uint) (shift : N) : res unit uint :=
  rfold (shl_step a (N.to_nat (shift / 64)) (shift mod 64)) (seq 0 (length a)) (zero (length a)).
(** impls.rs 555-574 [Shr] *)
Definition shr_step (a : uint) (word_shift : nat) (bit_shift : N) (ret : uint) (i : nat) : res unit uint :=
  let? ret := add_at ret (i - word_shift) (N.shiftr (nth i a 0) bit_shift) in
  if (0 <? bit_shift) && (i <? length a - 1)%nat
  then add_at ret (i - word_shift) (N.shiftl (nth (i + 1) a 0) (64 - bit_shift) mod W) else Ok ret.
Definition ushr (a : uint) (shift : N) : res unit uint :=
  let ws := N.to_nat (shift / 64) in
  rfold (shr_step a ws (shift mod 64)) (seq ws (length a - ws)) (zero (length a)).

(** impls.rs 184-220 [div_rem]: the loop, from the given shift down to zero *)
Fixpoint div_loop (shift : nat) (sub_copy shift_copy ret : uint) : res unit (uint * uint) :=
  let (ret, sub_copy) :=
    if ugeb sub_copy shift_copy
    then (<[(shift / 64)%nat := N.lor (nth (shift / 64) ret 0) (2 ^ N.of_nat (shift mod 64))]> ret, unchecked_sub sub_copy shift_copy)
    else (ret, sub_copy) in
  let? shift_copy := ushr shift_copy 1 in
  match shift with
  | O => Ok (ret, sub_copy)
  | S s => div_loop s sub_copy shift_copy ret
  end.
Definition div_rem (a b : uint) : res unit (uint * uint) :=
  let my_bits := bits a in
  let your_bits := bits b in
  if your_bits =? 0 then Panic
  else if my_bits <? your_bits then Ok (zero (length a), a)
  else let? shift_copy := ushl b (my_bits - your_bits) in
       div_loop (N.to_nat (my_bits - your_bits)) a shift_copy (zero (length a)).
(** impls.rs 303-309, 244-250 *)
Definition uchecked_div (a b : uint) : res unit uint :=
  if ueqb b (zero (length a)) then Err tt else let? (q, _) := div_rem a b in Ok q.
Definition uchecked_rem (a b : uint) : res unit uint :=
  if ueqb b (zero (length a)) then Err tt else let? (_, r) := div_rem a b in Ok r.

(** impls.rs 655-667: widening conversions; 676-698: narrowing conversions.
    [u128::from_le_bytes(n.to_bytes())] of the two low words is written as their value. *)
Definition widen (n : nat) (a : uint) : uint := a ++ repeat 0 n.
Definition u128_of_u256 (a : uint) : res unit N :=
  match ucompare a (from_u128 4 U128_MAX) with
  | Gt => Err tt
  | _ => Ok (nth 0 a 0 + W * nth 1 a 0)
  end.
Definition u256_of_u512 (a : uint) : res unit uint :=
  match ucompare a (widen 4 (repeat (W - 1) 4)) with
  | Gt => Err tt
  | _ => Ok (firstn 4 a)
  end.

(** endian.rs 31-42 [slice_to_u64_le], 60-72 [u64_to_array_le], on bytes as [N]; the loop of [|=] as a fold *)
Definition word_of_bytes (l : list N) : N :=
  foldl (fun acc i => N.lor acc (N.shiftl (nth i l 0) (8 * N.of_nat i))) 0 (seq 0 8).
Definition bytes_of_word (w : N) : list N :=
  map (fun i => N.land (N.shiftr w (8 * N.of_nat i)) 255) (seq 0 8).
(** impls.rs 172-179 [to_bytes], 163-170 [inner_from_slice] ([chunks(8)]) *)
Fixpoint to_bytes (a : uint) : list N :=
  match a with [] => [] | w :: a' => bytes_of_word w ++ to_bytes a' end.
Fixpoint from_bytes (n : nat) (l : list N) : uint :=
  match n with O => [] | S m => word_of_bytes (firstn 8 l) :: from_bytes m (skipn 8 l) end.
(** impls.rs 151-161 [from_slice] *)
Definition from_slice (n : nat) (l : list N) : res unit uint :=
  if (length l =? n * 8)%nat then Ok (from_bytes n l) else Err tt.
