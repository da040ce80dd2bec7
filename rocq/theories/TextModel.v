(** Model of amounts as decimal text: common/src/primitives/amount/decimal.rs and amount/mod.rs 84-90.
    A string is the list of its bytes ([ascii] is a byte); all characters the code looks for are single bytes in UTF-8. *)
From Coq Require Import Ascii.
From Verif Require Import Base AmountModel.
Local Open Scope N_scope.

Notation text := (list ascii).
Notation "c =?a d" := (Ascii.eqb c d) (at level 70).

(** char::is_ascii_digit *)
Definition is_digit (c : ascii) : bool := (48 <=? N_of_ascii c) && (N_of_ascii c <=? 57).
Definition digit_value (c : ascii) : N := N_of_ascii c - 48.
Definition digit_char (n : N) : ascii := ascii_of_N (48 + n).

(** u128: FromStr, on a string of ASCII digits (the only way it is called): none on overflow.
    The standard library multiplies by ten and adds the digit, checking both. *)
Fixpoint parse_digits (acc : N) (s : text) : option N :=
  match s with
  | [] => Some acc
  | c :: s' => match checked_mul U128_MAX acc 10 with
               | None => None
               | Some x => match checked_add U128_MAX x (digit_value c) with
                           | None => None
                           | Some y => parse_digits y s'
                           end
               end
  end.

(** u128: Display. Decimal digits, most significant first; [fuel] bounds the number of divisions. *)
Fixpoint digits_fuel (fuel : nat) (n : N) (acc : text) : text :=
  match fuel with
  | O => acc
  | S f => let acc' := digit_char (n mod 10) :: acc in
           if n / 10 =? 0 then acc' else digits_fuel f (n / 10) acc'
  end.
Definition digits (n : N) : text := digits_fuel (S (N.size_nat n)) n [].

(** u128::checked_pow with base ten *)
Definition checked_pow10 (e : nat) : option N :=
  let p := 10 ^ N.of_nat e in if p <=? U128_MAX then Some p else None.

(** decimal.rs 37-41; [decimals] is a u8 *)
Record decimal_amount := DecimalAmount { da_mantissa : N; da_decimals : nat }.

(** decimal.rs 66-71 *)
Definition with_decimals (x : decimal_amount) (decimals : nat) : option decimal_amount :=
  if (decimals <? da_decimals x)%nat then None
  else match checked_pow10 (decimals - da_decimals x) with
       | None => None
       | Some p => match checked_mul U128_MAX (da_mantissa x) p with
                   | None => None
                   | Some m => Some (DecimalAmount m decimals)
                   end
       end.
(** decimal.rs 73-80 (the loop decreases [decimals]) *)
Fixpoint unpad (m : N) (d : nat) : decimal_amount :=
  match d with
  | O => DecimalAmount m 0
  | S d' => if m mod 10 =? 0 then unpad (m / 10) d' else DecimalAmount m d
  end.
Definition without_padding (x : decimal_amount) : decimal_amount := unpad (da_mantissa x) (da_decimals x).
(** decimal.rs 59-63 *)
Definition to_amount (x : decimal_amount) (decimals : nat) : option amount :=
  match with_decimals (without_padding x) decimals with Some y => Some (da_mantissa y) | None => None end.

Inductive parse_err := StringTooLong | EmptyString | IllegalChar | NoDigits | IntParse | OutOfRange.

(** str::trim_matches(' '), str::replace('_', ""), str::split_once('.') *)
Fixpoint trim_left (s : text) : text :=
  match s with c :: s' => if c =?a " "%char then trim_left s' else s | [] => [] end.
Definition trim (s : text) : text := rev (trim_left (rev (trim_left s))).
Definition no_underscores (s : text) : text := List.filter (fun c => negb (c =?a "_"%char)) s.
Fixpoint split_dot (s : text) : text * text :=
  match s with
  | [] => ([], [])
  | c :: s' => if c =?a "."%char then ([], s') else let (i, f) := split_dot s' in (c :: i, f)
  end.

(** decimal.rs 129-134 *)
Definition empty_to_zero (s : text) : text := match s with [] => ["0"%char] | _ => s end.

(** decimal.rs 136-169 *)
Definition parse_decimal (s : text) : res parse_err decimal_amount :=
  ensure (length s <=? 257)%nat StringTooLong ;?
  let s := no_underscores (trim s) in
  ensure (match s with [] => false | _ => true end) EmptyString ;?
  let (i, f) := split_dot s in
  ensure (forallb is_digit (i ++ f)) IllegalChar ;?
  ensure (0 <? length i + length f)%nat NoDigits ;?
  let? int := ok_or (parse_digits 0 (empty_to_zero i)) IntParse in
  let? frac := ok_or (parse_digits 0 (empty_to_zero f)) IntParse in
  let? decimals := expect (if (length f <=? 255)%nat then Some (length f) else None) in
  let? m := ok_or (match (if int =? 0 then Some 0
                          else match checked_pow10 decimals with Some p => checked_mul U128_MAX int p | None => None end) with
                   | Some shifted => checked_add U128_MAX shifted frac
                   | None => None
                   end) OutOfRange in
  Ok (DecimalAmount m decimals).

(** decimal.rs 171-190: [{mantissa:0>width$}] pads with zeroes on the left; [assert!(buffer.len() > decimals)] *)
Definition pad_left (width : nat) (s : text) : text := repeat "0"%char (width - length s) ++ s.
Definition show_decimal (x : decimal_amount) : res parse_err text :=
  if (0 <? da_decimals x)%nat then
    let buffer := pad_left (da_decimals x + 1) (digits (da_mantissa x)) in
    if (da_decimals x <? length buffer)%nat then
      let k := (length buffer - da_decimals x)%nat in
      Ok (firstn k buffer ++ "."%char :: skipn k buffer)
    else Panic
  else Ok (digits (da_mantissa x)).

(** amount/mod.rs 84-86 *)
Definition into_fixedpoint_str (a : amount) (decimals : nat) : res parse_err text :=
  show_decimal (without_padding (DecimalAmount a decimals)).
(** amount/mod.rs 88-90: [None] is [Err tt] *)
Definition from_fixedpoint_str (s : text) (decimals : nat) : res unit amount :=
  match parse_decimal s with
  | Ok x => match to_amount x decimals with Some a => Ok a | None => Err tt end
  | Err _ => Err tt
  | Panic => Panic
  end.
