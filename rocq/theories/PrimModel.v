(** Model of small primitives: block heights and timestamps, time locks, rationals, compact targets, per-thousand values. *)
From Coq Require Import Ascii.
From Verif Require Import Base AmountModel TextModel UintModel.
Local Open Scope N_scope.

(** ** Heights. common/src/primitives/height.rs. [BlockHeight] wraps a u64 ([N]), [BlockDistance] an i64 ([Z]).
    [None] is [Err tt]; [expect] is [Panic]. *)
Definition i64_of_u64 (h : N) : option Z := if (Z.of_N h <=? I64_MAX)%Z then Some (Z.of_N h) else None.
Definition u64_of_i64 (z : Z) : option N := if (0 <=? z)%Z then Some (Z.to_N z) else None.
Definition i64_checked (z : Z) : option Z := if ((I64_MIN <=? z) && (z <=? I64_MAX))%Z then Some z else None.
(** height.rs 66-80 [BlockHeight + BlockDistance] *)
Definition height_add (h : N) (d : Z) : res unit N :=
  let? height := ok_or (i64_of_u64 h) tt in
  let? result := expect (i64_checked (height + d)) in
  ok_or (u64_of_i64 result) tt.
(** height.rs 82-101 [BlockHeight - BlockDistance] *)
Definition height_sub (h : N) (d : Z) : res unit N :=
  let? height := ok_or (i64_of_u64 h) tt in
  if (height <? 0)%Z then Err tt else
  let? raw := ok_or (i64_checked (height - d)) tt in
  if (raw <? 0)%Z then Err tt else ok_or (u64_of_i64 raw) tt.
(** height.rs 119-128 [BlockHeight - BlockHeight] *)
Definition height_diff (h1 h2 : N) : res unit Z :=
  let? a := ok_or (i64_of_u64 h1) tt in
  let? b := ok_or (i64_of_u64 h2) tt in
  ok_or (i64_checked (a - b)) tt.
(** height.rs 103-117 [BlockDistance] plus and minus [BlockDistance] *)
Definition distance_add (a b : Z) : res unit Z := ok_or (i64_checked (a + b)) tt.
Definition distance_sub (a b : Z) : res unit Z := ok_or (i64_checked (a - b)) tt.
(** height.rs 151-161 *)
Definition height_checked_add (h rhs : N) : res unit N := ok_or (checked_add U64_MAX h rhs) tt.
Definition next_height (h : N) : res unit N := expect (checked_add U64_MAX h 1).
Definition prev_height (h : N) : option N := checked_sub h 1.

(** common/src/chain/block/timestamp.rs 74-76 [add_int_seconds] *)
Definition add_int_seconds (t seconds : N) : option N := checked_add U64_MAX t seconds.

(** ** Time locks. common/src/chain/transaction/output/timelock.rs (the four kinds),
    mintscript/src/checker/timelock.rs 65-93. *)
Inductive timelock :=
| UntilHeight (h : N)
| UntilTime (t : N)
| ForBlockCount (n : N)
| ForSeconds (dt : N).
Inductive timelock_err := HeightArith | TimestampArith | HeightLocked (cur req : N) | TimestampLocked (cur req : N).
Definition check_at_least (cur req : N) (e : N -> N -> timelock_err) : res timelock_err unit :=
  if req <=? cur then Ok tt else Err (e cur req).
(** checker/timelock.rs 71-92; called with the four data by tx-verifier timelock_check.rs 58-74 *)
Definition check_timelock (source_height source_time : N) (lock : timelock) (spending_height spending_time : N)
  : res timelock_err unit :=
  match lock with
  | UntilHeight required => check_at_least spending_height required HeightLocked
  | UntilTime required => check_at_least spending_time required TimestampLocked
  | ForBlockCount d =>
      let? distance := ok_or (i64_of_u64 d) HeightArith in
      let? required := rmap_err (fun _ => HeightArith) (height_add source_height distance) in
      check_at_least spending_height required HeightLocked
  | ForSeconds dt =>
      let? required := ok_or (add_int_seconds source_time dt) TimestampArith in
      check_at_least spending_time required TimestampLocked
  end.
(** tx-verifier timelock_check.rs 76-95; the outpoint only serves the error message *)
Inductive maturity_err := InvalidOutputMaturityDistance (given required : N) | InvalidOutputMaturitySettingType.
Definition check_output_maturity (lock : timelock) (required : N) : res maturity_err unit :=
  match lock with
  | ForBlockCount c => ensure (required <=? c) (InvalidOutputMaturityDistance c required)
  | _ => Err InvalidOutputMaturitySettingType
  end.

(** ** Rationals. common/src/primitives/rational.rs 51-69, for 256-bit parts (the 64- and 128-bit ones embed in them).
    The products are [Option]s of 512-bit integers; [None] is below every [Some]. *)
Record rational := Rational { numer : uint; denom : uint }.
Definition compare_options (x y : res unit uint) : res unit comparison :=
  match x, y with
  | Panic, _ | _, Panic => Panic
  | Err _, Err _ => Ok Eq
  | Err _, Ok _ => Ok Lt
  | Ok _, Err _ => Ok Gt
  | Ok a, Ok b => Ok (ucompare a b)
  end.
Definition rational_cmp (x y : rational) : res unit comparison :=
  if ueqb (denom x) (denom y) then Ok (ucompare (numer x) (numer y))
  else if ueqb (numer x) (numer y) then Ok (ucompare (denom y) (denom x))
  else compare_options (uchecked_mul (widen 4 (numer x)) (widen 4 (denom y)))
                       (uchecked_mul (widen 4 (numer y)) (widen 4 (denom x))).

(** ** Compact targets. common/src/primitives/compact.rs. A [Compact] is a u32 ([N]). *)
(** compact.rs 29-56 [TryFrom<Compact> for Uint256] ([Err] carries a value nobody uses) *)
Definition compact_decode (c : N) : res unit uint :=
  let size := N.shiftr c 24 in
  let word := N.land c 8388607 in
  let word := if size <=? 3 then N.shiftr word (8 * (3 - size)) else word in
  let? value := if size <=? 3 then Ok (from_u64 4 word) else ushl (from_u64 4 word) (8 * (size - 3)) in
  if (negb (word =? 0) && negb (N.land c 8388608 =? 0))
     || (negb (word =? 0) && ((34 <? size) || ((255 <? word) && (33 <? size)) || ((65535 <? word) && (32 <? size))))
  then Err tt else Ok value.
(** compact.rs 59-80 [From<Uint256> for Compact]; [bits().div_ceil(8)]; casts to u32 keep the low 32 bits *)
Definition compact_encode (value : uint) : res unit N :=
  let size := (bits value + 7) / 8 in
  let? compact := if size <=? 3 then Ok (N.shiftl (low_u64 value) (8 * (3 - size)) mod W)
                  else let? bn := ushr value (8 * (size - 3)) in Ok (low_u64 bn) in
  let '(compact, size) := if negb (N.land compact 8388608 =? 0) then (N.shiftr compact 8, size + 1) else (compact, size) in
  Ok (N.lor (compact mod 2 ^ 32) (N.shiftl size 24 mod 2 ^ 32)).

(** ** Per-thousand values. common/src/primitives/per_thousand.rs *)
(** per_thousand.rs 30-36 *)
Definition per_thousand_new (value : N) : option N := if value <=? 1000 then Some value else None.
(** [str::trim]: Unicode white space. Only the ASCII part is stripped here: a string with any other white space, or with
    white space other than blanks, is refused by the number parser on both branches, so the difference cannot be seen. *)
Definition is_space (c : ascii) : bool := let n := N_of_ascii c in (n =? 32) || ((9 <=? n) && (n <=? 13)).
Fixpoint drop_spaces (s : text) : text := match s with c :: s' => if is_space c then drop_spaces s' else s | [] => [] end.
Definition ends_with_percent (s : text) : bool :=
  match drop_spaces (rev s) with c :: _ => c =?a "%"%char | [] => false end.
(** [str::trim_end_matches('%')] *)
Fixpoint drop_percents (s : text) : text := match s with c :: s' => if c =?a "%"%char then drop_percents s' else s | [] => [] end.
Definition trim_end_percents (s : text) : text := rev (drop_percents (rev s)).
(** per_thousand.rs 57-77 *)
Definition per_thousand_from_str (s : text) : res unit N :=
  let? a := if ends_with_percent s then from_fixedpoint_str (trim_end_percents s) 1 else from_fixedpoint_str s 3 in
  let? v := ok_or (if a <=? 65535 then Some a else None) tt in
  ok_or (per_thousand_new v) tt.
(** per_thousand.rs 79-85 with 95-102, 86-88 *)
Definition to_percentage_str (v : N) : res parse_err text :=
  let? s := into_fixedpoint_str v 1 in Ok (s ++ ["%"%char]).
Definition to_decimal_str (v : N) : res parse_err text := into_fixedpoint_str v 3.
(** per_thousand.rs 117-125: [Decode], from the decoded u16 *)
Definition per_thousand_decode (v : N) : res unit N := ok_or (per_thousand_new v) tt.
