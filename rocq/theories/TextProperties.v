(** C01: amounts as decimal text. *)
From Coq Require Import Ascii String.
From Verif Require Import Base AmountModel TextModel TextSpec TextProofs.
Local Open Scope N_scope.
Local Open Scope list_scope.

Definition txt (s : string) : text := list_ascii_of_string s.

(** C01. Every amount printed with any number of decimals and read back is the same amount (for zero: with at most 38
    decimals, see below). *)
Theorem C01_print_then_parse a d : a <= U128_MAX -> (d <= 255)%nat -> (a <> 0 \/ (d <= 38)%nat) ->
  exists s, into_fixedpoint_str a d = Ok s /\ from_fixedpoint_str s d = Ok a.
Proof. exact (text_round_trip a d). Qed.
Print Assumptions C01_print_then_parse.

Example C01_print_example :
  into_fixedpoint_str 1234567890123 11 = Ok (txt "12.34567890123") /\
  into_fixedpoint_str 1200 2 = Ok (txt "12") /\ into_fixedpoint_str 5 3 = Ok (txt "0.005") /\
  from_fixedpoint_str (txt "0.005") 3 = Ok 5 /\ into_fixedpoint_str 0 38 = Ok (txt "0") /\ from_fixedpoint_str (txt "0") 38 = Ok 0.
Proof. vm_compute. repeat split; reflexivity. Qed.

(** Zero printed with 39 or more decimals is not read back. *)
Theorem C01_zero_with_many_decimals_refuted :
  exists d s, (d <= 255)%nat /\ into_fixedpoint_str 0 d = Ok s /\ from_fixedpoint_str s d = Err tt.
Proof. exists 39%nat, (txt "0"). split; [lia|]. split; vm_compute; reflexivity. Qed.
Print Assumptions C01_zero_with_many_decimals_refuted.

(** C01. A text is accepted exactly if it is a numeral of admissible length whose exact value, in units of 10^-d, is an
    integer that fits; that integer is the result. No digit is ever rounded away. *)
Theorem C01_parse_is_exact s d a :
  from_fixedpoint_str s d = Ok a <->
  exists i f, numeral s i f /\ (List.length s <= 257)%nat /\ (List.length f <= 255)%nat /\ value (i ++ f) <= U128_MAX /\
    a <= U128_MAX /\ a * 10 ^ N.of_nat (List.length f) = value (i ++ f) * 10 ^ N.of_nat d /\ (value (i ++ f) = 0 -> (d <= 38)%nat).
Proof. exact (from_text_spec s d a). Qed.
Print Assumptions C01_parse_is_exact.

Example C01_parse_example :
  from_fixedpoint_str (txt "  1_000.50") 3 = Ok 1000500 /\ from_fixedpoint_str (txt ".5") 1 = Ok 5 /\ from_fixedpoint_str (txt "7.") 0 = Ok 7 /\
  from_fixedpoint_str (txt "1.25") 1 = Err tt /\ from_fixedpoint_str (txt "1.20") 1 = Ok 12 /\ from_fixedpoint_str (txt "+1") 0 = Err tt /\
  from_fixedpoint_str (txt "340282366920938463463374607431768211456") 0 = Err tt /\
  from_fixedpoint_str (txt "340282366920938463463374607431768211455") 0 = Ok U128_MAX.
Proof. vm_compute. repeat split; reflexivity. Qed.

(** The meaning of a text is unambiguous. *)
Theorem C01_numeral_unique s i f i' f' : numeral s i f -> numeral s i' f' -> i = i' /\ f = f'.
Proof. exact (numeral_unique s i f i' f'). Qed.
Print Assumptions C01_numeral_unique.

(** C01. Texts of at most 255 bytes never crash the parser. *)
Theorem C01_short_text_never_crashes s d : (List.length s <= 255)%nat -> from_fixedpoint_str s d <> Panic.
Proof. exact (short_text_no_panic s d). Qed.
Print Assumptions C01_short_text_never_crashes.

(** Exactly the numerals of at most 257 bytes with more than 255 fraction digits crash it (a dot and 256 digits). *)
Theorem C01_parse_crashes_exactly s d :
  from_fixedpoint_str s d = Panic <->
  exists i f, numeral s i f /\ (List.length s <= 257)%nat /\ (255 < List.length f)%nat /\ value i <= U128_MAX /\ value f <= U128_MAX.
Proof. exact (from_text_panics s d). Qed.
Print Assumptions C01_parse_crashes_exactly.

Theorem C01_parse_never_crashes_refuted : exists s, forall d, from_fixedpoint_str s d = Panic.
Proof. exists ("."%char :: repeat "0"%char 256). intros d. vm_compute. reflexivity. Qed.
Print Assumptions C01_parse_never_crashes_refuted.
