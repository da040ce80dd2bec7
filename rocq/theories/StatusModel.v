(** Model of block statuses: chainstate/types/src/block_status.rs. A status is a u64. *)
From Verif Require Import Base.
Local Open Scope N_scope.

(** block_status.rs 25-29; [Sequence::next] and the cast to u64 *)
Inductive stage := Unchecked | CheckBlockOk | FullyChecked.
Definition stage_next (s : stage) : option stage :=
  match s with Unchecked => Some CheckBlockOk | CheckBlockOk => Some FullyChecked | FullyChecked => None end.
Definition stage_code (s : stage) : N := match s with Unchecked => 0 | CheckBlockOk => 1 | FullyChecked => 2 end.
Definition stage_of (n : N) : option stage :=
  match n with 0 => Some Unchecked | 1 => Some CheckBlockOk | 2 => Some FullyChecked | _ => None end.
Global Instance stage_eq_dec : EqDecision stage.
Proof. solve_decision. Defined.

(** block_status.rs 162-169: where each field starts and ends *)
Inductive area := ValidationStage | ValidationFailedBit | InvalidParentBit | ExplicitlyInvalidatedBit | ReservedArea.
Definition area_range (a : area) : N * N :=
  match a with
  | ValidationStage => (0, 8)
  | ValidationFailedBit => (8, 9)
  | InvalidParentBit => (9, 10)
  | ExplicitlyInvalidatedBit => (10, 11)
  | ReservedArea => (11, 64)
  end.
(** block_status.rs 171-174 *)
Definition FAIL_BITS_RANGE : N * N := (8, 11).

Notation status := N (only parsing).
(** block_status.rs 127-136 *)
Definition get_bits (s : status) (r : N * N) : res unit N :=
  let (lo, hi) := r in
  if (lo <? hi) && (hi <=? 64) then
    if hi - lo =? 64 then Ok s
    else Ok (N.land (N.shiftr s lo) (N.shiftl 1 (hi - lo) - 1))
  else Panic.
(** block_status.rs 138-149; [x & !mask] is [N.ldiff x mask] *)
Definition set_bits (s : status) (r : N * N) (val : N) : res unit status :=
  let (lo, hi) := r in
  if (lo <? hi) && (hi <=? 64) then
    if hi - lo =? 64 then Ok val
    else let lsb_mask := N.shiftl 1 (hi - lo) - 1 in
         let mask := N.shiftl lsb_mask lo in
         if val <=? lsb_mask then Ok (N.lor (N.ldiff s mask) (N.shiftl val lo)) else Panic
  else Panic.
(** block_status.rs 119-125 *)
Definition get_field (s : status) (a : area) : res unit N := get_bits s (area_range a).
Definition set_field (s : status) (a : area) (v : N) : res unit status := set_bits s (area_range a) v.

(** block_status.rs 56-64 *)
Definition last_valid_stage (s : status) : res unit stage := let? v := get_field s ValidationStage in expect (stage_of v).
Definition set_last_valid_stage (s : status) (st : stage) : res unit status := set_field s ValidationStage (stage_code st).
(** block_status.rs 35-47 *)
Definition status_new : status := 0.
Definition new_at_stage (st : stage) : res unit status := set_last_valid_stage status_new st.
Definition new_fully_checked : res unit status := new_at_stage FullyChecked.
(** block_status.rs 51-54 *)
Definition advance_validation_stage_to (s : status) (st : stage) : res unit status :=
  let? cur := last_valid_stage s in
  if decide (stage_next cur = Some st) then set_last_valid_stage s st else Panic.
(** block_status.rs 67-74 *)
Definition is_ok (s : status) : res unit bool := let? v := get_bits s FAIL_BITS_RANGE in Ok (v =? 0).
Definition is_fully_valid (s : status) : res unit bool :=
  let? st := last_valid_stage s in
  if decide (st = FullyChecked) then is_ok s else Ok false.
(** block_status.rs 76-98 *)
Definition set_validation_failed (s : status) : res unit status := set_field s ValidationFailedBit 1.
Definition validation_failed (s : status) : res unit bool := let? v := get_field s ValidationFailedBit in Ok (negb (v =? 0)).
Definition set_has_invalid_parent (s : status) : res unit status := set_field s InvalidParentBit 1.
Definition has_invalid_parent (s : status) : res unit bool := let? v := get_field s InvalidParentBit in Ok (negb (v =? 0)).
Definition set_explicitly_invalidated (s : status) : res unit status := set_field s ExplicitlyInvalidatedBit 1.
Definition is_explicitly_invalidated (s : status) : res unit bool := let? v := get_field s ExplicitlyInvalidatedBit in Ok (negb (v =? 0)).
(** block_status.rs 100-104 *)
Definition with_cleared_fail_bits (s : status) : res unit status := set_bits s FAIL_BITS_RANGE 0.

(** Derived [Encode]/[Decode] of a u64 (block_status.rs 31): eight little-endian bytes *)
Fixpoint le_bytes (n : nat) (v : N) : list N := match n with O => [] | S n' => v mod 256 :: le_bytes n' (v / 256) end.
Fixpoint of_le_bytes (l : list N) : N := match l with [] => 0 | b :: l' => b + 256 * of_le_bytes l' end.
Definition status_encode (s : status) : list N := le_bytes 8 s.
Definition status_decode (l : list N) : option (status * list N) :=
  if (8 <=? length l)%nat then Some (of_le_bytes (firstn 8 l), skipn 8 l) else None.
