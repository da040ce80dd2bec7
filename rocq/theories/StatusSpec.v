(** A block status as a user sees it: how far it was validated and three independent failure marks. *)
From Verif Require Import Base StatusModel.
Local Open Scope N_scope.

Record view := View { v_stage : stage; v_failed : bool; v_invalid_parent : bool; v_explicit : bool }.
Definition fresh : view := View Unchecked false false false.

Inductive update := Advance (st : stage) | MarkFailed | MarkInvalidParent | MarkExplicit | ClearMarks.
(** What an update does; advancing by anything but one step is a programming error (a crash). *)
Definition updated (v : view) (u : update) : option view :=
  match u with
  | Advance st => match v_stage v, st with
                  | Unchecked, CheckBlockOk | CheckBlockOk, FullyChecked => Some (View st (v_failed v) (v_invalid_parent v) (v_explicit v))
                  | _, _ => None
                  end
  | MarkFailed => Some (View (v_stage v) true (v_invalid_parent v) (v_explicit v))
  | MarkInvalidParent => Some (View (v_stage v) (v_failed v) true (v_explicit v))
  | MarkExplicit => Some (View (v_stage v) (v_failed v) (v_invalid_parent v) true)
  | ClearMarks => Some (View (v_stage v) false false false)
  end.
Fixpoint updated_all (v : view) (us : list update) : option view :=
  match us with [] => Some v | u :: us' => match updated v u with Some v' => updated_all v' us' | None => None end end.

(** The code's update. *)
Definition apply_update (s : N) (u : update) : res unit N :=
  match u with
  | Advance st => advance_validation_stage_to s st
  | MarkFailed => set_validation_failed s
  | MarkInvalidParent => set_has_invalid_parent s
  | MarkExplicit => set_explicitly_invalidated s
  | ClearMarks => with_cleared_fail_bits s
  end.
Definition apply_updates (s : N) (us : list update) : res unit N := rfold apply_update us s.

(** Status [s] shows [v] through every query. *)
Definition shows (s : N) (v : view) : Prop :=
  last_valid_stage s = Ok (v_stage v) /\ validation_failed s = Ok (v_failed v) /\ has_invalid_parent s = Ok (v_invalid_parent v) /\
  is_explicitly_invalidated s = Ok (v_explicit v) /\
  is_ok s = Ok (negb (v_failed v) && negb (v_invalid_parent v) && negb (v_explicit v)) /\
  is_fully_valid s = Ok (bool_decide (v_stage v = FullyChecked) && negb (v_failed v) && negb (v_invalid_parent v) && negb (v_explicit v)).
