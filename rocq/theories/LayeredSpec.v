(** What a stack of caches should look like from outside: a stack of plain values. Nothing here knows about deltas,
    merging or undo records: an operation replaces the top value, undoing puts back the value from before the
    operation, flushing moves the top value down one level, discarding drops it. *)
From Verif Require Import Base LayeredModel.

Section spec.
Context {Op St Er : Type}.
Variable step : St -> Op -> res Er St.

(** Each level: its value, and the values from before each operation still in effect, latest first. *)
Notation level := (St * list St)%type.
Notation smachine := (level * list level)%type.

Definition top_level (m : smachine) : level := match m.2 with [] => m.1 | l :: _ => l end.
Definition top (m : smachine) : St := (top_level m).1.

Definition sexec (m : smachine) (c : command Op) : smachine * outcome Er :=
  let (db, ls) := m in
  match c, ls with
  | Push, _ => ((db, top_level m :: ls), Done)
  | Do o, (s, log) :: ls' =>
      match step s o with
      | Ok s' => ((db, (s', s :: log) :: ls'), Done)
      | r => (m, outcome_of r)
      end
  | UndoLast, (s, s0 :: log) :: ls' => ((db, (s0, log) :: ls'), Done)
  | Flush, [l] => ((l, []), Done)
  | Flush, l :: _ :: ls' => ((db, l :: ls'), Done)
  | Discard, _ :: ls' => ((db, ls'), Done)
  | _, _ => (m, NotApplicable)
  end.

Fixpoint sexec_all (m : smachine) (cs : list (command Op)) : smachine * list (outcome Er) :=
  match cs with
  | [] => (m, [])
  | c :: cs' => let (m', o) := sexec m c in
                let (m'', os) := sexec_all m' cs' in (m'', o :: os)
  end.

(** Every operation of the run meets [fits] in the value it is applied to (used for "no amount leaves its range"). *)
Variable fits : St -> Op -> Prop.
Definition fits_command (m : smachine) (c : command Op) : Prop :=
  match c, m.2 with
  | Do o, (s, _) :: _ => fits s o
  | _, _ => True
  end.
Fixpoint fits_all (m : smachine) (cs : list (command Op)) : Prop :=
  match cs with
  | [] => True
  | c :: cs' => fits_command m c /\ fits_all (sexec m c).1 cs'
  end.
End spec.

(** Command sequences in which every operation is later undone, in reverse order, with caches opened and flushed
    anywhere in between. *)
Inductive neutral {Op : Type} : list (command Op) -> Prop :=
| neutral_nil : neutral []
| neutral_push : neutral [Push]
| neutral_flush : neutral [Flush]
| neutral_undo o cs : neutral cs -> neutral (Do o :: cs ++ [UndoLast])
| neutral_app cs cs' : neutral cs -> neutral cs' -> neutral (cs ++ cs').

(** Commands that never take anything back. *)
Definition forward {Op : Type} (c : command Op) : Prop :=
  match c with Do _ | Push | Flush => True | UndoLast | Discard => False end.

(** The operations of a run that took effect, in order. *)
Fixpoint accepted {Op Er : Type} (cs : list (command Op)) (os : list (outcome Er)) : list Op :=
  match cs, os with
  | Do o :: cs', Done :: os' => o :: accepted cs' os'
  | _ :: cs', _ :: os' => accepted cs' os'
  | _, _ => []
  end.
(** The effect of a list of operations, each of which must succeed. *)
Fixpoint steps {Op St Er : Type} (step : St -> Op -> res Er St) (s : St) (ops : list Op) : res Er St :=
  match ops with
  | [] => Ok s
  | o :: ops' => match step s o with Ok s' => steps step s' ops' | Err e => Err e | Panic => Panic end
  end.

(** Undos and flushes are never refused, and nothing crashes. *)
Definition expected {Op Er : Type} (c : command Op) (o : outcome Er) : Prop :=
  match c with Do _ => o <> Crashed | _ => o = Done \/ o = NotApplicable end.
