(** Stacks of accounting caches over a database.
    chainstate/tx-verifier derives a child verifier with fresh caches over its parent
    (tx-verifier/src/transaction_verifier/mod.rs derive_child), runs operations on the innermost cache and then either
    flushes it into the layer below (flush.rs 64-146; the lowest one into the database) or drops it.
    This file is generic in the accounting crate; tokens, orders and staking instantiate it. *)
From Verif Require Import Base.

Inductive command (Op : Type) :=
| Do (o : Op)    (** run an operation on the innermost cache *)
| UndoLast       (** revert the last operation still in effect *)
| Push           (** open a new cache on top *)
| Flush          (** write the innermost cache into the layer below and drop it *)
| Discard.       (** drop the innermost cache *)
Arguments Do {Op} o.
Arguments UndoLast {Op}.
Arguments Push {Op}.
Arguments Flush {Op}.
Arguments Discard {Op}.

(** What a command reports. *)
Inductive outcome (E : Type) := Done | Refused (e : E) | Crashed | NotApplicable.
Arguments Done {E}.
Arguments Refused {E} e.
Arguments Crashed {E}.
Arguments NotApplicable {E}.
Definition outcome_of {E A} (r : res E A) : outcome E :=
  match r with Ok _ => Done | Err e => Refused e | Panic => Crashed end.

Section machine.
Context {View Delta Db Op Undo Er U1 U2 : Type}.
Variable cache_view : View -> Delta -> View.
Variable db_view : Db -> View.
Variable empty_delta : Delta.
Variable run_op : View -> Delta -> Op -> Delta * res Er Undo.
Variable run_undo : View -> Delta -> Undo -> Delta * res Er unit.
Variable merge : Delta -> Delta -> Delta * res Er U1.
Variable db_merge : Db -> Delta -> Db * res Er U2.

(** A layer: the delta, and the undo records of all operations in effect as seen from this layer, latest first.
    The undo records travel with the flush, as they do in the code (flush.rs writes them next to the data). *)
Notation layer := (Delta * list Undo)%type.
Notation machine := ((Db * list Undo) * list layer)%type.

Fixpoint stack_view (db : Db) (ls : list layer) : View :=
  match ls with
  | [] => db_view db
  | l :: ls' => cache_view (stack_view db ls') l.1
  end.
Definition machine_view (m : machine) : View := stack_view m.1.1 m.2.

Definition exec (m : machine) (c : command Op) : machine * outcome Er :=
  let '((db, dblog), ls) := m in
  match c, ls with
  | Push, [] => (((db, dblog), [(empty_delta, dblog)]), Done)
  | Push, (d, log) :: ls' => (((db, dblog), (empty_delta, log) :: ls), Done)
  | Do o, (d, log) :: ls' =>
      match run_op (stack_view db ls') d o with
      | (d', Ok u) => (((db, dblog), (d', u :: log) :: ls'), Done)
      | (d', r) => (((db, dblog), (d', log) :: ls'), outcome_of r)
      end
  | UndoLast, (d, u :: log) :: ls' =>
      match run_undo (stack_view db ls') d u with
      | (d', Ok _) => (((db, dblog), (d', log) :: ls'), Done)
      | (d', r) => (((db, dblog), (d', u :: log) :: ls'), outcome_of r)
      end
  | Flush, [(d, log)] => let (db', r) := db_merge db d in (((db', log), []), outcome_of r)
  | Flush, (d, log) :: (d2, log') :: ls' =>
      let (d2', r) := merge d2 d in (((db, dblog), (d2', log) :: ls'), outcome_of r)
  | Discard, _ :: ls' => (((db, dblog), ls'), Done)
  | _, _ => (m, NotApplicable)
  end.

Fixpoint exec_all (m : machine) (cs : list (command Op)) : machine * list (outcome Er) :=
  match cs with
  | [] => (m, [])
  | c :: cs' => let (m', o) := exec m c in
                let (m'', os) := exec_all m' cs' in (m'', o :: os)
  end.
End machine.
