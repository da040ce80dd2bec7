(** What the orphan pool should be: a list of blocks in order of arrival. *)
From Verif Require Import Base OrphanModel.
Local Open Scope N_scope.

(** The stored blocks in order of arrival *)
Definition stored (p : pool) : list oblock := omap (fun id => orphan_by_id p !! id) (orphan_ids p).
(** The three structures describe the same blocks, each block once. *)
Record consistent (p : pool) : Prop := {
  cn_ids : ob_id <$> stored p = orphan_ids p;
  cn_once : NoDup (orphan_ids p);
  cn_by_id : forall id b, orphan_by_id p !! id = Some b <-> b ∈ stored p /\ ob_id b = id;
  cn_by_prev : forall prev, default [] (orphan_by_prev_id p !! prev) = filter (fun b => ob_prev b = prev) (stored p);
  cn_no_empty : forall prev, orphan_by_prev_id p !! prev <> Some [] }.
(** Operations *)
Inductive orphan_op := Add (b : oblock) (choice : N) | TakeChildren (id : N) | Clear.
Definition op_step (p : pool) (o : orphan_op) : option pool :=
  match o with
  | Add b c => match add_block p b c with (_, Panic) => None | (p', _) => Some p' end
  | TakeChildren id => match take_all_children_of p id with Ok (p', _) => Some p' | _ => None end
  | Clear => Some (pool_clear p)
  end.
Fixpoint op_run (p : pool) (l : list orphan_op) : option pool :=
  match l with [] => Some p | o :: l' => match op_step p o with Some p' => op_run p' l' | None => None end end.
(** A block contains its parent's id and is identified by a hash, so blocks do not form cycles: they can be numbered so that
    parents come first. *)
Definition numbered (rank : N -> nat) (o : orphan_op) : Prop :=
  match o with Add b _ => (rank (ob_prev b) < rank (ob_id b))%nat | _ => True end.
(** A block without stored children *)
Definition leaf (l : list oblock) (b : oblock) : Prop := forall c, c ∈ l -> ob_prev c <> ob_id b.
