(** Model of the pool of blocks whose parent is not known yet.
    chainstate/src/detail/orphan_blocks/pool.rs 24-150.
    A block is its id and the id of its parent. The random choice of the pruning is an argument: any number, taken modulo the
    number of stored blocks. *)
From Verif Require Import Base.
Local Open Scope N_scope.

Record oblock := OBlock { ob_id : N; ob_prev : N }.
Global Instance oblock_eq : EqDecision oblock.
Proof. solve_decision. Defined.
(** pool.rs 24-29 *)
Record pool := Pool { orphan_ids : list N; orphan_by_id : gmap N oblock; orphan_by_prev_id : gmap N (list oblock); max_orphans : N }.
(** 31-34 *)
Inductive orphan_err := BlockAlreadyInOrphanList.
(** 37-44 *)
Definition pool_new (max : N) : pool := Pool [] ∅ ∅ max.
(** 46-48 *)
Definition pool_len (p : pool) : N := N.of_nat (length (orphan_ids p)).
(** 50-70 *)
Definition drop_block (p : pool) (id : N) : res orphan_err pool :=
  let? b := expect (orphan_by_id p !! id) in
  let by_id := delete id (orphan_by_id p) in
  let ids := filter (fun i => i <> id) (orphan_ids p) in
  match orphan_by_prev_id p !! ob_prev b with
  | None => Panic
  | Some l =>
      let l' := filter (fun x => ob_id x <> id) l in
      Ok (Pool ids by_id (match l' with [] => delete (ob_prev b) (orphan_by_prev_id p) | _ => <[ob_prev b := l']> (orphan_by_prev_id p) end) (max_orphans p))
  end.
(** 73-85; the recursion is on fuel: following children longer than there are blocks would never end *)
Fixpoint del_one_deepest_child (fuel : nat) (p : pool) (id : N) : res orphan_err pool :=
  match orphan_by_prev_id p !! id with
  | None => drop_block p id
  | Some [] => Panic
  | Some (b :: _) => match fuel with O => Panic | S fuel' => del_one_deepest_child fuel' p (ob_id b) end
  end.
(** 87-95 *)
Definition prune (p : pool) (choice : N) : res orphan_err pool :=
  if pool_len p <? max_orphans p then Ok p
  else let? id := expect (orphan_ids p !! N.to_nat (choice mod pool_len p)) in del_one_deepest_child (length (orphan_ids p)) p id.
(** 97-114; the pool after the call and its result *)
Definition add_block (p : pool) (b : oblock) (choice : N) : pool * res orphan_err unit :=
  match prune p choice with
  | Panic => (p, Panic)
  | Err e => (p, Err e)
  | Ok p =>
      match orphan_by_id p !! ob_id b with
      | Some _ => (p, Err BlockAlreadyInOrphanList)
      | None => (Pool (orphan_ids p ++ [ob_id b]) (<[ob_id b := b]> (orphan_by_id p))
                      (<[ob_prev b := default [] (orphan_by_prev_id p !! ob_prev b) ++ [b]]> (orphan_by_prev_id p)) (max_orphans p), Ok tt)
      end
  end.
(** 117-119 *)
Definition is_already_an_orphan (p : pool) (id : N) : bool := match orphan_by_id p !! id with Some _ => true | None => false end.
(** 122-126 *)
Definition pool_clear (p : pool) : pool := Pool [] ∅ ∅ (max_orphans p).
(** 131-150; that no second reference to a taken block is left follows from its removal from both maps *)
Definition take_all_children_of (p : pool) (id : N) : res orphan_err (pool * list oblock) :=
  match orphan_by_prev_id p !! id with
  | None => Ok (p, [])
  | Some l => let? p' := rfold (fun p b => drop_block p (ob_id b)) l p in Ok (p', l)
  end.
