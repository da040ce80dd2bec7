(** Specification of the block tree: parents, ancestors, trees built through the API, the main chain. *)
From Verif Require Import Base StatusModel StatusSpec BlockTreeModel.
Local Open Scope N_scope.

(** The parent id of a block; genesis has none. *)
Definition parent (cf : tree_cfg) (t : index_map) (id : N) : option N :=
  if id =? genesis_id cf then None else bi_prev <$> t !! id.
(** Following [n] parent links. *)
Fixpoint up (cf : tree_cfg) (t : index_map) (n : nat) (id : N) : option N :=
  match n with
  | O => Some id
  | S n' => match parent cf t id with Some p => up cf t n' p | None => None end
  end.
(** [a] is [b] or one of its ancestors. *)
Definition ancestor (cf : tree_cfg) (t : index_map) (a b : N) : Prop := exists n, up cf t n b = Some a.
(** [g] is what is stored under its own id. *)
Definition stored (cf : tree_cfg) (t : index_map) (g : gindex) : Prop := get_gen cf t (gen_id cf g) = Some g.

(** Two indices of the same block that may differ in status and in being persisted. *)
Definition same_block (b b' : bindex) : Prop :=
  bi_id b' = bi_id b /\ bi_prev b' = bi_prev b /\ bi_skip b' = bi_skip b /\ bi_height b' = bi_height b /\ bi_time b' = bi_time b /\
  bi_time_max b' = bi_time_max b /\ bi_trust b' = bi_trust b /\ bi_txs b' = bi_txs b.

(** Trees the code can build: a new block gets a fresh index, statuses and persistence marks change, and a set of
    blocks containing all their stored children may be deleted. *)
Inductive built (cf : tree_cfg) : index_map -> Prop :=
| built_empty : built cf ∅
| built_add t blk st b b' :
    built cf t -> nb_id blk <> genesis_id cf -> t !! nb_id blk = None -> create_block_index cf t blk st = Ok b -> same_block b b' ->
    built cf (<[bi_id b := b']> t)
| built_mark t id b b' : built cf t -> t !! id = Some b -> same_block b b' -> built cf (<[id := b']> t)
| built_drop t (S : gset N) :
    built cf t -> (forall id b, t !! id = Some b -> bi_prev b ∈ S -> id ∈ S) ->
    built cf (filter (fun p : N * bindex => fst p ∉ S) t).

(** A run of blocks from just above [a] up to [z], each the parent of the next. *)
Fixpoint path (a : N) (l : list bindex) (z : N) : Prop :=
  match l with [] => a = z | b :: l' => bi_prev b = a /\ path (bi_id b) l' z end.

(** The height map lists exactly the best block and its ancestors, each at its height. *)
Definition main_chain_listed (cf : tree_cfg) (s : tree) : Prop :=
  is_Some (get_gen cf (t_idx s) (t_best s)) /\
  forall h id, t_main s !! h = Some id <-> exists g, get_gen cf (t_idx s) id = Some g /\ gen_height g = h /\ ancestor cf (t_idx s) id (t_best s).

(** Number of elements satisfying a test. *)
Definition count (p : N -> bool) (l : list N) : nat := length (List.filter p l).
(** [m] is the (upper) middle element of [l]: fewer than or exactly half lie strictly below, more than half at or below. *)
Definition is_median (m : N) (l : list N) : Prop :=
  m ∈ l /\ (count (fun x => N.ltb x m) l <= length l / 2 < count (fun x => N.leb x m) l)%nat.

(** A block a new tip may be chosen from: valid, with enough trust, on a branch that leaves the main chain no lower than
    allowed, and not extended by another such block. *)
Definition worthy (cf : tree_cfg) (t : index_map) (min_trust : N) (b : bindex) : Prop :=
  t !! bi_id b = Some b /\ v_ok (bi_status b) = true /\ min_trust <= bi_trust b.
Definition fork_height_ge (cf : tree_cfg) (s : tree) (b : bindex) (h : N) : Prop :=
  exists f g, get_gen cf (t_idx s) f = Some g /\ h <= gen_height g /\ ancestor cf (t_idx s) f (bi_id b) /\ ancestor cf (t_idx s) f (t_best s).
Definition candidate_tip (cf : tree_cfg) (s : tree) (min_trust : N) (b : bindex) : Prop :=
  worthy cf (t_idx s) min_trust b /\ fork_height_ge cf s b (t_min s) /\
  forall c, worthy cf (t_idx s) min_trust c -> bi_prev c = bi_id b -> False.
