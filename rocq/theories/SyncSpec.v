(** What locators and lists of headers should be. *)
From Verif Require Import Base StatusModel StatusSpec BlockTreeModel BlockTreeSpec SyncModel.
Local Open Scope N_scope.

(** The distances from the tip: 0, 1, 2, 4, 8 and so on *)
Definition distance (i : nat) : N := match i with O => 0 | S i => 2 ^ N.of_nat i end.
(** The block at height [h] on the way from block [id] down to genesis *)
Definition ancestor_at (cf : tree_cfg) (t : index_map) (id h a : N) : Prop :=
  exists ga, get_gen cf t a = Some ga /\ gen_height ga = h /\ ancestor cf t a id.
(** A locator of block [id]: the blocks at these distances below it, as far down as genesis *)
Definition locates (cf : tree_cfg) (t : index_map) (id : N) (locator : list N) : Prop :=
  exists g, get_gen cf t id = Some g /\
    forall i a, locator !! i = Some a <-> distance i <= gen_height g /\ ancestor_at cf t id (gen_height g - distance i) a.
(** The blocks of the main chain that follow block [a], at most [limit] of them *)
Definition next_blocks (cf : tree_cfg) (s : tree) (a : N) (limit : N) (l : list bindex) : Prop :=
  exists ga gb, get_gen cf (t_idx s) a = Some ga /\ get_gen cf (t_idx s) (t_best s) = Some gb /\ ancestor cf (t_idx s) a (t_best s) /\
    N.of_nat (length l) = N.min limit (gen_height gb - gen_height ga) /\
    (exists z, path a l z /\ ancestor cf (t_idx s) z (t_best s)) /\ Forall (fun b => t_idx s !! bi_id b = Some b) l.
(** Two nodes' trees: a block has the same parent and the same height in both *)
Definition consistent (t t' : index_map) : Prop := forall id b b', t !! id = Some b -> t' !! id = Some b' -> bi_prev b = bi_prev b' /\ bi_height b = bi_height b'.
