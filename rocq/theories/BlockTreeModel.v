(** Model of the block tree: block indices, ancestor lookup, fork points, the height map of the main chain, median time,
    branches and best-chain candidates.
    chainstate/types/src/{block_index,gen_block_index,ancestor,height_skip,block_index_history_iter}.rs,
    chainstate/src/detail/{median_time.rs, chainstateref/mod.rs, block_invalidation/best_chain_candidates.rs}.
    Block ids are numbers (ordered as the database orders them); a block header is reduced to the fields the code below
    reads. A block status is represented by what its queries show ([StatusSpec.view]; C40 shows that the bit field of
    the code behaves exactly so). The database is a map from ids to indices; storage errors are not modelled. *)
From Verif Require Import Base StatusModel StatusSpec.
Local Open Scope N_scope.

(** chain config: id and timestamp of genesis *)
Record tree_cfg := TreeCfg { genesis_id : N; genesis_time : N }.

(** block_index.rs 32-60: the stored index of a block *)
Record bindex := BIndex {
  bi_id : N; bi_prev : N; bi_skip : N (* some_ancestor *); bi_height : N; bi_time : N; bi_time_max : N;
  bi_trust : N; bi_txs : N; bi_status : view; bi_persisted : bool }.
Global Instance stage_eqdec : EqDecision stage := stage_eq_dec.
Global Instance view_eqdec : EqDecision view.
Proof. solve_decision. Defined.
Global Instance bindex_eqdec : EqDecision bindex.
Proof. solve_decision. Defined.

(** gen_block_index.rs 28-33 *)
Inductive gindex := Genesis | Block (b : bindex).
Global Instance gindex_eqdec : EqDecision gindex.
Proof. solve_decision. Defined.

(** block_status.rs 67-69 through the view *)
Definition v_ok (v : view) : bool := negb (v_failed v) && negb (v_invalid_parent v) && negb (v_explicit v).

(** gen_block_index.rs 110-185 *)
Definition gen_id (cf : tree_cfg) (g : gindex) : N := match g with Genesis => genesis_id cf | Block b => bi_id b end.
Definition gen_height (g : gindex) : N := match g with Genesis => 0 | Block b => bi_height b end.
Definition gen_time (cf : tree_cfg) (g : gindex) : N := match g with Genesis => genesis_time cf | Block b => bi_time b end.
Definition gen_time_max (cf : tree_cfg) (g : gindex) : N := match g with Genesis => genesis_time cf | Block b => bi_time_max b end.
Definition gen_trust (g : gindex) : N := match g with Genesis => 0 | Block b => bi_trust b end.
Definition gen_txs (g : gindex) : N := match g with Genesis => 0 | Block b => bi_txs b end.
Definition gen_ok (g : gindex) : bool := match g with Genesis => true | Block b => v_ok (bi_status b) end.

(** Queries that fail *)
Inductive terr :=
| InvalidAncestorHeight      (* GetAncestorError::InvalidAncestorHeight *)
| PrevBlockIndexNotFound
| StartingPointNotFound
| BlockIndexNotFound         (* get_existing_block_index / best block index *)
| BlockProofCalculationError.

Notation index_map := (gmap N bindex).

(** ancestor.rs 110-119 [gen_block_index_getter] *)
Definition get_gen (cf : tree_cfg) (t : index_map) (id : N) : option gindex :=
  if id =? genesis_id cf then Some Genesis else Block <$> t !! id.
(** chainstateref/mod.rs [get_previous_block_index] *)
Definition get_previous (cf : tree_cfg) (t : index_map) (b : bindex) : res terr gindex :=
  ok_or (get_gen cf t (bi_prev b)) PrevBlockIndexNotFound.
(** chainstateref/mod.rs [get_existing_block_index] *)
Definition get_existing (t : index_map) (id : N) : res terr bindex := ok_or (t !! id) BlockIndexNotFound.

(** common/src/primitives/height.rs 155-161 *)
Definition next_height (h : N) : res terr N := expect (checked_add U64_MAX h 1).
Definition prev_height (h : N) : option N := checked_sub h 1.

(** height_skip.rs 18-20; [0.wrapping_sub(1)] only meets 0 on the other side of the conjunction, so the truncated
    predecessor gives the same result *)
Definition invert_lowest_one (n : N) : N := N.land n (N.pred n).
(** height_skip.rs 22-37 *)
Definition get_skip_height (h : N) : N :=
  if h <? 2 then 0
  else if N.odd h then invert_lowest_one (invert_lowest_one (h - 1)) + 1
  else invert_lowest_one h.

(** ancestor.rs 74-107: the loop, with fuel for the termination checker (running out is reported as a crash; C35 shows
    it does not happen) *)
Fixpoint ancestor_loop (cf : tree_cfg) (t : index_map) (fuel : nat) (target height_walk : N) (walk : gindex) : res terr gindex :=
  match fuel with
  | O => Panic
  | S fuel' =>
      if target <=? height_walk then
        if height_walk =? target then Ok walk
        else match walk with
             | Genesis => Ok walk
             | Block cur =>
                 let? height_walk_prev := expect (prev_height height_walk) in
                 let height_skip := get_skip_height height_walk in
                 let height_skip_prev := get_skip_height height_walk_prev in
                 let at_target := height_skip =? target in
                 let still_not_there := target <? height_skip in
                 let? s1 := next_height height_skip_prev in
                 let? s2 := next_height s1 in
                 let too_close := s2 <? height_skip in
                 let prev_too_close := target <=? height_skip_prev in
                 if at_target || (still_not_there && negb (too_close && prev_too_close)) then
                   let? g := expect (get_gen cf t (bi_skip cur)) in
                   ancestor_loop cf t fuel' target height_skip g
                 else
                   let? g := ok_or (get_gen cf t (bi_prev cur)) PrevBlockIndexNotFound in
                   ancestor_loop cf t fuel' target height_walk_prev g
             end
      else Panic (* "Skipped too much" *)
  end.
(** ancestor.rs 47-108 *)
Definition get_ancestor (cf : tree_cfg) (t : index_map) (g : gindex) (target : N) : res terr gindex :=
  if gen_height g <? target then Err InvalidAncestorHeight
  else ancestor_loop cf t (S (N.to_nat (gen_height g))) target (gen_height g) g.

(** chainstateref/mod.rs 343-354: walking both branches down in lockstep *)
Fixpoint lockstep (cf : tree_cfg) (t : index_map) (fuel : nat) (g1 g2 : gindex) : res terr gindex :=
  match fuel with
  | O => Panic
  | S fuel' =>
      if gen_id cf g1 =? gen_id cf g2 then Ok g1
      else match g1, g2 with
           | Block b1, Block b2 =>
               let? p1 := get_previous cf t b1 in
               let? p2 := get_previous cf t b2 in
               lockstep cf t fuel' p1 p2
           | _, _ => Panic (* "Chain iteration not in lockstep" *)
           end
  end.
(** chainstateref/mod.rs 324-355 *)
Definition last_common_ancestor (cf : tree_cfg) (t : index_map) (g1 g2 : gindex) : res terr gindex :=
  let? g1' := if gen_height g2 <? gen_height g1 then get_ancestor cf t g1 (gen_height g2) else Ok g1 in
  let? g2' := if gen_height g1 <? gen_height g2 then get_ancestor cf t g2 (gen_height g1) else Ok g2 in
  lockstep cf t (S (N.to_nat (gen_height g1'))) g1' g2'.

(** The stored tree: indices, ids of the main chain by height, best block id, lowest height where reorgs are allowed *)
Record tree := Tree { t_idx : index_map; t_main : gmap N N; t_best : N; t_min : N }.

(** chainstateref/mod.rs [get_best_block_index] *)
Definition best_index (cf : tree_cfg) (s : tree) : res terr gindex := ok_or (get_gen cf (t_idx s) (t_best s)) BlockIndexNotFound.
(** chainstateref/mod.rs 364-370 *)
Definition lca_in_main_chain (cf : tree_cfg) (s : tree) (g : gindex) : res terr gindex :=
  let? best := best_index cf s in last_common_ancestor cf (t_idx s) g best.
(** chainstateref/mod.rs 430-450 *)
Definition height_in_main_chain (cf : tree_cfg) (s : tree) (id : N) : option N :=
  if id =? genesis_id cf then Some 0
  else match t_idx s !! id with
       | Some b => if decide (t_main s !! bi_height b = Some id) then Some (bi_height b) else None
       | None => None
       end.
(** chainstateref/mod.rs 295-300 *)
Definition in_main_chain (cf : tree_cfg) (s : tree) (id : N) : bool :=
  match height_in_main_chain cf s id with Some _ => true | None => false end.

(** chainstateref/mod.rs 454-469: walking back from the new tip; the blocks pushed so far are in [acc], which is the
    reversed result already *)
Fixpoint new_chain_loop (cf : tree_cfg) (s : tree) (fuel : nat) (b : bindex) (acc : list bindex) : res terr (list bindex) :=
  match fuel with
  | O => Panic
  | S fuel' =>
      if in_main_chain cf s (bi_id b) then Ok acc
      else let acc' := b :: acc in
           let? p := get_previous cf (t_idx s) b in
           match p with
           | Genesis => Ok acc'
           | Block pb => new_chain_loop cf s fuel' pb acc'
           end
  end.
Definition get_new_chain (cf : tree_cfg) (s : tree) (tip : bindex) : res terr (list bindex) :=
  new_chain_loop cf s (S (N.to_nat (bi_height tip))) tip [].

(** block_index_history_iter.rs 44-71: the first [n] items of the iterator *)
Fixpoint history (cf : tree_cfg) (t : index_map) (n : nat) (id : N) : list gindex :=
  match n with
  | O => []
  | S n' => match get_gen cf t id with
            | None => []
            | Some Genesis => [Genesis]
            | Some (Block b) => Block b :: history cf t n' (bi_prev b)
            end
  end.
(** [Itertools::sorted] of timestamps *)
Fixpoint insert_sorted (x : N) (l : list N) : list N :=
  match l with [] => [x] | y :: l' => if x <=? y then x :: l else y :: insert_sorted x l' end.
Definition sorted_times (l : list N) : list N := foldr insert_sorted [] l.
(** median_time.rs 26 *)
Definition MEDIAN_TIME_SPAN : nat := 11.
(** median_time.rs 38-44; indexing an empty vector is a crash *)
Definition median_of_times (times : list N) : res terr N :=
  let time_values := sorted_times (take MEDIAN_TIME_SPAN times) in
  expect (time_values !! (length time_values / 2)%nat).
(** median_time.rs 29-35; only the first eleven items of the iterator are taken *)
Definition median_time_past (cf : tree_cfg) (t : index_map) (start : N) : res terr N :=
  median_of_times (gen_time cf <$> history cf t MEDIAN_TIME_SPAN start).

(** The part of a block its index is built from; [nb_proof] is the result of [get_block_proof] *)
Record new_block := NewBlock { nb_id : N; nb_prev : N; nb_time : N; nb_txs : N; nb_proof : option N }.
Definition U256_MAX : N := 2 ^ 256 - 1.
(** chainstateref/mod.rs 1046-1090; a freshly created index is not persisted (block_index.rs [BlockIndex::new]) *)
Definition create_block_index (cf : tree_cfg) (t : index_map) (b : new_block) (status : view) : res terr bindex :=
  let? prev := ok_or (get_gen cf t (nb_prev b)) PrevBlockIndexNotFound in
  let? height := next_height (gen_height prev) in
  let? anc := match get_ancestor cf t prev (get_skip_height height) with Ok a => Ok a | _ => Panic end in
  let? txs := expect (checked_add U128_MAX (gen_txs prev) (nb_txs b)) in
  let time_max := N.max (gen_time_max cf prev) (nb_time b) in
  let? proof := ok_or (nb_proof b) BlockProofCalculationError in
  let? trust := expect (checked_add U256_MAX (gen_trust prev) proof) in
  Ok (BIndex (nb_id b) (nb_prev b) (gen_id cf anc) height (nb_time b) time_max trust txs status false).

(** chainstate/storage/src/internal/store_tx/read_impls.rs 186-201 and chainstateref/mod.rs 1000-1007: ids of all blocks
    at or above a height, lower heights first, ids in database order within a height *)
Definition by_height_le (x y : N * N) : bool :=
  (fst x <? fst y) || ((fst x =? fst y) && (snd x <=? snd y)).
Fixpoint insert_by_height (x : N * N) (l : list (N * N)) : list (N * N) :=
  match l with [] => [x] | y :: l' => if by_height_le x y then x :: l else y :: insert_by_height x l' end.
Definition higher_ids (t : index_map) (start : N) : list N :=
  snd <$> foldr insert_by_height []
    ((fun p : N * bindex => (bi_height (snd p), fst p)) <$> filter (fun p : N * bindex => start <= bi_height (snd p)) (map_to_list t)).

(** chainstateref/mod.rs 1027-1040 *)
Fixpoint branch_loop (cf : tree_cfg) (t : index_map) (ids : list N) (seen : gset N) (acc : list bindex) : res terr (list bindex) :=
  match ids with
  | [] => Ok (rev acc)
  | id :: ids' =>
      let? b := get_existing t id in
      if bi_prev b =? genesis_id cf then Panic (* "Genesis at non-zero height" *)
      else if decide (bi_prev b ∈ seen) then branch_loop cf t ids' ({[id]} ∪ seen) (b :: acc)
      else branch_loop cf t ids' seen acc
  end.
(** chainstateref/mod.rs 1012-1043 *)
Definition collect_branch (cf : tree_cfg) (t : index_map) (root : N) : res terr (list bindex) :=
  let? rb := get_existing t root in
  let? h := next_height (bi_height rb) in
  branch_loop cf t (higher_ids t h) {[root]} [rb].

(** best_chain_candidates.rs 30-75: an ordered set of (chain trust, block id) as a strictly increasing list *)
Notation candidate := (N * N)%type (only parsing).
Definition cand_lt (x y : N * N) : bool := (fst x <? fst y) || ((fst x =? fst y) && (snd x <? snd y)).
Fixpoint cand_insert (x : N * N) (l : list (N * N)) : list (N * N) :=
  match l with
  | [] => [x]
  | y :: l' => if cand_lt x y then x :: l else if cand_lt y x then y :: cand_insert x l' else l
  end.
Definition cand_remove (x : N * N) (l : list (N * N)) : list (N * N) := filter (fun y => y <> x) l.
Definition cand_of (b : bindex) : N * N := (bi_trust b, bi_id b).

(** best_chain_candidates.rs 104-124: one step of the loop *)
Definition cand_step (cf : tree_cfg) (s : tree) (min_trust : N) (st : list (N * N) * gset N) (id : N) : res terr (list (N * N) * gset N) :=
  let '(cands, seen) := st in
  let? b := get_existing (t_idx s) id in
  if v_ok (bi_status b) && (min_trust <=? bi_trust b) then
    let? cands' :=
      if decide (id ∈ seen) then Ok cands
      else let? lca := lca_in_main_chain cf s (Block b) in
           if t_min s <=? gen_height lca then Ok (cand_insert (cand_of b) cands) else Ok cands in
    Ok (cands', {[bi_prev b]} ∪ seen)
  else Ok (cands, seen).
(** best_chain_candidates.rs 82-127 *)
Definition candidates_new (cf : tree_cfg) (s : tree) (min_trust : N) : res terr (list (N * N)) :=
  let? st := rfold (cand_step cf s min_trust) (rev (higher_ids (t_idx s) (t_min s))) ([], ∅) in
  Ok (fst st).
(** best_chain_candidates.rs 133-155 *)
Definition remove_tree_add_parent (cf : tree_cfg) (t : index_map) (cands : list (N * N)) (root : bindex) (descendants : list bindex)
    (min_trust : N) : res terr (list (N * N)) :=
  let cands' := foldl (fun c b => cand_remove (cand_of b) c) (cand_remove (cand_of root) cands) descendants in
  if bi_prev root =? genesis_id cf then Ok cands'
  else let? p := get_existing t (bi_prev root) in
       if min_trust <=? bi_trust p then Ok (cand_insert (cand_of p) cands') else Ok cands'.
(** best_chain_candidates.rs 161-163 *)
Definition best_item (cands : list (N * N)) : option (N * N) := last cands.
