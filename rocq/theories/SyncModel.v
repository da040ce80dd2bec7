(** Model of the chainstate queries nodes synchronise with: locators, headers after a locator, headers after a fork point, the split
    of headers into known and unknown ones, lists of ids for checkpoints.
    chainstate/src/detail/query.rs, chainstate/src/interface/chainstate_interface_impl.rs, common/src/primitives/height.rs.
    A header is represented by the index it is stored in. Storage errors are not modelled. *)
From Verif Require Import Base StatusModel StatusSpec BlockTreeModel.
Local Open Scope N_scope.

(** chainstate/types/src/error.rs [PropertyQueryError], as far as needed *)
Inductive sync_err :=
| TreeErr (e : terr)
| BlockForHeightNotFound (h : N)
| GenesisHeaderRequested
| LocatorDistancesWrongOrder
| InvalidBlockHeightRange.

Definition I64_TOP : N := 9223372036854775807.

(** common/src/primitives/height.rs 82-101: height minus distance *)
Definition height_sub (h d : N) : option N := if (h <=? I64_TOP) && (d <=? h) then Some (h - d) else None.
(** common/src/primitives/height.rs 66-80 with the [expect] of its caller: height plus distance *)
Definition height_add (h d : N) : res sync_err N := if h + d <=? I64_TOP then Ok (h + d) else Panic.

(** query.rs 42-44 with [map_while] of 188-189 and 205-206: [itertools::iterate] computes the next distance when it hands one out; the
    doubling of a 64-bit signed number panics on overflow *)
Fixpoint locator_loop (fuel : nat) (height dist : N) : res sync_err (list N) :=
  match fuel with
  | O => Panic
  | S fuel =>
      let? next := if 2 * dist <=? I64_TOP then Ok (N.max 1 (2 * dist)) else Panic in
      match height_sub height dist with
      | None => Ok []
      | Some h => let? r := locator_loop fuel height next in Ok (h :: r)
      end
  end.
Definition locator_heights (height : N) : res sync_err (list N) := locator_loop 66 height 0.

Section Sync.
  Context (cf : tree_cfg).

  (** query.rs 184-194 *)
  Definition get_locator_from_height (s : tree) (height : N) : res sync_err (list N) :=
    let? hs := locator_heights height in Ok (omap (fun h => t_main s !! h) hs).
  (** query.rs 178-182 *)
  Definition get_locator_from_best_block (s : tree) : res sync_err (list N) :=
    let? best := rmap_err TreeErr (best_index cf s) in get_locator_from_height s (gen_height best).

  (** query.rs 205-227: one step for each height; the state is the last block visited and whether it is known to be on the main chain *)
  Fixpoint locator_steps (s : tree) (last_child : gindex) (on_main : bool) (hs : list N) : res sync_err (list N) :=
    match hs with
    | [] => Ok []
    | h :: hs =>
        let on_main := on_main || bool_decide (t_main s !! gen_height last_child = Some (gen_id cf last_child)) in
        if on_main then
          let? id := ok_or (t_main s !! h) LocatorDistancesWrongOrder in
          let? r := locator_steps s last_child on_main hs in Ok (id :: r)
        else
          let? a := rmap_err TreeErr (get_ancestor cf (t_idx s) last_child h) in
          let? r := locator_steps s a on_main hs in Ok (gen_id cf a :: r)
    end.
  (** query.rs 196-231 *)
  Definition get_locator_from_block_id (s : tree) (id : N) : res sync_err (list N) :=
    let? g := ok_or (get_gen cf (t_idx s) id) (TreeErr BlockIndexNotFound) in
    let? hs := locator_heights (gen_height g) in locator_steps s g false hs.

  (** chainstateref/mod.rs 392-403 *)
  Definition get_header_from_height (s : tree) (h : N) : res sync_err (option bindex) :=
    let? id := ok_or (t_main s !! h) (BlockForHeightNotFound h) in
    if id =? genesis_id cf then Err GenesisHeaderRequested else Ok (t_idx s !! id).
  (** query.rs 302-305: the headers of the next heights up to [limit]; [process_results] and [flatten] *)
  Fixpoint headers_from (s : tree) (n : nat) (h : N) : res sync_err (list bindex) :=
    match n with
    | O => Ok []
    | S n => let? o := get_header_from_height s h in let? r := headers_from s n (h + 1) in Ok (match o with Some b => b :: r | None => r end)
    end.
  (** query.rs 285-306; the iterator asks for two heights more than it uses and [next_height] panics on overflow *)
  Definition headers_higher_than (s : tree) (height limit : N) : res sync_err (list bindex) :=
    if limit <=? I64_TOP then
      let? best := rmap_err TreeErr (best_index cf s) in
      let? top := height_add height limit in
      let top := N.min top (gen_height best) in
      if top + 2 <=? U64_MAX then headers_from s (N.to_nat (top - height)) (height + 1) else Panic
    else Panic.

  (** query.rs 314-323 *)
  Fixpoint locator_anchor (s : tree) (locator : list N) : N :=
    match locator with
    | [] => 0
    | id :: l => match get_gen cf (t_idx s) id with
                 | Some g => if in_main_chain cf s id then gen_height g else locator_anchor s l
                 | None => locator_anchor s l
                 end
    end.
  (** query.rs 308-326 *)
  Definition get_mainchain_headers_by_locator (s : tree) (locator : list N) (limit : N) : res sync_err (list bindex) :=
    headers_higher_than s (locator_anchor s locator) limit.

  (** query.rs 337-349 *)
  Definition latest_fork_height (s : tree) (ids : list N) : res sync_err N :=
    rfold (fun best id =>
      let? g := ok_or (get_gen cf (t_idx s) id) (TreeErr BlockIndexNotFound) in
      let? f := rmap_err TreeErr (lca_in_main_chain cf s g) in Ok (N.max best (gen_height f))) ids 0.
  (** query.rs 328-352 *)
  Definition get_mainchain_headers_since_latest_fork_point (s : tree) (ids : list N) (limit : N) : res sync_err (list bindex) :=
    match ids with [] => Ok [] | _ => let? h := latest_fork_height s ids in headers_higher_than s h limit end.

  (** query.rs 136-143: the index of a block whose data is stored *)
  Definition persisted_index (s : tree) (id : N) : option bindex :=
    match t_idx s !! id with Some b => if bi_persisted b then Some b else None | None => None end.
  (** chainstate_interface_impl.rs 302-321 *)
  Fixpoint split_known (s : tree) (headers : list bindex) : list bindex * list bindex :=
    match headers with
    | [] => ([], [])
    | h :: r => match persisted_index s (bi_id h) with
                | None => ([], h :: r)
                | Some _ => let '(a, b) := split_known s r in (h :: a, b)
                end
    end.

  (** query.rs 256-267: every [step]-th height from [h] on, below [top] *)
  Fixpoint checkpoints_from (s : tree) (fuel : nat) (h top step : N) : res sync_err (list (N * N)) :=
    match fuel with
    | O => Ok []
    | S fuel =>
        if h <? top then
          let? id := ok_or (t_main s !! h) (BlockForHeightNotFound h) in
          let? r := checkpoints_from s fuel (h + step) top step in Ok ((h, id) :: r)
        else Ok []
    end.
  (** query.rs 233-268 *)
  Definition get_block_ids_as_checkpoints (s : tree) (start end_ step : N) : res sync_err (list (N * N)) :=
    ensure (start <=? end_) InvalidBlockHeightRange ;?
    let? best := rmap_err TreeErr (best_index cf s) in
    let mx := gen_height best in
    if (mx <? start) || (start =? end_) then Ok []
    else
      let? next := rmap_err TreeErr (next_height mx) in
      let start := N.min start mx in
      let top := N.min end_ next in
      checkpoints_from s (N.to_nat (top - start)) start top step.
End Sync.
