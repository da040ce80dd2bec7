(** Model of how transactions are picked from the pool for a new block.
    mempool/src/pool/tx_pool/collect_txs.rs 55-260, mempool/src/tx_accumulator/mod.rs.
    Simplifications: the transaction verifier and the check of time locks are parameters (VerifierKeep.v gives the former); tips are
    numbers; the tip of the chainstate at the end is a parameter; sums of sizes do not overflow usize. *)
From stdpp Require Import sorting.
From Verif Require Import Base AmountModel DeltaModel LayeredModel TokensModel OrdersModel PosModel PrimModel ChainModel MempoolModel.
Local Open Scope N_scope.

(** ** The accumulator: tx_accumulator/mod.rs *)
(** size of a compactly encoded u64 (SCALE) *)
Definition compact_size (n : N) : N :=
  if n <? 2^6 then 1 else if n <? 2^14 then 2 else if n <? 2^30 then 4 else 1 + (N.log2 n / 8 + 1).
(** 59-67; a transaction with its size *)
Record accum := Accum { ac_txs : list (transaction * N); ac_size : N; ac_target : N; ac_done : bool; ac_fees : N; ac_tip : N }.
(** 70-84 *)
Definition accum_new (target tip : N) : accum := Accum [] 0 target false 0 tip.
(** 86-88 *)
Definition accum_total (a : accum) : N := compact_size (N.of_nat (length (ac_txs a))) + ac_size a.
(** 91-93 *)
Definition accum_total_with (a : accum) (size : N) : N := compact_size (N.of_nat (length (ac_txs a)) + 1) + ac_size a + size.
(** 97-119 *)
Definition accum_add (a : accum) (tx : transaction) (size fee : N) : accum * res unit unit :=
  let total := accum_total_with a size in
  if total <=? ac_target a then
    let a1 := Accum (ac_txs a) (ac_size a + size) (ac_target a) (ac_done a) (ac_fees a) (ac_tip a) in
    on_ok a1 (ok_or (amount_add (ac_fees a) fee) tt) (fun fees =>
    let a2 := Accum (ac_txs a ++ [(tx, size)]) (ac_size a1) (ac_target a) (ac_done a) fees (ac_tip a) in
    if total =? accum_total a2 then (a2, Ok tt) else (a2, Panic))
  else (Accum (ac_txs a) (ac_size a) (ac_target a) true (ac_fees a) (ac_tip a), Ok tt).

(** ** Picking: collect_txs.rs *)
Inductive packing := FillSpace | LeaveSpace.
Inductive template_err := TInvalidGiven | TTxNotFound | TPool (e : pool_err).

Section collect.
Context {V : Type} (iter : gset N -> list N).
(** [connect_transaction] of the verifier: its new state, which may have changed although the transaction was refused, and whether
    the transaction was accepted *)
Context (connect : V -> transaction -> V * bool).
(** [verify_timelocks(..).is_ok()] *)
Context (unlocked : transaction -> bool).

(** 102-112 *)
Fixpoint connect_given (v : V) (txs : list (transaction * N)) : res template_err V :=
  match txs with
  | [] => Ok v
  | (tx, _) :: txs' => let '(v', ok) := connect v tx in ensure ok TInvalidGiven ;? connect_given v' txs'
  end.
(** 119-131 *)
Definition parents_in (s : store) (id : N) : list N :=
  match st_txs s !! id with Some m => iter (me_parents m) | None => [] end.
Definition given_txids (s : store) (given : list N) : res template_err (list N) :=
  ensure (forallb (fun t => bool_decide (is_Some (st_txs s !! t))) given) TTxNotFound ;?
  expect (postorder (parents_in s) (traversal_fuel s + sum_list_with (fun t => S (length (parents_in s t))) given) given).
(** 133-142 *)
Definition mempool_txids (s : store) (p : packing) : list N :=
  match p with FillSpace => map snd (rev (in_order (st_by_ancestors s))) | LeaveSpace => [] end.
(** 144-165 *)
Fixpoint candidates (s : store) (l : list N) (processed : gset N) : res template_err (list mentry) :=
  match l with
  | [] => Ok []
  | t :: l' =>
      if decide (t ∈ processed) then candidates s l' processed
      else let? m := expect (st_txs s !! t) in
           let? r := candidates s l' ({[t]} ∪ processed) in
           Ok (if unlocked (te_tx (me_entry m)) then m :: r else r)
  end.
(** 173-182 *)
Definition missing_parents (emitted : gset N) (m : mentry) : N :=
  N.of_nat (length (List.filter (fun p => negb (bool_decide (p ∈ emitted))) (iter (me_parents m)))).
Fixpoint skip_pending (emitted : gset N) (it : list mentry) (pending : gmap N N) : list mentry * gmap N N :=
  match it with
  | [] => ([], pending)
  | m :: it' =>
      let n := missing_parents emitted m in
      if n =? 0 then (it, pending) else skip_pending emitted it' (<[me_id m := n]> pending)
  end.
(** 184-195; the heap of ready transactions is a set, its top the greatest score and then the greatest id (55-61) *)
Definition best_ready (ready : gset (N * N)) : option (N * N) := last (in_order ready).
Inductive picked := FromPool | FromReady (x : N * N).
Definition pick (it : list mentry) (ready : gset (N * N)) : res template_err (option picked) :=
  match it, best_ready ready with
  | m :: _, Some (sc, r) =>
      let? sm := rmap_err TPool (ancestor_score m) in
      Ok (Some (if sc <? sm then FromPool else FromReady (sc, r)))
  | _ :: _, None => Ok (Some FromPool)
  | [], Some x => Ok (Some (FromReady x))
  | [], None => Ok None
  end.
(** 229-245 *)
Fixpoint release (s : store) (children : list N) (pending : gmap N N) (ready : gset (N * N)) : res template_err (gmap N N * gset (N * N)) :=
  match children with
  | [] => Ok (pending, ready)
  | c :: children' =>
      match pending !! c with
      | None => release s children' pending ready
      | Some n =>
          if n =? 0 then Panic
          else if n =? 1 then
            let? m := expect (st_txs s !! c) in
            let? sc := rmap_err TPool (ancestor_score m) in
            release s children' (delete c pending) ({[(sc, c)]} ∪ ready)
          else release s children' (<[c := n - 1]> pending) ready
      end
  end.
(** 172-246; the fuel is the number of turns *)
Fixpoint fill (s : store) (fuel : nat) (it : list mentry) (pending : gmap N N) (ready : gset (N * N)) (emitted : gset N) (v : V) (a : accum)
  : res template_err accum :=
  if ac_done a then Ok a
  else match fuel with
  | O => Panic
  | S fuel' =>
      let '(it, pending) := skip_pending emitted it pending in
      let? p := pick it ready in
      let next := match p with
                  | None => Ok None
                  | Some FromPool => match it with m :: it' => Ok (Some (m, it', ready)) | [] => Panic end
                  | Some (FromReady x) => let? m := expect (st_txs s !! snd x) in Ok (Some (m, it, ready ∖ {[x]}))
                  end in
      let? next := next in
      match next with
      | None => Ok a
      | Some (m, it, ready) =>
          let '(v', ok) := connect v (te_tx (me_entry m)) in
          if ok then
            match accum_add a (te_tx (me_entry m)) (me_size m) (me_fee m) with
            | (a', Ok _) =>
                let? pr := release s (iter (me_children m)) pending ready in
                fill s fuel' it (fst pr) (snd pr) ({[me_id m]} ∪ emitted) v' a'
            | (a', Err _) => Ok a'
            | (_, Panic) => Panic
            end
          else fill s fuel' it pending ready emitted v' a
      end
  end.
(** 72-260; [v] is a new verifier, [tip] the pool's tip and [tip_after] that of the chainstate at the end *)
Definition collect_txs (s : store) (tip tip_after : N) (v : V) (a : accum) (given : list N) (p : packing) : res template_err (option accum) :=
  if negb (ac_tip a =? tip) then Ok None
  else
    let? v := connect_given v (ac_txs a) in
    let emitted := list_to_set (map (fun x => tx_id (fst x)) (ac_txs a)) in
    let? g := given_txids s given in
    let? it := candidates s (g ++ mempool_txids s p) emitted in
    let? a := fill s (S (length it)) it ∅ ∅ emitted v a in
    Ok (if tip =? tip_after then Some a else None).
End collect.
