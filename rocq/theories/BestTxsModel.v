(** Model of how the mempool orders transactions that are about to be announced: mempool/src/pool/tx_pool/collect_txs.rs 55-61 and
    262-440, [get_best_tx_ids_by_score_and_ancestry]. A transaction is its id; of its entry, the parents in the mempool and the
    ancestor score are modelled, the score as a number. A set is visited in the order of [elements] (the code visits it in the order
    of the ids). *)
From Verif Require Import Base.

(** store/mod.rs, [TxMempoolEntry]: [parents()] and [ancestor_score()] *)
Record txe := { b_parents : list N; b_score : N }.
(** store/mod.rs 224-243: an id the caller gave is not there; an id from the store is not there *)
Inductive best_err := TxEntryNotFound (id : N) | SupposedlyExistingEntryNotFound (id : N).

Section BestTxs.
  Context (pool : gmap N txe).

  (** collect_txs.rs 396-438; the stack of the code is the recursion here, and [fuel] bounds its depth *)
  Fixpoint collect_nearest_selected_ancestors (fuel : nat) (selected : gset N) (ancestors_map : gmap N (gset N)) (id : N)
      : res best_err (gmap N (gset N)) :=
    match fuel with
    | O => Panic
    | S fuel =>
      match ancestors_map !! id with
      | Some _ => Ok ancestors_map
      | None =>
        let? entry := ok_or (pool !! id) (SupposedlyExistingEntryNotFound id) in
        let? (tx_ancestors, ancestors_map) :=
          rfold (fun (am : gset N * gmap N (gset N)) p =>
                   if decide (p ∈ selected) then Ok ({[p]} ∪ am.1, am.2)
                   else match am.2 !! p with
                        | Some existing => Ok (existing ∪ am.1, am.2)
                        | None => let? m := collect_nearest_selected_ancestors fuel selected am.2 p in
                                  let? s := expect (m !! p) in
                                  Ok (s ∪ am.1, m)
                        end) (b_parents entry) (∅, ancestors_map) in
        Ok (<[id := tx_ancestors]> ancestors_map)
      end
    end.

  (** The variables of collect_txs.rs 286-295 *)
  Record best_state := { s_ancestors : gmap N (gset N); s_descendants : gmap N (gset N); s_missing : gmap N nat; s_ready : gset N }.
  (** collect_txs.rs 297-316 *)
  Definition prepare (selected : gset N) (st : best_state) (id : N) : res best_err best_state :=
    let? _ := ok_or (pool !! id) (TxEntryNotFound id) in
    let? am := collect_nearest_selected_ancestors (S (size pool)) selected (s_ancestors st) id in
    let? s := expect (am !! id) in
    if decide (s = ∅) then
      Ok {| s_ancestors := am; s_descendants := s_descendants st; s_missing := s_missing st; s_ready := {[id]} ∪ s_ready st |}
    else
      Ok {| s_ancestors := am;
            s_descendants := fold_left (fun d a => <[a := {[id]} ∪ default ∅ (d !! a)]> d) (elements s) (s_descendants st);
            s_missing := <[id := size s]> (s_missing st); s_ready := s_ready st |}.

  (** collect_txs.rs 55-61: the order of the heap, and what it pops *)
  Definition score_of (id : N) : N := match pool !! id with Some e => b_score e | None => 0%N end.
  Definition not_better (a b : N) : bool := (score_of a <? score_of b)%N || ((score_of a =? score_of b)%N && (a <=? b)%N).
  Fixpoint best_of (l : list N) : option N :=
    match l with
    | [] => None
    | x :: l => match best_of l with None => Some x | Some y => if not_better x y then Some y else Some x end
    end.

  (** collect_txs.rs 332-352, for one child *)
  Definition release (mr : gmap N nat * gset N) (child : N) : res best_err (gmap N nat * gset N) :=
    match mr.1 !! child with
    | None => Ok mr
    | Some O => Panic
    | Some (S O) =>
      let? _ := ok_or (pool !! child) (SupposedlyExistingEntryNotFound child) in
      Ok (delete child mr.1, {[child]} ∪ mr.2)
    | Some (S n) => Ok (<[child := n]> mr.1, mr.2)
    end.

  (** collect_txs.rs 323-354; [more] is how many more are wanted *)
  Fixpoint emit (more : nat) (descendants : gmap N (gset N)) (missing : gmap N nat) (ready : gset N) (result : list N) : res best_err (list N) :=
    match more with
    | O => Ok result
    | S more =>
      match best_of (elements ready) with
      | None => Ok result
      | Some id =>
        let? (missing, ready) := rfold release (elements (default ∅ (descendants !! id))) (missing, ready ∖ {[id]}) in
        emit more descendants missing ready (result ++ [id])
      end
    end.

  (** collect_txs.rs 269-357 *)
  Definition get_best_tx_ids_by_score_and_ancestry (selected : gset N) (tx_count : nat) : res best_err (list N) :=
    if decide (tx_count = 0) then Ok []
    else
      let? st := rfold (prepare selected) (elements selected) {| s_ancestors := ∅; s_descendants := ∅; s_missing := ∅; s_ready := ∅ |} in
      emit tx_count (s_descendants st) (s_missing st) (s_ready st) [].
End BestTxs.
