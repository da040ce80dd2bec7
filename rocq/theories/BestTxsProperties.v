(** C98: the order in which the mempool hands out transactions for announcement. *)
From Verif Require Import Base BestTxsModel BestTxsSpec BestTxsProofs.

(** C98, complete: of a chosen set of transactions of the mempool, it hands out as many as were asked for or all there are, each once, and no others. *)
Theorem C98_complete (pool : gmap N txe) (selected : gset N) (count : nat) :
  sound_pool pool -> (forall t, t ∈ selected -> is_Some (pool !! t)) ->
  exists ids, get_best_tx_ids_by_score_and_ancestry pool selected count = Ok ids /\
    NoDup ids /\ (forall t, t ∈ ids -> t ∈ selected) /\ length ids = Nat.min count (size selected).
Proof.
  intros [C [h A]] S. destruct (decide (count = 0)) as [->|N].
  - exists []. split_and!; [done|constructor|intros t B; by apply elem_of_nil in B|done].
  - destruct (best_ok pool selected C h A S count) as (ids & E & ND & I & L & _); [lia|eauto 10].
Qed.

(** C98, ancestors first: a chosen transaction is handed out only after all its chosen ancestors, also those it has through transactions that were not chosen. *)
Theorem C98_ancestors_first (pool : gmap N txe) (selected : gset N) (count : nat) (before : list N) (t : N) (after : list N) (a : N) :
  sound_pool pool -> (forall x, x ∈ selected -> is_Some (pool !! x)) ->
  get_best_tx_ids_by_score_and_ancestry pool selected count = Ok (before ++ t :: after) ->
  ancestor pool a t -> a ∈ selected -> a ∈ before.
Proof.
  intros [C [h A]] S E H I. destruct (decide (count = 0)) as [->|N]; [injection E as E; by destruct before|].
  destruct (best_ok pool selected C h A S count) as (ids & E' & _ & _ & _ & O); [lia|]. rewrite E in E'. injection E' as <-.
  by eapply (ordered_ancestors pool selected C h A).
Qed.

(** C98, best first: whatever else could have been handed out at that point, because all its chosen ancestors already were, is not worth more. *)
Theorem C98_best_first (pool : gmap N txe) (selected : gset N) (count : nat) (before : list N) (t : N) (after : list N) (u : N) :
  sound_pool pool -> (forall x, x ∈ selected -> is_Some (pool !! x)) ->
  get_best_tx_ids_by_score_and_ancestry pool selected count = Ok (before ++ t :: after) ->
  u ∈ selected -> u ∉ before -> (forall a, ancestor pool a u -> a ∈ selected -> a ∈ before) -> worth_at_most pool u t.
Proof.
  intros [C [h A]] S E U NU H. destruct (decide (count = 0)) as [->|N]; [injection E as E; by destruct before|].
  destruct (best_ok pool selected C h A S count) as (ids & E' & _ & I & _ & O); [lia|]. rewrite E in E'. injection E' as <-.
  assert (t ∈ selected) as T by (apply I, elem_of_app; right; left).
  destruct (O before t after eq_refl) as [_ O']. specialize (O' u U NU).
  assert (not_better pool u t = true) as B. { apply O'. intros a Q. apply H; [by apply nearest_ancestor in Q|by apply nearest_sel in Q]. }
  destruct (S u U) as [eu EU], (S t T) as [et ET]. exists eu, et. split_and!; try done. unfold not_better, score_of in B. rewrite EU, ET in B. lia.
Qed.

(** C98, not found: when something chosen is not in the mempool, nothing is handed out and the answer names such a transaction. *)
Theorem C98_not_found (pool : gmap N txe) (selected : gset N) (count : nat) (t : N) :
  sound_pool pool -> count <> 0 -> t ∈ selected -> pool !! t = None ->
  exists u, u ∈ selected /\ pool !! u = None /\ get_best_tx_ids_by_score_and_ancestry pool selected count = Err (TxEntryNotFound u).
Proof.
  intros [C [h A]] N T M. unfold get_best_tx_ids_by_score_and_ancestry. rewrite decide_False by done.
  destruct (prepare_missing pool selected C h A (elements selected) ∅ _ (nothing_prepared pool selected)) as (u & U & UN & E).
  - apply NoDup_elements.
  - intros x _. apply not_elem_of_empty.
  - exists t. split; [by apply elem_of_elements|done].
  - exists u. split_and!; [by apply elem_of_elements|done|]. rewrite E. done.
Qed.

(** A case: 2 spends from 1, 3 from 2, 5 stands alone; 2 was not chosen. The dearest, 3, waits for 1, which it needs through 2. *)
Definition case_pool : gmap N txe :=
  list_to_map [(1%N, {| b_parents := []; b_score := 1 |}); (2%N, {| b_parents := [1%N]; b_score := 7 |});
               (3%N, {| b_parents := [2%N]; b_score := 9 |}); (5%N, {| b_parents := []; b_score := 4 |})].
Example case_pool_sound : sound_pool case_pool.
Proof.
  assert (forall p t, parent case_pool p t -> (t = 2%N /\ p = 1%N) \/ (t = 3%N /\ p = 2%N)) as H.
  { intros p t (e & L & P). apply elem_of_list_to_map_2 in L.
    repeat (apply elem_of_cons in L as [L|L]; [injection L as -> ->; cbn in P; try (by apply elem_of_nil in P); apply elem_of_list_singleton in P as ->; tauto|]).
    by apply elem_of_nil in L. }
  split.
  - intros p t [[-> ->]|[-> ->]]%H; vm_compute; eauto.
  - exists N.to_nat. intros p t [[-> ->]|[-> ->]]%H; vm_compute; lia.
Qed.
Example C98_case : (forall t : N, t ∈ ({[1; 3; 5]}%N : gset N) -> is_Some (case_pool !! t)) /\
  get_best_tx_ids_by_score_and_ancestry case_pool {[1; 3; 5]}%N 10 = Ok ([5] ++ 1 :: [3])%N /\ ancestor case_pool 1 3 /\
  get_best_tx_ids_by_score_and_ancestry case_pool {[1; 3; 5]}%N 2 = Ok [5; 1]%N /\
  get_best_tx_ids_by_score_and_ancestry case_pool {[1; 3; 6]}%N 2 = Err (TxEntryNotFound 6).
Proof.
  split_and!; [|vm_compute; reflexivity| |vm_compute; reflexivity..].
  - intros t [[->%elem_of_singleton| ->%elem_of_singleton]%elem_of_union| ->%elem_of_singleton]%elem_of_union; vm_compute; eauto.
  - apply (tc_l _ 1%N 2%N 3%N); [|apply tc_once]; eexists; (split; [vm_compute; reflexivity|left]).
Qed.

Print Assumptions C98_complete.
Print Assumptions C98_ancestors_first.
Print Assumptions C98_best_first.
Print Assumptions C98_not_found.
