(** Model of the store of the transaction pool: the transactions waiting for a block, their dependencies, what is known of
    their ancestors and descendants, and the indices over them.
    mempool/src/pool/{dependency,entry,fee,feerate}.rs, mempool/src/pool/tx_pool/store/mod.rs,
    utils/src/graph_traversals.rs.
    Simplifications: ids are numbers; origin and options of an entry, logging and the accounting of memory are dropped (the pool
    takes the amount of memory used from an arbitrary estimator); counts and the running sequence number do not overflow usize;
    [debug_assert_or_log] (a log line in a release build) is dropped. The order in which a hash set is iterated is a parameter. *)
From stdpp Require Import sorting.
From Verif Require Import Base AmountModel DeltaModel LayeredModel TokensModel OrdersModel PosModel PrimModel ChainModel.
Local Open Scope N_scope.

(** * Dependencies *)

(** dependency.rs 53-61 *)
Inductive required_dep :=
| RqOutput (tx idx : N) | RqPool (p : N) | RqDelegation (d : N) | RqDelegationSpending (d nonce : N)
| RqToken (t : N) | RqTokenManagement (t nonce : N) | RqOrder (o : N).
(** 167-171 *)
Inductive consumed_dep := CdOutput (tx idx : N) | CdDelegationSpending (d nonce : N) | CdTokenManagement (t nonce : N).
(** 178-185 *)
Inductive provided_dep :=
| PvPool (p : N) | PvDelegation (d : N) | PvDelegationSpending (d nonce : N)
| PvToken (t : N) | PvTokenManagement (t nonce : N) | PvOrder (o : N).
Global Instance consumed_dep_eq : EqDecision consumed_dep. Proof. solve_decision. Defined.
Global Instance provided_dep_eq : EqDecision provided_dep. Proof. solve_decision. Defined.
Global Instance consumed_dep_countable : Countable consumed_dep.
Proof.
  refine (inj_countable'
    (fun c => match c with CdOutput a b => (0, a, b) | CdDelegationSpending a b => (1, a, b) | CdTokenManagement a b => (2, a, b) end)
    (fun x => match x with (0, a, b) => CdOutput a b | (1, a, b) => CdDelegationSpending a b | (_, a, b) => CdTokenManagement a b end) _).
  intros []; reflexivity.
Defined.
Global Instance provided_dep_countable : Countable provided_dep.
Proof.
  refine (inj_countable'
    (fun c => match c with PvPool a => (0, a, 0) | PvDelegation a => (1, a, 0) | PvDelegationSpending a b => (2, a, b)
                         | PvToken a => (3, a, 0) | PvTokenManagement a b => (4, a, b) | PvOrder a => (5, a, 0) end)
    (fun x => match x with (0, a, _) => PvPool a | (1, a, _) => PvDelegation a | (2, a, b) => PvDelegationSpending a b
                         | (3, a, _) => PvToken a | (4, a, b) => PvTokenManagement a b | (_, a, _) => PvOrder a end) _).
  intros []; reflexivity.
Defined.

(** the token a command is about; the obsolete order commands are not tracked (101-115, 277-291) *)
Definition command_token (c : account_command) : option N :=
  match c with
  | CmdMint id _ | CmdUnmint id | CmdLockSupply id | CmdFreeze id _ | CmdUnfreeze id | CmdChangeAuthority id _ | CmdChangeUri id _ => Some id
  | CmdConcludeOrder _ | CmdFillOrder _ _ _ => None
  end.
Definition command_order (c : order_command) : N := match c with OcFill id _ | OcFreeze id | OcConclude id => id end.

(** 72-122 *)
Definition required_by_input (i : tx_input) : list required_dep :=
  match i with
  | InUtxo (FromTx tx, idx) => [RqOutput tx idx]
  | InUtxo (FromReward _, _) => []
  | InAccount nonce d _ => RqDelegationSpending d nonce :: (if nonce =? 0 then [RqDelegation d] else [])
  | InCommand nonce c =>
      match command_token c with
      | Some t => RqTokenManagement t nonce :: (if nonce =? 0 then [RqToken t] else [])
      | None => []
      end
  | InOrder c => [RqOrder (command_order c)]
  end.
(** 124-142 *)
Definition required_by_output (o : tx_output) : list required_dep :=
  match o with
  | OCreateDelegationId _ p => [RqPool p]
  | ODelegateStaking _ d => [RqDelegation d]
  | _ => []
  end.
(** 64-70 *)
Definition required_deps (tx : transaction) : list required_dep :=
  concat (map required_by_input (tx_inputs tx)) ++ concat (map required_by_output (tx_outputs tx)).
(** 144-161 *)
Definition into_consumed (d : required_dep) : option consumed_dep :=
  match d with
  | RqOutput tx idx => Some (CdOutput tx idx)
  | RqDelegationSpending d n => Some (CdDelegationSpending d n)
  | RqTokenManagement t n => Some (CdTokenManagement t n)
  | RqPool _ | RqDelegation _ | RqToken _ | RqOrder _ => None
  end.
Definition consumed_deps (tx : transaction) : list consumed_dep := omap into_consumed (required_deps tx).
(** 313-333 *)
Definition from_requirement (d : required_dep) : option provided_dep :=
  match d with
  | RqOutput _ _ => None
  | RqPool p => Some (PvPool p)
  | RqDelegation d => Some (PvDelegation d)
  | RqDelegationSpending d n => Some (PvDelegationSpending d n)
  | RqToken t => Some (PvToken t)
  | RqTokenManagement t n => Some (PvTokenManagement t n)
  | RqOrder o => Some (PvOrder o)
  end.

(** common/src/chain/make_id.rs 47-102: the ids of what a transaction creates, made from its first output spent *)
Record id_makers := IdMakers { mk_delegation : outpoint -> N; mk_token : outpoint -> N; mk_order : outpoint -> N }.
Fixpoint first_spent (ins : list tx_input) : option outpoint :=
  match ins with [] => None | InUtxo k :: _ => Some k | _ :: ins' => first_spent ins' end.
(** common/src/chain/transaction/account_nonce.rs: [increment] *)
Definition next_nonce (n : N) : option N := checked_add U64_MAX n 1.

(** 198-205, 269-291 *)
Definition provided_by_input (i : tx_input) : list provided_dep :=
  match i with
  | InAccount nonce d _ => match next_nonce nonce with Some n => [PvDelegationSpending d n] | None => [] end
  | InCommand nonce c =>
      match next_nonce nonce, command_token c with Some n, Some t => [PvTokenManagement t n] | _, _ => [] end
  | InUtxo _ | InOrder _ => []
  end.
(** 207-267; an id that cannot be made (no output spent) gives no dependency, with a log line *)
Definition provided_by_output (mk : id_makers) (ins : list tx_input) (o : tx_output) : list provided_dep :=
  match o with
  | OIssueFungibleToken _ => match first_spent ins with Some k => [PvToken (mk_token mk k)] | None => [] end
  | OCreateDelegationId _ _ => match first_spent ins with Some k => [PvDelegation (mk_delegation mk k)] | None => [] end
  | OCreateStakePool p _ => [PvPool p]
  | OCreateOrder _ => match first_spent ins with Some k => [PvOrder (mk_order mk k)] | None => [] end
  | _ => []
  end.
(** 188-196 *)
Definition provided_deps (mk : id_makers) (tx : transaction) : list provided_dep :=
  concat (map provided_by_input (tx_inputs tx)) ++ concat (map (provided_by_output mk (tx_inputs tx)) (tx_outputs tx)).

(** * Fee rates *)

(** error.rs: the variants returned below *)
Inductive pool_err :=
| PFeeOverflow | PAncestorFeeOverflow | PAncestorFeeUpdateOverflow | PClusterCount | PClusterSize | PEntryNotFound
| PNoInputs | PNoOutputs | PTxTooBig | PTxBiggerThanCluster | PRelayFee | PRollingFee | PConflict | PExpired | PFull.

(** feerate.rs 42-50; a rate is an amount per 1000 bytes *)
Definition rate_of (fee size : N) : res pool_err N :=
  let? scaled := ok_or (amount_mul fee 1000) PFeeOverflow in
  expect (amount_div scaled size).
(** 52-60 *)
Definition rate_fee (rate size : N) : res pool_err N :=
  let? fee := ok_or (amount_mul rate size) PFeeOverflow in
  let? up := ok_or (amount_add fee 999) PFeeOverflow in
  expect (amount_div up 1000).

(** * Entries *)

(** entry.rs 29-38, 137-141: [TxEntryWithFee]; the size is a [NonZeroUsize] *)
Record tx_entry := TxEntry { te_tx : transaction; te_time : N; te_size : N; te_fee : N }.
Definition te_id (e : tx_entry) : N := tx_id (te_tx e).
(** store/mod.rs 840-851: [TxMempoolEntry] *)
Record mentry := MEntry {
  me_entry : tx_entry; me_parents : gset N; me_children : gset N;
  me_count_d : N; me_count_a : N; me_fees_d : N; me_fees_a : N; me_size_d : N; me_size_a : N }.
Definition me_id (m : mentry) : N := te_id (me_entry m).
Definition me_fee (m : mentry) : N := te_fee (me_entry m).
Definition me_size (m : mentry) : N := te_size (me_entry m).
Definition me_time (m : mentry) : N := te_time (me_entry m).
(** [expect] on a [Result] *)
Definition unwrap {E F A} (r : res E A) : res F A := match r with Ok a => Ok a | _ => Panic end.
(** 926-932 *)
Definition descendant_score (m : mentry) : res pool_err N :=
  let? a := unwrap (rate_of (me_fees_d m) (me_size_d m)) in
  let? b := unwrap (rate_of (me_fee m) (me_size m)) in
  Ok (N.max a b).
(** 934-950 *)
Definition ancestor_score (m : mentry) : res pool_err N :=
  let? a := unwrap (rate_of (me_fees_a m) (me_size_a m)) in
  let? b := unwrap (rate_of (me_fee m) (me_size m)) in
  Ok (N.min a b).

(** * The store *)

(** 120-177 *)
Record store := Store {
  st_txs : gmap N mentry;
  st_by_descendants : gset (N * N); st_by_ancestors : gset (N * N); st_by_time : gset (N * N);
  st_spenders : gmap consumed_dep N; st_providers : gmap provided_dep N;
  st_by_seq : gmap N N; st_seqs : gmap N N; st_next : N }.
(** 194-210 *)
Definition empty_store : store := Store ∅ ∅ ∅ ∅ ∅ ∅ ∅ ∅ 0.
Definition set_txs (t : gmap N mentry) (s : store) : store :=
  Store t (st_by_descendants s) (st_by_ancestors s) (st_by_time s) (st_spenders s) (st_providers s) (st_by_seq s) (st_seqs s) (st_next s).
Definition set_by_descendants (x : gset (N * N)) (s : store) : store :=
  Store (st_txs s) x (st_by_ancestors s) (st_by_time s) (st_spenders s) (st_providers s) (st_by_seq s) (st_seqs s) (st_next s).
Definition set_by_ancestors (x : gset (N * N)) (s : store) : store :=
  Store (st_txs s) (st_by_descendants s) x (st_by_time s) (st_spenders s) (st_providers s) (st_by_seq s) (st_seqs s) (st_next s).
Definition set_by_time (x : gset (N * N)) (s : store) : store :=
  Store (st_txs s) (st_by_descendants s) (st_by_ancestors s) x (st_spenders s) (st_providers s) (st_by_seq s) (st_seqs s) (st_next s).
Definition set_spenders (x : gmap consumed_dep N) (s : store) : store :=
  Store (st_txs s) (st_by_descendants s) (st_by_ancestors s) (st_by_time s) x (st_providers s) (st_by_seq s) (st_seqs s) (st_next s).
Definition set_providers (x : gmap provided_dep N) (s : store) : store :=
  Store (st_txs s) (st_by_descendants s) (st_by_ancestors s) (st_by_time s) (st_spenders s) x (st_by_seq s) (st_seqs s) (st_next s).
Definition set_seqs (x y : gmap N N) (n : N) (s : store) : store :=
  Store (st_txs s) (st_by_descendants s) (st_by_ancestors s) (st_by_time s) (st_spenders s) (st_providers s) x y n.

(** A [BTreeSet] of pairs in iteration order *)
Definition pair_le (x y : N * N) : Prop := fst x < fst y \/ (fst x = fst y /\ snd x <= snd y).
Global Instance pair_le_dec x y : Decision (pair_le x y).
Proof. unfold pair_le. apply _. Defined.
Definition in_order (s : gset (N * N)) : list (N * N) := merge_sort pair_le (elements s).

(** lib.rs / config: [MempoolConfig] (the two cluster limits and the minimum relay fee rate) *)
Record pool_cfg := PoolCfg { pc_max_count : N; pc_max_bytes : N; pc_min_rate : N }.

(** 186-191 *)
Inductive reason := RBlock | RExpiry | RSizeLimit | RReplaced.
(** 1151-1155 *)
Inductive relatives := Ancestors | Descendants | ClusterOf.

(** utils/src/graph_traversals.rs 26-77: [dag_depth_postorder_multiroot]; an item together with those of its children not looked
    at yet. The iterator is run to its end (as every caller does), so pushing, skipping and yielding are single steps here. The
    fuel is the number of steps. *)
Fixpoint postorder_run (children : N -> list N) (fuel : nat) (stack : list (list N * N)) (visited : gset N) : option (list N) :=
  match stack with
  | [] => Some []
  | (cs, x) :: stack' =>
      match fuel with
      | O => None
      | S fuel' =>
          match cs with
          | [] => option_map (cons x) (postorder_run children fuel' stack' visited)
          | c :: cs' =>
              if decide (c ∈ visited) then postorder_run children fuel' ((cs', x) :: stack') visited
              else postorder_run children fuel' ((children c, c) :: (cs', x) :: stack') ({[c]} ∪ visited)
          end
      end
  end.
Definition postorder (children : N -> list N) (fuel : nat) (roots : list N) : option (list N) :=
  postorder_run children fuel (map (fun x => (children x, x)) roots) (list_to_set roots).

Section store.
(** how a hash set is iterated *)
Context (iter : gset N -> list N).
Context (mk : id_makers) (cfg : pool_cfg).

(** ** Relatives *)
(** 1170-1214; [limit] is [on_new_tx_added]. The fuel is the number of turns of the while loop. *)
Fixpoint visit_all (limit : N -> res pool_err unit) (ids : list N) (stack : list N) (seen : gset N) : res pool_err (list N * gset N) :=
  match ids with
  | [] => Ok (stack, seen)
  | i :: ids' =>
      if decide (i ∈ seen) then visit_all limit ids' stack seen
      else limit (N.of_nat (size ({[i]} ∪ seen))) ;? visit_all limit ids' (i :: stack) ({[i]} ∪ seen)
  end.
Definition neighbours (k : relatives) (m : mentry) : list N :=
  match k with
  | Ancestors => iter (me_parents m)
  | Descendants => iter (me_children m)
  | ClusterOf => iter (me_parents m) ++ iter (me_children m)
  end.
Fixpoint collect_loop (s : store) (k : relatives) (limit : N -> res pool_err unit) (fuel : nat) (stack : list N) (seen : gset N)
  : res pool_err (gset N) :=
  match stack with
  | [] => Ok seen
  | i :: stack' =>
      match fuel with
      | O => Panic
      | S fuel' =>
          let? m := ok_or (st_txs s !! i) PEntryNotFound in
          let? r := visit_all limit (neighbours k m) stack' seen in
          collect_loop s k limit fuel' (fst r) (snd r)
      end
  end.
Definition collect_relatives (s : store) (init : list N) (k : relatives) (limit : N -> res pool_err unit) : res pool_err (gset N) :=
  let? r := visit_all limit init [] ∅ in
  collect_loop s k limit (S (size (st_txs s) + length init)) (fst r) (snd r).
Definition no_limit (n : N) : res pool_err unit := Ok tt.
(** 1009-1027, 1033-1051: a missing entry is a panic *)
Definition collect_ancestors (s : store) (m : mentry) : res pool_err (gset N) :=
  unwrap (collect_relatives s (iter (me_parents m)) Ancestors no_limit).
Definition collect_descendants (s : store) (m : mentry) : res pool_err (gset N) :=
  unwrap (collect_relatives s (iter (me_children m)) Descendants no_limit).

(** 1216-1238 *)
Definition spent_txs (tx : transaction) : list N :=
  omap (fun i => match i with InUtxo (FromTx t, _) => Some t | _ => None end) (tx_inputs tx).
Definition providers_of (s : store) (tx : transaction) : list N :=
  omap (fun d => match from_requirement d with Some p => st_providers s !! p | None => None end) (required_deps tx).
Definition collect_tx_parents (s : store) (tx : transaction) : gset N :=
  list_to_set (filter (fun t => is_Some (st_txs s !! t)) (spent_txs tx)) ∪
  list_to_set (providers_of s tx).

(** ** Adding *)
(** 1240-1250 *)
Definition count_limit (n : N) : res pool_err unit := ensure (1 + n <=? pc_max_count cfg) PClusterCount.
(** 1252-1278 *)
Fixpoint sum_sizes (s : store) (ids : list N) (acc : N) : res pool_err N :=
  match ids with
  | [] => Ok acc
  | i :: ids' =>
      let? m := ok_or (st_txs s !! i) PEntryNotFound in
      let? acc' := expect (checked_add U64_MAX acc (me_size m)) in
      sum_sizes s ids' acc'
  end.
(** 854-887 *)
Fixpoint sum_ancestors (s : store) (ids : list N) (sz fees : N) : res pool_err (N * N) :=
  match ids with
  | [] => Ok (sz, fees)
  | i :: ids' =>
      let? m := expect (st_txs s !! i) in
      let? sz' := expect (checked_add U64_MAX sz (me_size m)) in
      let? fees' := ok_or (amount_add fees (me_fee m)) PAncestorFeeOverflow in
      sum_ancestors s ids' sz' fees'
  end.
Definition new_mentry (s : store) (e : tx_entry) (parents ancestors : gset N) : res pool_err mentry :=
  let? t := sum_ancestors s (iter ancestors) (te_size e) (te_fee e) in
  Ok (MEntry e parents ∅ 1 (1 + N.of_nat (size ancestors)) (te_fee e) (snd t) (te_size e) (fst t)).
(** 1095-1129 *)
Definition new_with_ancestors (s : store) (e : tx_entry) : res pool_err (mentry * gset N) :=
  let parents := collect_tx_parents s (te_tx e) in
  let? cluster := collect_relatives s (iter parents) ClusterOf count_limit in
  let? total := sum_sizes s (iter cluster) (te_size e) in
  ensure (total <=? pc_max_bytes cfg) PClusterSize ;?
  let? ancestors := collect_relatives s (iter parents) Ancestors no_limit in
  let? m := new_mentry s e parents ancestors in
  Ok (m, ancestors).

(** 352-361, 363-372, 374-383 *)
Definition with_children (c : gset N) (m : mentry) : mentry :=
  MEntry (me_entry m) (me_parents m) c (me_count_d m) (me_count_a m) (me_fees_d m) (me_fees_a m) (me_size_d m) (me_size_a m).
Definition with_parents (p : gset N) (m : mentry) : mentry :=
  MEntry (me_entry m) p (me_children m) (me_count_d m) (me_count_a m) (me_fees_d m) (me_fees_a m) (me_size_d m) (me_size_a m).
Definition append_to_parent (id : N) (s : store) (p : N) : res pool_err store :=
  let? m := expect (st_txs s !! p) in
  Ok (set_txs (<[p := with_children ({[id]} ∪ me_children m) m]> (st_txs s)) s).
Definition append_to_parents (s : store) (m : mentry) : res pool_err store :=
  rfold (append_to_parent (me_id m)) (iter (me_parents m)) s.
Definition remove_from_parent (id : N) (s : store) (p : N) : res pool_err store :=
  let? m := expect (st_txs s !! p) in
  Ok (set_txs (<[p := with_children (me_children m ∖ {[id]}) m]> (st_txs s)) s).
Definition remove_from_child (id : N) (s : store) (c : N) : res pool_err store :=
  let? m := expect (st_txs s !! c) in
  Ok (set_txs (<[c := with_parents (me_parents m ∖ {[id]}) m]> (st_txs s)) s).

(** 534-551, 553-570 *)
Definition replace_score (x : gset (N * N)) (id old new : N) : gset (N * N) :=
  if old =? new then x else {[(new, id)]} ∪ (x ∖ {[(old, id)]}).

(** 385-425, one ancestor. When the fees do not fit the ancestors before it stay updated. *)
Definition descendants_of (m : mentry) (count fees sz : N) : mentry :=
  MEntry (me_entry m) (me_parents m) (me_children m) count (me_count_a m) fees (me_fees_a m) sz (me_size_a m).
Definition ancestors_of (m : mentry) (count fees sz : N) : mentry :=
  MEntry (me_entry m) (me_parents m) (me_children m) (me_count_d m) count (me_fees_d m) fees (me_size_d m) sz.
Definition gain_descendant (e : mentry) (s : store) (a : N) : res pool_err store :=
  let? m := expect (st_txs s !! a) in
  let? old := descendant_score m in
  let? fees := ok_or (amount_add (me_fees_d m) (me_fee e)) PAncestorFeeUpdateOverflow in
  let? sz := expect (checked_add U64_MAX (me_size e) (me_size_d m)) in
  let m' := descendants_of m (me_count_d m + 1) fees sz in
  let? new := descendant_score m' in
  Ok (set_by_descendants (replace_score (st_by_descendants s) a old new) (set_txs (<[a := m']> (st_txs s)) s)).
Fixpoint gain_descendants (e : mentry) (s : store) (l : list N) : store * res pool_err unit :=
  match l with
  | [] => (s, Ok tt)
  | a :: l' => on_ok s (gain_descendant e s a) (fun s' => gain_descendants e s' l')
  end.
(** 458-468, 668-673 *)
Definition mark_spent (s : store) (m : mentry) : store :=
  set_spenders (fold_left (fun x d => <[d := me_id m]> x) (consumed_deps (te_tx (me_entry m))) (st_spenders s)) s.
Definition add_providers (s : store) (m : mentry) : store :=
  set_providers (fold_left (fun x d => <[d := me_id m]> x) (provided_deps mk (te_tx (me_entry m))) (st_providers s)) s.
(** 495-514: the indices and the entry itself *)
Definition add_indices (s : store) (m : mentry) : res pool_err store :=
  let id := me_id m in
  let? d := descendant_score m in
  let? a := ancestor_score m in
  match st_txs s !! id with
  | Some _ => Panic
  | None =>
      Ok (set_txs (<[id := m]> (st_txs s))
         (set_seqs (<[st_next s := id]> (st_by_seq s)) (<[id := st_next s]> (st_seqs s)) (st_next s + 1)
         (set_by_time ({[(me_time m, id)]} ∪ st_by_time s)
         (set_by_ancestors ({[(a, id)]} ∪ st_by_ancestors s)
         (set_by_descendants ({[(d, id)]} ∪ st_by_descendants s) s)))))
  end.
(** 486-516 *)
Definition add_tx_entry (s : store) (m : mentry) (ancestors : gset N) : store * res pool_err unit :=
  on_ok s (append_to_parents s m) (fun s1 =>
  sbind (gain_descendants m s1 (iter ancestors)) (fun s2 _ =>
  on_ok s2 (add_indices (add_providers (mark_spent s2 m) m) m) (fun s3 => (s3, Ok tt)))).
(** 481-484 *)
Definition add_transaction (s : store) (e : tx_entry) : store * res pool_err unit :=
  on_ok s (new_with_ancestors s e) (fun ma => add_tx_entry s (fst ma) (snd ma)).

(** ** Removing *)
(** 427-456 *)
Definition lose_descendant (e : mentry) (s : store) (a : N) : res pool_err store :=
  let? m := expect (st_txs s !! a) in
  let? old := descendant_score m in
  let? fees := expect (amount_sub (me_fees_d m) (me_fee e)) in
  let? sz := expect (checked_sub (me_size_d m) (me_size e)) in
  let? sz := expect (if sz =? 0 then None else Some sz) in
  let? count := expect (checked_sub (me_count_d m) 1) in
  let m' := descendants_of m count fees sz in
  let? new := descendant_score m' in
  Ok (set_by_descendants (replace_score (st_by_descendants s) a old new) (set_txs (<[a := m']> (st_txs s)) s)).
Definition update_ancestors_for_drop (s : store) (e : mentry) : res pool_err store :=
  let? l := collect_ancestors s e in
  rfold (lose_descendant e) (iter l) s.
(** 572-601 *)
Definition lose_ancestor (e : mentry) (s : store) (d : N) : res pool_err store :=
  let? m := expect (st_txs s !! d) in
  let? old := ancestor_score m in
  let? fees := expect (amount_sub (me_fees_a m) (me_fee e)) in
  let? sz := expect (checked_sub (me_size_a m) (me_size e)) in
  let? sz := expect (if sz =? 0 then None else Some sz) in
  let? count := expect (checked_sub (me_count_a m) 1) in
  let m' := ancestors_of m count fees sz in
  let? new := ancestor_score m' in
  Ok (set_by_ancestors (replace_score (st_by_ancestors s) d old new) (set_txs (<[d := m']> (st_txs s)) s)).
Definition update_descendants_for_drop (s : store) (e : mentry) : res pool_err store :=
  let? l := collect_descendants s e in
  rfold (lose_ancestor e) (iter l) s.
(** 660-666 *)
Definition remove_seq (s : store) (m : mentry) : res pool_err store :=
  let? n := expect (st_seqs s !! me_id m) in
  if decide (st_by_seq s !! n = Some (me_id m))
  then Ok (set_seqs (delete n (st_by_seq s)) (delete (me_id m) (st_seqs s)) (st_next s) s)
  else Panic.
(** 675-682, 470-479 *)
Definition take_exactly {K} `{Countable K} (id : N) (x : gmap K N) (d : K) : res pool_err (gmap K N) :=
  if decide (x !! d = Some id) then Ok (delete d x) else Panic.
Definition remove_providers (s : store) (m : mentry) : res pool_err store :=
  let? x := rfold (take_exactly (me_id m)) (provided_deps mk (te_tx (me_entry m))) (st_providers s) in
  Ok (set_providers x s).
Definition unspend (s : store) (m : mentry) : res pool_err store :=
  let? x := rfold (take_exactly (me_id m)) (consumed_deps (te_tx (me_entry m))) (st_spenders s) in
  Ok (set_spenders x s).
(** 627-640, 642-658 *)
Definition drop_tx (s : store) (m : mentry) : res pool_err store :=
  let? s := rfold (remove_from_parent (me_id m)) (iter (me_parents m)) s in
  let? s := rfold (remove_from_child (me_id m)) (iter (me_children m)) s in
  let? d := descendant_score m in
  let s := set_by_descendants (st_by_descendants s ∖ {[(d, me_id m)]}) s in
  let? a := ancestor_score m in
  let s := set_by_ancestors (st_by_ancestors s ∖ {[(a, me_id m)]}) s in
  let s := set_by_time (st_by_time s ∖ {[(me_time m, me_id m)]}) s in
  let? s := remove_seq s m in
  let? s := remove_providers s m in
  unspend s m.
(** 603-625 *)
Definition remove_tx (s : store) (id : N) (r : reason) : res pool_err (store * option mentry) :=
  match st_txs s !! id with
  | None => Ok (s, None)
  | Some m =>
      let s := set_txs (delete id (st_txs s)) s in
      let? s := update_ancestors_for_drop s m in
      let? s := match r with RBlock => update_descendants_for_drop s m | _ => Ok s end in
      let? s := drop_tx s m in
      Ok (s, Some m)
  end.
(** 993-1004; the entry of a child must exist *)
Definition children_in (s : store) (id : N) : list N :=
  match st_txs s !! id with Some m => iter (me_children m) | None => [] end.
(** enough steps for any traversal: every entry is yielded once and every link looked at once *)
Definition traversal_fuel (s : store) : nat :=
  S (sum_list_with (fun p => S (S (size (me_children (snd p)) + size (me_parents (snd p))))) (map_to_list (st_txs s))).
(** 691-702 *)
Fixpoint remove_all (s : store) (ids : list N) (r : reason) (out : list mentry) : res pool_err (store * list mentry) :=
  match ids with
  | [] => Ok (s, out)
  | i :: ids' =>
      let? x := remove_tx s i r in
      remove_all (fst x) ids' r (match snd x with Some m => out ++ [m] | None => out end)
  end.
Definition drop_tx_and_descendants (s : store) (id : N) (r : reason) : res pool_err (store * list mentry) :=
  match st_txs s !! id with
  | None => Ok (s, [])
  | Some _ =>
      let? l := expect (postorder (children_in s) (traversal_fuel s) [id]) in
      remove_all s l r []
  end.
(** 684-688 *)
Fixpoint drop_conflicts (s : store) (ids : list N) : res pool_err store :=
  match ids with
  | [] => Ok s
  | i :: ids' => let? x := remove_tx s i RReplaced in drop_conflicts (fst x) ids'
  end.
(** 709-718: the transactions in the order of their numbers *)
Definition into_transactions (s : store) : res pool_err (list tx_entry) :=
  rmapM (fun p => let? m := expect (st_txs s !! snd p) in Ok (me_entry m))
        (merge_sort pair_le (map_to_list (st_by_seq s))).
End store.
