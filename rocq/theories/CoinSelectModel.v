(** The wallet's choice of coins: [wallet/src/account/utxo_selector/mod.rs] and [output_group.rs] in the same folder.

    Randomness and the tie breaking of the standard library's heap are not fixed: the functions below take the shuffles,
    the coin flips and the heap's [pop] as arguments, and the theorems quantify over all of them.

    Weights are [usize]; their sums are modelled without an upper bound (they are byte counts of data held in memory),
    their subtractions are checked. *)
From Coq Require Import ZArith NArith.
From Verif Require Import Base.

(** [PayFee], output_group.rs 56-60 *)
Inductive pay_fee := PayFeeWithThisCurrency | DoNotPayFeeWithThisCurrency.

(** [OutputGroup], output_group.rs 37-52. [O] stands for the pairs of an input and the output it spends. *)
Record group (O : Type) := Group {
  g_outputs : list O;
  g_value : N;
  g_fee : N;
  g_long_term_fee : N;
  g_weight : N;
}.
Arguments Group {O}.
Arguments g_outputs {O}.
Arguments g_value {O}.
Arguments g_fee {O}.
Arguments g_long_term_fee {O}.
Arguments g_weight {O}.

(** [SelectionResult], mod.rs 30-39 *)
Record selection (O : Type) := Selection {
  s_outputs : list O;
  s_effective_value : N;
  s_target : N;
  s_waste : Z;
  s_weight : N;
  s_fees : N;
  s_change : N;
}.
Arguments Selection {O}.
Arguments s_outputs {O}.
Arguments s_effective_value {O}.
Arguments s_target {O}.
Arguments s_waste {O}.
Arguments s_weight {O}.
Arguments s_fees {O}.
Arguments s_change {O}.

(** [UtxoSelectorError], mod.rs 166-180. [UnsupportedTransactionOutput] only comes from [OutputGroup::new]. *)
Inductive select_error :=
| NoSolutionFound
| NoUtxos
| NotEnoughFunds (got requested : N)
| MaxWeightExceeded
| AmountArithmeticError.

(** [CoinSelectionAlgo], mod.rs 691-697 *)
Inductive selection_algo := UsePreselected | Randomize.

(** [Amount::into_signed], common/src/primitives/amount/mod.rs 78-82 *)
Definition into_signed (a : N) : option Z := if (Z.of_N a <=? I128_MAX)%Z then Some (Z.of_N a) else None.
(** [SignedAmount + SignedAmount] and [-], common/src/primitives/amount/signed.rs 94-108: [checked_add], [checked_sub]
    of [i128] *)
Definition in_i128 (z : Z) : option Z := if ((I128_MIN <=? z) && (z <=? I128_MAX))%Z then Some z else None.
Definition signed_add (a b : Z) : option Z := in_i128 (a + b).
Definition signed_sub (a b : Z) : option Z := in_i128 (a - b).

(** [Amount + Amount], common/src/primitives/amount/mod.rs: [checked_add] of [u128] *)
Definition amount_add (a b : N) : option N := checked_add U128_MAX a b.

(** [TOTAL_TRIES], mod.rs 28 *)
Definition TOTAL_TRIES : N := 100000.
(** the rounds of [approximate_best_subset], mod.rs 434 *)
Definition SUBSET_ROUNDS : N := 1000.

Section Select.
Context {O : Type}.
Implicit Types (g : group O) (r : selection O) (pool heap : list (group O)) (pf : pay_fee).

(** [OutputGroup::get_effective_value], output_group.rs 100-110 *)
Definition get_effective_value pf g : res select_error N :=
  match pf with
  | PayFeeWithThisCurrency => expect (checked_sub (g_value g) (g_fee g))
  | DoNotPayFeeWithThisCurrency => Ok (g_value g)
  end.
(** The same where the value is known not to be below the fee. [select_coins] computes the effective value of every
    group first (mod.rs 712-716), so that behind that line this is the same function. *)
Definition eff pf g : N :=
  match pf with
  | PayFeeWithThisCurrency => g_value g - g_fee g
  | DoNotPayFeeWithThisCurrency => g_value g
  end.

(** [iter().map(get_effective_value).sum::<Option<Amount>>()], as used at mod.rs 519-523, 592-596 and 712-716 *)
Definition sum_effective pf pool : option N :=
  foldl (fun acc g => match acc with Some a => amount_add a (eff pf g) | None => None end) (Some 0%N) pool.

(** mod.rs 712-716: the same sum where an effective value may panic; the iterator stops at the first overflow *)
Definition total_available_value pf pool : res select_error N :=
  rfold (fun acc g => let? e := get_effective_value pf g in ok_or (amount_add acc e) AmountArithmeticError) pool 0%N.

(** [fee - long_term_fee] as signed amounts, mod.rs 87-92 and 605-610 *)
Definition fee_difference g : option Z :=
  match into_signed (g_fee g) with
  | Some fee => match into_signed (g_long_term_fee g) with
                | Some long_term_fee => signed_sub fee long_term_fee
                | None => None
                end
  | None => None
  end.

(** [SelectionResult::new], mod.rs 42-52 *)
Definition new_selection (target : N) : selection O :=
  Selection [] 0 target 0%Z 0 0 0.

(** [SelectionResult::add_change], mod.rs 66-69 *)
Definition add_change r (change : N) : res select_error (selection O) :=
  let? c := ok_or (amount_add (s_change r) change) AmountArithmeticError in
  Ok (Selection (s_outputs r) (s_effective_value r) (s_target r) (s_waste r) (s_weight r) (s_fees r) c).

(** [SelectionResult::add_input], mod.rs 79-100 *)
Definition add_input pf r g : res select_error (selection O) :=
  let? effective_value := ok_or (amount_add (s_effective_value r) (eff pf g)) AmountArithmeticError in
  let? waste := ok_or (match fee_difference g with Some d => signed_add (s_waste r) d | None => None end)
                      AmountArithmeticError in
  let? fees := ok_or (amount_add (s_fees r) (g_fee g)) AmountArithmeticError in
  Ok (Selection (s_outputs r ++ g_outputs g) effective_value (s_target r) waste (s_weight r + g_weight g) fees (s_change r)).

Definition add_inputs pf r (gs : list (group O)) : res select_error (selection O) := rfold (add_input pf) gs r.

(** [SelectionResult::calculate_change], mod.rs 130-155 *)
Definition calculate_change r (min_viable_change change_fee : N) pf : res select_error N :=
  let? change := expect (checked_sub (s_effective_value r) (s_target r)) in
  let change := match pf with
                | PayFeeWithThisCurrency => match checked_sub change change_fee with Some c => c | None => 0%N end
                | DoNotPayFeeWithThisCurrency => change
                end in
  Ok (if (change <? min_viable_change)%N then 0%N else change).

(** [SelectionResult::compute_and_set_waste], mod.rs 102-128 *)
Definition compute_and_set_waste r (min_viable_change change_cost change_fee : N) pf : res select_error (selection O) :=
  let? change := calculate_change r min_viable_change change_fee pf in
  let? waste :=
    if negb (change =? 0)%N then
      ok_or (match into_signed change_cost with Some c => signed_add (s_waste r) c | None => None end) AmountArithmeticError
    else
      let? difference := expect (checked_sub (s_effective_value r) (s_target r)) in
      ok_or (match into_signed difference with Some d => signed_add (s_waste r) d | None => None end)
            AmountArithmeticError in
  Ok (Selection (s_outputs r) (s_effective_value r) (s_target r) waste (s_weight r) (s_fees r) change).

(** [SelectionResult::clear], mod.rs 157-163 *)
Definition clear_selection r : selection O :=
  Selection [] 0 (s_target r) 0%Z 0 0 (s_change r).

(** * Single random draw *)

Section Srd.
(** [BinaryHeap::pop]: the heap is a list, [pop] takes out one of its largest elements (see [CoinSelectSpec]) *)
Context (pop : list (group O) -> option (group O * list (group O))).

(** mod.rs 244-251: [while let Some(group) = heap.pop()]. [n] is the number of elements in the heap. *)
Fixpoint drop_overweight (n : nat) pf (max_weight : N) heap (selected weight : N)
  : res select_error (list (group O) * N * N) :=
  match n with
  | 0%nat => Ok (heap, selected, weight)
  | S n' =>
      match pop heap with
      | None => Ok (heap, selected, weight)
      | Some (g, heap') =>
          if (weight <=? max_weight)%N then Ok (heap', selected, weight)
          else
            let? selected := ok_or (checked_sub selected (eff pf g)) AmountArithmeticError in
            let? weight := expect (checked_sub weight (g_weight g)) in
            drop_overweight n' pf max_weight heap' selected weight
      end
  end.

(** mod.rs 257-259: the heap emptied into the result, largest first *)
Fixpoint drain_heap (n : nat) heap : list (group O) :=
  match n with
  | 0%nat => []
  | S n' => match pop heap with None => [] | Some (g, heap') => g :: drain_heap n' heap' end
  end.

(** mod.rs 231-268: the loop over the shuffled groups and the final error *)
Fixpoint srd_loop pf (max_weight target_with_change : N) r (todo heap : list (group O)) (selected weight : N) (exceeded : bool)
  : res select_error (selection O) :=
  match todo with
  | [] => Err (if exceeded then MaxWeightExceeded else NoSolutionFound)
  | g :: todo' =>
      let heap := g :: heap in
      let? selected := ok_or (amount_add selected (eff pf g)) AmountArithmeticError in
      let weight := (weight + g_weight g)%N in
      let over := (max_weight <? weight)%N in
      let? (heap, selected, weight) :=
        if over then drop_overweight (length heap) pf max_weight heap selected weight else Ok (heap, selected, weight) in
      if (target_with_change <=? selected)%N then add_inputs pf r (drain_heap (length heap) heap)
      else srd_loop pf max_weight target_with_change r todo' heap selected weight (exceeded || over)
  end.

(** [select_coins_srd], mod.rs 206-269. [shuffled] is the pool in the order of the shuffled indexes. *)
Definition select_coins_srd (shuffled : list (group O)) (target_value change_cost max_weight : N) pf
  : res select_error (selection O) :=
  let? target_with_change := ok_or (amount_add target_value change_cost) AmountArithmeticError in
  srd_loop pf max_weight target_with_change (new_selection target_value) shuffled [] 0 0 false.

End Srd.

(** * Knapsack *)

(** [sort_by_key(|g| Reverse(effective value))], mod.rs 334 and 533: a stable sort, largest first. Insertion sort stands
    for the standard library's. *)
Fixpoint insert_sorted pf g (l : list (group O)) : list (group O) :=
  match l with
  | [] => [g]
  | h :: l' => if (eff pf h <=? eff pf g)%N then g :: l else h :: insert_sorted pf g l'
  end.
Definition sort_largest_first pf (l : list (group O)) : list (group O) := foldr (insert_sorted pf) [] l.

(** The state of one round of [approximate_best_subset]: the generator's position, [current_solution_included], [total],
    [target_reached], [best_solution_selected], [best_solution_total] *)
Record subset_state := SubsetState {
  ss_rng : nat;
  ss_included : list bool;
  ss_total : N;
  ss_reached : bool;
  ss_best : list bool;
  ss_best_total : N;
}.

Section Subset.
(** the outcomes of [rng.random::<bool>()], by the number of calls made before *)
Context (flip : nat -> bool).

(** mod.rs 441-472, the body of the loop over the groups in pass [pass] *)
Definition subset_step pf (target : N) (first_pass : bool) (s : subset_state) (ig : nat * group O)
  : res select_error subset_state :=
  let '(i, g) := ig in
  let rand_bool := if first_pass then flip (ss_rng s) else negb (default true (ss_included s !! i)) in
  let rng := if first_pass then S (ss_rng s) else ss_rng s in
  if rand_bool then
    let? total := expect (amount_add (ss_total s) (eff pf g)) in
    let included := <[i := true]> (ss_included s) in
    if (target <=? total)%N then
      let better := (total <? ss_best_total s)%N in
      let best_total := if better then total else ss_best_total s in
      let best := if better then included else ss_best s in
      let? total := expect (checked_sub total (eff pf g)) in
      Ok (SubsetState rng (<[i := false]> included) total true best best_total)
    else Ok (SubsetState rng included total (ss_reached s) (ss_best s) (ss_best_total s))
  else Ok (SubsetState rng (ss_included s) (ss_total s) (ss_reached s) (ss_best s) (ss_best_total s)).

(** one pass over [groups.iter().enumerate()], mod.rs 441-472 *)
Definition subset_pass pf target (first_pass : bool) (groups : list (group O)) (s : subset_state) : res select_error subset_state :=
  rfold (subset_step pf target first_pass) (imap pair groups) s.

(** mod.rs 434-478, one round: the reset, the first pass and, unless the target was reached, the second *)
Definition subset_round pf target (groups : list (group O)) (s : subset_state) : res select_error subset_state :=
  let s := SubsetState (ss_rng s) (replicate (length groups) false) 0 false (ss_best s) (ss_best_total s) in
  let? s := subset_pass pf target true groups s in
  if ss_reached s then Ok s else subset_pass pf target false groups s.

(** mod.rs 434: the rounds *)
Fixpoint subset_rounds (n : nat) pf target (groups : list (group O)) (s : subset_state) : res select_error subset_state :=
  match n with
  | 0%nat => Ok s
  | S n' => let? s := subset_round pf target groups s in subset_rounds n' pf target groups s
  end.

(** [approximate_best_subset], mod.rs 420-479: from the generator's position [rng] to the position after the call, the
    best selection found and its total *)
Definition approximate_best_subset pf (groups : list (group O)) (total_lower target : N) (rng : nat)
  : res select_error (nat * list bool * N) :=
  let? s := subset_rounds (N.to_nat SUBSET_ROUNDS) pf target groups
              (SubsetState rng [] 0 false (replicate (length groups) true) total_lower) in
  Ok (ss_rng s, ss_best s, ss_best_total s).

(** The outcome of the scan over the shuffled groups, mod.rs 293-311: a perfect match, or the applicable groups, their
    total and the smallest group that exceeds the target with the cost of change. *)
Inductive scan_outcome :=
| PerfectMatch (g : group O)
| Scanned (applicable : list (group O)) (total_lower : N) (lowest_larger : option (group O)).

Fixpoint knapsack_scan pf (target_value target_with_change_cost : N) (groups : list (group O))
  (applicable : list (group O)) (total_lower : N) (lowest_larger : option (group O)) : res select_error scan_outcome :=
  match groups with
  | [] => Ok (Scanned applicable total_lower lowest_larger)
  | g :: groups' =>
      if (eff pf g =? target_value)%N then Ok (PerfectMatch g)
      else if (eff pf g <? target_with_change_cost)%N then
        let? total_lower := ok_or (amount_add total_lower (eff pf g)) AmountArithmeticError in
        knapsack_scan pf target_value target_with_change_cost groups' (applicable ++ [g]) total_lower lowest_larger
      else
        let lowest_larger :=
          match lowest_larger with
          | Some current_lowest => if (eff pf g <? eff pf current_lowest)%N then Some g else lowest_larger
          | None => Some g
          end in
        knapsack_scan pf target_value target_with_change_cost groups' applicable total_lower lowest_larger
  end.

(** the groups whose flag is set, mod.rs 369-373 *)
Fixpoint selected_of (flags : list bool) (groups : list (group O)) : list (group O) :=
  match flags, groups with
  | b :: flags', g :: groups' => if b then g :: selected_of flags' groups' else selected_of flags' groups'
  | _, _ => []
  end.

(** [knapsack_solver_impl], mod.rs 272-389, on the shuffled groups *)
Definition knapsack_solver_impl (shuffled : list (group O)) (target_value cost_of_change max_weight : N) pf
  : res select_error (selection O) :=
  let result := new_selection target_value in
  let? target_with_change_cost := ok_or (amount_add target_value cost_of_change) AmountArithmeticError in
  let? scan := knapsack_scan pf target_value target_with_change_cost shuffled [] 0 None in
  match scan with
  | PerfectMatch g => add_input pf result g
  | Scanned applicable total_lower lowest_larger =>
      if (total_lower =? target_value)%N then add_inputs pf result applicable
      else if (total_lower <? target_value)%N then
        match lowest_larger with
        | Some g => add_input pf result g
        | None => Err NoSolutionFound
        end
      else
        let applicable := sort_largest_first pf applicable in
        let? (rng, best, best_total) := approximate_best_subset pf applicable total_lower target_value 0 in
        let? (_, best, best_total) :=
          if (negb (best_total =? target_value) && (target_with_change_cost <=? total_lower))%N
          then approximate_best_subset pf applicable total_lower target_with_change_cost rng
          else Ok (rng, best, best_total) in
        let take_larger :=
          match lowest_larger with
          | Some g => if ((negb (best_total =? target_value) && (best_total <? target_with_change_cost))
                          || (eff pf g <=? best_total))%N then Some g else None
          | None => None
          end in
        match take_larger with
        | Some g => add_input pf result g
        | None =>
            let? result := add_inputs pf result (selected_of best applicable) in
            if (max_weight <? s_weight result)%N then
              match lowest_larger with
              | Some g => add_input pf (clear_selection result) g
              | None => Err MaxWeightExceeded
              end
            else Ok result
        end
  end.

(** [knapsack_solver], mod.rs 391-416 *)
Definition knapsack_solver (shuffled : list (group O)) (target_value cost_of_change max_weight : N) pf
  : res select_error (selection O) :=
  let? result := knapsack_solver_impl shuffled target_value cost_of_change max_weight pf in
  let? _ := ensure (s_weight result <=? max_weight)%N MaxWeightExceeded in
  Ok result.

End Subset.

(** * Branch and bound *)

(** The variables of the loop, mod.rs 514-543. [curr_selection] is kept with its last element first. *)
Record bnb_state := BnbState {
  b_value : N;
  b_selection : list nat;
  b_weight : N;
  b_available : N;
  b_waste : Z;
  b_best : list nat;
  b_best_waste : Z;
  b_exceeded : bool;
  b_index : nat;
}.

(** mod.rs 545-581: whether to go back, and the state with the best selection updated *)
Definition bnb_backtrack (target cost_of_change max_weight : N) (is_feerate_high : bool) (s : bnb_state)
  : res select_error (bool * bnb_state) :=
  let? reachable := expect (amount_add (b_value s) (b_available s)) in
  if (reachable <? target)%N then Ok (true, s)
  else
    let? limit := ok_or (amount_add target cost_of_change) AmountArithmeticError in
    if ((limit <? b_value s)%N || ((b_best_waste s <? b_waste s)%Z && is_feerate_high)) then Ok (true, s)
    else if (max_weight <? b_weight s)%N then
      Ok (true, BnbState (b_value s) (b_selection s) (b_weight s) (b_available s) (b_waste s) (b_best s) (b_best_waste s)
                         true (b_index s))
    else if (target <=? b_value s)%N then
      let? difference := expect (checked_sub (b_value s) target) in
      let? waste := ok_or (match into_signed difference with Some d => signed_add (b_waste s) d | None => None end)
                          AmountArithmeticError in
      Ok (true, if (waste <=? b_best_waste s)%Z
                then BnbState (b_value s) (b_selection s) (b_weight s) (b_available s) (b_waste s) (b_selection s) waste
                              (b_exceeded s) (b_index s)
                else s)
    else Ok (false, s).

(** mod.rs 583-613: backwards. [None]: all searched. The slice at 592 panics when its bounds are wrong. *)
Definition bnb_back pf (pool : list (group O)) (s : bnb_state) : res select_error (option bnb_state) :=
  match b_selection s with
  | [] => Ok None
  | last :: rest =>
      let? _ := expect (if ((S last <=? b_index s) && (b_index s <=? length pool))%nat then Some tt else None) in
      let? omitted := expect (sum_effective pf (take (b_index s - S last) (drop (S last) pool))) in
      let? available := expect (amount_add (b_available s) omitted) in
      let? utxo := expect (pool !! last) in
      let? value := expect (checked_sub (b_value s) (eff pf utxo)) in
      let? waste := ok_or (match fee_difference utxo with Some d => signed_sub (b_waste s) d | None => None end)
                          AmountArithmeticError in
      let? weight := expect (checked_sub (b_weight s) (g_weight utxo)) in
      Ok (Some (BnbState value rest weight available waste (b_best s) (b_best_waste s) (b_exceeded s) (S last)))
  end.

(** mod.rs 622-634: whether the group at the current index is included *)
Definition bnb_includes pf (pool : list (group O)) (s : bnb_state) (utxo : group O) : res select_error bool :=
  match b_selection s with
  | [] => Ok true
  | last :: _ =>
      let? previous_index := expect (match b_index s with 0%nat => None | S n => Some n end) in
      if (previous_index =? last)%nat then Ok true
      else
        let? previous := expect (pool !! previous_index) in
        Ok (negb (eff pf utxo =? eff pf previous)%N || negb (g_fee utxo =? g_fee previous)%N)
  end.

(** mod.rs 614-651: forwards *)
Definition bnb_forward pf (pool : list (group O)) (s : bnb_state) : res select_error bnb_state :=
  let? utxo := expect (pool !! b_index s) in
  let? available := expect (checked_sub (b_available s) (eff pf utxo)) in
  let? includes := bnb_includes pf pool s utxo in
  if includes then
    let? value := expect (amount_add (b_value s) (eff pf utxo)) in
    let? waste := ok_or (match fee_difference utxo with Some d => signed_add (b_waste s) d | None => None end)
                        AmountArithmeticError in
    Ok (BnbState value (b_index s :: b_selection s) (b_weight s + g_weight utxo) available waste (b_best s) (b_best_waste s)
                 (b_exceeded s) (S (b_index s)))
  else
    Ok (BnbState (b_value s) (b_selection s) (b_weight s) available (b_waste s) (b_best s) (b_best_waste s) (b_exceeded s)
                 (S (b_index s))).

(** mod.rs 544-654: the search loop *)
Fixpoint bnb_loop (tries : nat) pf (pool : list (group O)) (target cost_of_change max_weight : N) (is_feerate_high : bool)
  (s : bnb_state) : res select_error bnb_state :=
  match tries with
  | 0%nat => Ok s
  | S tries' =>
      let? (backtrack, s) := bnb_backtrack target cost_of_change max_weight is_feerate_high s in
      if backtrack then
        let? next := bnb_back pf pool s in
        match next with
        | None => Ok s
        | Some s => bnb_loop tries' pf pool target cost_of_change max_weight is_feerate_high s
        end
      else
        let? s := bnb_forward pf pool s in
        bnb_loop tries' pf pool target cost_of_change max_weight is_feerate_high s
  end.

(** [select_coins_bnb], mod.rs 507-674 *)
Definition select_coins_bnb (utxo_pool : list (group O)) (selection_target cost_of_change max_weight : N) pf
  : res select_error (selection O) :=
  let? available := ok_or (sum_effective pf utxo_pool) AmountArithmeticError in
  let? _ := ensure (negb (available <? selection_target)%N) (NotEnoughFunds available selection_target) in
  let pool := sort_largest_first pf utxo_pool in
  let? first := expect (head pool) in
  let is_feerate_high := (g_long_term_fee first <? g_fee first)%N in
  let? s := bnb_loop (N.to_nat TOTAL_TRIES) pf pool selection_target cost_of_change max_weight is_feerate_high
              (BnbState 0 [] 0 available 0%Z [] I128_MAX false 0) in
  match b_best s with
  | [] => Err (if b_exceeded s then MaxWeightExceeded else NoSolutionFound)
  | _ :: _ =>
      let? chosen := expect (mapM (fun i => pool !! i) (rev (b_best s))) in
      let? result := add_inputs pf (new_selection selection_target) chosen in
      let? result := compute_and_set_waste result cost_of_change cost_of_change cost_of_change pf in
      let? _ := expect (if (b_best_waste s =? s_waste result)%Z then Some tt else None) in
      Ok result
  end.

(** * The entry point *)

(** [select_all_coins], mod.rs 676-689 *)
Definition select_all_coins (utxo_pool : list (group O)) (selection_target : N) pf (cost_of_change : N)
  : res select_error (selection O) :=
  let? result := add_inputs pf (new_selection selection_target) utxo_pool in
  compute_and_set_waste result cost_of_change cost_of_change cost_of_change pf.

(** [results.into_iter().min_by_key(|res| res.waste)], mod.rs 800-802: the first of the least wasteful *)
Definition min_waste (results : list (selection O)) : option (selection O) :=
  foldl (fun acc r => match acc with
                      | Some best => if (s_waste r <? s_waste best)%Z then Some r else acc
                      | None => Some r
                      end) None results.

(** The unpredictable parts of one call *)
Record oracle := Oracle {
  or_draw : list (group O) -> list (group O);            (** [indexes.shuffle(rng)], mod.rs 224-225 *)
  or_pop : list (group O) -> option (group O * list (group O));   (** [heap.pop()] *)
  or_shuffle : list (group O) -> list (group O);         (** [groups.shuffle(rng)], mod.rs 291 *)
  or_flip : nat -> bool;                                 (** [rng.random::<bool>()], mod.rs 449 *)
}.

(** One attempt's result pushed to the results or to the errors, mod.rs 749-798; [finish] is what is done to a result
    before ([?]: its error ends the whole call) *)
Definition attempt (m : res select_error (selection O)) (finish : selection O -> res select_error (selection O))
  (results : list (selection O)) (errors : list select_error)
  : res select_error (list (selection O) * list select_error) :=
  match m with
  | Ok r => let? r := finish r in Ok (results ++ [r], errors)
  | Err e => Ok (results, errors ++ [e])
  | Panic => Panic
  end.

(** [select_random_coins], mod.rs 737-804 *)
Definition select_random_coins (o : oracle) (utxo_pool : list (group O)) (selection_target cost_of_change : N) pf
  (max_weight : N) : res select_error (selection O) :=
  let finish r := compute_and_set_waste r cost_of_change cost_of_change cost_of_change pf in
  let? (results, errors) :=
    attempt (select_coins_srd (or_pop o) (or_draw o utxo_pool) selection_target cost_of_change max_weight pf) finish [] [] in
  let utxo_pool := or_shuffle o utxo_pool in
  let? (results, errors) :=
    attempt (knapsack_solver (or_flip o) utxo_pool selection_target cost_of_change max_weight pf) finish results errors in
  let? (results, errors) :=
    attempt (select_coins_bnb utxo_pool selection_target cost_of_change max_weight pf) Ok results errors in
  match min_waste results with
  | Some r => Ok r
  | None => Err (default NoSolutionFound (last errors))
  end.

(** [select_coins], mod.rs 699-735 *)
Definition select_coins (o : oracle) (utxo_pool : list (group O)) (selection_target : N) pf (cost_of_change : N)
  (algo : selection_algo) (max_tx_weight : N) : res select_error (selection O) :=
  if (selection_target =? 0)%N then Ok (new_selection selection_target)
  else
    let? _ := ensure (match utxo_pool with [] => false | _ => true end) NoUtxos in
    let? total := total_available_value pf utxo_pool in
    let? _ := ensure (selection_target <=? total)%N (NotEnoughFunds total selection_target) in
    match algo with
    | UsePreselected => select_all_coins utxo_pool selection_target pf cost_of_change
    | Randomize => select_random_coins o utxo_pool selection_target cost_of_change pf max_tx_weight
    end.

End Select.
Arguments oracle : clear implicits.
Arguments scan_outcome : clear implicits.
