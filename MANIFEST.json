{
 "claims": [
  {
   "property": "C01",
   "status": "proved",
   "theorems": [
    "C01_print_then_parse",
    "C01_zero_with_many_decimals_refuted",
    "C01_parse_is_exact",
    "C01_numeral_unique",
    "C01_short_text_never_crashes",
    "C01_parse_crashes_exactly",
    "C01_parse_never_crashes_refuted"
   ],
   "note": "Round trip for all amounts and decimals, exact acceptance condition of the parser. Two defects shown by _refuted theorems: zero with 39+ decimals is not read back, and a dot followed by 256 zeroes crashes the parser."
  },
  {
   "property": "C02",
   "status": "proved",
   "theorems": [
    "C02_height_plus_distance",
    "C02_height_minus_distance",
    "C02_timelock_crashes_exactly",
    "C02_timelock_never_crashes_refuted",
    "C02_timelock_safe_below_bound"
   ],
   "note": "Exact characterisation of when height arithmetic crashes; safety below the bound; the unrestricted claim is refuted (C02_timelock_never_crashes_refuted)."
  },
  {
   "property": "C03",
   "status": "proved",
   "theorems": [
    "C03_balance_merge_is_sum",
    "C03_balance_merge_applies",
    "C03_balance_merge_assoc",
    "C03_balance_merge_comm",
    "C03_balance_merge_undo"
   ],
   "note": "Balance deltas: pointwise addition on the whole map, applied twice = applied merged, associative, commutative, undo restores, whenever no overflow is reported."
  },
  {
   "property": "C04",
   "status": "proved",
   "theorems": [
    "C04_data_merge_applies",
    "C04_data_merge_succeeds",
    "C04_data_merge_assoc",
    "C04_data_merge_undo",
    "C04_invert_law"
   ],
   "note": "Data deltas: merging applies in order, is associative and undone by its undo records (an identity entry may remain where none was, with the same effect)."
  },
  {
   "property": "C05",
   "status": "proved",
   "theorems": [
    "C05_token_undo_restores",
    "C05_token_undo_never_refused",
    "C05_refused_token_op_changes_nothing"
   ],
   "note": "For every database, any preceding run and any nesting; range hypothesis: minted supplies stay within signed 128 bits; tokens issued unlocked."
  },
  {
   "property": "C06",
   "status": "proved",
   "theorems": [
    "C06_fixed_supply_never_exceeded",
    "C06_locked_supply_never_changes"
   ],
   "note": "Same hypotheses as C05."
  },
  {
   "property": "C07",
   "status": "proved",
   "theorems": [
    "C07_frozen_token_refuses",
    "C07_frozen_without_unfreeze_is_permanent",
    "C07_not_freezable_is_permanent"
   ],
   "note": "Same hypotheses as C05."
  },
  {
   "property": "C08",
   "status": "proved",
   "theorems": [
    "C08_token_caches_refine_tables",
    "C08_mint_beyond_signed_range_refuted"
   ],
   "note": "Refinement of a stack of caches by a stack of tables. The range hypothesis is shown to be needed by C08_mint_beyond_signed_range_refuted."
  },
  {
   "property": "C09",
   "status": "proved",
   "theorems": [
    "C09_order_balances_within_original",
    "C09_fills_account_exactly"
   ],
   "note": "Every reachable order book; hypothesis: order amounts at creation fit in signed 128 bits."
  },
  {
   "property": "C10",
   "status": "proved",
   "theorems": [
    "C10_fill_pays_floor_of_share",
    "C10_payout_is_exact_share_rounded_down",
    "C10_splitting_never_yields_more"
   ],
   "note": "Exact acceptance condition and payout under both rule versions; totals over any sequence of fills bounded by the payout of the whole payment."
  },
  {
   "property": "C11",
   "status": "proved",
   "theorems": [
    "C11_order_undo_restores",
    "C11_order_undo_never_refused",
    "C11_refused_order_op_changes_nothing",
    "C11_refused_create_leaves_order_refuted"
   ],
   "note": "Same hypotheses as C09; the range hypothesis is shown to be needed by C11_refused_create_leaves_order_refuted."
  },
  {
   "property": "C12",
   "status": "proved",
   "theorems": [
    "C12_order_caches_refine_books"
   ],
   "note": "Refinement of a stack of caches by a stack of order books, including the listing of order ids."
  },
  {
   "property": "C13",
   "status": "proved",
   "theorems": [
    "C13_conclude_removes_order",
    "C13_absent_order_refuses",
    "C13_frozen_order_refuses",
    "C13_frozen_order_stays"
   ],
   "note": "Same hypotheses as C09."
  },
  {
   "property": "C14",
   "status": "proved",
   "theorems": [
    "C14_pos_undo_restores",
    "C14_pos_undo_never_refused",
    "C14_refused_pos_op_changes_nothing"
   ],
   "note": "Every database, preceding run and nesting of caches; hypotheses: sums of coins below 2^127, pool ids fresh, withdrawals within the balance."
  },
  {
   "property": "C15",
   "status": "proved",
   "theorems": [
    "C15_pool_balance_is_staker_plus_shares",
    "C15_delegation_balance_is_share",
    "C15_delegating_adds_exactly",
    "C15_spending_removes_exactly",
    "C15_overspending_reported_as_done_refuted",
    "C15_delegating_to_missing_pool_accepted_refuted"
   ],
   "note": "Same hypotheses as C14; two theorems with suffix _refuted show what happens outside them (overspending; delegating to a decommissioned pool)."
  },
  {
   "property": "C16",
   "status": "proved",
   "theorems": [
    "C16_pos_caches_refine_tables"
   ],
   "note": "Refinement of a stack of caches by a stack of tables, including the listing of a pool's shares."
  },
  {
   "property": "C17",
   "status": "proved",
   "theorems": [
    "C17_reward_distributed_exactly",
    "C17_reward_undo_restores"
   ],
   "note": "Both rule versions; includes the adapter that keeps an accumulated delta and one per source, and undoing in the node's order. Needs the pool balance to stay below 2^127 and, for the older version, its 128-bit product not to overflow (it refuses then)."
  },
  {
   "property": "C18",
   "status": "proved",
   "theorems": [
    "C18_rewards_proportional",
    "C18_arithmetic_never_crashes"
   ],
   "note": "Floors are exact; 256-bit arithmetic goes through the word-level integer model."
  },
  {
   "property": "C19",
   "status": "proved",
   "theorems": [
    "C19_utxo_caches_refine_tables"
   ],
   "note": "UtxoModel.v follows utxo/src/cache.rs, utxo_entry.rs and storage/mod.rs; a stack of caches over the database refines plain tables for every run whose additions announce overwrites truthfully."
  },
  {
   "property": "C20",
   "status": "proved",
   "theorems": [
    "C20_no_double_spend",
    "C20_unflagged_overwrite_refuted"
   ],
   "note": "Forward runs only: discarding a layer or undoing a spend legitimately brings the output back. A witness shows the overwrite flag must be truthful."
  },
  {
   "property": "C21",
   "status": "proved",
   "theorems": [
    "C21_flush_is_lossless",
    "C21_never_crashes"
   ],
   "note": "Flush outcome and lossless reads, plus no assertion failure in any run."
  },
  {
   "property": "C22",
   "status": "proved",
   "theorems": [
    "C22_disconnect_restores",
    "C22_empty_reward_inputs_refuted"
   ],
   "note": "connect_transaction/disconnect_transaction, connect_block_transactable/disconnect_block_transactable and spend/restore, nested across layers. A witness shows that an empty present reward input list cannot be disconnected."
  },
  {
   "property": "C23",
   "status": "proved",
   "theorems": [
    "C23_value_is_conserved",
    "C23_accepted_exactly_when_covered",
    "C23_reward_within_fees_and_subsidy",
    "C23_block_fees_add_up"
   ],
   "note": "Exact conservation per currency, exact acceptance condition, block reward and block fee accounting. The model covers the whole value accumulator crate; error payloads are dropped."
  },
  {
   "property": "C24",
   "status": "proved",
   "theorems": [
    "C24_staked_coins_stay_locked",
    "C24_matching_never_crashes"
   ],
   "note": "Greedy matching of locked coins; also proved never to crash."
  },
  {
   "property": "C25",
   "status": "proved",
   "theorems": [
    "C25_numbers_in_use_are_sequential",
    "C25_only_next_number_accepted",
    "C25_refusal_names_next_number",
    "C25_disconnect_frees_the_last_number",
    "C25_disconnect_exact",
    "C25_no_crash"
   ],
   "note": ""
  },
  {
   "property": "C26",
   "status": "proved",
   "theorems": [
    "C26_supply_is_sum_of_subsidies",
    "C26_sum_is_unique",
    "C26_preparing_crashes_exactly",
    "C26_supply_never_decreases",
    "C26_subsidy_is_that_of_the_period",
    "C26_final_supply_is_a_cap",
    "C26_mainnet_supply_is_capped"
   ],
   "note": "Every table and every height, including when 128-bit overflow makes the code crash; mainnet for every whole-second block interval."
  },
  {
   "property": "C27",
   "status": "proved",
   "theorems": [
    "C27_accepted_exactly_with_genesis",
    "C27_last_upgrade_in_force",
    "C27_changes_only_at_upgrades",
    "C27_height_range_is_where_in_force",
    "C27_consensus_rules_by_height"
   ],
   "note": "Any totally ordered type of versions. height_range leaves out the largest u64 height, as in the code."
  },
  {
   "property": "C28",
   "status": "proved",
   "theorems": [
    "C28_documented_formula",
    "C28_defined_exactly",
    "C28_capped",
    "C28_balance_monotone",
    "C28_pledge_helps_up_to_half",
    "C28_more_pledge_never_hurts_refuted",
    "C28_defined_for_every_supply_refuted"
   ],
   "note": "All 128-bit inputs: exactly when a result exists, the documented formula, caps, monotone in the balance, monotone in the pledge up to half of the balance. Refuted beside it: monotone for every pledge; defined for every 128-bit supply."
  },
  {
   "property": "C29",
   "status": "proved",
   "theorems": [
    "C29_stake_target",
    "C29_stake_target_direction",
    "C29_stake_target_no_crash",
    "C29_stake_target_at_switch",
    "C29_work_target",
    "C29_work_between_retargets",
    "C29_work_check_exact",
    "C29_work_retarget_no_crash_refuted"
   ],
   "note": "Staking and work targets for all inputs, over the word-level integers and the compact encoding. Refuted beside it: a work retarget can crash on block times that pass the median rule."
  },
  {
   "property": "C30",
   "status": "proved",
   "theorems": [
    "C30_compact_rounds_down",
    "C30_decoded_target_survives",
    "C30_decode_total",
    "C30_monotone"
   ],
   "note": "Encoding is the largest representable target not above the input; loss below 2^-15; idempotent; monotone."
  },
  {
   "property": "C31",
   "status": "proved",
   "theorems": [
    "C31_verification_is_recursive_reading",
    "C31_accepts_exactly_true_scripts",
    "C31_no_crash"
   ],
   "note": "For every script and every checker, stateful ones included; the fuel of the modelled loop is shown sufficient by the equality with the recursive reading."
  },
  {
   "property": "C32",
   "status": "proved",
   "theorems": [
    "C32_built_when_possible",
    "C32_exactly_the_required_number",
    "C32_conjunction",
    "C32_disjunction"
   ],
   "note": "Construction and acceptance for all condition lists."
  },
  {
   "property": "C33",
   "status": "proved",
   "theorems": [
    "C33_who_may_spend",
    "C33_who_may_stake",
    "C33_split_of_an_input",
    "C33_split_without_secrets",
    "C33_split_of_a_transaction",
    "C33_recheck_only_locks",
    "C33_wallet_check_agrees",
    "C33_full_check_no_crash",
    "C33_two_parts_suffice_refuted"
   ],
   "note": "The table of who may spend is in ScriptSpec.v. Signature checking, hashing and HTLC witness decoding are arbitrary functions. The literal two-way split is refuted because HTLC secrets are in neither part."
  },
  {
   "property": "C34",
   "status": "proved",
   "theorems": [
    "C34_lock_means_what_it_says",
    "C34_never_early",
    "C34_stays_unlocked",
    "C34_mature_outputs_stay_locked"
   ],
   "note": "Exact for all lock kinds; spending heights within signed 64 bits."
  },
  {
   "property": "C35",
   "status": "proved",
   "theorems": [
    "C35_ancestor_at_height",
    "C35_no_ancestor_above",
    "C35_skip_links_point_to_ancestors",
    "C35_index_of_new_block",
    "C35_latest_time_of_chain"
   ],
   "note": "Over every tree the code can build: ancestor lookup by skip links equals following parent links, never fails below the block and never trips an assertion; errors above it; skip links, chain data and latest time of each index are right."
  },
  {
   "property": "C36",
   "status": "proved",
   "theorems": [
    "C36_last_common_ancestor",
    "C36_in_main_chain",
    "C36_new_branch"
   ],
   "note": "Fork point, main-chain membership by the height map, and the branch to connect, over every built tree."
  },
  {
   "property": "C37",
   "status": "proved",
   "theorems": [
    "C37_same_tip_same_ledger",
    "C37_ledger_is_replay",
    "C37_ledger_is_replay_at_every_commit"
   ],
   "note": ""
  },
  {
   "property": "C38",
   "status": "proved",
   "theorems": [
    "C38_pool_bounded_and_consistent",
    "C38_adding",
    "C38_taking_children",
    "C38_lookup",
    "C38_refused_add_keeps_pool_refuted",
    "C38_zero_limit_crashes_refuted"
   ],
   "note": "Every history of additions, removals and clearings and every random choice: bounded, consistent, exact effect of each operation, no crash. Refuted beside it: a refused duplicate can evict a block; a zero limit crashes."
  },
  {
   "property": "C39",
   "status": "proved",
   "theorems": [
    "C39_median_of_last_eleven",
    "C39_half_below_half_above",
    "C39_median_unique",
    "C39_window_is_nearest_ancestors",
    "C39_median_never_goes_back",
    "C39_stored_blocks_respect_median"
   ],
   "note": "Upper median of the last up to eleven timestamps: exists, unique, half below, half above; the window is the nearest ancestors; never goes back when a block's time is not before its parent's median (which block acceptance requires)."
  },
  {
   "property": "C40",
   "status": "proved",
   "theorems": [
    "C40_marks_and_stage_are_independent",
    "C40_any_status",
    "C40_writing_a_field_touches_nothing_else",
    "C40_survives_storage"
   ],
   "note": "Block status bit field (block_status.rs) modelled on u64 words and bytes; independence of marks and stage, and survival of encoding, proved for every status and every sequence of updates."
  },
  {
   "property": "C41",
   "status": "proved",
   "theorems": [
    "C41_branch_is_all_descendants",
    "C41_candidates_are_the_valid_tips",
    "C41_best_candidate_has_most_trust",
    "C41_failed_branch_removed"
   ],
   "note": "Candidate list = exactly the maximal valid tips with enough trust and allowed fork height, best = most trust; removing a failed branch removes exactly its stored descendants and adds its parent."
  },
  {
   "property": "C42",
   "status": "proved",
   "theorems": [
    "C42_coins_never_exceed_emission"
   ],
   "note": "For databases reached from genesis by connecting and disconnecting blocks. Assumes ids are collision free (new_ids, pool_ids_distinct) and that the coins that can exist and the coins ever delegated fit a signed 128-bit amount (in_range)."
  },
  {
   "property": "C43",
   "status": "proved",
   "theorems": [
    "C43_any_kind",
    "C43_accounting_records_follow_the_table",
    "C43_utxo_records_follow_the_table",
    "C43_no_crash",
    "C43_utxo_no_crash",
    "C43_handed_back_once",
    "C43_can_disconnect_exact",
    "C43_stored_dependencies_mirrored",
    "C43_reward_once_in_any_order_refuted",
    "C43_records_below_always_found_refuted",
    "C43_reconnecting_always_accepted_refuted"
   ],
   "note": "For histories in which no verifier both records and hands back for a block with earlier records (how the chainstate and the mempool use it); outside of that the claim fails, see the _refuted theorems."
  },
  {
   "property": "C44",
   "status": "proved",
   "theorems": [
    "C44_fractions_compare_by_value",
    "C44_zeroes_compare_equal_refuted"
   ],
   "note": "Exact for 256-bit parts on the word-level integers, unless both fractions are zero (refuted there)."
  },
  {
   "property": "C45",
   "status": "proved",
   "theorems": [
    "C45_print_then_parse",
    "C45_parse_is_exact",
    "C45_decode_range"
   ],
   "note": "Exact acceptance characterisation by numerals plus both round trips."
  },
  {
   "property": "C46",
   "status": "proved",
   "theorems": [
    "C46_addition_exact",
    "C46_subtraction_exact",
    "C46_multiplication_exact",
    "C46_widening_product_exact",
    "C46_small_product_wraps",
    "C46_division_exact",
    "C46_remainder_exact",
    "C46_left_shift",
    "C46_right_shift",
    "C46_bit_length",
    "C46_comparison",
    "C46_bytes_round_trip",
    "C46_slice_value",
    "C46_widening",
    "C46_narrowing_to_u128",
    "C46_narrowing_to_u256"
   ],
   "note": "Word-level model of the macro for any number of words; every operation equals the mathematical one."
  },
  {
   "property": "C47",
   "status": "proved",
   "theorems": [
    "C47_emission_table_round_trip",
    "C47_accepted_tables_are_well_formed"
   ],
   "note": "White space trimming models ASCII white space only."
  },
  {
   "property": "C48",
   "status": "proved",
   "theorems": [
    "C48_amounts_exact_or_reported",
    "C48_sum_exact_or_reported",
    "C48_sum_order_does_not_matter",
    "C48_abs_diff_is_distance",
    "C48_signed_exact_or_reported",
    "C48_to_signed_exact_or_reported",
    "C48_signed_sum_exact_when_given",
    "C48_signed_sum_order_refuted"
   ],
   "note": ""
  },
  {
   "property": "C49",
   "status": "proved",
   "theorems": [
    "C49_checks_hold_after_every_call",
    "C49_limit_check_after_blocks",
    "C49_checks_hold_at_every_commit",
    "C49_checks_hold_at_every_crash_point_refuted",
    "C49_checks_hold_after_any_reset_refuted",
    "C49_limit_check_after_every_call_refuted"
   ],
   "note": ""
  },
  {
   "property": "C50",
   "status": "proved",
   "theorems": [
    "C50_tip_has_most_trust",
    "C50_trust_never_falls",
    "C50_tip_has_most_trust_after_any_call",
    "C50_most_trust_at_every_commit_refuted"
   ],
   "note": ""
  },
  {
   "property": "C51",
   "status": "proved",
   "theorems": [
    "C51_final_blocks_stay",
    "C51_final_blocks_stay_at_every_commit",
    "C51_limit_follows_tip"
   ],
   "note": ""
  },
  {
   "property": "C52",
   "status": "proved",
   "theorems": [
    "C52_checkpoints_met",
    "C52_main_chain_has_checkpoints"
   ],
   "note": ""
  },
  {
   "property": "C53",
   "status": "proved",
   "theorems": [
    "C53_calls_do_not_panic"
   ],
   "note": ""
  },
  {
   "property": "C54",
   "status": "proved",
   "theorems": [
    "C54_rejected_block_changes_nothing",
    "C54_corrupted_copy_is_harmless_refuted"
   ],
   "note": "Also: a corrupted copy of a block (same header, other body) does have an influence: its id is recorded as bad (C54_corrupted_copy_is_harmless_refuted, F32)."
  },
  {
   "property": "C55",
   "status": "proved",
   "theorems": [
    "C55_hash_check_exact",
    "C55_search_finds_first"
   ],
   "note": "VRF hash is an arbitrary function of the time."
  },
  {
   "property": "C56",
   "status": "proved",
   "theorems": [
    "C56_database_is_the_replay_of_its_blocks",
    "C56_same_blocks_same_database",
    "C56_tip_can_always_be_disconnected",
    "C56_undo_before_flush_refuted"
   ],
   "note": "Assumes new_ids, pool_ids_distinct, in_range as C42. C56_undo_before_flush_refuted: within one unflushed verifier a transaction issuing an NFT cannot be disconnected."
  },
  {
   "property": "C57",
   "status": "proved",
   "theorems": [
    "C57_tokens_never_exceed_recorded_supply"
   ],
   "note": "Assumes new_ids, pool_ids_distinct, in_range as C42."
  },
  {
   "property": "C58",
   "status": "proved",
   "theorems": [
    "C58_no_transaction_twice",
    "C58_replayed_transaction_refused"
   ],
   "note": "Block ids and transaction ids are assumed not to collide (no_collision); their freshness, which earlier was an assumption, is now proved and C42, C56 and C57 rest on no_collision too."
  },
  {
   "property": "C59",
   "status": "proved",
   "theorems": [
    "C59_one_output_controls_each_pool"
   ],
   "note": "genesis assumed to have no block-production outputs (real ones have none)"
  },
  {
   "property": "C60",
   "status": "proved",
   "theorems": [
    "C60_token_ids_issued_once",
    "C60_any_first_input_refuted"
   ],
   "note": "the second clause of token_ids_distinct is necessary: C60_any_first_input_refuted"
  },
  {
   "property": "C61",
   "status": "proved",
   "theorems": [
    "C61_frozen_tokens_do_not_move"
   ],
   "note": "holds from the height at which frozen tokens in inputs are checked (FrozenTokensValidationVersion::V1)"
  },
  {
   "property": "C62",
   "status": "proved",
   "theorems": [
    "C62_store_matches_pool",
    "C62_history_goes_on",
    "C62_removal_of_middle_keeps_totals_refuted",
    "C62_huge_fee_is_refused_refuted"
   ],
   "note": ""
  },
  {
   "property": "C63",
   "status": "proved",
   "theorems": [
    "C63_eviction",
    "C63_no_child_left_behind",
    "C63_many_roots_children_first_refuted"
   ],
   "note": ""
  },
  {
   "property": "C64",
   "status": "proved",
   "theorems": [
    "C64_clusters_within_limits",
    "C64_taken_in_iff_cluster_fits"
   ],
   "note": ""
  },
  {
   "property": "C65",
   "status": "proved",
   "theorems": [
    "C65_order_of_arrival",
    "C65_parents_come_first"
   ],
   "note": ""
  },
  {
   "property": "C66",
   "status": "proved",
   "theorems": [
    "C66_outcomes",
    "C66_contents",
    "C66_valid_if_refusals_leave_no_trace",
    "C66_refused_addition_changes_nothing_refuted",
    "C66_block_from_valid_pool_is_valid_refuted",
    "C66_picking_follows_the_block_rules"
   ],
   "note": ""
  },
  {
   "property": "C67",
   "status": "proved",
   "theorems": [
    "C67_best_first",
    "C67_nothing_left_out"
   ],
   "note": ""
  },
  {
   "property": "C68",
   "status": "proved",
   "theorems": [
    "C68_selection_pays_and_accounts",
    "C68_tokens_lose_nothing",
    "C68_short_iff_short"
   ],
   "note": "All three random algorithms and the prescribed selection; shuffles, flips and heap ties are universally quantified."
  },
  {
   "property": "C69",
   "status": "proved",
   "theorems": [
    "C69_no_panic",
    "C69_succeeds_with_enough_funds",
    "C69_no_panic_for_any_weights_refuted",
    "C69_finds_a_fitting_selection_refuted"
   ],
   "note": "Success and absence of panics under the conditions stated; two refuted theorems show that the conditions are needed (F28)."
  },
  {
   "property": "C70",
   "status": "proved",
   "theorems": [
    "C70_tokens_balance",
    "C70_fee_is_paid",
    "C70_node_accepts",
    "C70_fee_is_paid_with_surplus_coins_refuted",
    "C70_unnamed_tokens_are_returned_refuted"
   ],
   "note": "Order information is assumed to be that of the ledger; sizes of encodings are parameters (a larger amount must not have a shorter encoding). Without the bound on chosen coins the claim fails (refuted, F29; no present caller reaches it)."
  },
  {
   "property": "C71",
   "status": "proved",
   "theorems": [
    "C71_sweep_sends_everything"
   ],
   "note": "Sizes of encodings are parameters."
  },
  {
   "property": "C72",
   "status": "proved",
   "theorems": [
    "C72_block_read_back",
    "C72_signed_transaction_read_back",
    "C72_transaction_read_back",
    "C72_block_one_encoding",
    "C72_signed_transaction_one_encoding",
    "C72_whole_input",
    "C72_no_overlap",
    "C72_id_names_one_transaction",
    "C72_id_names_one_header",
    "C72_serialized_hash_names_one_signed_transaction"
   ],
   "note": "Vectors of 2^32 or more elements cannot be encoded and are excluded. Validity of curve points is a parameter. A metadata field holding an empty vector is excluded: it is encoded like an absent one, and no decoder or conversion makes it."
  },
  {
   "property": "C73",
   "status": "proved",
   "theorems": [
    "C73_can_be_signed",
    "C73_covers_exactly",
    "C73_serves_only_what_it_covers",
    "C73_state_covered",
    "C73_state_of_the_input_covered",
    "C73_before_the_fork",
    "C73_tied_to_the_input_refuted"
   ],
   "note": "exact: equal bytes if and only if the same things are covered, for all six sighash types; the same with the commitments computed from two states of the chain (after and before the fork). Not tied to the number of the input: refuted."
  },
  {
   "property": "C74",
   "status": "proved",
   "theorems": [
    "C74_texts_apart",
    "C74_text_is_covered",
    "C74_headers_apart",
    "C74_rewards_apart_refuted"
   ],
   "note": "texts against inputs, texts among each other, headers against both; block rewards against transactions refuted by a constructed pair."
  },
  {
   "property": "C75",
   "status": "proved",
   "theorems": [
    "C75_accepted_exactly",
    "C75_signing_completes",
    "C75_fewer_are_not_enough",
    "C75_more_are_refused",
    "C75_order_does_not_matter",
    "C75_no_panic",
    "C75_different_keys_refuted",
    "C75_one_encoding_refuted",
    "C75_no_panic_for_any_challenge_refuted"
   ],
   "note": "checking: exact; signing in turn: completes with exactly the required number, independent of the order, refuses one more, no panic. Premise about the scheme (what a key signs it verifies) is a definition instantiated by a toy scheme in the example. Three refutations."
  },
  {
   "property": "C76",
   "status": "proved",
   "theorems": [
    "C76_accepted_exactly",
    "C76_owner_signs",
    "C76_signed_is_accepted",
    "C76_signed_text_is_accepted",
    "C76_completed_is_accepted",
    "C76_only_covered_parts_matter",
    "C76_no_panic"
   ],
   "note": "exact acceptance per destination; signing functions succeed exactly for the owner and their result is accepted; uncovered parts do not matter; no panic."
  },
  {
   "property": "C77",
   "status": "proved",
   "theorems": [
    "C77_spent_exactly",
    "C77_claim_is_accepted",
    "C77_refund_waits",
    "C77_multisig_refund_is_accepted",
    "C77_claim_shows_secret",
    "C77_collected_signatures_survive",
    "C77_collected_is_what_is_checked",
    "C77_claim_is_no_collection",
    "C77_no_panic",
    "C77_anyone_can_be_the_spender_refuted"
   ],
   "note": ""
  },
  {
   "property": "C78",
   "status": "proved",
   "theorems": [
    "C78_received_as_sent",
    "C78_arrival_does_not_matter",
    "C78_bad_message_is_passed_over",
    "C78_limit",
    "C78_nothing_after_the_end",
    "C78_no_panic",
    "C78_received_as_sent_without_limit_refuted"
   ],
   "note": ""
  },
  {
   "property": "C79",
   "status": "proved",
   "theorems": [
    "C79_recent_items_are_recognised",
    "C79_older_items_are_forgotten"
   ],
   "note": ""
  },
  {
   "property": "C80",
   "status": "proved",
   "theorems": [
    "C80_locators",
    "C80_locator_is_short",
    "C80_answer_connects",
    "C80_next_answer_continues",
    "C80_announcement_connects",
    "C80_known_headers_split_off",
    "C80_rest_is_unknown",
    "C80_checkpoint_lists"
   ],
   "note": ""
  },
  {
   "property": "C81",
   "status": "proved",
   "theorems": [
    "C81_every_request_answered",
    "C81_no_offence",
    "C81_ends",
    "C81_whole_chain_downloaded",
    "C81_whole_chain_after_reorganisation_refuted"
   ],
   "note": ""
  },
  {
   "property": "C82",
   "status": "proved",
   "theorems": [
    "C82_always_answers",
    "C82_addresses_stay_recognised",
    "C82_issued_addresses_are_new",
    "C82_unused_addresses_are_unused",
    "C82_failures_change_nothing",
    "C82_lookahead",
    "C82_payments_noticed",
    "C82_restored",
    "C82_restored_with_larger_lookahead",
    "C82_restored_in_another_order_refuted",
    "C82_payments_noticed_refuted",
    "C82_unused_address_after_two_destinations_refuted"
   ],
   "note": ""
  },
  {
   "property": "C83",
   "status": "proved",
   "theorems": [
    "C83_unspent",
    "C83_confirmed",
    "C83_picked",
    "C83_never_fails",
    "C83_reopened",
    "C83_abandoned",
    "C83_only_waiting_given_up",
    "C83_conflicting",
    "C83_picked_from_live_transaction_refuted",
    "C83_reopened_after_giving_up_refuted",
    "C83_unspent_after_double_spend_refuted",
    "C83_giving_up_after_child_refuted",
    "C83_stored_order_transitive_refuted"
   ],
   "note": ""
  },
  {
   "property": "C84",
   "status": "proved",
   "theorems": [
    "C84_never_panics",
    "C84_kept",
    "C84_orphan_submitted",
    "C84_room_for_orphan",
    "C84_accepted",
    "C84_not_accepted",
    "C84_disconnected",
    "C84_work",
    "C84_full_only_when_full_refuted"
   ],
   "note": ""
  },
  {
   "property": "C85",
   "status": "proved",
   "theorems": [
    "C85_somebody_is_served",
    "C85_fair",
    "C85_not_forgotten",
    "C85_work_ends",
    "C85_all_looked_at",
    "C85_nothing_handed_out_means_none_left_refuted",
    "C85_submission_after_disconnect_refuted"
   ],
   "note": ""
  },
  {
   "property": "C86",
   "status": "proved",
   "theorems": [
    "C86_never_panics",
    "C86_reads",
    "C86_locked",
    "C86_encrypted",
    "C86_unlock",
    "C86_set_passphrase",
    "C86_at_rest",
    "C86_write",
    "C86_change",
    "C86_any_passphrase_without_root_key_refuted"
   ],
   "note": ""
  },
  {
   "property": "C87",
   "status": "proved",
   "theorems": [
    "C87_nothing_stale",
    "C87_nothing_missed",
    "C87_synced",
    "C87_no_panic",
    "C87_sync_ends",
    "C87_out_of_step_panics_refuted",
    "C87_two_reorgs_refuted",
    "C87_abandoned_branch_stuck_refuted",
    "C87_locked_wallet_misses_refuted"
   ],
   "note": "Under the condition that all accounts are at the same block or the main chain of the node only grows; what happens otherwise is stated by the _refuted theorems."
  },
  {
   "property": "C88",
   "status": "proved",
   "theorems": [
    "C88_history",
    "C88_balance",
    "C88_balance_exact",
    "C88_locked_balance",
    "C88_median",
    "C88_available_outputs",
    "C88_all_outputs",
    "C88_keeps_scanning",
    "C88_follows_node",
    "C88_catches_up",
    "C88_spent_reward_refuted",
    "C88_locked_reward_refuted",
    "C88_locked_reward_listed_refuted",
    "C88_unlocked_token_refuted",
    "C88_token_owner_removed_refuted",
    "C88_keeps_scanning_refuted",
    "C88_catches_up_refuted"
   ],
   "note": "F52-F57: rewards spent or locked are shown as balance, NFT owners are lost, one lock stops the scanner, shorter chains are refused"
  },
  {
   "property": "C89",
   "status": "proved",
   "theorems": [
    "C89_inbound_evicted",
    "C89_banned_first",
    "C89_protected",
    "C89_no_crowding",
    "C89_youngest",
    "C89_outbound_evicted",
    "C89_outbound_choice"
   ],
   "note": ""
  },
  {
   "property": "C90",
   "status": "proved",
   "theorems": [
    "C90_banned",
    "C90_discouraged",
    "C90_anchors",
    "C90_crash",
    "C90_not_selected",
    "C90_longest_ban_refuted",
    "C90_reserved_not_selected_refuted"
   ],
   "note": "Reserved addresses are chosen even if banned, and a shorter ban overwrites a longer one: both refuted beside."
  },
  {
   "property": "C91",
   "status": "proved",
   "theorems": [
    "C91_no_panic",
    "C91_bounded",
    "C91_bounded_group",
    "C91_tables",
    "C91_reserved",
    "C91_forgotten",
    "C91_discovery",
    "C91_connected",
    "C91_restart",
    "C91_selected",
    "C91_selected_reserved",
    "C91_heartbeat",
    "C91_disconnected",
    "C91_failures",
    "C91_bounded_refuted",
    "C91_available_refuted",
    "C91_connected_known_refuted"
   ],
   "note": "The bound is for runs without restart; across restarts it is refuted. Time is below the greatest duration by some hours and calls are fewer than 2^32."
  },
  {
   "property": "C92",
   "status": "proved",
   "theorems": [
    "C92_starts",
    "C92_no_panic",
    "C92_database",
    "C92_inbound_bounded",
    "C92_outbound_bounded",
    "C92_groups",
    "C92_one_connection",
    "C92_anchors",
    "C92_inbound_accepted",
    "C92_outbound_accepted",
    "C92_spared",
    "C92_given_up",
    "C92_called",
    "C92_calls"
   ],
   "note": ""
  },
  {
   "property": "C93",
   "status": "proved",
   "theorems": [
    "C93_banned",
    "C93_score",
    "C93_trusted",
    "C93_leaving",
    "C93_leaving_stays",
    "C93_punished",
    "C93_unpunished",
    "C93_ban",
    "C93_justified",
    "C93_trusted_stay_refuted",
    "C93_outdated",
    "C93_handshake"
   ],
   "note": ""
  },
  {
   "property": "C94",
   "status": "proved",
   "theorems": [
    "C94_answered",
    "C94_attempts",
    "C94_connect",
    "C94_disconnect",
    "C94_closed",
    "C94_failed",
    "C94_off",
    "C94_networking",
    "C94_no_vain_call_refuted"
   ],
   "note": ""
  },
  {
   "property": "C95",
   "status": "proved",
   "theorems": [
    "C95_said",
    "C95_pong",
    "C95_remembered",
    "C95_new",
    "C95_ping_check",
    "C95_addresses",
    "C95_once",
    "C95_same_list",
    "C95_never_banned_refuted"
   ],
   "note": ""
  },
  {
   "property": "C96",
   "status": "proved",
   "theorems": [
    "C96_runs",
    "C96_asks",
    "C96_remembered",
    "C96_forgotten",
    "C96_bounded",
    "C96_asked_again",
    "C96_taken",
    "C96_taken_when_asked",
    "C96_answers",
    "C96_blamed",
    "C96_announced",
    "C96_announced_when_due",
    "C96_never_told_back_refuted",
    "C96_paced"
   ],
   "note": ""
  },
  {
   "property": "C97",
   "status": "proved",
   "theorems": [
    "C97_kept",
    "C97_told"
   ],
   "note": ""
  },
  {
   "property": "C98",
   "status": "proved",
   "theorems": [
    "C98_complete",
    "C98_ancestors_first",
    "C98_best_first",
    "C98_not_found"
   ],
   "note": ""
  },
  {
   "property": "C99",
   "status": "proved",
   "theorems": [
    "C99_served",
    "C99_stored"
   ],
   "note": ""
  },
  {
   "property": "C100",
   "status": "partial",
   "theorems": [
    "C100_called",
    "C100_due",
    "C100_reserved",
    "C100_banned",
    "C100_counted",
    "C100_ban_kept",
    "C100_lists",
    "C100_given_up_for_good",
    "C100_forgotten_in_time_refuted",
    "C100_misbehaviour_survived_refuted",
    "C100_failed",
    "C100_closed",
    "C100_connected",
    "C100_incompatible",
    "C100_announced",
    "C100_no_panic"
   ],
   "note": "Proved but for the last sentence, which is false of the code: C100_forgotten_in_time_refuted and C100_misbehaviour_survived_refuted (F67, F68); C100_given_up_for_good says what happens instead, and C100_no_panic that nothing else panics: as long as nobody is reported on a host that is already being disconnected."
  },
  {
   "property": "C101",
   "status": "proved",
   "theorems": [
    "C101_answer",
    "C101_share",
    "C101_connected"
   ],
   "note": "C101_share computes the preferred number exactly, the code with floating point numbers; C101_answer holds for any preferred number"
  }
 ]
}