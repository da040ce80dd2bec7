{"id": "C01", "title": "Amount text round trip", "statement": "Formatting any amount as a fixed-point decimal string with any number of decimals and parsing the string back with the same number of decimals returns exactly the same amount; the printed text never loses or invents an atom.", "quantifier": "every 128-bit amount and every decimals count 0..255 that the API accepts", "why_tests_cant": "2^128 amounts times 256 scales cannot be enumerated; the padding and trimming cases interact.", "anchors": ["common/src/primitives/amount/mod.rs: Amount::into_fixedpoint_str, Amount::from_fixedpoint_str", "common/src/primitives/amount/decimal.rs: DecimalAmount"]}
{"id": "C02", "title": "Height arithmetic and relative timelocks do not crash the node", "statement": "Checking a relative (block-count) time lock on an output returns either 'satisfied' or an error and does not abort the process, for every lock distance whose sum with the height of the output stays below 2^63. (For larger sums the unrestricted claim is false: the process aborts; the exact set of crashing inputs is part of the property.)", "quantifier": "every lock distance (u64), every height of the locked output and every spending height", "why_tests_cant": "The crash needs one extreme value chosen by an attacker; the claim is about all 2^64 lock distances times all heights.", "anchors": ["common/src/primitives/height.rs: impl Add<BlockDistance> for BlockHeight", "mintscript/src/checker/timelock.rs: check_timelock", "chainstate/tx-verifier/src/transaction_verifier/timelock_check.rs"]}
{"id": "C03", "title": "Accounting deltas over balances form a group action", "statement": "Applying two balance deltas one after the other equals applying their combination; combination is associative, and undoing a merged delta restores the previous delta exactly, as long as no 128-bit overflow is reported.", "quantifier": "all finite maps of signed deltas and all base balances", "why_tests_cant": "Unbounded maps and all interleavings of keys; overflow boundaries.", "anchors": ["accounting/src/delta/delta_amount_collection.rs", "accounting/src/delta/combine.rs: combine_amount_delta"]}
{"id": "C04", "title": "Accounting deltas over data are associative and invertible", "statement": "For records that can be created, modified and deleted, merging deltas is associative, applying a merged delta equals applying the parts in order, and undoing a merge restores the collection that was there before.", "quantifier": "all finite maps of (old,new) deltas, all base data maps, all merge sequences", "why_tests_cant": "Case explosion over create/modify/delete combinations and unbounded merge sequences.", "anchors": ["accounting/src/delta/delta_data_collection/mod.rs", "accounting/src/delta/combine.rs: combine_data_with_delta"]}
{"id": "C05", "title": "Token operations are exactly undone in reverse order", "statement": "After any sequence of successful token operations (issue, mint, unmint, lock supply, freeze, unfreeze, change authority, change metadata) undoing them in reverse order succeeds and every token's data and circulating supply read exactly as before the first operation.", "quantifier": "every base state, every finite sequence of successful operations", "why_tests_cant": "Unbounded operation histories; reorgs of arbitrary depth rely on it.", "anchors": ["tokens-accounting/src/cache.rs"]}
{"id": "C06", "title": "Token supply policy is never exceeded", "statement": "A token issued with a fixed maximum never has a circulating supply above that maximum, and once the supply of a lockable token is locked its circulating supply never changes again, under any sequence of operations.", "quantifier": "every finite sequence of token operations, successful or rejected", "why_tests_cant": "Invariant over unbounded histories.", "anchors": ["tokens-accounting/src/cache.rs: mint_tokens, unmint_tokens, lock_circulating_supply", "tokens-accounting/src/data.rs"]}
{"id": "C07", "title": "Frozen tokens stay frozen as promised", "statement": "While a token is frozen, minting, unminting, locking, re-freezing, and changes of authority or metadata are all rejected; a token frozen as non-unfreezable can never be unfrozen, and a token issued as non-freezable can never be frozen, by any later sequence of operations.", "quantifier": "every finite sequence of token operations", "why_tests_cant": "Invariant over unbounded histories.", "anchors": ["tokens-accounting/src/cache.rs", "tokens-accounting/src/data.rs: try_freeze, try_unfreeze, IsTokenFrozen"]}
{"id": "C08", "title": "Token cache reads equal reads after writing it back", "statement": "For every token, the data and circulating supply observed through the in-memory cache equal those observed in the database after the cache's delta is written to it, for a cache over a database or over any depth of other caches.", "quantifier": "every base state, every operation sequence, every depth of cache nesting", "why_tests_cant": "Requires comparing two implementations on all states.", "anchors": ["tokens-accounting/src/cache.rs", "tokens-accounting/src/storage/db.rs", "tokens-accounting/src/data.rs: merge_with_delta"]}
{"id": "C09", "title": "Order fills never pay out more than the order holds", "statement": "An order's remaining ask and give balances never become negative and never grow after creation; over any sequence of fills the total given out is at most the amount put in at creation, and the total asked-for amount paid in is at most the amount initially asked.", "quantifier": "every order and every sequence of fills, freezes and conclusions", "why_tests_cant": "Invariant over unbounded histories of divisions with rounding.", "anchors": ["orders-accounting/src/cache.rs", "orders-accounting/src/price_calculation.rs"]}
{"id": "C10", "title": "Takers never get a better price than the order's price", "statement": "With current order rules every fill pays out at most the exact proportional share of the fill amount at the order's original price, rounding only in the maker's favour and by less than one unit; splitting one fill into many never yields more to the taker.", "quantifier": "all original balances, all fill amounts, all ways to split a fill", "why_tests_cant": "Arithmetic over all 128-bit triples and all splittings.", "anchors": ["orders-accounting/src/price_calculation.rs: calculate_fill_order, calculate_filled_amount"]}
{"id": "C11", "title": "Order operations are exactly undone in reverse order", "statement": "After any sequence of successful order operations (create, fill, freeze, conclude), undoing them in reverse order succeeds and restores every order's data and both balances.", "quantifier": "every base state and every finite operation sequence", "why_tests_cant": "Unbounded histories.", "anchors": ["orders-accounting/src/cache.rs"]}
{"id": "C12", "title": "Order cache reads equal reads after writing it back", "statement": "For every order, data and both balances read through the cache equal those read from the database after the cache is written to it, at any nesting depth.", "quantifier": "every base state, every operation sequence, every depth of cache nesting", "why_tests_cant": "Comparison of two implementations on all states.", "anchors": ["orders-accounting/src/cache.rs", "orders-accounting/src/storage/db.rs"]}
{"id": "C13", "title": "A concluded order is gone and frozen orders only conclude", "statement": "After an order is concluded its data and both balances read as absent/zero and it can neither be filled, frozen nor concluded again; a frozen order cannot be filled or frozen again but can still be concluded.", "quantifier": "every state and every finite sequence of operations", "why_tests_cant": "Quantifies over all reachable states.", "anchors": ["orders-accounting/src/cache.rs: conclude_order, freeze_order, fill_order"]}
{"id": "C14", "title": "Staking-pool operations are exactly undone in reverse order", "statement": "After any sequence of successful pool and delegation operations, undoing them in reverse order succeeds and restores all pool data, pool balances, delegation data, delegation balances and shares.", "quantifier": "every base state and every finite operation sequence", "why_tests_cant": "Unbounded histories.", "anchors": ["pos-accounting/src/pool/delta/operator_impls.rs"]}
{"id": "C15", "title": "Pool balance is pledge plus rewards plus delegations", "statement": "For every existing pool the reported pool balance equals the staker's own balance plus the sum of all delegation shares in that pool, and each delegation's balance equals its share, after any sequence of operations in which pool and delegation ids are never reused.", "quantifier": "every finite sequence of pool operations", "why_tests_cant": "Invariant over unbounded histories and unbounded numbers of delegations.", "anchors": ["pos-accounting/src/pool/delta/operator_impls.rs", "pos-accounting/src/pool/pool_data.rs"]}
{"id": "C16", "title": "Pool cache reads equal reads after writing it back", "statement": "All pool and delegation reads through the delta equal the reads from the database after merging the delta into it, and merging a child delta into a parent delta preserves all reads.", "quantifier": "every base state and every delta produced by operations", "why_tests_cant": "Comparison of two implementations on all states.", "anchors": ["pos-accounting/src/pool/delta/view_impl.rs", "pos-accounting/src/pool/storage/mod.rs"]}
{"id": "C17", "title": "Block reward distribution neither creates nor destroys coins", "statement": "When a staking reward is distributed, the sum of what the staker and all delegations receive equals the total reward exactly, for both reward rule versions, whatever the pool's balances and cost settings; the increase in the pool's balance is exactly the reward.", "quantifier": "all rewards, pools, cost and margin settings and sets of delegations", "why_tests_cant": "Rounding over unbounded sets of delegations.", "anchors": ["chainstate/tx-verifier/src/transaction_verifier/reward_distribution.rs"]}
{"id": "C18", "title": "Delegation rewards are proportional and bounded", "statement": "Each delegation's reward is the floor of its exact proportional share, delegations' rewards never sum to more than the part set aside for them, the staker's reward is never above the total, and the internal arithmetic never aborts.", "quantifier": "all rewards, pools, cost and margin settings and sets of delegations", "why_tests_cant": "Rounding over all 128-bit inputs and unbounded sets.", "anchors": ["chainstate/tx-verifier/src/transaction_verifier/reward_distribution.rs: calculate_staker_reward, calculate_rewards_per_delegation"]}
{"id": "C19", "title": "UTXO cache behaves as a simple map of unspent outputs", "statement": "Over any sequence of adds, spends and flushes a (nested) UTXO cache answers lookups exactly as one plain map from outpoints to outputs in which add inserts and spend removes.", "quantifier": "every base state, every operation sequence, every cache depth", "why_tests_cant": "Refinement over all histories of dirty/fresh flags.", "anchors": ["utxo/src/cache.rs", "utxo/src/utxo_entry.rs", "utxo/src/storage/view_impls.rs"]}
{"id": "C20", "title": "No output can be spent twice", "statement": "Once an output has been spent through a cache, spending it again is rejected by that cache, by any cache built on top of it, and by the database after flushing, unless the output is added again or the spend is undone.", "quantifier": "every base state and every operation sequence", "why_tests_cant": "Safety over all histories.", "anchors": ["utxo/src/cache.rs: spend_utxo, fetch_utxo_entry, batch_write"]}
{"id": "C21", "title": "Flushing a UTXO cache is lossless", "statement": "Writing a cache into its parent (a cache or the database) makes the parent's view equal to the cache's view before the flush, and never trips the 'fresh output already exists' check or internal assertions for caches that were only used through the API with correct overwrite flags.", "quantifier": "every parent state and every operation sequence on the child", "why_tests_cant": "All combinations of parent and child entry flags reachable by any history.", "anchors": ["utxo/src/cache.rs: batch_write", "utxo/src/view.rs: flush_to_base"]}
{"id": "C22", "title": "Disconnecting a transaction restores the UTXO set", "statement": "Connecting a transaction or block reward to a UTXO cache and then disconnecting it with the returned undo data leaves every outpoint reading exactly as before.", "quantifier": "every state, every transaction whose connection succeeds", "why_tests_cant": "All states and all input/output shapes.", "anchors": ["utxo/src/cache.rs: connect_transaction, disconnect_transaction, connect_block_transactable, disconnect_block_transactable"]}
{"id": "C23", "title": "Transactions conserve value in every currency", "statement": "If a transaction's inputs cover its outputs according to the node, then for every currency the sum of the values the inputs unlock equals the sum of the values the outputs consume plus the reported fee, exactly; only minting commands create token value and nothing creates coins.", "quantifier": "every transaction and every ledger state", "why_tests_cant": "Sums over unbounded input and output lists of mixed kinds.", "anchors": ["chainstate/constraints-value-accumulator/src/constraints_accumulator.rs: from_inputs, from_outputs, satisfy_with"]}
{"id": "C24", "title": "Staked coins stay locked for the maturity period", "statement": "Coins coming out of a stake pool or a delegation cannot leave a transaction unlocked before the required maturity: for every t, the coins that must stay locked for more than t blocks on the input side are covered by outputs locked for at least that long, or are paid as fee.", "quantifier": "every transaction and every threshold t", "why_tests_cant": "A greedy matching over unbounded lists.", "anchors": ["chainstate/constraints-value-accumulator/src/constraints_accumulator.rs: satisfy_with", "chainstate/constraints-value-accumulator/src/accumulated_fee.rs"]}
{"id": "C25", "title": "Account nonces are strictly sequential", "statement": "A spend from an account is accepted only with the next unused number: the first with 0, then 1, 2, ... with no gap and no repetition; disconnecting a spend makes exactly that number available again.", "quantifier": "every account and every history of connects and disconnects", "why_tests_cant": "Unbounded histories.", "anchors": ["chainstate/tx-verifier/src/transaction_verifier/mod.rs: spend_input_from_account, unspend_input_from_account"]}
{"id": "C26", "title": "Emission schedule equals the sum of subsidies and is capped", "statement": "The total supply reported at any height equals the initial supply plus the sum of the subsidies of all blocks up to that height, it never decreases, and on mainnet it never exceeds the published final supply.", "quantifier": "every height (u64) and every schedule table", "why_tests_cant": "Quantifies over all heights and all tables.", "anchors": ["common/src/chain/config/emission_schedule.rs"]}
{"id": "C27", "title": "Rule-set selection by height", "statement": "The consensus rules in force at a height are always those of the last upgrade at or below it; a rule set exists for every height and changes exactly at upgrade heights.", "quantifier": "every list of upgrades accepted at start-up and every height", "why_tests_cant": "All lists and heights.", "anchors": ["common/src/chain/upgrades/netupgrade.rs: NetUpgrades::initialize, version_at_height, height_range"]}
{"id": "C28", "title": "Effective pool balance is capped and well defined", "statement": "The balance used for staking eligibility never exceeds the pool's balance nor the saturation threshold, is never negative, exists and equals the documented formula for every pledge <= balance < supply and supply from 1000 to 2^86 atoms, never decreases when the balance grows, and never decreases when the pledge grows up to half of the balance.", "quantifier": "all pledges, balances and supplies in 128-bit range", "why_tests_cant": "Nonlinear arithmetic over all inputs.", "anchors": ["consensus/src/pos/effective_pool_balance.rs: effective_pool_balance"]}
{"id": "C29", "title": "Difficulty adjustment is bounded", "statement": "The next staking target differs from the previous one by at most the configured fraction (before compact rounding) and never exceeds the configured limit; the next work target never exceeds the network's limit and changes by at most a factor of four per retarget period.", "quantifier": "all previous targets, timestamps and configurations accepted at start-up", "why_tests_cant": "Big-integer arithmetic over all inputs, including overflow.", "anchors": ["consensus/src/pos/target.rs: calculate_new_target", "consensus/src/pow/helpers.rs: calculate_new_target", "consensus/src/pow/work.rs"]}
{"id": "C30", "title": "Compact targets round down and decode consistently", "statement": "Encoding a 256-bit target in compact form and decoding it never yields a larger target, loses only low-order digits beyond the top 15 bits or more, and encoding a decoded target reproduces it.", "quantifier": "every 256-bit target and every 32-bit compact value that decodes", "why_tests_cant": "2^256 inputs.", "anchors": ["common/src/primitives/compact.rs"]}
{"id": "C31", "title": "Script verification equals its logical meaning", "statement": "Verifying a script succeeds exactly when the tree of checks, time locks, hash locks and thresholds is satisfied in its logical meaning (every sub-script designated as satisfied really is), and it terminates on every script.", "quantifier": "every script tree of any depth and every checker", "why_tests_cant": "Unbounded trees; the implementation uses an explicit stack.", "anchors": ["mintscript/src/script/verify.rs", "mintscript/src/script/mod.rs"]}
{"id": "C32", "title": "Threshold scripts require exactly the stated number", "statement": "A threshold can only be built when at least as many conditions as required are present, it is accepted only when exactly the required number of conditions is satisfied, the rest being explicitly dissatisfied; conjunction and disjunction are the n-of-n and 1-of-n cases.", "quantifier": "all thresholds, all condition lists", "why_tests_cant": "Unbounded lists.", "anchors": ["mintscript/src/script/mod.rs: Threshold"]}
{"id": "C33", "title": "Who may spend what, and splitting the check loses nothing", "statement": "An input of a transaction passes full verification exactly when the party that its kind names (the destination, the decommission key, the delegation owner, the token authority, the order's conclude key, anyone for filling an order, or the spend or refund key of a hashed time-lock contract) has signed, its time lock, if any, is open, and its secret, if any, is shown; in a block reward only stake can be spent, by the staker. The full check is the conjunction of the time-lock-only check, the signature-only check and the check of the secret, so that re-checking only the time locks, as the mempool does, accepts the same spends; the check wallets use agrees with it. (The first two parts alone are refuted: neither of them looks at the secret.)", "quantifier": "every transaction input kind, witness, ledger view, signature checker and chain position", "why_tests_cant": "Case analysis over all output kinds, accounts, commands and witnesses, and over all later chain positions.", "anchors": ["mintscript/src/translate.rs", "chainstate/tx-verifier/src/transaction_verifier/input_check/mod.rs: verify_full, verify_timelocks", "chainstate/tx-verifier/src/transaction_verifier/input_check/signature_only_check.rs: verify_tx_signature"]}
{"id": "C34", "title": "Time locks mean what they say", "statement": "An output locked until a height, until a time, for a number of blocks or for a number of seconds can be spent exactly from that height/time on and never before, and remains spendable forever after.", "quantifier": "all lock kinds, heights and timestamps without overflow", "why_tests_cant": "Quantifies over all heights and times.", "anchors": ["mintscript/src/checker/timelock.rs", "chainstate/tx-verifier/src/transaction_verifier/timelock_check.rs"]}
{"id": "C35", "title": "Ancestor lookup returns the ancestor at the requested height", "statement": "Looking up a block's ancestor at any height not above it returns exactly the block obtained by following parent links, terminates, and never trips its internal assertions.", "quantifier": "every block tree built through the API, every block and height", "why_tests_cant": "Skip-list walk over unbounded chains.", "anchors": ["chainstate/types/src/ancestor.rs", "chainstate/types/src/height_skip.rs", "chainstate/src/detail/chainstateref/mod.rs: create_block_index_for_new_block"]}
{"id": "C36", "title": "Fork point and new-branch computation are correct", "statement": "The common ancestor reported for two blocks is an ancestor of both and every common ancestor is an ancestor of it; the list of blocks to connect in a reorganisation starts right above the fork point and ends at the new tip, each the parent of the next.", "quantifier": "every block tree and every pair of blocks", "why_tests_cant": "Unbounded trees.", "anchors": ["chainstate/src/detail/chainstateref/mod.rs: last_common_ancestor, get_new_chain"]}
{"id": "C37", "title": "Reorganisation ends in the same state as building the branch directly", "statement": "Disconnecting down to the fork point and connecting the new branch yields the same ledger observations as if only the new branch had ever been processed.", "quantifier": "every pair of branches and every ledger state", "why_tests_cant": "Unbounded histories of forks.", "anchors": ["chainstate/src/detail/chainstateref/mod.rs: reorganize, disconnect_until, connect_tip, disconnect_tip"]}
{"id": "C38", "title": "The orphan pool stays bounded and consistent", "statement": "Over any sequence of additions and removals the pool never holds more than its configured number of blocks, its two indexes list exactly the same blocks, and taking the children of a block returns all and only its stored children.", "quantifier": "every operation sequence and every random choice made by the pruning", "why_tests_cant": "Unbounded histories and random choices.", "anchors": ["chainstate/src/detail/orphan_blocks/pool.rs"]}
{"id": "C39", "title": "Median time is the true median of the last eleven blocks and never goes back past half the window", "statement": "The time used for time locks is the middle element of the timestamps of the last (up to) eleven blocks in sorted order: at least half of them are at or below it and at least half at or above it.", "quantifier": "every chain of timestamps", "why_tests_cant": "All chains.", "anchors": ["chainstate/src/detail/median_time.rs"]}
{"id": "C40", "title": "Block status bits are independent", "statement": "Setting or clearing one failure mark or the validation stage of a block never changes the others, survives storage encoding, and a block counts as valid exactly when no failure mark is set.", "quantifier": "every 64-bit status and every sequence of updates", "why_tests_cant": "2^64 states.", "anchors": ["chainstate/types/src/block_status.rs"]}
{"id": "C41", "title": "Best-chain candidates exclude invalid blocks", "statement": "After any block is invalidated, the candidate list for the next tip contains no block of the invalidated subtree and its best element has the highest chain trust among the remaining candidates.", "quantifier": "every block tree and invalidated subtree", "why_tests_cant": "Unbounded trees.", "anchors": ["chainstate/src/detail/block_invalidation/best_chain_candidates.rs"]}
{"id": "C42", "title": "Coins in existence never exceed what emission allows", "statement": "For any chain of accepted blocks the coins held in outputs, pools, delegations and orders together never exceed the initial supply plus the block subsidies so far.", "quantifier": "every chain of accepted blocks", "why_tests_cant": "Global invariant over unbounded histories of all transaction kinds.", "anchors": ["chainstate/tx-verifier/src/transaction_verifier/mod.rs: connect_transaction, connect_block_reward", "chainstate/constraints-value-accumulator/src/constraints_accumulator.rs"]}
{"id": "C43", "title": "Per-block undo records survive caching and flushing", "statement": "Undo information recorded while connecting transactions of a block is exactly what is handed back when those transactions are disconnected, whether it is still in the cache, in a parent cache, or was flushed to storage, and each undo is handed back once.", "quantifier": "every sequence of connects, disconnects and flushes over nested caches", "why_tests_cant": "Unbounded histories.", "anchors": ["chainstate/tx-verifier/src/transaction_verifier/accounting_undo_cache", "chainstate/tx-verifier/src/transaction_verifier/utxos_undo_cache"]}
{"id": "C44", "title": "Fractions compare by value", "statement": "Comparing two fractions with non-zero denominators agrees with comparing the rational numbers they stand for, unless both are zero. (Two zeroes with different denominators compare as different.)", "quantifier": "all pairs of numerators and denominators", "why_tests_cant": "All pairs of 128-bit fractions.", "anchors": ["common/src/primitives/rational.rs: impl Ord for Rational"]}
{"id": "C45", "title": "Percent-per-thousand text round trip", "statement": "Every per-thousand value prints to a text that parses back to the same value, and no text above 100% is accepted.", "quantifier": "every value and every text", "why_tests_cant": "All strings.", "anchors": ["common/src/primitives/per_thousand.rs"]}
{"id": "C46", "title": "Big-integer arithmetic is exact", "statement": "Addition, subtraction, multiplication, division, remainder, shifts, bit length, comparison, byte conversion and width conversion of the fixed-size big integers (128, 256, 512 bits) give exactly the mathematical result when it is representable and report the failure otherwise; none of them aborts on an internal assertion.", "quantifier": "every number of words, every pair of values, every shift distance, every byte string", "why_tests_cant": "All pairs of 256-bit values; carries and borrows propagate in ways samples miss.", "anchors": ["common/src/uint/impls.rs: construct_uint!", "common/src/uint/endian.rs"]}
{"id": "C47", "title": "Emission tables survive printing and parsing", "statement": "An emission table printed and parsed back is the same table, and every accepted text gives a table whose periods start at strictly increasing heights and whose amounts are in range.", "quantifier": "every table and every text", "why_tests_cant": "All strings and tables.", "anchors": ["common/src/chain/config/emission_schedule.rs: Display and FromStr for EmissionScheduleTabular"]}
{"id": "C48", "title": "Arithmetic on amounts is exact or reported", "statement": "Adding, subtracting, multiplying, dividing, negating, converting and summing amounts gives the exact mathematical result when the type can hold it and reports failure otherwise; nothing wraps around or is rounded silently, and a sum of (unsigned) amounts does not depend on the order of its terms.", "quantifier": "all 128-bit amounts and all lists of them", "why_tests_cant": "the values range over 2^128 and lists of any length; tests sample boundaries", "anchors": ["common/src/primitives/amount/mod.rs: Add, Sub, Mul, Div, Rem, Sum, abs_diff", "common/src/primitives/amount/signed.rs"]}
{"id": "C49", "title": "The database passes the node's own consistency checks", "statement": "After every call (submitting, invalidating or resetting blocks, whether it succeeded or failed) the stored block indexes, block data and main chain index satisfy the assertions of the node's consistency checker; in every state a call leaves on disk on its way the main chain assertions hold.", "quantifier": "every history of calls, every block tree, every commit point of every call", "why_tests_cant": "histories are unbounded and the checks relate all stored records; the checker itself only runs on states a test happens to reach", "anchors": ["chainstate/src/detail/chainstateref/consistency_checker.rs", "chainstate/src/detail/mod.rs: attempt_to_process_block, integrate_block", "chainstate/src/detail/block_invalidation/mod.rs"]}
{"id": "C50", "title": "The tip has the most accumulated trust", "statement": "After any history of submitted blocks, in any order, no valid known block on top of the last final block has more trust than the tip, and submitting a block never lowers the tip's trust; the same holds after invalidations and resets as long as blocks only fail to connect because of themselves.", "quantifier": "every history of calls and every block tree", "why_tests_cant": "depends on the order in which blocks of competing branches arrive and fail; the orders are unbounded", "anchors": ["chainstate/src/detail/chainstateref/mod.rs: activate_best_chain, reorganize", "chainstate/src/detail/block_invalidation/mod.rs: find_and_activate_best_chain", "chainstate/src/detail/block_invalidation/best_chain_candidates.rs"]}
{"id": "C51", "title": "Final blocks are never reorganised", "statement": "Blocks of the main chain at or below the reorganisation limit stay in it forever and the limit never goes down, for every later call of any kind, including calls interrupted after any of their database commits.", "quantifier": "every history of calls, every interruption point", "why_tests_cant": "needs all histories and all interruption points", "anchors": ["chainstate/src/detail/chainstateref/mod.rs: check_block_reorg_depth, update_min_height_with_allowed_reorg", "chainstate/src/detail/block_invalidation/mod.rs: invalidate_block, find_and_activate_best_chain"]}
{"id": "C52", "title": "Checkpoints bind every stored chain", "statement": "When checkpoint mismatches are not allowed, every stored block's chain, and so the main chain, contains the prescribed block at every checkpoint height it reaches.", "quantifier": "every history of calls, every checkpoint table, every stored block", "why_tests_cant": "a block is only compared with one checkpoint when it is accepted; that this is enough for all of its ancestors is an induction over the chain", "anchors": ["chainstate/src/detail/chainstateref/mod.rs: enforce_checkpoints", "common/src/chain/config/checkpoints.rs"]}
{"id": "C53", "title": "Chainstate calls do not crash the node", "statement": "No call that submits, invalidates or resets blocks hits one of its assertions or panics, in any reachable state, as long as heights, trust and transaction counts stay within their types and the contents of blocks connect without panicking.", "quantifier": "every reachable database, every call", "why_tests_cant": "the assertions depend on relations between all stored records", "anchors": ["chainstate/src/detail/mod.rs", "chainstate/src/detail/chainstateref/mod.rs", "chainstate/src/detail/block_invalidation/mod.rs"]}
{"id": "C54", "title": "A rejected block changes nothing", "statement": "Submitting a block that is rejected leaves the tip, the main chain, the reorganisation limit, the stored blocks and the ledger as they were, also at every commit on the way; only the record that the block is bad may be added.", "quantifier": "every reachable database, every block, every reason for rejection, including failures in the middle of a reorganisation", "why_tests_cant": "the failure can occur after any number of disconnected and connected blocks", "anchors": ["chainstate/src/detail/mod.rs: attempt_to_process_block, integrate_block", "chainstate/src/detail/chainstateref/mod.rs: reorganize"]}
{"id": "C55", "title": "Staking eligibility is exact and the search misses nothing", "statement": "A stake hash is accepted exactly when it does not exceed the target multiplied by the balance that counts, with no overflow; the search for a block time returns the first acceptable second of the given range, and nothing only if the range contains none.", "quantifier": "all 256-bit hashes and targets, all balances, all time ranges", "why_tests_cant": "512-bit comparisons over all inputs; unbounded ranges.", "anchors": ["consensus/src/pos/hash_check.rs: check_pos_hash", "consensus/src/pos/mod.rs: find_timestamp_for_staking"]}
{"id": "C56", "title": "The database depends only on the blocks that are connected", "statement": "Whatever blocks were connected and disconnected since genesis, the database holds exactly what connecting the current blocks one after the other to genesis gives: outputs, accounts, tokens, orders, nonces, undo records and indices. The last block can always be disconnected, which gives exactly the database before it.", "quantifier": "every history of connected and disconnected blocks, every kind of transaction and reward", "why_tests_cant": "reorganisations of any depth over unbounded histories; undo must be exact for every combination of operations in a block", "anchors": ["chainstate/tx-verifier/src/transaction_verifier/mod.rs: connect_transaction, disconnect_transaction, connect_block_reward, disconnect_block_reward", "chainstate/tx-verifier/src/transaction_verifier/flush.rs", "chainstate/src/detail/tx_verification_strategy/default_strategy.rs"]}
{"id": "C57", "title": "Tokens in existence never exceed the recorded supply", "statement": "The units of a token held in outputs and orders together never exceed the circulating supply on record for its id, plus one unit if an NFT with that id has been issued.", "quantifier": "every history of connected and disconnected blocks, every token", "why_tests_cant": "global invariant over unbounded histories of all transaction kinds", "anchors": ["chainstate/tx-verifier/src/transaction_verifier/mod.rs: connect_transaction", "tokens-accounting/src/operations.rs", "chainstate/constraints-value-accumulator/src/constraints_accumulator.rs", "chainstate/tx-verifier/src/transaction_verifier/token_issuance_cache.rs"]}
{"id": "C58", "title": "No transaction and no block takes effect twice", "statement": "On a chain built by connecting and disconnecting blocks, no two transactions have the same id and no two blocks have the same id; a block that contains a transaction already on the chain, or the same transaction twice, is refused. This holds also for transactions that spend no output at all (account spending, token commands, order commands without a nonce), where nothing but nonces, order states and the balance of values prevents a replay.", "quantifier": "Every history of connected and disconnected blocks since any genesis, every block with any transactions. Assumed: ids do not collide (equal ids name equal blocks or transactions; different outpoints give different pool and order ids).", "why_tests_cant": "Tests replay chosen transactions; that no kind of transaction can ever be replayed needs an invariant over all histories, including orders that were concluded and frozen in between.", "anchors": ["chainstate/tx-verifier/src/transaction_verifier/mod.rs", "chainstate/tx-verifier/src/transaction_verifier/check_transaction.rs", "orders-accounting/src/cache.rs", "common/src/chain/transaction/mod.rs"]}
{"id": "C59", "title": "Every stake pool has exactly one controlling output", "statement": "At any time, after any sequence of blocks connected and disconnected since genesis, a stake pool exists exactly if there is an unspent output standing for it (the output that created the pool, or the reward output of the last block it made), and there are never two such outputs for the same pool. Spending it in a transaction closes the pool.", "quantifier": "every reachable database: all histories of connecting and disconnecting blocks, all pools", "why_tests_cant": "Pools are created, staked and decommissioned by different transactions over an unbounded history with reorganisations; the correspondence is between two separate tables that no single test compares in all states.", "anchors": ["utxo/src/cache.rs", "chainstate/tx-verifier/src/transaction_verifier/mod.rs: connect_transaction, connect_block_transactable", "pos-accounting/src/pool/operator.rs"]}
{"id": "C60", "title": "A token id is issued at most once", "statement": "Over the whole chain no two issuances, of fungible tokens or of NFTs, get the same id; and the database knows a token (or an NFT) by some id exactly if a block on the chain issued it.", "quantifier": "every reachable database: all histories of connecting and disconnecting blocks, all token ids", "why_tests_cant": "The ids come from inputs, and uniqueness rests on inputs never being used twice over the whole history, including nonces of accounts and reorganisations.", "anchors": ["chainstate/tx-verifier/src/transaction_verifier/token_issuance_cache.rs", "common/src/chain/make_id.rs: make_token_id", "chainstate/tx-verifier/src/transaction_verifier/mod.rs"]}
{"id": "C61", "title": "Frozen tokens do not move", "statement": "While a fungible token is frozen, a block without a command that unfreezes it leaves every holding of the token as it is, in outputs and in orders, and its record and circulating supply too.", "quantifier": "all reachable databases, all blocks that can be connected to them, all tokens and all places", "why_tests_cant": "There are many ways to move a token (outputs of several kinds, spending without outputs, filling and concluding orders, burning, minting); a test covers the ways its author thought of.", "anchors": ["chainstate/tx-verifier/src/transaction_verifier/mod.rs: check_operations_with_frozen_tokens", "chainstate/tx-verifier/src/transaction_verifier/check_transaction.rs", "tokens-accounting/src/cache.rs"]}
{"id": "C62", "title": "The pool's books are exactly right", "statement": "After any sequence of accepted and refused additions and of evictions, in whatever order hash sets are iterated, no assertion of the transaction pool's store has failed, and everything it records about the transactions in it is exactly what those transactions determine: which builds on which (outputs, nonces, pools, delegations, tokens and orders), the number, fees and sizes of each one's ancestors and descendants, the orderings by score and by time, who uses up an output or nonce, who creates what, and the sequence numbers. A refused addition leaves the pool as it was.", "quantifier": "every history of additions of admissible transactions and of evictions, every iteration order of the hash sets, every limit on clusters", "why_tests_cant": "The totals are kept incrementally along arbitrary dependency graphs; tests exercise a few shapes and orders.", "anchors": ["mempool/src/pool/tx_pool/store/mod.rs::MempoolStore", "mempool/src/pool/tx_pool/store/mod.rs::add_transaction", "mempool/src/pool/tx_pool/store/mod.rs::remove_tx", "mempool/src/pool/tx_pool/store/mod.rs::drop_tx_and_descendants", "mempool/src/pool/tx_pool/store/mod.rs::collect_ancestors", "mempool/src/pool/dependency.rs::TxConsumedDependency"]}
{"id": "C63", "title": "Eviction takes exactly the descendants along", "statement": "Throwing a transaction out of the pool removes it and everything that builds on it directly or indirectly, nothing else, and reports the removed transactions children before parents; no transaction stays behind without one it was built on.", "quantifier": "every reachable pool, every transaction id, every reason", "why_tests_cant": "Depends on the graph traversal for every dependency graph.", "anchors": ["mempool/src/pool/tx_pool/store/mod.rs::drop_tx_and_descendants", "utils/src/graph_traversals.rs::dag_depth_postorder_multiroot"]}
{"id": "C64", "title": "Clusters stay within their limits", "statement": "No set of connected transactions in the pool ever exceeds the configured number of transactions or total size; an otherwise admissible transaction is taken in exactly if the cluster it would be part of is within both limits.", "quantifier": "every history of the pool, every transaction, every limit", "why_tests_cant": "The search for the cluster stops early at the limit; that this never gives a wrong answer depends on all graphs and visiting orders.", "anchors": ["mempool/src/pool/tx_pool/store/mod.rs::collect_relatives", "mempool/src/pool/tx_pool/store/mod.rs::TxMempoolEntry", "mempool/src/config.rs"]}
{"id": "C65", "title": "The pool gives back its transactions in order of arrival", "statement": "Taking all transactions out of the pool, as is done when the chain's tip changes, yields each exactly once in the order in which they came, so that parents come before children.", "quantifier": "every history of the pool", "why_tests_cant": "Needs sequence numbers to be right after every interleaving of additions and evictions.", "anchors": ["mempool/src/pool/tx_pool/store/mod.rs::into_transactions"]}
{"id": "C66", "title": "What is picked from the pool for a block", "statement": "When a block producer asks the pool for transactions, it gets its own transactions followed by transactions of the pool, each at most once, none of them time-locked, each after every pool transaction it builds on; the reported fees are exactly their sum and the encoded list stays within the target size as soon as anything was added. The call never stops the node; it fails only if the producer's own transactions are invalid or one asked for is not in the pool, and gives nothing only if the best block changed. If refusing a transaction leaves no trace in the verifier, the verifier accepts the whole list in its order.", "quantifier": "all histories of the pool, all accumulators, requests, verifiers, time-lock checks and iteration orders of hash sets", "why_tests_cant": "The outcome depends on the graph of the pool, the order of scores, the target size and the verifier's answers; tests build a handful of pools.", "anchors": ["mempool/src/pool/tx_pool/collect_txs.rs: collect_txs", "mempool/src/tx_accumulator/mod.rs: DefaultTxAccumulator"]}
{"id": "C67", "title": "Picking for a block is best first and leaves nothing out", "statement": "When no particular transactions are asked for, each transaction that is tried is worth at least as much (the lower of its own fee rate and that of it with its ancestors) as any other that could come next. Picking ends only when a transaction of the pool would not fit any more, or when every wanted transaction is in the block, is time-locked, builds on one that is not in the block, or was refused by the verifier.", "quantifier": "all histories of the pool, all accumulators, requests, verifiers, time-lock checks and iteration orders of hash sets", "why_tests_cant": "The greedy choice interleaves three queues; that none of them forgets or overtakes a transaction must hold for every pool.", "anchors": ["mempool/src/pool/tx_pool/collect_txs.rs: collect_txs, EntryByScore"]}
{"id": "C68", "title": "The wallet's coin selection pays the target and accounts for every atom", "statement": "A selection of coins returned for a target is made of coins offered, each at most once. What they are worth is the target, the fees for spending them, and either the change with the fee for making it or a rest too small for an output of its own. A currency that pays no fees loses nothing. A random selection is within the size limit; a prescribed one uses all the coins. Too little money is reported exactly when the coins offered do not reach the target.", "quantifier": "all pools of coins, targets, costs of change, limits, both algorithms, and all outcomes of the random generator and of ties in the heap", "why_tests_cant": "Three randomised algorithms run one after the other and the least wasteful result wins; a test sees one run of each.", "anchors": ["wallet/src/account/utxo_selector/mod.rs: select_coins, select_coins_srd, knapsack_solver, select_coins_bnb, SelectionResult", "wallet/src/account/utxo_selector/output_group.rs: OutputGroup"]}
{"id": "C69", "title": "The wallet's coin selection succeeds with enough funds and never panics", "statement": "If the coins offered reach the target and together fit into one transaction, a selection is found. No selection ends the wallet by a failed expectation or assertion if the coins offered fit into one transaction or are all of the same size. (For coins of mixed sizes beyond the limit this is false, and so is that a selection is found whenever some coins fit and reach the target: see the refuted theorems.)", "quantifier": "all pools of coins, targets, costs of change, limits, both algorithms, and all outcomes of the random generator and of ties in the heap", "why_tests_cant": "The failing draws need coins of mixed sizes beyond the size limit and an unlucky order; no test draws them.", "anchors": ["wallet/src/account/utxo_selector/mod.rs: select_coins, select_random_coins, select_coins_srd"]}
{"id": "C70", "title": "Transactions completed by the wallet balance and pay their fee", "statement": "When the wallet completes a request (outputs to make, inputs already chosen, offered unspent outputs), the result keeps the request's inputs and outputs, spends only offered outputs and each at most once, and every token named by the request comes out exactly as it goes in. If the chosen inputs bring no more coins than needed, the fee left is at least the fee shown to the user and at least the requested rate times the size of the transaction, equals the fee shown whenever change is returned, and the node's value check accepts the transaction.", "quantifier": "every request, set of offered outputs, fee rate, order information that matches the ledger, outcome of the random selection, and encoding sizes", "why_tests_cant": "the books mix rounding, several currencies, burn requirements, random selection and two size estimates; tests try a few amounts", "anchors": ["wallet/src/account/mod.rs:select_inputs_for_send_request", "wallet/src/account/currency_grouper/mod.rs", "mempool/src/pool/feerate.rs:compute_fee"]}
{"id": "C71", "title": "Sweeping sends everything but the fee", "statement": "Sweeping a set of outputs yields a transaction all of whose outputs go to the given destination; every token comes out in full, the coins come out less exactly the fee shown, and that fee is at least the requested rate times the size of the transaction.", "quantifier": "every list of spent outputs, destination, fee rate and encoding sizes", "why_tests_cant": "any mix of currencies and amounts; the fee depends on the transaction being built", "anchors": ["wallet/src/account/mod.rs:sweep_addresses"]}
{"id": "C72", "title": "Encoding of transactions, headers and blocks", "statement": "A transaction, signed transaction, header or block that is encoded for hashing, storage or the network is read back exactly as it was whatever bytes follow it; a decoder accepts nothing but the encoding of a possible value, so every value has exactly one accepted encoding and no encoding is the beginning of another; hence two transactions or headers with the same id are equal unless the hash function has a collision.", "quantifier": "all possible values of all chain types (every kind of output, input, account command, witness and consensus data, any amounts and vectors of any length that can be encoded), all input bytes, all hash functions", "why_tests_cant": "The space of values and of byte strings is unbounded; tests encode a few values and cannot show that no other bytes decode to the same value", "anchors": ["common/src/chain/transaction/transaction_v1.rs:TransactionV1", "common/src/chain/transaction/signed_transaction.rs:SignedTransaction", "common/src/chain/transaction/output/mod.rs:TxOutput", "common/src/chain/transaction/input.rs:TxInput", "common/src/chain/block/block_header.rs:BlockHeader", "common/src/chain/block/block_v1.rs:BlockV1", "serialization/src/extras/non_empty_vec.rs:DataOrNoVec"]}
{"id": "C73", "title": "A signature of an input vouches for exactly what its sighash type says", "statement": "The bytes hashed to sign an input of a transaction are the same for two inputs exactly when both signatures have the same sighash type, the transactions have the same flags, and they agree on what the type covers: all inputs, or with ANYONECANPAY only the signed one, together with what those inputs refer to in the chain (the output spent; for a staked output the balance of the pool; for an order being filled what was asked and offered at first; for one being concluded also what is left of it); and all outputs, none, or the one with the number of the input. So a signature serves elsewhere only where it vouches for the same things, or the bytes hashed are a collision of the hash function. Before the fork only the outputs spent were covered.", "quantifier": "all transactions, sighash types, input numbers, and states of the chain they are signed against and checked against", "why_tests_cant": "tests change one field of one transaction at a time; here any two transactions and any two states of the chain are compared", "anchors": ["common/src/chain/transaction/signature/sighash/mod.rs:signature_hash", "common/src/chain/transaction/signature/sighash/hashable.rs:SignatureHashableInputs", "common/src/chain/transaction/signature/sighash/sighashtype.rs:SigHashType", "common/src/chain/transaction/signature/sighash/input_commitments/mod.rs:make_sighash_input_commitments_for_transaction_inputs"]}
{"id": "C74", "title": "A signature made for one purpose does not serve another", "statement": "What is signed for a text message is never what is signed for an input of a transaction or of a block reward, unless the bytes hashed are a collision; two texts with the same challenge are the same text; what is signed for a block is never what is signed for an input or for a text. That this also separates block rewards from transactions is refuted: nothing in the hashed bytes tells which of the two is meant.", "quantifier": "all texts, transactions, block rewards, block headers, sighash types", "why_tests_cant": "the possible confusions between byte strings of different kinds cannot be enumerated", "anchors": ["common/src/chain/transaction/signature/inputsig/arbitrary_message/mod.rs:produce_message_challenge", "common/src/chain/transaction/signature/sighash/mod.rs:signature_hash", "consensus/src/pos/block_sig.rs:check_block_signature", "common/src/chain/block/block_reward.rs:BlockRewardTransactable"]}
{"id": "C75", "title": "A multisig is spent exactly with the required signatures, and signing in turn gets there", "statement": "A multisig destination is spent exactly with a witness whose challenge has the destination's hash, is within the limits, and that holds exactly the required number of signatures, at different positions, each valid for the key at its position. As many signers as required, signing one after the other in any order, arrive at such a witness, the same one in every order; with fewer it is not accepted and signing can go on; one more is refused. Signing and checking never panic when the challenge given is that of the signatures so far. Refuted: that the keys that signed differ, that an authorization has one encoding only, and that signing never panics with another challenge.", "quantifier": "all challenges, sets and orders of signers, messages, byte strings given as witnesses; the signature scheme is a parameter", "why_tests_cant": "tests sign with random subsets of a few keys; the witnesses an attacker can send, and all orders of signing, cannot be enumerated", "anchors": ["common/src/chain/transaction/signature/inputsig/classical_multisig/authorize_classical_multisig.rs:sign_classical_multisig_spending", "common/src/chain/transaction/signature/inputsig/classical_multisig/authorize_classical_multisig.rs:verify_classical_multisig_spending", "common/src/chain/transaction/signature/inputsig/classical_multisig/multisig_partial_signature.rs:PartiallySignedMultisigChallenge", "common/src/chain/transaction/output/classic_multisig.rs:ClassicMultisigChallenge"]}
{"id": "C76", "title": "An input is spent exactly by those its destination names", "statement": "For a destination, an input is accepted exactly with a witness that holds a valid signature by the key, by a key with the given hash, or the multisig's signatures, over the hash of what the sighash type covers; an output anyone can spend exactly without a signature, one locked by a script hash never. The owner of the key can produce such a witness, for inputs and for texts, and nobody else gets one from the signing functions. What a signature does not vouch for can be changed without making it unacceptable. Checking never panics.", "quantifier": "all destinations, transactions, witnesses, sighash types and input numbers; the signature scheme is a parameter", "why_tests_cant": "the witnesses to be refused are all byte strings but a few", "anchors": ["common/src/chain/transaction/signature/mod.rs:verify_signature", "common/src/chain/transaction/signature/inputsig/standard_signature.rs:StandardInputSignature", "common/src/chain/transaction/signature/inputsig/authorize_pubkeyhash_spend.rs:verify_public_key_hash_spending", "common/src/chain/transaction/signature/inputsig/arbitrary_message/mod.rs:ArbitraryMessageSignature"]}
{"id": "C77", "title": "A hashed timelock contract is claimed with the secret and refunded after the lock, and claiming shows the secret", "statement": "An output of a hashed timelock contract is spent exactly by a witness that shows a secret with the contract's hash and entitles to the spend key, at any time, or by one that entitles to the refund key once the time lock is over. The owner of the spend key who knows the secret, and the owner of the refund key (a key, a key hash or a multisig), can always make such a witness. Taking the money before the lock is over puts a secret on the chain with which the owner of any other contract with the same hash can claim it. Collected multisig signatures survive being stored in the witness. Nothing panics.", "quantifier": "all contracts, transactions, witnesses, secrets, keys, signature schemes and hash functions", "why_tests_cant": "ranges over all witnesses and over both sides of a swap", "anchors": ["common/src/chain/transaction/signature/inputsig/htlc.rs:produce_uniparty_signature_for_htlc_spending", "common/src/chain/transaction/signature/inputsig/htlc.rs:produce_uniparty_signature_for_htlc_refunding", "common/src/chain/transaction/signature/inputsig/htlc.rs:produce_classical_multisig_signature_for_htlc_refunding", "common/src/chain/transaction/signature/inputsig/authorize_hashed_timelock_contract_spend.rs:AuthorizedHashedTimelockContractSpend", "common/src/chain/transaction/signature/inputsig/classical_multisig/encode_decode_multisig_spend.rs:encode_multisig_spend", "mintscript/src/translate.rs:translate_input"]}
{"id": "C78", "title": "Messages between peers arrive whole, in order, however the bytes are cut", "statement": "What a node sends to a peer is what the peer's receive calls return, message by message and in order, whatever way the network cuts the byte stream into reads and wherever a receive call is interrupted. A message that cannot be decoded is reported once and those after it are still received. A message above the size limit is refused on both sides, by the receiver as soon as its length is read.", "quantifier": "every sequence of messages, every cutting of their bytes into reads, every amount already buffered, every limit, every stream of bytes from a peer", "why_tests_cant": "Tests deliver a few messages in a few pieces; the number of ways to cut a stream and of points where a receive call may be dropped is unbounded.", "anchors": ["networking/src/transport/message_codec.rs: MessageCodec::{encode, decode, check_encoded_message_size}", "networking/src/transport/message_stream.rs: MessageReader::recv, MessageWriter::send"]}
{"id": "C79", "title": "A filter of recent items never forgets one too early", "statement": "The rolling filter that a node uses to remember what it has already told a peer reports each of the last N inserted items as present, N being the size it was created with, whatever was inserted before and whatever random seeds were drawn; and what it reports as present is explained by recent items only: anything older than about 1.5 N insertions has no influence.", "quantifier": "every size, every sequence of insertions, every choice of seeds, every hash function", "why_tests_cant": "The claim is about all histories of insertions around every rotation point of the three subfilters; tests insert a few random sequences.", "anchors": ["utils/src/bloom_filters/rolling_bloom_filter/mod.rs: RollingBloomFilter::{new, insert, contains}", "utils/src/bloom_filters/rolling_bloom_filter/cyclic_array.rs: CyclicArray", "utils/src/bloom_filters/bloom_filter.rs: BloomFilter"]}
{"id": "C80", "title": "The questions and answers that chains are synchronised with fit together", "statement": "A locator holds the block asked about and those 1, 2, 4, 8, ... below it on its own chain. A node that asks another with the locator of one of its blocks gets headers of the other's main chain, in order, without gaps, following a block it has; asking with a block of that main chain continues exactly there; from a fork at most as many headers repeat known blocks as the asking block is above the fork. Headers announced after a reorganisation follow the highest fork point known to the peer. Headers of known blocks are split off the front of a list exactly. Lists of ids for checkpoints hold every step-th block of the main chain.", "quantifier": "every pair of block trees that can be built, every main chain, every block asked about, every limit", "why_tests_cant": "Trees, forks and chain lengths are unbounded; tests try a few lengths and fork points.", "anchors": ["chainstate/src/detail/query.rs: locator_tip_distances, get_locator_from_best_block, get_locator_from_block_id, get_mainchain_headers_by_locator, get_mainchain_headers_since_latest_fork_point, get_block_ids_as_checkpoints", "chainstate/src/interface/chainstate_interface_impl.rs: split_off_leading_known_headers"]}
{"id": "C81", "title": "A node downloads the whole chain of its peer, and neither end offends", "statement": "Two nodes that follow the protocol exchange header requests, headers, block requests and blocks over one connection. Whatever the order in which the two ends take their turns, whatever blocks the asking node already has (also on branches) and whatever others it gets from elsewhere meanwhile: no message is ever treated as an offence (disconnected headers, unsolicited or misordered blocks, repeated, unknown or too many blocks asked for, a block without its parent), the exchange ends after a number of messages bounded by the length of the chain and the limits, and when neither end has anything left to do the asking node stores every block of the other's main chain. It is refuted that this survives a reorganisation of the answering node when branches are longer than the limit on headers: the same question can be asked for ever.", "quantifier": "all trees of blocks of both nodes, limits, interleavings of the two ends and of blocks from elsewhere", "why_tests_cant": "A test plays a few schedules with a few chains; the claim covers every schedule, every starting tree and every position of the limits.", "anchors": ["p2p/src/sync/peer/block_manager.rs:handle_header_list", "p2p/src/sync/peer/block_manager.rs:handle_block_response", "p2p/src/sync/peer/block_manager.rs:handle_block_request", "p2p/src/sync/peer_common/mod.rs:choose_peers_best_block_by_block_ids"]}
{"id": "C82", "title": "The wallet's addresses are new, stay recognised, survive failures and are found again on restoring", "statement": "An account of the wallet answers every request. An address it issues comes after every address of the same kind that it handed out or saw paid to before, and an address it gives out as unused comes after every one it saw paid to. Every address handed out is recognised ever after. An operation that fails and is rolled back, and closing and opening the wallet, leave the account as it was. It recognises only its own keys: the first L of each kind from the start, and L more after each that was paid to, and it takes note of exactly the outputs that pay to a key it recognises. An account made again from the same seed that is shown the same outputs in the same order recognises the same keys; with a larger lookahead it recognises at least those.", "quantifier": "all lookahead sizes from 1 to 2^31 - 1, all histories of issued addresses, requests for unused addresses, outputs seen, failed operations and reopenings, all keys without colliding addresses", "why_tests_cant": "Tests issue a handful of addresses with lookahead 20; the statement is about histories of any length and every point at which an operation can fail.", "anchors": ["wallet/src/key_chain/leaf_key_chain/mod.rs:LeafKeySoftChain", "wallet/src/key_chain/account_key_chain/mod.rs:AccountKeyChainImpl", "wallet/types/src/keys.rs:KeychainUsageState", "wallet/src/account/mod.rs:mark_output_as_seen", "wallet/src/wallet/mod.rs:for_account_rw_unlocked"]}
{"id": "C83", "title": "The outputs a wallet shows as unspent are those its transactions make and none of them spends", "statement": "Through any history of transactions seen in the mempool, confirmed, removed by a reorganisation, forgotten with the mempool, given up, found in conflict with a block, and of reopening the wallet: the outputs listed as unspent among transactions that are confirmed, in the mempool or inactive are exactly those that such a transaction makes and no such transaction spends; the confirmed ones depend on the chain alone. Nothing of this fails when parents come before children. Giving a transaction up takes along every live transaction that descends from it and no other; the same for conflicts. Reopening changes nothing.", "quantifier": "every set of transactions, every sequence of events of any length, every filter on outputs and every choice of states looked at; provided no added transaction double spends an output of a live one", "why_tests_cant": "The cache keeps three tables that must agree after every interleaving of events; tests try a handful of short ones, and the errors are found only in histories such as give up, spend again, reopen.", "anchors": ["wallet/src/account/output_cache/mod.rs:add_tx", "wallet/src/account/output_cache/mod.rs:utxos", "wallet/src/account/output_cache/mod.rs:abandon_transaction", "wallet/src/account/output_cache/mod.rs:remove_confirmed_tx", "wallet/src/account/output_cache/mod.rs:update_conflicting_txs", "wallet/types/src/wallet_tx.rs:TxState"]}
{"id": "C84", "title": "Orphan transactions are bounded, found, evicted and released exactly as documented", "statement": "Whatever sequence of submissions, units of work and disconnections the mempool goes through: no call panics as long as nothing is submitted for a peer that has left; there are never more than 100 orphan transactions, each with an id of its own, at most 20000 bytes and from a peer still connected, and each is found under its id; a refused one is kept only if it comes from a peer, fits and may replace what it conflicts with; keeping it evicts only orphans older than 50 seconds or, when the pool is full, others; an accepted transaction queues exactly the orphans that need it, for the peers they came from; a unit of work takes out an orphan only when none of its parents is an orphan; a peer that leaves takes exactly its orphans and its queue along.", "quantifier": "every history of submissions (with any verdict of the pool of valid transactions), units of work and disconnections, every random choice", "why_tests_cant": "The indices by id, time, origin and dependency are patched at every swap-removal, and asserts sit in the patches; tests reach a few dozen insertions and removals, not every interleaving.", "anchors": ["mempool/src/pool/orphans/mod.rs: TxOrphanPool, TxOrphanPoolMaps", "mempool/src/pool/mod.rs: finalize_tx, orphan_tx_policy, perform_work_unit, on_peer_disconnected"]}
{"id": "C85", "title": "Work on orphans is shared fairly between peers, ends, and forgets nothing", "statement": "When orphans are queued for several peers, each unit of work serves a peer that has something queued; from when something is queued for a peer until that peer is served or leaves, every other peer is served at most twice, whatever is submitted, queued or disconnected meanwhile; what is queued stays queued until it is looked at for its peer, found not to be an orphan any more, or the peer leaves; doing one unit after another ends, whatever becomes of the transactions submitted again.", "quantifier": "every history, every interleaving of further submissions and disconnections, every shuffling of the rounds, every verdict on the transactions looked at again", "why_tests_cant": "Fairness and termination are about all schedules; the randomised unit test samples some.", "anchors": ["mempool/src/pool/work_queue/mod.rs: WorkQueue::insert, pick, remove_peer, advance_round", "mempool/src/pool/mod.rs: perform_work_unit, has_work"]}
{"id": "C86", "title": "A wallet's secrets are given back as they were put, and only after its passphrase", "statement": "Setting, changing or removing the passphrase of a wallet, locking, unlocking and restarting it, in any order and with any failures of the database in between, never loses or changes a root key, the seed phrase or a private key the user added: an unlocked wallet returns each of them as it was last put. A locked wallet returns none, takes none and refuses a new passphrase. A locked wallet is opened exactly by passphrases from which the same key is derived as from the one last set; every other one is refused and changes nothing. If a passphrase is set the file contains the secrets only encrypted with its key, and the wallet is locked after every restart. Each operation is done completely or changes nothing, and none panics.", "quantifier": "all sequences of operations, passphrases, secrets, salts and nonces, failures of the database and restarts; all key derivation functions, ciphers that open what they sealed and encodings that can be decoded", "why_tests_cant": "There are infinitely many orders of operations, failures and restarts; tests try a few with one passphrase.", "anchors": ["wallet/storage/src/internal/mod.rs:encrypt_private_keys", "wallet/storage/src/internal/mod.rs:unlock_private_keys", "wallet/storage/src/internal/mod.rs:lock_private_keys", "wallet/storage/src/internal/store_tx.rs:encrypt_root_keys", "utils/src/maybe_encrypted.rs:MaybeEncrypted"]}
{"id": "C87", "title": "A wallet follows the chain of its node", "statement": "Synchronising a wallet with a node brings every account to the best block of the node with, on record, exactly the blocks of the main chain that concern it, also when the node changes its chain meanwhile, calls fail or the wallet stops between two accounts. What an account has on record always lies on one chain ending in its best block; a wallet that is told to be synchronised has missed nothing. If the node is quiet, the synchronisation ends.", "quantifier": "every wallet whose accounts follow chains, every sequence of answers of the node, at every moment another chain, failing calls, failing writes and stopping points", "why_tests_cant": "reorganisations between any two calls, failures between any two accounts and any number of blocks and accounts give unboundedly many schedules; a test runs a few", "anchors": ["wallet/wallet-controller/src/sync/mod.rs:sync_once", "wallet/wallet-controller/src/sync/mod.rs:group_accounts_by_mainchain_blocks", "wallet/src/account/mod.rs:scan_new_blocks", "wallet/src/account/mod.rs:reset_to_height", "wallet/src/wallet/mod.rs:scan_new_blocks_unused_account", "wallet/src/wallet/mod.rs:create_next_account", "chainstate/src/detail/query.rs:get_mainchain_blocks"]}
{"id": "C88", "title": "The API server shows what is on the chain", "statement": "For every address and currency the balance, the locked balance and the lists of unspent outputs that the API server shows are those of the chain it has scanned, whatever chains it scanned before: after a reorganisation the tables are the same as after scanning the new chain alone. Following a node that changes at any moment and may not answer, the tables are always those of one chain of the node, and of its main chain when the call succeeds. No valid block stops the scanner.", "quantifier": "every genesis, every chain of valid blocks, every history of reorganisations, every address and currency, every sequence of answers of the node", "why_tests_cant": "balances are kept as versions by height, with locks that end by height or by median time, and are taken back by height: the number of chains, forks and locks is unbounded; a test scans a few", "anchors": ["api-server/scanner-lib/src/blockchain_state/mod.rs:scan_blocks", "api-server/scanner-lib/src/blockchain_state/mod.rs:update_tables_from_transaction_inputs", "api-server/scanner-lib/src/blockchain_state/mod.rs:update_tables_from_transaction_outputs", "api-server/scanner-lib/src/blockchain_state/mod.rs:disconnect_tables_above_height", "api-server/scanner-lib/src/sync/mod.rs:sync_once", "api-server/api-server-common/src/storage/impls/in_memory/mod.rs:get_address_available_utxos"]}
{"id": "C89", "title": "Peers that are too many are given up fairly", "statement": "When an inbound connection has to make room for another, the node finds one to give up exactly when there are more inbound peers than it protects; it gives up a banned or discouraged one first, never one that is among the configured number of best by address group, by ping, by the last new tip given or by the last transaction given, and otherwise, up to the number of protected peers, one from the address group with the most connections and there the one that came last. An automatic outbound connection is given up exactly when more than the wanted number have been connected long enough, and then it is the youngest that never gave a new tip or else the one that did so longest ago.", "quantifier": "all sets of connected peers with any ages, pings, groups and times of blocks and transactions, all configurations, all hash keys and random choices, and every order that sorting leaves equal elements in", "why_tests_cant": "an attacker chooses the number, the groups and the behaviour of the peers", "anchors": ["p2p/src/peer_manager/peers_eviction/mod.rs:select_for_eviction_inbound", "p2p/src/peer_manager/peers_eviction/mod.rs:select_for_eviction_outbound", "p2p/src/peer_manager/mod.rs:eviction_candidates"]}
{"id": "C90", "title": "Bans and discouragements last as the calls say, across restarts and crashes", "statement": "After any sequence of calls to the peer database (bans, unbans, discouragements, heartbeats, connections, restarts), an ip is reported as banned until a time exactly if the last ban of it ends then, no unban followed, and no heartbeat at or after the end of the ban; the same for discouragements, and the anchor addresses are those set last. A crash in the middle of any call leaves each ip banned as before the call or as after it. The addresses the node selects for automatic outbound connections (other than reserved ones) never have a banned or discouraged ip.", "quantifier": "All sequences of calls and restarts, all times and durations, all crash points between storage transactions, all outcomes of the random choices", "why_tests_cant": "Tests ban one address, restart once and look; the statement is about every interleaving of bans, heartbeats and restarts, and about every crash point.", "anchors": ["p2p/src/peer_manager/peerdb/mod.rs: ban, unban, discourage, undiscourage, heartbeat, set_anchors, is_address_banned, select_non_reserved_outbound_addresses", "p2p/src/peer_manager/peerdb/storage_load.rs: load_storage"]}
{"id": "C91", "title": "The address book is bounded, keeps what is good and selects only what may be connected to", "statement": "The peer database never panics. Until a restart, peers cannot make it remember more addresses than its two tables have slots, nor more of one address group than sixteen buckets hold, whatever they announce. Reserved nodes are always known and never given up. An address is forgotten only when it is unreachable and its time is over or its slot is needed, when it is pushed out by addresses of connected peers, or by name; announcements never push out a reachable address. Addresses the node was connected to are still known, as reachable, after a restart. Selected addresses are known, due, unreserved, of pairwise different groups without a connection; some are selected if there are any. A reachable address is given up after 672 failures in a row, a never reached one after the first, with exponential back-off in between.", "quantifier": "All sequences of calls, all addresses and hashes, all sizes of the tables, all random choices", "why_tests_cant": "The bound must hold against every sequence of announcements and every hash, and what may be forgotten depends on all interleavings of connections, failures and announcements; tests try a few.", "anchors": ["p2p/src/peer_manager/peerdb/mod.rs: PeerDb", "p2p/src/peer_manager/peerdb/address_tables/table.rs: Table", "p2p/src/peer_manager/peerdb/address_tables/mod.rs: AddressTables", "p2p/src/peer_manager/peerdb/address_data/mod.rs: AddressData::transition_to"]}
{"id": "C92", "title": "A node keeps to its limits on connections and admits exactly the peers it should", "statement": "Whatever the peers, the user and the networking backend do, and across restarts, the peer manager handles every event without panicking (as long as the backend reports one result for each connection it was asked for). At every moment: inbound peers that are to stay number at most max_inbound_connections; outbound full relay and block relay connections and attempts number at most their configured counts plus extras; there is at most one feeler; no two automatic outbound connections or attempts go to the same address group, and no two lasting outbound connections to the same address. The anchors stored for the next start are at most as many as block relay connections and in different groups. A new inbound connection is admitted exactly if networking is on, the network matches, the peer is not connected yet, its ip is not banned, it offers services, its software is not outdated, and there is a free slot or (for an ip that is not discouraged) enough unprotected inbound peers to give one up; a new outbound connection exactly if the same holds, the services suit its role and no existing connection conflicts. Otherwise it is told to disconnect and nothing else changes among the peers. A guest is given up for a new one only if its ip is banned or discouraged, or no guest's is and enough others answered pings as quickly, brought as new blocks and as new transactions. The heartbeat gives up outbound peers only when there are more than wanted, and not young ones unless their ip is banned or discouraged; it calls extra full relay peers only when the tip is stale, and feelers only when they are due. The database of peers is told exactly what happened.", "quantifier": "all configurations, histories of events of the user, backend, peers, timers and restarts, all clocks and random choices", "why_tests_cant": "The limits must hold for every interleaving of attempts, acceptances, evictions, bans and restarts; tests run a few scripted ones.", "anchors": ["p2p/src/peer_manager/mod.rs:PeerManager::validate_connection", "p2p/src/peer_manager/mod.rs:PeerManager::accept_connection", "p2p/src/peer_manager/mod.rs:PeerManager::establish_new_connections", "p2p/src/peer_manager/mod.rs:PeerManager::heartbeat"]}
{"id": "C93", "title": "Misbehaving peers are disconnected and discouraged, and nobody else is", "statement": "A connected peer whose ip is banned, or whose ban score reached the threshold, is always on its way out: the backend was told to disconnect it, and it stays so until the backend reports the end of the connection. When misbehaviour brings the score of a peer that the user does not trust to the threshold, its ip is discouraged at once and all peers with that ip have to leave; below the threshold only the score grows, and peers that the user trusts keep score zero. A ban by the user disconnects all peers of that ip. An ip becomes discouraged only by an event that one of its peers is to blame for (misbehaviour adding up to the threshold, unrequested or oversized address lists, a bad handshake, outdated software), and becomes banned only by the user.", "quantifier": "all configurations, histories of events, peers, scores and restarts", "why_tests_cant": "That no order of reports, disconnections and bans lets a bad peer stay or punishes an innocent one needs all histories; tests try single reports.", "anchors": ["p2p/src/peer_manager/mod.rs:PeerManager::adjust_peer_score", "p2p/src/peer_manager/mod.rs:PeerManager::discourage", "p2p/src/peer_manager/mod.rs:PeerManager::ban", "p2p/src/peer_manager/mod.rs:PeerManager::handle_addr_list_response"]}
{"id": "C94", "title": "Each request of the user to connect or disconnect is answered once and truthfully; the switch of networking is obeyed", "statement": "Every request to connect or disconnect gets exactly one answer or still waits for the attempt or connection it is about. A request to connect is refused at once unless networking is on, the address is not being connected to, no existing connection conflicts and the ip is neither banned nor discouraged (or the address is reserved); else the backend is asked to connect, and the answer says whether the connection was admitted. A request to disconnect is refused for an unknown or already leaving peer; else it is answered when the connection is closed. The attempts under way are exactly those that the backend was asked for and has not reported on. While networking is off no connection is begun or admitted, and only the user switches it.", "quantifier": "all histories of requests, results, misbehaviour, timers and restarts", "why_tests_cant": "Losing or doubling an answer depends on the order of requests, failures and evictions; tests cover one request at a time.", "anchors": ["p2p/src/peer_manager/mod.rs:PeerManager::connect", "p2p/src/peer_manager/mod.rs:PeerManager::disconnect", "p2p/src/peer_manager/mod.rs:PeerManager::connection_closed", "p2p/src/peer_manager/mod.rs:PeerManager::handle_outbound_error", "p2p/src/peer_manager/mod.rs:PeerManager::enable_networking"]}
{"id": "C95", "title": "Pings find dead peers, and lists of addresses tell peers little", "statement": "A node pings every connected peer that has no ping under way at each check, and disconnects exactly the peers whose ping has waited for the time out; a ping is answered by the response with its nonce only, which clears it and updates the shortest round trip; every ping of a peer is answered. A list of addresses is sent only to an inbound peer that asks, once during its connection; it has at most the allowed number of addresses, all of which others can reach, and when it is made all are known and have ips that are neither banned nor discouraged. For a while, every peer that asks at the same address of the node is told the same list. Nothing else makes the node send pings, responses or lists, and nothing else changes what it remembers about them.", "quantifier": "all histories of events, all peers, clocks, nonces and random choices", "why_tests_cant": "Who is told what depends on the whole history of a connection and of all others at the same bind address; tests follow single exchanges.", "anchors": ["p2p/src/peer_manager/mod.rs:PeerManager::ping_check", "p2p/src/peer_manager/mod.rs:PeerManager::handle_ping_response", "p2p/src/peer_manager/mod.rs:PeerManager::handle_addr_list_request", "p2p/src/peer_manager/addr_list_response_cache.rs:AddrListResponseCache::get_or_create"]}
{"id": "C96", "title": "Transactions are exchanged with a peer in order: asked for once, taken only if asked for, answered always, announced once", "statement": "The task that exchanges transactions with a peer never panics. It asks the peer for a transaction exactly when the peer announces it outside of the initial download, both sides exchange transactions, the transaction is neither in the mempool nor asked for already, and fewer than the configured number of requests wait. A request is remembered until its answer or for an hour, and for at most an hour and five seconds if the clock does not turn back; so a transaction is not asked for twice within an hour without an answer. The mempool is given a transaction from the peer only as the first answer to such a request. Every request of the peer gets exactly one answer, with the transaction exactly if it is in the mempool. The peer is reported only for messages of a kind not agreed on (20) and for requested transactions the mempool refuses. The peer is told of a transaction only if it is in the mempool, the node wanted it relayed, and it was then not among the last 50000 transactions either side had told the other of; once; and it is told of all that wait when the time has come, and of nothing more before the delay chosen then is over. It can be told of a transaction it announced itself while the announcement waited.", "quantifier": "every connection, every sequence of messages of the peer, local events and ticks, every behaviour of clocks, random delays, filter seeds and mempool", "why_tests_cant": "the request table, the purge clock, the rolling filter and the queue of announcements interact over unbounded histories; tests try a few orders of events", "anchors": ["p2p/src/sync/peer/transaction_manager.rs:PeerTransactionSyncManager", "p2p/src/sync/peer/requested_transactions.rs:RequestedTransactions", "p2p/src/sync/peer_common/known_transactions.rs:KnownTransactions", "p2p/src/sync/peer_common/mod.rs:handle_message_processing_result"]}
{"id": "C97", "title": "The user's own transactions are announced again until a peer has fetched them", "statement": "After any history of processed transactions, deliveries and requeues, the sync manager announces again exactly the transactions that came from the node's own user with permission to relay and were accepted (or already there), that no peer has been given since, and that have not been missing from the mempool at a requeue since. New transactions and the user's duplicates are relayed to all peers when they may be relayed, nothing else is; a peer is reported exactly for a transaction of its own that the mempool refuses with a positive score.", "quantifier": "every sequence of mempool events, delivery notices and requeues", "why_tests_cant": "holds over unbounded histories of events from several tasks", "anchors": ["p2p/src/sync/mod.rs:handle_transaction_processed", "p2p/src/sync/mod.rs:requeue_unconfirmed_local_transactions", "p2p/src/sync/mod.rs:handle_tx_mgr_notification"]}
{"id": "C98", "title": "Transactions are handed out for announcement parents first, best first", "statement": "When asked for the best of a chosen set of mempool transactions, the mempool hands out exactly as many as were asked for (or all of them, if there are fewer), each once; every transaction comes after all of its chosen ancestors, also those it has only through transactions outside the chosen set; at every point nothing that could come next is worth more than what does; and when a chosen transaction is not in the mempool, the answer is an error that names such a transaction.", "quantifier": "every mempool whose parent links stay inside it and have no cycle, every chosen set, every count", "why_tests_cant": "the order depends on the shape of the whole ancestry graph and on which part of it was chosen; tests cover a few graphs", "anchors": ["mempool/src/pool/tx_pool/collect_txs.rs: get_best_tx_ids_by_score_and_ancestry, collect_nearest_selected_ancestors"]}
{"id": "C99", "title": "The dns server serves exactly the connected nodes and stores what it learnt", "statement": "At every point of every history, the dns server serves an ip exactly if the node at the corresponding address is connected, with the software that node runs; its storage holds what was last learnt from every node that was ever reached and not given up since, and exactly the bans in force.", "quantifier": "every stored state to start from, every set of reserved addresses, every sequence of events", "why_tests_cant": "the served and stored tables are kept by reports of single changes; only an invariant over all histories shows that they never drift", "anchors": ["dns-server/src/crawler_p2p/crawler/mod.rs: Crawler::step, change_address_state", "dns-server/src/crawler_p2p/crawler_manager/mod.rs: handle_crawler_cmd, get_dns_ip", "dns-server/src/crawler_p2p/crawler/address_data.rs: transition_to, is_reachable, is_persistent"]}
{"id": "C100", "title": "Whom the crawler calls, bans, keeps and forgets", "statement": "The crawler calls nobody but at a heartbeat, and there at most 25 addresses, each once, all known, not banned and due by a fixed schedule of growing pauses; an address that is offered and due is called. Addresses given by the operator are never given up. A host whose nodes misbehave up to the threshold is banned for the set time and its connections are closed; below it the score is kept. Lists of addresses that were not asked for are ignored. Addresses that were never reached are remembered as bad for an hour and then forgotten; misbehaving peers cannot crash the server.", "quantifier": "every state, every event, every history", "why_tests_cant": "schedules, bans and sweeps interact over unbounded histories and clocks", "anchors": ["dns-server/src/crawler_p2p/crawler/mod.rs: heartbeat, handle_new_ban_score, disconnect_all, handle_address_list_response", "dns-server/src/crawler_p2p/crawler/address_data.rs: connect_now, retain, transition_to"]}
{"id": "C101", "title": "What an answer of the dns server holds", "statement": "An answer of the dns server has as many addresses as may be in it, or all there are; each of them once, and only served ones. Of the preferred number of nodes of the server's own version it has as many as exist, and more of them only when there are not enough other nodes. If there are enough of them to fill the answer, their share in it is, up to half a place, at least the configured one and at least their share among all served nodes. At every point of every history each ip in an answer is that of a connected node, and an answer is not empty while such a node is connected.", "quantifier": "every served set of addresses, every size of an answer, every preferred number up to it, every random choice", "why_tests_cant": "the choice is random; a test sees a few outcomes", "anchors": ["dns-server/src/dns_server/mod.rs: select_addresses"]}
