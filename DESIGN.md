# Formal model of mintlayer-core: design

Source under study: `/repo` (mintlayer/mintlayer-core, pinned). Nothing in `/repo` is built or run; the
model is written by reading the code. Every definition in the model carries a comment citing file and lines.

## 1. Layout

`rocq/theories/<Area>/` — one folder-less prefix per area, four kinds of files:

* `<Area>Model.v` — executable Gallina definitions only, with citations. No proofs.
* `<Area>Spec.v` (where useful) — the small, model-independent vocabulary used by the property statements.
* `<Area>Proofs.v` — lemmas.
* `<Area>Properties.v` — only the property theorems (`exact lemma`), their non-vacuity `Example`s and
  `Print Assumptions`.

Conventions:

* `Result<T,E>` is `res E T` with constructors `Ok`, `Err`, and a third constructor `Panic` for `expect`,
  `unwrap`, `assert!`, arithmetic overflow panics and other aborts. "Does not crash" statements say `<> Panic`.
* Checked integer operations are written out with their bounds (`u128`, `i128`, `u64`, ... as `Z`/`N` with explicit
  range tests). Nothing wraps silently.
* `BTreeMap` is std++ `gmap` when only lookups matter; where the code depends on the iteration order the model uses
  key-sorted association lists. Identifiers (hashes) are elements of an abstract countable type or `N`; two
  different things have different ids exactly when the hypothesis of a theorem says so.
* Storage back ends (LMDB) are finite maps with exact read-your-writes semantics; storage errors are not modelled
  except where noted.

## 2. Trusted base

* Coq 8.16.1 kernel; the standard library and std++ (no axioms of their own are used).
* `Print Assumptions` is printed under each property theorem by the build. The expected answer everywhere is
  `Closed under the global context`; any exception is listed in section 5.
* The reading of the code: the model is tied to `/repo` only by the citations.
* Not modelled anywhere: cryptographic primitives (hashes, signatures, VRF) — these are parameters of the statements
  (section variables that become universally quantified); networking, threads, clocks, disk.

## 3. Plan per property

| id | modelled | proof idea |
|----|----------|-----------|
| C01 | `Amount` ⇄ text, `DecimalAmount` parser and printer over character lists | round-trip, by lemmas on digit lists |
| C02 | `BlockHeight`/`BlockDistance` operators, `check_timelock` with panics explicit | refutation by witness (finding), plus the no-panic theorem under a bound |
| C03, C04 | `DeltaAmountCollection`, `DeltaDataCollection`, `combine_*` | pointwise algebra lifted to maps |
| C05–C08 | `TokensAccountingCache` and DB write-back over deltas | one-step inverse lemmas + induction over op list; invariants |
| C09–C13 | `OrdersAccountingCache`, price calculation, DB write-back | same; floor-division inequalities |
| C14–C16 | `PoSAccountingDelta` operations, undo, DB merge | same; sum over delegations invariant |
| C17, C18 | `distribute_pos_reward`, both staker-reward versions | floor sums over lists |
| C19–C22 | `UtxosCache`/`UtxoEntry`/`batch_write`, tx/block connect and disconnect | refinement to a plain map with invariant on (dirty,fresh) flags relative to the parent |
| C23, C24 | `ConstrainedValueAccumulator` | conservation per currency; cut-set inequality for every threshold |
| C25 | nonce handling with `CachedOperation` | refinement to a counter per account |
| C26, C27 | emission schedule and net upgrades | induction on height / list |
| C28–C30 | effective pool balance, target adjustment, compact encoding | nonlinear integer arithmetic |
| C31–C34 | mintscript scripts, stack verifier, translation, time locks | equivalence of stack machine and recursive meaning |
| C35–C37 | block tree, skip list, ancestor search, LCA, reorg | well-founded induction on height |
| C38 | orphan pool with random choices as an oracle | invariant |
| C39 | median time | sorting lemma |
| C40, C41 | block status bits, candidate list | bit lemmas; invariants |
| C42 | composition of the above into block connection | global sum invariant |
| C43 | undo caches | refinement to a map of undos |
| C44 | `Rational` comparison | refutation by witness if the zero-numerator shortcut is wrong, else proof |
| C45 | `PerThousand` text | finite domain sweep + parser bound |
| C46 | `construct_uint!` on lists of 64-bit words, every operation | each word loop equals the mathematical operation, any number of words |
| C47 | emission table text | round trip; parser accepts only increasing tables |
| C48 | the rest of `Amount`/`SignedAmount` | exactness per operation; sums over permutations |
| C49–C54 | block processing, reorganisation, invalidation, reset (`ChainstateModel`), with ledger contents as parameters | one invariant over all commits of all calls; refutations by concrete histories |
| C55 | stake hash check and block-time search | exact inequality on the word-level integers; induction on the search |
| C56 | the whole transaction verifier with all its caches, undo records and flush (`VerifierModel`) | disconnecting is the exact inverse of connecting on the database; induction over histories |
| C57 | same | sum of holdings per currency as an invariant |
| C58 | same | an id on the chain leaves an undo record or output which refuses its replay |
| C59 | same | bijection between pools and controlling outputs as an invariant |
| C60 | same, with `make_token_id` a parameter | first inputs identify issuances; refutation by witness under the old rule |
| C61 | same | frame argument per operation, lifted to blocks |
| C62 | the mempool's store (`MempoolModel`), hash set iteration order and id computations parameters | the store equals a function of the list of transactions in the pool: invariant over histories |
| C63 | same, with the depth-first traversal | traversal yields the descendants, children first; removal of a leaf keeps the invariant |
| C64 | same | the early-stopping search is exact about the limits |
| C65 | same | sequence numbers as part of the invariant of C62 |
| C66 | `collect_txs` and `DefaultTxAccumulator` over any verifier and any time-lock check, on the stores of C62 | invariant of the loop: every candidate is ahead, tried, waiting with its number of missing parents, or ready |
| C67 | same | scores as part of the invariant of C66 |
| C68 | the three selection algorithms and `SelectionResult`, shuffles, coin flips and the heap's choice among equals left open | each algorithm's result is built from a sub-multiset of the pool (invariants of the draw, of the subset search, of the depth-first search), then the change computed from it |
| C69 | same | the same invariants exclude every `expect`, index and `assert_eq!` but one; that one (change of a draw that exceeded the weight) is refuted by a run |
| C70 | completing a request over the real inputs and outputs, with sizes, signatures and randomness as parameters | sums by currency related to the consensus tables of C23, loop invariant over the tokens, rounding of fees is subadditive; then the acceptance theorem of C23; two refutations by runs |
| C71 | `sweep_addresses` | the same sums, one step |
| C72 | encoders and decoders of all chain types, byte by byte; ids as hashes of encodings | each primitive encoding is shown lossless and unambiguous, and so is every type built from them; an equality of ids gives equal values or a collision |
| C73 | the bytes hashed for a signature, mode by mode, and the commitments to what the inputs refer to, both versions | each part is shown unambiguous by the codecs of C72, so equal bytes mean equal parts; commitments are compared for two arbitrary states of the chain |
| C74 | the bytes signed for texts, inputs, block rewards and headers | first bytes and lengths differ; for rewards against transactions a pair with equal bytes is built and the claim refuted |
| C75 | challenges, partial signatures as a sorted map, signing and checking, with their encodings | checking is shown equivalent to counting valid signatures at different positions; signing in turn by induction on the signers |
| C76 | checking of a witness for each kind of destination, signing of inputs and texts | both directions, through the codecs of C72 and the coverage of C73 |
| C77 | the witnesses of hashed timelock contracts, their encoding, signing and checking | through the codecs of C72 and both directions of C76; the lock's outcome is a parameter (C34) |
| C78 | the codec that puts a length before each message and cuts them out again, the loops that send and receive | what a receive call gives is a function of all bytes present; induction over the messages |
| C79 | the rolling filter: three subfilters in a circle, insertion, rotation, lookup | invariant over insertions: which stretch of the history each subfilter holds |
| C80 | locators, headers after a locator or a fork point, splitting known headers off, lists for checkpoints, over the tree of blocks of C35 | the distances double; the first block of a locator on the main chain is found at most twice as far down as the fork |
| C81 | both ends of a connection with the messages on their way: header requests with locators, header lists, block requests, block responses, the best common block, the queue and the best block sent; the chainstate after a block is a parameter | an invariant with five phases of the exchange relating what is requested, pending, queued and in flight to a part of the main chain of the answering node; a measure of height still missing and steps to the next block |
| C82 | the two chains of keys of a wallet account with their usage state, what is stored of them, issuing, next unused, noticing outputs, topping up, reloading after an aborted transaction | invariant (indices below the limit are derived, stored and indexed), refinement to the pair of last used and last issued indices, induction over histories |
| C83 | The wallet's cache of transactions: states, spent outputs and the links from unconfirmed transactions to those that spend their outputs; adding, removing, forgetting the mempool, giving up, marking conflicts, reopening; the list of unspent outputs | An invariant that ties the tables to the transactions, kept by every event; the walk over descendants is shown to reach exactly what the links reach; the unspent outputs and the chain follow by comparing with the events |
| C84 | The orphan pool with its four indices and the swap-removals (`TxOrphanModel.v`), the policy for orphans, the queue of work, disconnections; asserts and index lookups are panics | Invariant "the indices describe the list" over all histories; each operation as a permutation of what was kept |
| C85 | The queue of work (`TxOrphanModel.v`), random order of rounds given | A bound on how often a peer may still be served before another, kept by every step; lexicographic measure for termination |
| C86 | The lock state of the store, its tables with secrets, the challenge, MaybeEncrypted, the operations with failing accesses to the database, restarts | Invariant: every secret that was put is stored under the key of the current passphrase, by induction on histories; reads, unlocking and changes of the passphrase follow |
| C87 | the synchronisation loop, the grouping of accounts by common block, the fetching and scanning of blocks, going back after a reorganisation, the promotion of the unused account, and the answers of the node; a world gives what each call sees and which writes fail | the accounts of a group stand on chains through the common block (uniqueness of the chain of an identifier); preserved by every scan; induction over groups and rounds; measure for the end |
| C88 | the scanner of the API server: balances, locked balances and unspent outputs of addresses in versions by height; unlocking by height and median time; taking back above a height; following the node | an invariant relating the tables to the outputs made and spent on the chain, kept by each step; equality of tables after reorganisation from "nothing changed below"; progress from bounds on sums; refutations by concrete chains |
| C89 | the whole of peers_eviction/mod.rs and the building of the list of candidates; sorting, the keyed hash and the random choices are parameters | one filter keeps all but the n greatest (Permutation and StronglySorted of any sorting function), so what it keeps has n others at least as great; the four in a row lose exactly the protected number; counting over groups |
| C90 | the peer database with its storage and every committed storage state; loading; selection of addresses | invariant over all calls (memory and storage agree), induction on the history against a specification that looks only at the list of calls |
| C91 | the two tables of addresses with their hashes as parameters; the states of addresses with failures and back-off; selection | the tables are shown to be partial maps from slots to addresses; counting slots; a specification of each call on addresses, tables and storage; induction on the history |
| C92 | the peer manager: all events, the heartbeat, the admission of connections, evictions, on top of the models of the peer database and of evictions; commands to the backend are recorded | an invariant of all executions; the admission by an exact characterisation of the validation |
| C93 | scores, discouragements, bans and disconnections in the model of the peer manager | invariants on banned peers and scores; the calls of the database by each event are traced and its bans follow from C90 |
| C94 | requests with numbers, answers and commands in the order in which they are sent | a ledger of asked, answered and waiting requests kept by every event |
| C95 | the pings, their responses and the exchange of address lists in the model of the peer manager (PeerManagerModel.v), with the cache of lists | every other event is shown to leave them alone; exact specifications of the rest; runs of events by induction |
| C96 | The per-peer transaction task: announcements, requests, responses, the table of requests with its purge, the rolling filter of C79, the delayed batch of announcements | Invariant over histories of turns (filter contents = what was mentioned, table = what waits, queue = what was relayed since); trace theorems from it |
| C97 | The set of unconfirmed local transactions of the sync manager and what it sends to the peer tasks and the peer manager | Induction over the history of events |
| C98 | BestTxsModel.v: the three phases of get_best_tx_ids_by_score_and_ancestry: the nearest chosen ancestors, the counts of missing ancestors with the ready heap, the loop that hands out | the map of nearest chosen ancestors is exact (induction on the depth, bounded by the size of the pool); the loop keeps: ready = chosen, not handed out, all nearest chosen ancestors handed out; the counts are the sizes of what is missing |
| C99 | CrawlerModel.v: the whole crawler with the states of addresses, and what the manager does to the dns server and the storage on its commands | invariant over all histories: the tables after the commands so far agree with the states; kept by each change of a state, sweep and ban |
| C100 | CrawlerModel.v (as C99) | what each handler says and which moves of the addresses it makes, by cases; histories by induction; two refutations by concrete histories |
| C101 | select_addresses as a function of the two random samples and the preferred number | counting over the partition of the served addresses |

## 4. Findings

Each is a proved theorem with suffix `_refuted`: a concrete input or history on which the unrestricted claim fails.
The positive theorem beside it carries the hypothesis which excludes exactly this.

| | theorem | what happens |
|-|---------|--------------|
| F1 | `C02_timelock_never_crashes_refuted` | `BlockHeight + BlockDistance` panics when the i64 sum overflows; a time lock with an extreme block count reaches it. |
| F2 | `C44_zeroes_compare_equal_refuted` | `Rational` comparison orders two zeroes with different denominators. |
| F3 | `C08_mint_beyond_signed_range_refuted` | Circulating supplies above 2^127 cannot be flushed although the mint was accepted. |
| F4 | (observation) | `merge_delta_data_element` drops the existing entry when it reports a mismatch. |
| F5 | `C15_delegating_to_missing_pool_accepted_refuted`, `C15_overspending_reported_as_done_refuted` | `delegate_staking` does not check the pool still exists; overspending inside a delta is only detected at flush. |
| F6 | `C11_refused_create_leaves_order_refuted` | A refused order creation (amount beyond i128) leaves the order's data in the cache. |
| F7 | `C01_parse_never_crashes_refuted` | A dot followed by 256 zeroes panics the decimal amount parser (u8 overflow). |
| F8 | `C01_zero_with_many_decimals_refuted` | Zero printed with 39 or more decimals is not read back. |
| F9 | `C20_unflagged_overwrite_refuted` | Adding an output with a wrong overwrite flag loses the spent mark. |
| F10 | `C22_empty_reward_inputs_refuted` | A reward with `Some([])` inputs connects but cannot be disconnected. |
| F11 | `C49_checks_hold_after_any_reset_refuted` | Resetting failure flags can leave a state the node's own consistency checker rejects. |
| F12 | `C49_checks_hold_at_every_crash_point_refuted (C49_stuck_block)` | A crash between commits leaves a block which is stored but never tried again. |
| F13 | `C49_limit_check_after_every_call_refuted` | The checker's assertion on the reorganisation limit can fail after an invalidation. |
| F14 | `C50_most_trust_at_every_commit_refuted` | Between the commits of one call the tip is not the most trusted known chain. |
| F15 | `C48_signed_sum_order_refuted` | The checked sum of signed amounts depends on the order of terms. |
| F16 | `C38_refused_add_keeps_pool_refuted`, `C38_zero_limit_crashes_refuted` | A refused duplicate can evict an orphan; a limit of zero crashes. |
| F17 | `C28_more_pledge_never_hurts_refuted`, `C28_defined_for_every_supply_refuted` | Effective balance decreases in the pledge above a point; not defined for every supply. |
| F18 | `C29_work_retarget_no_crash_refuted` | A work retarget panics when the first block of the period is later than the last. |
| F19 | `C33_two_parts_suffice_refuted` | The split into signature-only and timelock-only checks leaves HTLC secrets in neither. |
| F20 | `C43_reward_once_in_any_order_refuted`, `C43_records_below_always_found_refuted`, `C43_reconnecting_always_accepted_refuted` | Undo caches are only right under the discipline their callers follow. |
| F21 | `C56_undo_before_flush_refuted` | Within one unflushed verifier a transaction issuing an NFT cannot be disconnected. |
| F22 | `C60_any_first_input_refuted` | With the old token id rule and nonce-less order inputs two issuances can share an id (real networks activate both rules together). |
| F23 | `C62_removal_of_middle_keeps_totals_refuted` | `MempoolStore::remove_tx` with reason `Block` on a transaction whose parents are still in the pool leaves descendant totals counting transactions no longer linked. Only tests use this reason; the node rebuilds the pool on new blocks. |
| F24 | `C63_many_roots_children_first_refuted` | `dag_depth_postorder_multiroot` promises a postorder, but with related roots a parent comes before its child, and a repeated root is yielded twice. |
| F25 | `C62_huge_fee_is_refused_refuted` | A fee above `u128::MAX / 1000` makes the store panic in the score computation, although additions of fees are checked and have their own errors. The coin supply excludes such fees. |
| F26 | `C66_refused_addition_changes_nothing_refuted` | `DefaultTxAccumulator::add_tx` must leave the accumulator unchanged when it fails, says the trait; on an overflow of fees it has added the size already. |
| F27 | `C66_block_from_valid_pool_is_valid_refuted` | `collect_txs` goes on with the same verifier after it refused a transaction. A transaction refused late (its tokens were frozen by a better-paying one) has already delegated coins in that verifier; a withdrawal that needs these coins is then accepted and put in the block without the deposit. The block is invalid, and block production repeats this as long as the pool stays so. |
| F28 | `C69_no_panic_for_any_weights_refuted`, `C69_finds_a_fitting_selection_refuted` | `select_coins_srd` handles too heavy a draw wrongly: it removes the most valuable coins (the heap is a max-heap, the comment says least valuable), and the loop removes one more coin than it subtracts from the running total. A later draw can then "reach" the target while the coins kept do not, and `calculate_change` panics with "effective value is larger than target". Needs a wallet whose coins together exceed the size limit and differ in size. The same code can report `MaxWeightExceeded` although some coins fit and suffice. |
| F29 | `C70_fee_is_paid_with_surplus_coins_refuted`, `C70_unnamed_tokens_are_returned_refuted` | `select_inputs_for_send_request`: when the inputs already in the request bring more coins than it needs, the cost of the change output is counted in the fee shown but never taken from the change, so the transaction pays less than the fee shown and less than the requested rate. Tokens brought by such inputs and named by no output get no change output and are lost. The present callers always put out what these inputs bring. |
| F30 | `C74_rewards_apart_refuted`, `C73_tied_to_the_input_refuted` | `stream_signature_hash` puts nothing before a block reward or a transaction to tell which is meant (version and flags are simply missing for a reward), so the same bytes can be both; flags are free, so 16 of the bytes can be chosen. In the type covering all inputs the number of the signed input is not covered either (the code has a TODO about it), so one signature serves all inputs with the same key. |
| F31 | `C75_different_keys_refuted`, `C75_one_encoding_refuted`, `C75_no_panic_for_any_challenge_refuted` | `ClassicMultisigChallenge::is_valid` does not ask for different keys, so a "2 of 2" can be one signer (and keys that differ only in the sign of the point verify the same signatures, as only the x coordinate is used). `BTreeMap` is decoded from pairs in any order, also repeated ones, so the witness of a multisig can be rewritten by anyone, which changes the witness hash and the serialized hash of the transaction. `sign_classical_multisig_spending` takes the challenge twice and reaches `unreachable!` when the two differ. |
| F32 | `C54_corrupted_copy_is_harmless_refuted` | A block's id covers its header only. A copy of a block with the same header and a corrupted body fails `check_block` (for instance with a merkle root mismatch), and `process_block` then stores a block index with that id marked as failed. The genuine block is refused from then on with `InvalidBlockAlreadyProcessed`, until the failure flags are reset by hand. Blocks from peers pass `preliminary_block_check` before `process_block`, which records nothing, so only callers that submit blocks directly (the `submit_block` RPC) can do this. |
| F33 | `C77_anyone_can_be_the_spender_refuted` | The witness of a hashed timelock contract always carries a standard signature, and `verify_signature` refuses a signature for `AnyoneCanSpend`. A contract whose spend key or refund key is `AnyoneCanSpend` (or a script hash) cannot be spent that way, so with both keys like that the money is lost. No check prevents making such a contract. |
| F34 | `C78_received_as_sent_without_limit_refuted` | With no size limit (`MessageCodec::new(None)`) the length of a message is cut to 32 bits (`len() as u32`): a message of 2^32 bytes or more is sent with a wrong length and is received as other messages. The limit is set in all uses outside tests, so this is about the interface only. |
| F35 | `C81_whole_chain_after_reorganisation_refuted` | When the answering node leaves the branch of the best common block for one where a full list of headers is all known and ends with less chain trust, the asking node sends the same header request again and gets the same answer, for ever. The code's comment says this cannot happen as long as the limit on headers exceeds the depth of reorganisations; the theorem shows that the limit is what it depends on. |
| F36 | `C82_restored_in_another_order_refuted` | A wallet restored from the blocks (or rescanned after a reset) recognises what it is shown in the order of the blocks. If it first saw payments unconfirmed in another order, the keys beyond the lookahead that it had come to recognise may not be recognised again, and payments to them are missed. The lookahead is 20 by default. |
| F37 | `C82_payments_noticed_refuted` | `mark_output_as_seen` gives up at a destination `AnyoneCanSpend`. A hashed timelock contract whose spend key is `AnyoneCanSpend` and whose refund key is the wallet's own is not noticed, although `is_mine` holds of it. |
| F38 | `C82_unused_address_after_two_destinations_refuted` | Of an output with several destinations (a new stake pool with decommission and staking keys, a hashed timelock contract) only the first own key is marked as used. A restored wallet hands out the other, used, key as unused. |
| F39 | `C83_reopened_after_giving_up_refuted` | Once a transaction was given up and its input was spent by another that is confirmed, reopening the wallet loads the abandoned one last (`wallet_tx_order` puts unconfirmed after confirmed) and `update_inputs` overwrites the state of the consumed output with `Abandoned`. The spent output is listed and selected again, and the balance is too high. |
| F40 | `C83_unspent_after_double_spend_refuted` | When an unconfirmed transaction and one on the chain spend the same output (a wallet used on two machines; the TODO of issue 1875), giving up the unconfirmed one removes the output from the consumed ones although the chain spent it. |
| F41 | `C83_giving_up_after_child_refuted` | After a child was given up its parent cannot be: the link to the child is kept, and a descendant that is already abandoned is an error. The failed attempt leaves the parent abandoned in memory with its inputs still consumed and without its links (`C83_giving_up_after_child_example`). |
| F42 | `C83_picked_from_live_transaction_refuted` | `find_unspent_unlocked_utxo` does not look at the state of the transaction that makes the output: an output of an abandoned or conflicted transaction may be picked by the user, and the transaction made with it can never be valid. |
| F43 | `C83_stored_order_transitive_refuted` | `wallet_tx_order` is no total order (abandoned and conflicted ones compare equal to all unconfirmed). `sort_by` may leave children before parents, or panic, as the Rust versions since 1.81 are allowed to. |
| F44 | `C85_submission_after_disconnect_refuted` | `WorkQueue::remove_peer` leaves the peer in the scheduled list. If then something is queued for this peer, it is scheduled twice, and when its queue is used up the first time, the second time `assert!(!peer_queue.is_empty())` fails in the mempool's thread. Nothing excludes it: the p2p layer tells the mempool of the disconnection before the peer's own task is stopped (`sync/mod.rs` 509-511), and after a reorganisation transactions of peers that have left are added again with their old origin (`tx_pool/reorg.rs` 193-199). |
| F45 | `C85_nothing_handed_out_means_none_left_refuted` | `WorkQueue::pick` is documented to return `None` when there is no work left, but does so too when all the items of the one peer it looks at are dismissed. Harmless with the present caller, which asks `has_work` again. |
| F46 | `C84_full_only_when_full_refuted` | Submitting an orphan again that is older than 50 seconds is answered with `OrphanPoolError::Full`, however empty the pool is, and removes it. |
| F47 | `C86_any_passphrase_without_root_key_refuted` | unlocking checks the passphrase against the root keys only, and the file of a hardware wallet has none: every passphrase is accepted. Reading a private key the user added then panics (`key was checked when unlocked`), and a key added now is encrypted under the wrong passphrase, so that reading it panics once the wallet is opened with the right one |
| F48 | `C87_out_of_step_panics_refuted` | When the wallet stops between the scans of two accounts and the node has no newer block, one account is at the tip and another is not; `get_common_block_info` asserts that no account is at the tip, so every synchronisation panics until a new block arrives. |
| F49 | `C87_abandoned_branch_stuck_refuted` | Accounts at different blocks of an abandoned branch have the same common block with the main chain; the wallet then asks for zero blocks, takes the empty answer for an error, and never synchronises again without a rescan. |
| F50 | `C87_two_reorgs_refuted` | While accounts at different blocks are brought together, only the first block of each answer is checked against the common block computed before; if the node changes its branch and comes back in between, an account keeps blocks of the other branch although it is at the tip. |
| F51 | `C87_locked_wallet_misses_refuted` | A locked wallet commits the scan of the unused account, then cannot promote it; the next synchronisation goes on as if nothing had happened, so accounts found while the wallet was locked are not shown, and later ones are never scanned for. |
| F52 | `C88_spent_reward_refuted` | The scanner of the API server does not lower the balance of an address when an output of a block reward or of genesis is spent: the balance shown stays too high for ever (`C88_balance` gives the exact error). |
| F53 | `C88_locked_reward_refuted`, `C88_locked_reward_listed_refuted` | Locked outputs of block rewards and genesis are shown as balance and listed among the spendable outputs at once. |
| F54 | `C88_unlocked_token_refuted` | When the lock of an output holding an NFT ends, the scanner sets the new owner and then, lowering the locked balance to zero, removes it: the NFT is shown without an owner. |
| F55 | `C88_token_owner_removed_refuted` | Anyone can remove the owner shown for an NFT by an output with amount zero of that token. |
| F56 | `C88_keeps_scanning_refuted` | A lock for `u64::MAX` blocks or seconds is valid on the chain, but the scanner adds it to the height or time with `expect`: one such output stops the API server for good. |
| F57 | `C88_catches_up_refuted` | After a reorganisation to a shorter chain with more work the scanner refuses to synchronise (`NotEnoughBlockHeight`), and shows the abandoned chain until the new one is as long. |
| F58 | `C90_longest_ban_refuted` | A ban is overwritten by a later one of the same ip, also by a shorter one: banning for a week and then for a minute bans for a minute. |
| F59 | `C90_reserved_not_selected_refuted` | A reserved node whose ip is banned is still chosen for connecting, time and again, and `try_connect` lets it pass, but the peer manager rejects every such connection after the handshake. |
| F60 | `C91_bounded_refuted` | Across restarts the number of known addresses is not bounded by the tables: an address pushed out of its slot by a boot node at a start stays known and in the storage, in no table; the comment expects that this resolves by itself, but nothing ever removes it. |
| F61 | `C91_available_refuted` | The address of a node that is no longer reserved stays known but is in no table: it is never chosen for connecting, never forgotten, and discovering it again changes nothing until a restart. |
| F62 | `C91_connected_known_refuted` | The address of a peer that is connected can be forgotten: later connections push it from "tried" to "new" and out. When the peer disconnects the database gets a transition it does not expect (a debug panic). |
| F63 | `C94_no_vain_call_refuted` | A reserved node whose ip is banned is dialled again and again, but every connection to it is refused when it is accepted: `try_connect` exempts reserved nodes from bans, `validate_connection` does not. |
| F64 | `C93_trusted_stay_refuted` | A peer that the user connected to (or reserved) is disconnected when another peer with the same ip misbehaves: discouraging an ip disconnects all of its peers, trusted ones included. |
| F65 | `C95_never_banned_refuted` | A list of addresses that was made for one peer is told to others for about an hour, also when the ip of one of its addresses was banned or discouraged in the meantime. |
| F66 | `C96_never_told_back_refuted` | A transaction that waits to be announced to a peer is announced even if the peer announces it first: `announce_transactions` does not look at `known_transactions` again. |
| F67 | `C100_forgotten_in_time_refuted`, `C100_given_up_for_good` | `AddressData::retain` of the dns crawler compares the wrong way round (`erase_after >= now => false`). An address that was never reached is forgotten at the next heartbeat instead of being remembered as bad for an hour. An address that was given up and is still there when its time is over, such as one that failed 35 times after it had been reached, is never forgotten and never called again until a restart |
| F68 | `C100_misbehaviour_survived_refuted` | the dns crawler panics when a peer over the ban threshold is reported again before its connection is closed: `disconnect_all` asks for a second transition to `Disconnecting`, which `transition_to` asserts against. The same happens when another connection of the same host is already being closed |

Smaller observations, not stated as theorems: leftover tokens count as "fee" in the accumulator but only coins are credited;
`RewardVersion` V0 refuses rewards whose product with the margin overflows u128; `PerThousand` accepts `5%%` and refuses
`5% `; the sign conventions of the undo of a database merge and of a delta differ; `insert_tx_undo` reports
`UndoAlreadyExists` also on erased entries; an emission period "starting at height h" applies to block h+1;
`height_range` leaves out u64::MAX; the checkpoint comparison against lower checkpoints is redundant; the balance of a
decommissioned pool in the accounting can grow without bound by delegating and withdrawing (hence the hypothesis on the
coins ever delegated in `in_range`); genesis adds every output, even of kinds that cannot be spent, to the utxo set.

## 5. Assumptions per theorem

The build prints `Print Assumptions` below every property theorem and below every `_refuted` and `_partial` one. The answer
is `Closed under the global context` for all of them without exception: no axiom, no section hypothesis, no parameter.
(std++ loads `Coq.ssr.ssrunder`, whose module declares opaque constants; no theorem depends on them.)

What the statements assume is therefore visible in them as hypotheses. Those that recur:

* `no_collision`, `ids_distinct`, `token_ids_distinct` (SupplySpec): different
  contents have different ids; hashes are parameters.
* `in_range`: the coins that can exist and the coins ever delegated stay below 2^127 (the signed balance type).
* `sorted`/`fine` conditions on configurations, met by the real ones; an `Example` beside each theorem gives a concrete
  case which meets all of its hypotheses together.

## 6. What is modelled and what is not

| crate | modelled (model file) | not modelled |
|-------|-----------------------|--------------|
| common/primitives | Amount, SignedAmount, DecimalAmount, BlockHeight/Distance, Rational, Compact, PerThousand (Amount, AmountExtra, Text, Prim) | bech32, encoding, `Id` hashing, time, version |
| common/uint | all of `construct_uint!`, endian (Uint) | printing |
| common/chain | emission schedule, net upgrades, outputs, inputs, timelocks, ids as parameters, checkpoints (Schedule, Chain, Chainstate) | chain presets' constants except mainnet emission, genesis contents |
| accounting, tokens-, orders-, pos-accounting | all of delta, cache, undo, flush, db (Delta, DeltaDb, Layered, Tokens, Orders, Pos) | storage errors, logging, RPC data |
| utxo | cache, entries, undo, db (Utxo) | storage errors, memory accounting |
| chainstate/constraints-value-accumulator | all (Constraints) | error payloads |
| chainstate/tx-verifier | verifier, undo caches, nonces, token issuance cache, rewards, io policy, input checks (Verifier, UndoCache, Nonce, Reward, Script) | randomness seed, sealed epoch deltas, signature cryptography |
| mintscript | scripts, verification, translation, timelock checker (Script) | signature checking (parameter) |
| chainstate | block tree, ancestors, candidates, reorg, invalidation, reset, consistency checker, orphans, median time, default verification strategy (BlockTree, Chainstate, Orphan, Verifier) | RPC, events, bootstrap import, block/header syntax checks (parameters) |
| consensus | effective balance, hash check, PoS and PoW targets, block time search (Consensus) | VRF, kernel fetching, block production |
| mempool/src/pool/tx_pool/store/mod.rs, entry.rs (dependencies), feerate.rs, utils/src/graph_traversals.rs | MempoolModel | memory accounting (`Tracked*`, `shrink_capacity_if_needed`), validity self-checks, options and origins of entries |
| mempool/src/pool/tx_pool/collect_txs.rs (`collect_txs`), mempool/src/tx_accumulator/mod.rs | TemplateModel | `verify_timelocks` and the verifier are parameters; `get_best_tx_ids_by_score_and_ancestry` |
| chainstate/tx-verifier/src/transaction_verifier/mod.rs `connect_transaction` with what a refusal leaves behind | VerifierKeep | entries only read into the nonce and issuance caches |
| wallet/src/account/utxo_selector/mod.rs, output_group.rs | CoinSelectModel | building of groups from outputs (`OutputGroup::new`); `usize` sums of weights are unbounded |
| wallet/src/account/mod.rs 231-639, 2723-3042, currency_grouper/mod.rs; mempool/src/pool/feerate.rs; common/src/size_estimation/mod.rs 244-280 | SendModel | which outputs are offered, encoded sizes of inputs, signatures and outputs (parameters), keys for change addresses; maps by currency are in order of appearance |
| encodings (`Encode`/`Decode`) of common/src/chain/transaction, common/src/chain/block, common/src/chain/tokens, common/src/chain/order, crypto keys and signatures, serialization/src/extras/non_empty_vec.rs, serialization/tagged/src/lib.rs | CodecModel, WireModel | validity of curve points (parameters); the codec crate itself is not in the repository: its rules for compact integers, vectors, options and enums are modelled from its documentation; limits on nesting and memory while decoding |
| common/src/chain/transaction/signature/sighash, common/src/chain/transaction/signature/inputsig/arbitrary_message (challenge) | SighashModel | errors of the providers of utxos, pools and orders; the streaming interface of the hash function |
| common/src/chain/transaction/signature/mod.rs (`verify_signature`), inputsig (standard, pubkey, pubkeyhash, classical multisig, texts), common/src/chain/transaction/output/classic_multisig.rs, common/src/address/pubkeyhash.rs | AuthModel | the signature scheme (parameter, assumed correct in the theorems about signing) |
| inputsig/htlc.rs, authorize_hashed_timelock_contract_spend.rs, classical_multisig/encode_decode_multisig_spend.rs, mintscript/src/translate.rs (HTLC case, on bytes) | HtlcModel | the hash function of secrets (parameter) |
| networking/src/transport/message_codec.rs, message_stream.rs | FrameModel | socket errors, timeouts of writes, encryption (noise), the proxy |
| utils/src/bloom_filters | BloomModel | how positions are hashed and how many bits there are (parameters); rates of false positives |
| chainstate/src/detail/query.rs (locators, headers), chainstate_interface_impl.rs split_off_leading_known_headers | SyncModel | storage errors; queries about tokens and orders |
| p2p/src/sync/peer/block_manager.rs, p2p/src/sync/peer_common/mod.rs (choice of the best common block) | DownloadModel.v | announcements of new tips, timeouts, the initial block download mode, waiting for clocks, checks of headers and blocks other than the parent, requests in the other direction on the same connection |
| wallet/src/key_chain/{leaf_key_chain,account_key_chain}/mod.rs, wallet/types/src/keys.rs, wallet/src/account/mod.rs 1946-2104 | KeyChainModel.v | the VRF key chain, standalone and watched keys, labels, errors of the database; a transaction that is dropped without the keys being read back |
| wallet/src/account/output_cache/mod.rs, wallet/types/src/wallet_tx.rs, utxo_types.rs | OutputCacheModel.v (C83) | Account inputs (nonces), the states of pools, delegations, tokens and orders kept beside; how conflicting transactions are found; the sort of the stored transactions (given by its result); the content of outputs (a filter) |
| mempool/src/pool/orphans/mod.rs, pool/mod.rs 238-247, 373-443, 617-750 | TxOrphanModel.v | What the pool of valid transactions says of a transaction is given, as are sizes, nonce gaps and conflicts; the events broadcast; the initial block download, during which the pool is empty |
| mempool/src/pool/work_queue/mod.rs | TxOrphanModel.v | The order of a round is any permutation |
| wallet/storage/src/internal/{mod.rs,password.rs,store_tx.rs}, utils/src/maybe_encrypted.rs, crypto/src/symkey | VaultModel.v | Argon2id, XChaCha20Poly1305 and the encodings of the secrets are parameters; randomness is an input; an attempt to unlock is taken not to hit a key that opens what another key sealed; commits are atomic; hardware wallets (no root key in the file) are covered by the refuted theorem only |
| wallet/wallet-controller/src/sync/mod.rs, wallet/src/account/mod.rs 2191-2224 and 2301-2360, wallet/src/wallet/mod.rs 1128-1179 and 2691-2754 | WalletSyncModel.v | the median time, events, which transactions of a block concern an account (a parameter), half changed accounts in memory after a failed scan |
| api-server/scanner-lib/src/blockchain_state/mod.rs, sync/mod.rs; api-server-common/src/storage/impls/in_memory/mod.rs | ScannerModel.v | fees, pools, delegations, orders, statistics, transaction lists, Postgres, failing database calls |
| p2p/src/peer_manager/peers_eviction/mod.rs, peer_manager/mod.rs 944-1027 | EvictionModel.v | the hash of address groups itself; the sending of the disconnection |
| p2p/src/peer_manager/peerdb/mod.rs, address_data/mod.rs, storage_load.rs, storage_impl.rs (`PeerDb`) | PeerDbModel.v | the salt is part of the hashes; the random factor, samples and coins are parameters; storage transactions succeed or panic; loading goes through addresses in the order of the finite maps; text of addresses |
| p2p/src/peer_manager/peerdb/address_tables/table.rs, mod.rs (`Table`, `AddressTables`) | PeerTableModel.v | the hash function (a parameter) |
| p2p/src/peer_manager/mod.rs, addr_list_response_cache.rs | PeerManagerModel.v | own address, relay of announced addresses, dns itself, timers of the main loop, peer context statistics |
| p2p/src/peer_manager/mod.rs | PeerManagerModel.v | where the scores of errors come from (error.rs), except for handshakes and address lists |
| p2p/src/peer_manager/mod.rs | PeerManagerModel.v | loss of the channel to the backend |
| p2p/src/peer_manager/mod.rs (ping_check, handle_ping_*, handle_addr_list_*), addr_list_response_cache.rs | PeerManagerModel.v | the hash that makes the key of the cache; the rate limiter of announcements (its verdict is an input); forwarding of announced addresses |
| p2p/src/sync/peer/transaction_manager.rs, requested_transactions.rs, peer_common/known_transactions.rs | TxRelayModel.v | closed channels, subsystem failures, the sorting algorithm of the mempool (an arbitrary order) |
| p2p/src/sync/mod.rs (transaction events) | TxRelayModel.v | debug builds panic on a remote duplicate; the release build is modelled |
| mempool/src/pool/tx_pool/collect_txs.rs 55-61, 262-440 | BestTxsModel.v | how scores are computed, the block assembly in collect_txs |
| dns-server/src/crawler_p2p/crawler/mod.rs, address_data.rs; crawler_manager/mod.rs 360-487; dns_server/mod.rs 420-445 | CrawlerModel.v | rate limiter, compatibility check, error scores and the random sample are parts of the events; overflow of counters and times; the dns protocol itself |
| dns-server/src/crawler_p2p/crawler/mod.rs, address_data.rs (C100) | CrawlerModel.v | as C99 |
| dns-server/src/dns_server/mod.rs select_addresses | DnsAnswerModel.v | floating point: the preferred number is computed exactly (C101_answer holds for any preferred number); the random generator (any sampler); the rest of the dns protocol |
| the rest of wallet, p2p, the rest of mempool, rpc, node, GUI, storage back ends, crypto | - | everything not listed above |
