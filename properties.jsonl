{"id": "C01", "title": "Unit conversions lose nothing", "statement": "Converting an amount between its on-chain unit and the normalized unit (or between lovelace and ADA, wei and ether, micro-algo and algo) and back yields a numerically equal amount, and the conversion multiplies by exactly the advertised power of ten.", "quantifier": "all amounts (any digits, any scale, any sign), all token rules (main and side chain precision) and all native units", "why_tests_cant": "amounts are unbounded decimals; tests sample a handful of values", "anchors": ["core/src/value.rs: Value::normalize_from_mainchain, normalize_from_sidechain, from_normalized_to_mainchain, from_normalized_to_sidechain, normalize, from_normalized, to_ada, to_lovelace, to_ether, to_wei, to_algo, to_micro_algo, scale"]}
{"id": "C02", "title": "Unit conversions respect comparison and arithmetic", "statement": "a < b (a = b) before a conversion exactly when the converted amounts compare the same way, and converting a sum or difference gives the sum or difference of the conversions.", "quantifier": "all pairs of amounts, all supported unit conversions", "why_tests_cant": "needs every pair of unbounded decimals with different scales", "anchors": ["core/src/value.rs: Value, Add, Sub, Ord, scale"]}
{"id": "C03", "title": "Parsing an amount enforces the unit's rules", "statement": "Parsing text as an amount succeeds only with a non-negative number with at most the unit's number of decimals, and a valid amount that is printed and parsed again gives back a numerically equal amount. Other text is rejected with the matching error.", "quantifier": "all texts, all units, all amounts", "why_tests_cant": "infinitely many texts and amounts", "anchors": ["core/src/value.rs: FromStr for Value<Rep>, Display for Value, Serialize, Deserialize"]}
{"id": "C04", "title": "Truncation is rounding down", "statement": "truncate returns the largest whole number that is not above the amount, leaves whole numbers alone, and is idempotent.", "quantifier": "all non-negative amounts (and, as the failing case, all negative ones)", "why_tests_cant": "depends on the printed form of arbitrarily long decimals", "anchors": ["core/src/value.rs: Value::truncate"]}
{"id": "C05", "title": "A balance is the exact signed total of what was credited and debited", "statement": "After any sequence of credits and debits of non-negative amounts starting from zero, the balance is in excess by exactly the total when the signed total is positive, in debt by exactly its opposite when negative, and balanced when zero. Hence it does not depend on the order of the operations and is never 'excess of 0' or 'debt of 0'.", "quantifier": "all finite sequences of credits and debits of non-negative amounts", "why_tests_cant": "all sequences of any length", "anchors": ["core/src/balance.rs: Balance, Add, Sub, AddAssign, SubAssign, in_debt, balanced, in_excess"]}
{"id": "C06", "title": "Adding two balances adds their signed totals", "statement": "The sum of two balances represents the sum of the two signed totals, whichever the operand order, and stays in normal form when both operands are in normal form.", "quantifier": "all pairs of balances", "why_tests_cant": "all pairs of unbounded amounts", "anchors": ["core/src/balance.rs: impl Add for Balance"]}
{"id": "C07", "title": "Counters never wrap silently", "statement": "The checked operations on block numbers, slots, output indexes and timestamps return the exact sum when it fits in 64 bits and nothing otherwise; the saturating operations return the exact result clamped to the 64-bit range; both are monotone.", "quantifier": "all 64-bit counters and all 64-bit increments", "why_tests_cant": "2^128 argument pairs", "anchors": ["core/src/block_number.rs: BlockNumber::checked_next, checked_add, saturating_next, saturating_add, saturating_sub", "core/src/slot_number.rs: SlotNumber", "core/src/output_index.rs: OutputIndex", "core/src/timestamp.rs: Timestamp"]}
{"id": "C08", "title": "The UTxO store holds exactly the inserted, not yet removed outputs", "statement": "After any history of inserts and removes, get/contains/len/is_empty/iter report exactly the outputs inserted and not removed since, with their original details; inserting a present pointer and removing an absent one fail and change nothing.", "quantifier": "all finite histories of insert/remove, including failing ones, over all outputs", "why_tests_cant": "unbounded histories", "anchors": ["core/src/utxo_store.rs: UTxOStoreMut::insert, remove, UTxOStore::get, contains, len, is_empty, iter"]}
{"id": "C09", "title": "Token balances are the sum over the unspent outputs", "statement": "After any history, the main balance is the sum of the values of the outputs in the store and the balance reported for a token is the sum of the quantities of that token in these outputs; a token without outputs has no balance. It needs each output to list a token at most once.", "quantifier": "all histories over outputs listing each token at most once; the claim fails for outputs listing a token twice", "why_tests_cant": "a drift can take an arbitrary history to show", "anchors": ["core/src/utxo_store.rs: UTxOStore::get_balance_of, UTxOStoreMut::token_balance, balance, insert, remove"]}
{"id": "C10", "title": "Per-token listings are exact and sorted", "statement": "For every token, iter_token, the two ordered iterators and number_utxos_for_token list exactly the stored outputs holding that token, each once, in ascending (descending) order of the quantity of the token; iter_ordered_by_wmain lists all outputs in ascending value order.", "quantifier": "all histories over outputs listing each token at most once, all tokens", "why_tests_cant": "unbounded histories and every tie pattern", "anchors": ["core/src/utxo_store.rs: iter_token, iter_token_ordered_by_value, iter_token_ordered_by_value_rev, iter_ordered_by_wmain, number_utxos_for_token"]}
{"id": "C11", "title": "The store's observable state does not depend on the history", "statement": "Two histories that leave the same set of unspent outputs leave stores that answer get, contains, len, balances, counts, token presence and listings identically (listings as sets per value); an insert followed by the removal of the same output restores all these answers.", "quantifier": "all pairs of histories with the same resulting set", "why_tests_cant": "quantifies over pairs of unbounded histories", "anchors": ["core/src/utxo_store.rs: UTxOStore, UTxOStoreMut"]}
{"id": "C12", "title": "A record is read back byte for byte under its sequence number", "statement": "Appending a batch of non-empty records gives the first one the sequence number equal to the number of records stored before and the others the following ones, and reading a sequence number returns exactly the bytes appended under it.", "quantifier": "all histories of appended batches, all record contents and sizes, all sequence numbers below 2^60", "why_tests_cant": "sizes cross mapping boundaries at arbitrary places", "anchors": ["fraos/src/database.rs: Database::append_get_seqno, append, put, put_seqno, get_by_seqno, len, last", "fraos/src/seqno.rs: SeqNoIndex", "fraos/src/flatfile.rs: FlatFile", "fraos/src/growable_mmap.rs: GrowableMmap"]}
{"id": "C13", "title": "The log is append-only", "statement": "A record that can be read before an append can be read unchanged after any later appends, and the number of records never decreases.", "quantifier": "all histories and all their extensions", "why_tests_cant": "unbounded histories", "anchors": ["fraos/src/database.rs: Database::append_get_seqno, get_by_seqno, len"]}
{"id": "C14", "title": "Iteration yields the records in order, once each", "statement": "iter_from_seqno(n) yields exactly the records n, n+1, … to the last one and then ends; nothing if n is past the end; last() is the final record.", "quantifier": "all logs and all start numbers", "why_tests_cant": "unbounded logs", "anchors": ["fraos/src/database.rs: iter_from_seqno, last", "fraos/src/seqno_iter.rs: SeqNoIter::next"]}
{"id": "C15", "title": "Closing and reopening keeps the log", "statement": "Reopening the files of a database that was closed normally gives a database with the same records under the same numbers, on which appends continue the numbering; sizes on disk are exactly what was written.", "quantifier": "all histories mixing appends, closes and reopens", "why_tests_cant": "the preallocated tail and trimming interact with all sizes", "anchors": ["fraos/src/database.rs: Database::new, Drop", "fraos/src/growable_mmap.rs: GrowableMmap::new, shrink_to_size", "fraos/src/seqno.rs: SeqNoIndex::new"]}
{"id": "C16", "title": "A process crash in the middle of an append loses at most the batch being appended", "statement": "If the process dies at any point of an append, reopening the files succeeds and gives all the earlier records followed by a prefix of the batch being appended, every one byte for byte.", "quantifier": "all histories, all crash points inside an append (data growth, data write, index growth, index write), all batch sizes", "why_tests_cant": "crash points cannot be enumerated by unit tests", "anchors": ["fraos/src/database.rs: append_get_seqno, Database::new", "fraos/src/seqno.rs: SeqNoIndex::new, find_actual_end", "fraos/src/growable_mmap.rs: grow_and_apply"]}
{"id": "C17", "title": "Concurrent readers never see a half-written record", "statement": "While one writer appends, a reader that reads any sequence number at any moment gets either nothing or the complete final bytes of that record; once it got the record it never again gets nothing or anything else.", "quantifier": "all interleavings of the writer's and any number of readers' steps, all batches", "why_tests_cant": "interleavings", "anchors": ["fraos/src/database.rs: append_get_seqno, get_by_seqno", "fraos/src/appender.rs: Appender::append, get_data"]}
{"id": "C18", "title": "A sequence number past the end reads as nothing", "statement": "Reading a sequence number greater or equal to the number of records returns nothing, whatever the number.", "quantifier": "all 64-bit sequence numbers (fails for numbers of at least 2^60 when the multiplication by 16 wraps)", "why_tests_cant": "2^64 arguments", "anchors": ["fraos/src/seqno.rs: get_offset_and_length", "fraos/src/database.rs: get_by_seqno"]}
{"id": "C19", "title": "Finding the end of a crash-padded index is exact and terminates", "statement": "The search for the last used entry always ends, never reports damage, and on an index whose unused entries are the zero tail returns exactly the number of used entries, reading a logarithmic number of entries.", "quantifier": "all index contents of any size", "why_tests_cant": "binary search over all contents", "anchors": ["fraos/src/seqno.rs: find_actual_end"]}
{"id": "C20", "title": "Invalid appends are refused and change nothing", "statement": "Appending an empty batch does nothing and returns no number; a batch containing an empty record is refused and every later read and append behaves as if it had not been attempted.", "quantifier": "all histories and batches", "why_tests_cant": "needs all later behaviour", "anchors": ["fraos/src/database.rs: append_get_seqno", "fraos/src/seqno.rs: SeqNoIndex::append", "fraos/src/flatfile.rs: append"]}
{"id": "C21", "title": "A failed append does not corrupt later records", "statement": "If an append reports an I/O error, records appended successfully afterwards are still read back exactly. (Expected; the code violates it when the error comes from the flush of the mapping or from remapping the full ones; when it comes from write-protecting a full mapping, records appended before can no longer be read until the files are opened again.) Whichever calls fail, closing the log and opening it again gives the records stored before the append, with or without the whole batch, and with it if the append succeeded. The same holds for a history with any number of such failures, each followed by closing and opening: later batches are appended to the records kept. An append to a log in memory that gets no memory reports it and stores nothing.", "quantifier": "all histories with I/O failures at any step", "why_tests_cant": "fault injection at every step", "anchors": ["fraos/src/growable_mmap.rs: grow_and_apply", "fraos/src/appender.rs: Appender::append", "fraos/src/database.rs: append_get_seqno"]}
{"id": "C22", "title": "Dropping one handle of a database does not affect the others", "statement": "A Database can be cloned; when one clone is dropped the others keep appending and reading correctly and the data survive a reopen. (Expected; the drop of a clone trims the files under the other's active mapping.) What holds: reads through the others are unchanged, a log in memory and the log opened afterwards are not affected, and an append works when nothing was appended since the log was opened; otherwise, while less than one mapping was appended since then, every append through another handle writes past the end of the file.", "quantifier": "all histories of clone/append/drop", "why_tests_cant": "lifetime interleavings", "anchors": ["fraos/src/database.rs: Drop for Database, Clone"]}
{"id": "C23", "title": "How the data are split into mappings is invisible", "statement": "Whatever sequence of growth sizes produced the current mappings, and whether or not they were consolidated, reading at an offset gives the same bytes as reading the file at that offset; the mapping lookup finds the mapping that contains the offset exactly when the offset is below the end.", "quantifier": "all sequences of append sizes, all offsets", "why_tests_cant": "boundary arithmetic over all sizes", "anchors": ["fraos/src/index_on_mmaps.rs: IndexOnMmaps::append, find, MmapChunkAddressMapper::find, append_relative_end, append_global_end", "fraos/src/growable_mmap.rs: get_ref_and_apply, rearrange_mmaps", "fraos/src/shared_mmap.rs: SharedMmap::slice"]}
{"id": "C24", "title": "The indexed log map returns the latest value of a key and the full history", "statement": "After any sequence of appends, get(k) is the last value appended for k (nothing if none), contains(k) and is_empty agree with it, iter yields all values in append order, last is the final one and get_next(k) the one appended just after the latest value of k (the first one for no key). Appends may fail, because a file cannot be extended or mapped or because the key index refuses the key: the append reports it, get answers as if it had not been made, and the map stays usable; only a value whose key was refused is among the iterated ones. This also holds for failures of any other system call under the log if the map is closed and opened after each, except that the value may then be among the iterated ones; if it is not opened again, a later append of another key can be answered with the failed value.", "quantifier": "all append sequences, all keys, all failures of system calls under the log (those after the record is stored with the map opened again), all refusals of the key index", "why_tests_cant": "unbounded histories with repeated keys", "anchors": ["indexed-log-map/src/storage.rs: IndexedLogMap::append, get, contains, is_empty, iter, iter_from, last, get_next"]}
{"id": "C25", "title": "A crash during an append to the indexed log map never yields a wrong answer", "statement": "After a crash at any point of an append and a reopen, get returns for every key the last fully appended value or the one being appended, and iter yields the previous values with possibly the one being appended at the end.", "quantifier": "all histories and crash points", "why_tests_cant": "crash points", "anchors": ["indexed-log-map/src/storage.rs: append, get, iter"]}
{"id": "C26", "title": "Concurrent appends to the indexed log map keep get consistent with the log", "statement": "Under concurrent appends every value returned by get for k is a value appended for k; when the keys of the concurrent appends differ, get returns the latest in log order. (With equal keys the index can stay on an older value: the code violates 'latest'.) If the process dies while several threads append, the map opens again with every value written to the log, in order, with or without the one being written; a key is answered with a value appended for it or not at all, and as just before the death if the key index lost nothing.", "quantifier": "all interleavings of appenders, all points at which the process dies, any number of newest keys lost", "why_tests_cant": "interleavings", "anchors": ["indexed-log-map/src/storage.rs: append, get"]}
{"id": "C27", "title": "Stored blocks sort by block number", "statement": "The storage key of a block determines its number and identifier, and keys compare in byte order exactly as (block number, identifier bytes).", "quantifier": "all block numbers and identifiers", "why_tests_cant": "all byte strings", "anchors": ["multiverse/src/lib.rs: mk_sled_key"]}
{"id": "C28", "title": "The block store is a map from identifiers to blocks", "statement": "After any history of inserts and removes of blocks (an identifier always denoting the same block) get, contains, len and is_empty agree with the set of blocks inserted and not removed; re-inserting a block changes nothing; removing an absent one fails and changes nothing; no operation panics.", "quantifier": "all histories in which an identifier denotes one block", "why_tests_cant": "unbounded histories with forks", "anchors": ["multiverse/src/lib.rs: Multiverse::insert, remove, get, contains, len, is_empty"]}
{"id": "C29", "title": "Tips are the blocks without a stored child", "statement": "The tips are exactly the stored blocks that are not the parent of a stored block inserted after them, and a non-empty store has a tip.", "quantifier": "all histories in which blocks arrive after their parent or without it", "why_tests_cant": "fork shapes of any size", "anchors": ["multiverse/src/lib.rs: Multiverse::tips, insert, remove"]}
{"id": "C30", "title": "Ancestor lookups follow parent links", "statement": "The n-th ancestor of a stored block is obtained by following n parent links, and is nothing if the chain of stored parents is shorter.", "quantifier": "all histories, blocks and depths", "why_tests_cant": "unbounded depth", "anchors": ["multiverse/src/lib.rs: Multiverse::ancestor"]}
{"id": "C31", "title": "The confirmed block is the depth-th ancestor of a highest block, and only older blocks are discarded", "statement": "select_best_block returns the depth-th ancestor of a stored block of the greatest number (nothing if the chain is too short) and reports for discard exactly the stored blocks whose number is below its number minus the age gap; it never discards the selected block or a block above it.", "quantifier": "all histories, depths, age gaps and hash orders", "why_tests_cant": "hash iteration order and fork shapes", "anchors": ["multiverse/src/lib.rs: select_best_block_longest_chain, select_best_block, BestBlock"]}
{"id": "C32", "title": "Reopening the block store gives the same store", "statement": "When block numbers increase along parent links and the store keeps from block 0, reopening after any parent-first history gives the same blocks, tips and ancestors.", "quantifier": "all parent-first histories", "why_tests_cant": "all tree shapes and insertion orders", "anchors": ["multiverse/src/lib.rs: Multiverse::load_from, open, insert, db_insert, mk_sled_key"]}
{"id": "C33", "title": "Depth-ordered iteration goes up by block number and is complete exactly without forks", "statement": "After any history, iter yields stored blocks in strictly ascending block number, one for every number in use, whatever the hash order; so it yields every stored block (once) exactly when no two stored blocks have the same number. (Expected: every stored block also with forks. The code violates that: the iterator keeps only one block of each number.)", "quantifier": "all histories and hash orders", "why_tests_cant": "fork shapes", "anchors": ["multiverse/src/visitor/depth_ordered.rs: DepthOrderedIterator::next", "multiverse/src/lib.rs: Multiverse::iter"]}
{"id": "C34", "title": "The confirming source delivers each confirmed block once, in chain order", "statement": "Fed with a chain, the confirming source delivers its blocks in order without gap or repetition, each only when depth blocks follow it, and its delivered sequence is always a prefix of the chain; forks shallower than the depth do not show.", "quantifier": "all chains, depths, pull schedules and tip events in between", "why_tests_cant": "unbounded streams", "anchors": ["blockchain-source/src/multiverse/mod.rs: MultiverseSource::new, pull, multiverse_insert_and_gc"]}
{"id": "C35", "title": "The fork-handling source lets the consumer follow every fork switch", "statement": "A consumer that applies the delivered events (append the block, or cut back to the rollback point) always holds, once the queued events are consumed, exactly a parent-linked chain that ends in the block last received, provided the fork point is still stored. This stays so over any number of restarts of the process, if each is at a moment at which no event is queued and the block received last is higher than every other block received.", "quantifier": "all block arrival orders with stored fork points, all placements of restarts at such moments", "why_tests_cant": "unbounded streams with forks", "anchors": ["blockchain-source/src/multiverse/rollback.rs: ForkHandlingSource::pull"]}
{"id": "C36", "title": "The confirmed block stays in the store", "statement": "Collecting old blocks never removes the confirmed block, so the sources' lookup of it always succeeds.", "quantifier": "all streams", "why_tests_cant": "unbounded streams", "anchors": ["blockchain-source/src/multiverse/mod.rs: multiverse_insert_and_gc", "blockchain-source/src/multiverse/rollback.rs: pull"]}
{"id": "C37", "title": "Slots, epochs and timestamps convert consistently", "statement": "For every era and slot at or after its first slot, the slot is the first slot plus the whole epochs elapsed plus the slot in the epoch, which is below the epoch length; epochs and timestamps are monotone, timestamps injective; slots before the era are refused by the epoch functions; the known eras start where the Byron epochs end.", "quantifier": "all eras with positive lengths and all 64-bit slots", "why_tests_cant": "2^64 slots per era", "anchors": ["blockchain-source/src/cardano/time.rs: compute_timestamp, absolute_slot_to_epoch, absolute_slot_to_relative, epoch_slot_to_absolute_byron, Era constants"]}
{"id": "C38", "title": "The Cardano source resumes without loss or repetition", "statement": "Whatever the interleaving of the caller and the background task, broken connections, cancelled pulls and growth of the node's chain: the pulls between two requests return at most one tip event and then blocks that follow in the node's chain the best known point of the request; a caller that resumes after the last block it was given gets the blocks after its start each once, in order, with no gap (from the beginning of the chain, the first block included), each naming its predecessor as parent; when the node always answers, a request that ends has brought that caller to the node's tip; a pull always returns, and stop always ends the background task; while no call to the node fails, its blocks decode, points are readable and buffers are not cleared, the source keeps the one connection it was made with, and a connection that was lost is made again for the next request; if the node's chain stops changing and its answers are no errors, then under every fair schedule each request of a caller that pulls again and again ends, and a caller that resumes after the last block it was given has, from some moment on, every block of the chain after its start.", "quantifier": "all chains, resume points, schedules of the two tasks, failures and numbers of requests", "why_tests_cant": "unbounded interleavings and histories", "anchors": ["blockchain-source/src/cardano/mod.rs: CardanoSource::pull, clear_buffers, stop, request_handler, block_fetch", "blockchain-source/src/cardano/event.rs: from_serialized_block, next_from", "blockchain-source/src/cardano/point.rs: TryFrom<Point>"]}
{"id": "C39", "title": "The selection setup totals are the sums of the given inputs and outputs", "statement": "from_fixed_inputs_and_outputs reports as input and output balances exactly the sums of the main values and, per token, of the quantities of the given inputs and outputs.", "quantifier": "all lists of inputs and outputs", "why_tests_cant": "unbounded lists", "anchors": ["utxo-selection/src/common.rs: InputOutputSetup::from_fixed_inputs_and_outputs"]}
{"id": "C40", "title": "Largest-first selection covers outputs and fee with distinct available inputs", "statement": "If largest-first succeeds, the inputs it chose are distinct and come from the available ones, the available ones left are exactly the others, the reported balances are the setup balances plus the chosen inputs, every output token is covered and the main value covers the outputs plus the reported fee. If it fails the available inputs are untouched.", "quantifier": "all stores, setups, fee estimators and hash orders", "why_tests_cant": "unbounded stores and arbitrary estimators", "anchors": ["utxo-selection/src/algorithms/largest_first.rs: select_inputs, select_input_and_update_balances, select_largest_input_for"]}
{"id": "C41", "title": "Largest-first fails only when the funds are insufficient, and uses the fewest inputs", "statement": "For main-value outputs and a fixed fee per input, largest-first succeeds whenever some subset of the available inputs covers the outputs and fees, and no subset with fewer inputs does.", "quantifier": "all stores and targets", "why_tests_cant": "quantifies over all subsets", "anchors": ["utxo-selection/src/algorithms/largest_first.rs: select_inputs"]}
{"id": "C42", "title": "Giving the excess to the fee balances the transaction", "statement": "If the fee change balancer succeeds, inputs equal outputs plus fee exactly for the main value and for each token, the fee is at least the required one and nothing else changed; it succeeds exactly when tokens are balanced and the main value is not short. With fixed prices and without tokens, selecting largest first and then giving the excess to the fee succeeds exactly when some of the available outputs suffice for the outputs and the fees, and the fee is at least what the estimator then requires.", "quantifier": "all setups and fee estimators", "why_tests_cant": "all amounts", "anchors": ["utxo-selection/src/algorithms/balance_change_fee.rs: balance_change"]}
{"id": "C43", "title": "The single change output balances the transaction", "statement": "If the single-output balancer succeeds, the inputs equal outputs, change and fee exactly for the main value and every token, the change goes to the change address and holds exactly the excess tokens. (The change value can be negative: the code violates 'change is non-negative'.) With fixed prices, selecting largest first and then making one change output succeeds whenever everything available covers the tokens, the outputs and the fees (without tokens: exactly when some of it does), and the fee is exactly what the estimator requires for the result.", "quantifier": "all setups and fee estimators", "why_tests_cant": "all amounts", "anchors": ["utxo-selection/src/algorithms/balance_change_single_output.rs: balance_change"]}
{"id": "C44", "title": "Random-improve chooses distinct available inputs that cover the outputs, whatever the random numbers", "statement": "For every random stream, a successful random-improve selection uses distinct available inputs, reports exact totals and removes exactly the chosen ones; the main value of the outputs is covered. (The selection should not panic; it does when an amount is 2^64 or more, and with overflow checks when three times an output is.)", "quantifier": "all random streams, stores and outputs", "why_tests_cant": "random streams", "anchors": ["utxo-selection/src/algorithms/random_improve.rs: select_inputs, select_input_and_update_balances, set_available_inputs"]}
{"id": "C45", "title": "Thermostat selection conserves value", "statement": "If the thermostat selection succeeds, the inputs chosen equal the outputs, the changes and the fee exactly for the main value; per token, inputs equal outputs plus changes. (Token conservation fails when an asset accumulator split is abandoned half-way.) Without tokens and with fixed prices it succeeds exactly when the fixed inputs alone do not suffice and some of the available outputs without tokens do; with tokens it succeeds when each token is available by itself in few outputs worth their fee and the outputs without tokens also pay for a full change per token (having more to choose from can make it fail); it does not panic when the limits are not zero, an input costs at least one unit, the sizes are in range and the store has had every token that the fixed inputs have in excess. A change is divided in two exactly when it is above its share of what is left of its token and half of its value exceeds the fee of an output; what is split off is half of it.", "quantifier": "all stores, outputs, configurations, estimators", "why_tests_cant": "long imperative bookkeeping over all amounts", "anchors": ["utxo-selection/src/algorithms/thermostat.rs: select_inputs, select, balance_excess, balance_excess_of_asset, split_accumulators"]}
{"id": "C46", "title": "The fee estimator is consistent", "statement": "The fee announced for an input or an output is exactly how much the required fee grows when it is added; the required fee is linear in the accumulated size and independent of the order of additions; largest-first with a single change output pays exactly the network's fee for the assumed size of the transaction.", "quantifier": "all sequences of additions, all fee coefficients", "why_tests_cant": "all sequences", "anchors": ["utxo-selection/src/estimators/thermostat_estimator.rs: min_required_fee, fee_for_input, add_input, fee_for_output, add_output, add_protocol_magic"]}
{"id": "C47", "title": "Asset fingerprints are fixed-width, and distinct from the main token", "statement": "The fingerprint of any policy and asset name in hexadecimal is a 64 character token identifier made of the 40 hexadecimal digits of the hash followed by zeros; it identifies the hash, and differs from the main token's identifier unless the hash is zero; a policy or name with an odd number of digits is refused.", "quantifier": "all policies and names, any hash function", "why_tests_cant": "all strings", "anchors": ["cardano-utils/src/cip14.rs: fingerprint_hash, fingerprint", "core/src/token_id.rs: TokenId::MAIN"]}
{"id": "C48", "title": "Converting outputs to the ledger format and back keeps the amounts", "statement": "Converting a main value and assets with distinct identifiers and integral quantities to the ledger value and back gives the same main value and the same quantity for each asset.", "quantifier": "all values and asset lists", "why_tests_cant": "all lists", "anchors": ["cardano-utils/src/utxo.rs: tokens_to_csl_value, csl_value_to_tokens, value_to_csl_coin, csl_coin_to_value"]}
{"id": "C49", "title": "Stacked on the Cardano source, the confirming and the fork-handling source follow the node's chain", "statement": "Take the confirming source (or the fork-handling source) with the Cardano source inside, a node whose forks are no deeper than the confirmation depth, and a consumer that begins at a block with more than that many blocks after it and resumes from the last block it accepted. Whatever the schedule of the tasks, the errors of the node's answers, the pulls dropped while they wait and the restarts: what the consumer of the confirming source has accepted is exactly the stretch of the node's present chain that follows its start, each block once and in order, and only blocks that the node will keep; once a request was answered to its end and the node did not roll back meanwhile, it has every block that deep; from any such history on, if the node keeps its chain, its answers are no errors, the consumer calls pull again and again and each task runs again and again, there comes a moment from which on it has every block that deep; no pull fails but for an error of the node. The consumer of the fork-handling source, after the queued events, holds a stretch from its start of a chain that the node had, ending with the block received last; this holds through restarts of the process too, if each is at a moment at which no event is queued and the block received last is the highest, and such a restart is always possible and leaves the consumer with the chain it had. If a received block is that deep, or the node never went back, and the node then keeps a chain whose last block was on none of its earlier chains, then under the same fairness there comes a moment from which on this consumer has the node's whole chain from its start to the last block. A tip that the Cardano source answers with is passed on, with its slot, and changes nothing else.", "quantifier": "all schedules, node histories with shallow forks, errors, cancellations, restarts and hash iteration orders", "why_tests_cant": "composition of two asynchronous tasks, a store and a node over unbounded histories", "anchors": ["blockchain-source/src/multiverse/mod.rs: MultiverseSource::pull", "blockchain-source/src/multiverse/rollback.rs: ForkHandlingSource::pull", "blockchain-source/src/cardano/mod.rs: CardanoSource::pull", "blockchain-source/src/cardano/event.rs: BlockEvent, Variant, GetNextFrom"]}
{"id": "C50", "title": "A read-only handle of the log is a snapshot", "statement": "Opening a log for reading only (file_readonly) while another process has it open for writing, at any moment of any operation of the writer, gives exactly the records whose index entries were complete at that moment, the same as opening it for writing would; and the handle goes on giving exactly these records with these contents at every later moment, whatever the writer does (appends, failed appends, closing, crashes, opening again). Nothing can be written through it, and it changes no file. A log that does not exist is not opened.", "quantifier": "all writer histories, all moments of opening and of reading (between operations and inside them), all batches given to the read-only handle; for the search of the end of the index, all growths of the index during the search", "why_tests_cant": "The reader and the writer are two processes with every interleaving, and the property is about what the reader sees at all later moments; a test shows one interleaving.", "anchors": ["fraos/src/database.rs: Database::file_readonly, Database::file_inner, Database::new", "fraos/src/appender.rs: Appender::new", "fraos/src/seqno.rs: SeqNoIndex::new, find_actual_end", "fraos/src/growable_mmap.rs: GrowableMmap::new, create_mmap"]}
{"id": "C51", "title": "The JSON and text forms of the data types lose nothing", "statement": "Every value of the data types that cross process boundaries (counters, amounts, pointers to outputs, assets, outputs, builders, transactions, block events, points, the configuration of the log map, metadata) is written as JSON that reads back as an equal value, and unequal values have different forms. The order of the fields does not matter at any depth. Counters are read from exactly the numbers and digit texts below 2^64 and printed so that they read back; an amount is read from text or a whole number below 2^64. Unknown fields are refused where the type says so and ignored elsewhere; repeated fields and missing required fields are refused; the optional ones have their defaults. Tips are never written or read. Two pointers that print the same are the same.", "quantifier": "all values of the types, all JSON documents, all orders of fields at all depths", "why_tests_cant": "The types are unbounded (lists of assets, nested metadata, all texts), and the claims are about all documents, including those that must be refused; a round-trip test shows one value.", "anchors": ["core/src/number_visitor.rs: NumberVisitor", "core/src/block_number.rs", "core/src/slot_number.rs", "core/src/timestamp.rs", "core/src/output_index.rs", "core/src/value.rs: Serialize, Deserialize", "core/src/tx/utxo.rs: UtxoPointer, UTxODetails, UTxOBuilder", "core/src/tx/transaction.rs: Transaction", "core/src/tx/transaction_asset.rs: TransactionAsset", "blockchain-source/src/cardano/event.rs: CardanoNetworkEvent, BlockEvent", "blockchain-source/src/cardano/point.rs: Point", "indexed-log-map/src/config.rs: IndexedLogMapConfig"]}
{"id": "C52", "title": "A multisig plan's money moves exactly when its quorum signs", "statement": "The script of a multisig plan is satisfied by a set of signers exactly if at least as many entries of the key list as the quorum belong to signers; with different keys: exactly if that many different key holders signed. More signatures never hurt and the order of the keys does not change who can spend. The script, and with a collision-free hash the address, determines the plan and the network. A plan is read from JSON exactly if the quorum is a whole number below 2^32 and every key is 28 bytes in hexadecimal, in any order of fields.", "quantifier": "all plans, all sets of signers, all orders of keys, all JSON documents", "why_tests_cant": "The claim is about every subset of signers of every key list and about every document; a test signs with one subset.", "anchors": ["cardano-utils/src/multisig_plan.rs: MultisigPlan, address, hash, to_script, de::Key"]}
{"id": "C53", "title": "The estimated fee and size cover the real transaction", "statement": "For every transaction of a multisig plan that has the inputs and outputs of the history given to the fee estimator, at Shelley addresses with at most one asset per output, signed by at most the quorum, with or without a last slot and with the given protocol magic: the estimated minimum fee is at least the fee that the ledger computes from the transaction's bytes, the reported size is at least its size, and a selection of the thermostat leaves at least that fee.", "quantifier": "all plans, histories of estimator calls, transactions made of them, fee parameters", "why_tests_cant": "It compares a formula with the length of an encoding whose integers have variable length, for any number of inputs, outputs and signatures; the tests compare a few single parts.", "anchors": ["utxo-selection/src/estimators/thermostat_estimator.rs: ThermostatFeeEstimator", "cardano-utils/src/network_id.rs: minimum fee estimates", "utxo-selection/src/algorithms/thermostat.rs"]}
{"id": "C54", "title": "The block fetcher prints every block after the start once, in order, and ends", "statement": "While the node's chain only grows, whatever the order in which the program, the background request handler and the node act and wherever the connection breaks, the lines printed are those of consecutive blocks of the chain, beginning with the block after the start (or with the first block, from the beginning of the chain). If the node keeps answering, the program ends, without an error, and has then printed everything up to what was the node's tip. A line determines the block's number, identifier, slot and bytes. The start on the command line is read exactly when it is a 64-bit number, a comma and an identifier.", "quantifier": "all starting points, chains, growths of the chain, schedules, connection failures; all command-line texts", "why_tests_cant": "It quantifies over interleavings of three parties and over unbounded runs, including that they end; the program has no tests.", "anchors": ["cardano-cli-tools/cardano-net-fetcher/src/main.rs: main", "cardano-cli-tools/cardano-net-fetcher/src/main.rs: parse_since", "blockchain-source/src/cardano/mod.rs: CardanoSource"]}
{"id": "C55", "title": "A wallet's books balance over any sequence of payments", "statement": "Keep one pool of outputs and serve any sequence of requests from it: receive an output; pay with largest-first and then either give the excess to the fee or make one change output, or pay with the thermostat; put the pool back when a step fails, and add the change outputs of a payment to the pool. Then at any time the outputs spent so far and those still available are together exactly those received or returned as change, so with fresh identifiers no output is spent twice; the pool's balance is what was received less what was sent less the fees, for the main value and for each token; and a request is refused only because the algorithm refused it or its change would be negative.", "quantifier": "all sequences of requests, estimators, configurations, hash orders, amounts", "why_tests_cant": "It is an invariant over unbounded histories in which the change of one payment is the input of another; the tests make one selection from a fresh pool.", "anchors": ["utxo-selection/src/algorithm.rs: UTxOStoreSupport", "utxo-selection/src/algorithms/largest_first.rs: LargestFirst::select_inputs", "utxo-selection/src/algorithms/thermostat.rs: Thermostat::select_inputs", "utxo-selection/src/algorithms/balance_change_single_output.rs", "utxo-selection/src/algorithms/balance_change_fee.rs", "core/src/utxo_store.rs: UTxOStoreMut"]}
{"id": "C56", "title": "Configuration documents are read exactly", "statement": "A JSON document is accepted as an era, a thermostat configuration, a network or a best block selection rule exactly when it gives every field of that type once, with a content of the right kind and size, in any order or as an array in the declared order (and, for the thermostat and the network, gives nothing else); the value read has exactly the contents of the document. A custom network hands to the transaction builder exactly the figures of its document, or panics when one of its texts is not an unsigned 64-bit number. Written rules are read back unchanged.", "quantifier": "Every JSON document, of any shape, size and order of fields, and every value of the four types.", "why_tests_cant": "The accepted documents are an infinite set defined by what they lack (missing, repeated, unknown fields, out of range numbers); a test tries a few of them, and the code relies on derived readers whose rules are not visible in it.", "anchors": ["cardano-utils/src/network_id.rs: NetworkInfo", "cardano-utils/src/network_id.rs: transaction_builder", "utxo-selection/src/algorithms/thermostat.rs: ThermostatAlgoConfig", "blockchain-source/src/cardano/time.rs: Era", "multiverse/src/lib.rs: BestBlockSelectionRule"]}
{"id": "C57", "title": "The second block fetcher prints every block it is sent, and its output tells the chain", "statement": "The block fetcher over oura prints one line per block that its source sends, in order, with the block's number, hash, slot and bytes, and it stops with an error only at a block that came without its bytes. After any sequence of new blocks and rollbacks, reading the printed blocks in order, each in the place its number says, gives the node's chain whenever the last event was a block; two histories with the same output then have the same chain. The source is asked for block bytes, from the given point or from the origin.", "quantifier": "Every sequence of events of the source, of any length, with rollbacks of any depth; every starting chain; every combination of arguments.", "why_tests_cant": "A rollback can come at any time and reach any depth; a test replays a few recorded event streams and cannot show that no stream makes the output ambiguous.", "anchors": ["cardano-cli-tools/oura-block-fetcher/src/main.rs: main"]}
{"id": "C58", "title": "The first-address tool's verdict is about the right address and the server's answer", "statement": "For every public key, network and behaviour of the server: the tool announces the base address made of the keys at 0/0 (spending) and 2/0 (staking) on the given network; it asks that network's server first for the latest block and then about exactly that address up to exactly that block; it prints a verdict only after a successful second answer, 'used' exactly when the list in that answer is not empty, and in every other case prints no verdict and asks nothing else.", "quantifier": "All public keys and network names, all servers (any answers, statuses, missing answers, documents with extra, repeated or reordered fields), and any derivation function.", "why_tests_cant": "The server is remote and may answer anything at either step; tests would need every failure at every step, and an unusual answer is exactly where a wrong verdict would come from.", "anchors": ["cardano-cli-tools/cip1852-first-address/src/main.rs: main", "cardano-cli-tools/cip1852-first-address/src/main.rs: BlockLatestResponse"]}
{"id": "C59", "title": "On top of the Cardano library's builder, the fee covers what the builder requires", "statement": "With the estimator that wraps the Cardano library's transaction builder, a successful largest-first selection has given the builder exactly the chosen inputs, each converted, and its fee is what the builder required at first plus what it quoted for each; giving the excess as fee leaves the builder as it is and the fee is at least what it requires; a single change output is given to the builder as converted, never with a negative value, with all of its coin when inputs and outputs are whole lovelace. If the builder's own quotes suffice, the fee covers what the builder requires in its final state. An input or output that does not convert is refused without touching the builder.", "quantifier": "All pools, setups and iteration orders, and every behaviour of the library's builder (any state, any quotes, any refusals).", "why_tests_cant": "The builder is a foreign library whose quotes depend on everything added before; a test fixes one builder and one pool.", "anchors": ["utxo-selection/src/estimators/cml_fee_estimator.rs: CmlFeeEstimator", "cardano-utils/src/utxo.rs: utxo_details_to_cml_input", "cardano-utils/src/utxo.rs: utxo_builder_to_cml_output", "utxo-selection/src/algorithms/largest_first.rs: LargestFirst::select_inputs", "utxo-selection/src/algorithms/balance_change_single_output.rs"]}
{"id": "C60", "title": "Dividing an amount by a count gives the nearest amount, exactly where it can", "statement": "For every amount and every count: the division fails only for the count zero; its result is within half a unit of its last decimal of the exact quotient, and it is either the exact quotient or has at least a hundred significant digits; a quotient that a hundred digits can write is found exactly; the opposite amount gives the opposite result; how the amount is written (trailing zeros, decimals) makes no difference up to a hundred digits. Hence comparing an amount with the n-th part of another decides as the exact comparison would, and halving and truncating an amount rounds its half down to whole units.", "quantifier": "All amounts (any digits, any number of decimals, positive, negative or zero) and all counts.", "why_tests_cant": "Rounding errors show at particular combinations of digits and divisors; no finite set of examples covers the quotients that do not end.", "anchors": ["core/src/value.rs: Div<usize> for Value", "utxo-selection/src/algorithms/thermostat.rs: split_accumulators", "core/src/value.rs: truncate"]}
{"id": "C61", "title": "Equal amounts have equal hashes", "statement": "Two amounts that compare equal hash equally, whatever number of decimals each is written with, so that a hash set or map finds an amount however it was computed.", "quantifier": "All pairs of amounts, with any number of decimals, also negative.", "why_tests_cant": "Equality ignores how an amount is written while the hash is made of its digits; agreement must hold for every pair of representations.", "anchors": ["core/src/value.rs: Hash for Value", "core/src/value.rs: PartialEq for Value"]}
{"id": "C62", "title": "Opening an indexed log map from its configuration", "statement": "Opening an indexed log map at a path where one was closed, or left by a process that died, gives back every entry under its key, read only or not; opened for writing, it takes further entries. Without a path it is a new map in memory; a path with nothing there gets a new map, unless it is to be read only: then it is refused. A map opened read only refuses every append and changes no file, also when it is dropped, even while another process writes. A reader without the key index can open the log of a map that another process has open: it has exactly the values written when it looked, and keeps them while the writer goes on. Without the key index values can be iterated but keys are refused, and so is appending. A map that is open cannot be opened again with its key index, and trying should not hurt the one that is open.", "quantifier": "All configurations, all histories of appends, closes and process deaths of the map before it is opened, all moments in the writer's history at which a reader looks at the files, all keys and values.", "why_tests_cant": "What is opened depends on the whole history of the files and on where in an append another process stands; a test tries a few configurations on a few files.", "anchors": ["indexed-log-map/src/storage.rs: IndexedLogMap::new", "indexed-log-map/src/storage.rs: IndexedLogMap::append", "indexed-log-map/src/config.rs", "fraos/src/database.rs: Database::file_readonly, Drop for Database"]}
{"id": "C63", "title": "A timestamp is the system time that many seconds after the Unix epoch", "statement": "Converting a timestamp to the system's time gives exactly the time that many seconds after the Unix epoch, so that later timestamps are later times and different ones different times; with an era's arithmetic, a slot is at the era's known time plus the length of the slots since its first one. Every timestamp can be converted. The addition of a duration to a time of the system, which it uses, is exact, or fails where the sum cannot be held.", "quantifier": "All 64-bit timestamps; all eras and slots from the first one on.", "why_tests_cant": "The conversion goes through the platform's signed clock; whether it is exact or fails must be settled for the whole range of the type, not the present day's dates.", "anchors": ["core/src/timestamp.rs: Timestamp::into_unix_time", "blockchain-source/src/cardano/time.rs: Era::compute_timestamp"]}
{"id": "C64", "title": "A log keeps its acknowledged records through power failures", "statement": "When the power fails, between operations, inside an append or while a handle is closed, and whatever the disk had not been made to write is lost or kept sector by sector in any combination, opening the log finds exactly the records acknowledged before, in their places, and of a batch being appended a prefix, provided its index entries lie in one sector; a single record always does. This holds again after any number of such failures, of reopenings and of further appends. For a batch of any size every acknowledged record is still read back right after the failure, and each further number reads as the record meant for it, as an empty record or as nothing. Larger batches torn by a power failure can do harm: the log then holds empty records in the middle, and entries left behind its end can later take the place of records that were acknowledged since; and records found after a process died are not safe from a power failure, nor are those appended after them.", "quantifier": "All histories of appends, reopenings, process deaths and power failures, all batches, all moments of a failure, all combinations of lost and kept bytes of the data file and sectors of the index file, all mapping sizes that are a multiple of the entry size, all sector sizes that are, and all page sizes.", "why_tests_cant": "What is on the disk after a power failure is any of exponentially many combinations of old and new sectors; a test cannot make the disk lose particular ones.", "anchors": ["fraos/src/growable_mmap.rs: grow_and_apply (flush), new", "fraos/src/database.rs: append_get_seqno, new, Drop for Database", "fraos/src/seqno.rs: SeqNoIndex::new, find_actual_end", "fraos/src/flatfile.rs: FlatFile"]}
{"id": "C65", "title": "A view of a mapped file is a slice of it", "statement": "A shared view of a memory mapping starts as the whole mapping, and cutting it with any range of positions - open or closed at either end, reaching beyond the end, or crossed - never panics and gives the bytes of the view at the positions within the range, in order and no others. Views cut from views, to any depth, stay within the mapping, so no memory outside it is read. The one exception is a range that starts after the last number of usize.", "quantifier": "every content of the mapping, every view of it, every pair of bounds (included, excluded or open, any number), every chain of slices", "why_tests_cant": "Tests try a few ranges of one mapping; the bounds range over all pairs of 64-bit numbers and the views over all chains of slices, and a mistake by one reads foreign memory without an error.", "anchors": ["fraos/src/shared_mmap.rs: SharedMmap::slice, len, is_empty, as_ref", "fraos/src/growable_mmap.rs: get_ref_and_apply"]}
{"id": "C66", "title": "The size of a selected transaction against the network's limit", "statement": "With the estimator for a multisignature plan, the size announced after a selection (thermostat, largest first, or random improve over distinct outputs) is the size before it plus 38 bytes for each chosen input and 151 for each change output. A thermostat payment without tokens stays within the network's maximal size whenever no available plain output is worth less than some v above the fee of an input, N outputs of that worth cover the payment and its fees, and N inputs with two changes fit. No selection fails for its size: if no available output is worth more than v, the payment needs more than N of them and N inputs are already too large, every selection that succeeds is larger than the network accepts.", "quantifier": "all networks, plans, stores, payments, hash orders and random streams", "why_tests_cant": "unbounded stores and payments; the limit is met or missed depending on sums over all of the wallet", "anchors": ["utxo-selection/src/algorithms/thermostat.rs: remaining_number_inputs_allowed, select_input_for_main_until_balanced, Thermostat::select_inputs", "utxo-selection/src/estimators/thermostat_estimator.rs: current_size, max_size, add_input, add_output", "utxo-selection/src/algorithms/largest_first.rs: select_inputs", "utxo-selection/src/algorithms/random_improve.rs: select_inputs"]}
{"id": "C67", "title": "A crash leaves the block store as after a part of its history", "statement": "After a crash at any point of any history of calls, within a call or between calls, the block store opens, and it is the store a crash-free history leaves: the calls up to some point, and, if the next call was a clear, the removal of the lowest blocks. The success of a call does not mean that it survives a crash. A confirming source whose process dies between any two writes of a pull (the received block, then the removals one by one) starts again and goes on: over any number of such crashes the blocks the consumer accepted are the settled blocks in chain order, each once, at most the newest missing, and the next pull delivers that one. But if the crash loses writes made before the consumer accepted its last block, every later pull fails, for ever. And if a consumer that began with a point has no block yet, and the crash is inside the pull that confirms its first block, after the received block was written, then every later pull fails, for ever. With the Cardano source inside and a node whose forks are not deeper than the depth, crashes after the first block cost nothing: the consumer has the stretch of the node's chain after its start, and under the fairness of C49 gets every block that is deep enough. The fork-handling source can be started after such a crash as well, but once the received block was written the consumer never gets it: its next block is the child of the block it misses.", "quantifier": "all histories of inserts, removals, clears and reopenings, all crash points; for the source all answers of the wrapped source whose forks leave no settled block out, all hash orders, any number of crashes and restarts", "why_tests_cant": "a crash can fall between any two writes, and what it leaves meets any continuation; tests restart cleanly", "anchors": ["multiverse/src/lib.rs: Multiverse::insert, remove, clear, load_from, open, db_insert, db_remove", "blockchain-source/src/multiverse/mod.rs: MultiverseSource::new, pull, multiverse_insert_and_gc", "blockchain-source/src/multiverse/rollback.rs: ForkHandlingSource::new, pull", "blockchain-source/src/cardano/mod.rs: CardanoSource::pull"]}
{"id": "C68", "title": "The indexed log map after power failures", "statement": "Whenever the power fails, inside an append of the indexed log map, between its two halves, between operations or while the map is dropped, the map opens again, any number of times. The value of every append that returned is still in the map and iteration gives them in order, with at most the values of interrupted appends among them. No key is ever answered with a value that was not appended for it, though the key index may have forgotten the newest keys; if it has not, every key has its last value. This needs that no process died earlier while an append was under way whose record was then found: after such a death a power failure can make the map answer a key with the value of another key, although both appends had returned.", "quantifier": "all histories of appends, reopenings, deaths of the process inside an append and power failures at any moment, all that the disk may have kept of the two files (any byte of the data file, any sector of the index file), any number of newest keys lost", "why_tests_cant": "a power failure keeps any subset of the unsynchronised sectors; tests cannot cut the power", "anchors": ["indexed-log-map/src/storage.rs: IndexedLogMap::new, append, get, contains, is_empty, iter, iter_from, last, get_next", "fraos/src/growable_mmap.rs: grow_and_apply (flush), new", "fraos/src/database.rs: append_get_seqno, new, Drop for Database", "fraos/src/seqno.rs: SeqNoIndex::new, find_actual_end", "fraos/src/flatfile.rs: FlatFile"]}
