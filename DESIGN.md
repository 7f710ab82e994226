# Formal model of dcspark-core in Rocq (Coq 8.16.1)

The source under `/repo` is read as text, never built or run. The model is a set of small total Gallina
functions; each definition cites the file and lines it models and says what it simplifies.

Contents: layout, conventions, what is proved for each property and how, the findings (claims that are false of
the code, each with a machine-checked witness), the trusted base, what is modelled and what is not, and how the
theorems were tested against wrong programs.

## Layout (`rocq/theories/`)

Each area has a `*Model.v` (executable definitions only), usually a `*Spec.v` (the independent reading of
the property: plain lists, sums, maps), one or more `*Proofs.v`, and a `*Props.v` with the property theorems,
`Print Assumptions`, and `Example`s that show a concrete case meeting the hypotheses.  Further cases, named after the theorem they belong to (`C12_read_back_case` for `C12_read_back`), are in the `*Cases.v` modules.

| area | code | properties |
|---|---|---|
| Value, Balance, Counter | core/src/value.rs, balance.rs, block_number.rs, slot_number.rs … | C01–C07 |
| Store | core/src/utxo_store.rs, core/src/tx | C08–C11 |
| Fraos | fraos/src/*.rs | C12–C23 |
| ILogMap | indexed-log-map/src/storage.rs | C24–C26 |
| Multiverse | multiverse/src/{lib,entry,variant}.rs, visitor/depth_ordered.rs | C27–C33 |
| Source | blockchain-source/src/multiverse/{mod,rollback}.rs | C34–C36 |
| Time | blockchain-source/src/cardano/{time,configuration}.rs | C37 |
| Cardano | blockchain-source/src/cardano/{mod,event,point}.rs | C38 |
| Stack | the two sources of Source over the one of Cardano | C49 |
| Sel | utxo-selection/src/{common,estimate}.rs, algorithms/largest_first.rs, balance_change_*.rs | C39–C43 |
| Rand | utxo-selection/src/algorithms/random_improve.rs | C44 |
| Thermo | utxo-selection/src/algorithms/thermostat.rs | C45 |
| Estim | utxo-selection/src/estimators/{thermostat,dummy}_estimator.rs, fee constants of cardano-utils/src/network_id.rs | C46 |
| Util | cardano-utils/src/{cip14,utxo}.rs | C47, C48 |
| FraosRo | read-only opening in fraos/src/{database,appender,growable_mmap,seqno}.rs | C50 |
| Json | the serde implementations of core/src, core/src/tx, blockchain-source/src/cardano/{event,point}.rs, indexed-log-map/src/config.rs; core/src/number_visitor.rs; the Display and FromStr of the counters and of UtxoPointer | C51 |
| Multisig | cardano-utils/src/multisig_plan.rs; the ledger's rule and encoding of native scripts as specification (CborSpec) | C52 |
| Cover | utxo-selection/src/estimators/thermostat_estimator.rs (EstimModel) against the ledger's encoding of transactions as specification (CborSpec) | C53 |
| Fetch | cardano-cli-tools/cardano-net-fetcher/src/main.rs (without clap and the choice of the network) over the Cardano source's model | C54 |
| Wallet | the store and the selection algorithms used together, request after request (utxo-selection/src/algorithm.rs UTxOStoreSupport) | C55 |
| Config | cardano-utils/src/network_id.rs (NetworkInfo, transaction_builder), utxo-selection/src/algorithms/thermostat.rs (configuration), blockchain-source/src/cardano/time.rs (Era) and multiverse/src/lib.rs (BestBlockSelectionRule): documents | C56 |
| Oura | cardano-cli-tools/oura-block-fetcher/src/main.rs | C57 |
| FirstAddr | cardano-cli-tools/cip1852-first-address/src/main.rs | C58 |
| Cml | utxo-selection/src/estimators/cml_fee_estimator.rs | C59 |
| Div | core/src/value.rs (Div, Hash, types of the conversions) | C60, C61, C01 |
| ILogOpen | indexed-log-map/src/storage.rs (new, handles), config.rs | C62 |
| Clock | core/src/timestamp.rs (into_unix_time) | C63 |
| FraosPower | fraos/src/growable_mmap.rs (flush), database.rs, seqno.rs (new, find_actual_end) under power failures | C64 |
| FraosView | fraos/src/shared_mmap.rs | C65 |
| MultiverseCrash, SourceCrash, StackCrash | multiverse/src/lib.rs and blockchain-source/src/multiverse/{mod.rs, rollback.rs} under crashes, also over the Cardano source | C67 |
| IMapPower | storage.rs of the indexed log map under power failures, over FraosPower | C68 |

## Modelling conventions

* `Result`/`Option` stay data; a panic is an explicit value; a loop is structural recursion or fuel whose
  exhaustion is an error value excluded by the theorem.
* Hash iteration order is never fixed: either the map is only observed through order-free queries, or the
  order is an explicit argument (`enum`, `torder`, `horder`, `lorder`; any enumeration) over which the theorem
  quantifies. The only hypothesis is that it lists the elements (`fair`).
* Random numbers are a stream `rnd : nat -> nat` over which the theorem quantifies.
* I/O failures, crash points and interleavings are explicit arguments: a `faults` record, a cut of a list of
  word-level writes, or a list of actions of the tasks (a schedule).
* `chk : bool` says whether the build checks overflow (debug) or wraps (release).
* External crates (BigDecimal, sled, memmap2, hashes, the Cardano library, the node) are modelled by their
  documented contract or are `Section` variables over which the theorem quantifies; see the trusted base.
* Integers are unbounded unless the property is about wrap-around; the places where Rust arithmetic could
  overflow are stated.
* Amounts outside the Value area are integers at one common scale. C02_common_scale proves that this loses nothing.

## How each property is modelled and proved

* C01, C02: BigDecimal as (digits, scale) with its exact arithmetic; denotation in Q; laws proved in Q.
* C03, C04: decimal text as lists of characters; printing, parsing, the checks after parsing and truncation are
  modelled on text. The specification (`ValueSpec`) reads text independently and has its own table of decimal places.
* C05, C06: `Balance` case by case over an ordered group; the fold of any list of credits and debits is the canonical
  form of the signed sum.
* C07: N with the explicit bound 2^64.
* C08–C11: the three maps of the store are modelled separately; an invariant ties them to one abstract map from
  pointers to outputs, by induction on histories of operations.
* C12–C15, C20, C23: bytes of the files, mappings (windows of the file, or private buffers), chunk index and its
  binary searches; refinement to a list of records.
* C16: an append is unfolded into its word-level writes; any cut of them, then the real opening function.
* C17: small-step interleaving of the writer's published steps with any number of readers.
* C18, C21, C22: refuted on the faithful model with a witness; the true part is proved separately.
* C19: the search loop with arbitrary contents; invariant and measure.
* C24–C26: log and key index; steps for crashes and interleavings, and in `ILogConcCrash.v` a crash in an interleaving; `ILogFaultModel.v` has appends that fail (`ILogFaults.v` before the record is stored, `ILogLate.v` anywhere, with the map opened again). The key index may or may not lose its newest
  writes in a crash; both are covered.
* C27: byte encodings. C28–C33: the four in-memory indices, reference counts and the sled tree; invariants by
  induction on histories.
* C34–C36: the two pull functions over an arbitrary wrapped source (any stream of answers), a consumer that may lose
  deliveries, restarts.
* C37: the conversion functions over N with explicit wrap.
* C38: the two tasks of the source, their queue and channels, and the node, as one step function; a schedule is
  a list of actions. Safety by invariants of the trace, liveness (`CardanoLiveProps`, `CardanoDeliverProps`) by a
  measure that every enabled move decreases, under fair schedules.
* C39–C43: selection over Z amounts, abstract estimator (any state machine), hash orders as arguments.
* C44: the same, with an arbitrary random stream.
* C45: the same; the estimator may fail or panic at any call. When a change is divided, and how, is stated over the result
  (ThermoSplitProps.v) by an invariant over the visited changes.
* C46: the estimator as a state machine; its fee is a closed formula of what was added, whatever the order.
* C47: strings of hexadecimal digits and an arbitrary hash. C48: maps of maps, any listing order.
* C49: composition of the models of C34/C35 with that of C38. The node may change its chain at any time as long as forks
  are not deeper than the depth. Delivery (`StackLiveProps`, `StackForkProps`) under fair schedules once the node keeps
  its chain. Restarts of the fork-handling source (`StackRestartModel`) open the store again and begin a new connection; the
  invariant of `StackRunProofs` is over any earlier sessions.
* C50: the reader's handle is the state that opening gave it, over the files that the writer has at the time. Moments of
  the writer's history are pairs of a number of operations and a point inside the next one. The search for the end of the index
  is modelled once more with a length function that changes between its reads.
* C51: JSON as a tree; what `derive(Serialize, Deserialize)` generates is modelled once (fields by name or by position, strict or
  not, required or with a default, externally tagged enums), and every type's reader and writer is an instance. Trusted: that
  serde_json reads the text that it writes as the same tree, and that the derive macros generate this. Round trips by cases and
  list induction; independence of field order by a relation on trees that every reader respects. The round trip of block events
  is what the storage of blocks in the multiverse (C33, C49) relies on: there the stored block is the block.
* C52: the plan and its script as data. The rule that says when a script is satisfied and the bytes that are hashed are the
  ledger's and are written in CborSpec. The hash itself is a parameter; where an address is claimed to determine the plan, the
  hypothesis is that the two scripts at hand do not collide. Threshold by counting, injectivity by inverting the encoding.
* C53: the bytes of a transaction of the plan (inputs, outputs, fee, last slot, script, signatures, metadata) in CborSpec, as the
  ledger reads them; the sizes by bounds on every part; the estimator's formula from C46 and the thermostat's guarantee from C45
  and C46. Trusted: that the library that makes the real transaction writes the canonical encoding of CborSpec.
* C54: the program's loop as a caller of the Cardano source, one action per move of the program, of the handler or of the node.
  An invariant ties every run of the program to a run of the source in which each request resumes after the last block, so that
  C38 gives what is printed; the end by a measure: a pull returns (C38_pull_returns), and the number of things that can still be
  returned by a node that keeps its chain is bounded. The line by splitting at its separators.
* C55: a caller that receives outputs and pays with any of the algorithms, as a function over a list of requests. An invariant over
  the list: the pool is the store of some history, and spent plus available outputs are received plus returned ones; each step from
  C40, C42, C43, C45 and C08.
* C56: the derived readers as functions on JSON trees. One lemma says that all fields of a struct are found exactly when the
  document gives each of them once (ConfigSpec.document); every acceptance theorem is an equivalence that follows from it.
* C57: the loop as a function of the list of events, the set-up as a function of the arguments. The node's chain is a separate
  relation over the same events (OuraSpec.history); an invariant by induction over it says that the chain is a prefix of what a
  reader of the output has.
* C58: the program as a function of the arguments and of a server that may answer anything; case analysis over every step, with
  miniserde's derived readers as functions on JSON trees.
* C59: the estimator as an instance of the estimator record of C40-C45, over the conversions of C48 and an abstract builder.
  The theorems follow from C40, C42, C43 and C45 for any estimator, by induction over the chosen inputs.
* C60: the long division as a function with fuel; its loop invariant is that quotient and remainder make up the shifted dividend, and
  the theorems follow in integers at a common scale.  C61: multiplying the digits by ten and adding a decimal leaves the hashed text alone.
* C62: the log and the key index at a path as a state, opening as a function on it. Reopening is the reopen step of the histories of C24/C25; a
  reader is the reader of C50 on the log's history; the damage of a second open is C22_append_past_end on it.
* C63: the standard library's Unix time as an i64 of seconds and nanoseconds, with the addition that panics; integer arithmetic.
* C64: for each file the list of the contents it may have had since its last synchronisation; a power failure leaves the length of one of them and each sector of any of them; an invariant over histories says that every listed content of the index file holds the right entries, then zeroes, and every one of the data file the bytes they point to.
* C65: a view as a window of its mapping; the range of positions is a separate specification (FraosViewSpec.selects); induction over the chain of slices.
  C65_in_log ties the slices of the log's model to it.
* C38 (connection): `CardanoConnProps.v`: an invariant beside the one of C38 says that the receiver of every channel a request
  still needs is alive, so that in a run without failures, unreadable points, `clear_buffers` or `stop` no path of the handler
  gives the connection up; and a request taken without a connection makes one.
* C66: `SizeProps.v` on the models of C40, C44, C45 and C46: the announced size is a count of the calls, so that it follows from what the
  selections tell the estimator; the bounds on the number of chosen inputs come from the conservation of value (too large) and from the
  rule by which inputs are taken (within the limit).
* C31, example program: MultiverseCases.v models multiverse/examples/multiverse.rs (the tree it stores and the rule it applies; reading its arguments and printing are not modelled) and proves what it selects and discards for all arguments, and that it panics exactly for depths above six.
* C67: `MultiverseCrashModel.v` lists the writes each call of the block store makes; a crash leaves the tree after a prefix of the writes of a
  history, which is shown to be the tree of a crash-free history. `SourceCrashModel.v` cuts the writes of a pull of the confirming source; the
  invariant of C34 only asks that the store holds the blocks that must be kept and no block that was not received, so it survives a cut at any place. `SourceForkCrashProps.v` does the same for the fork-handling source and shows the gap. `StackCrashModel.v` adds the crash to the moves of C49.
  Trusted: after a crash sled holds a prefix of the writes, in their order, and `Tree::clear` removes the keys in their order.
* C68: `IMapPowerModel.v` runs the map over the disk of C64 (`FraosPowerModel.v`); sled is left with a prefix of its inserts. Each operation of the map
  is one record's worth of operations of the log, so that C64 applies without its condition on sectors; the entries of the map are related to the log
  and to the key index as in C24-C26. `IMapPowerSpec.v` says what a failure may do to the entries.

## Findings

Claims that a user would make and that are false of the code. Each is a theorem named `…_refuted` with a concrete
witness on the faithful model, next to the theorem with the condition under which the claim is true.

* **Amounts.** The serde path does not check the unit's rules: it accepts values that parsing the text rejects
  (C03_deserialize_checks_refuted). Truncating a negative amount gives zero (C04_truncate_whole_refuted). Crediting a
  negative amount leaves a balance of the wrong class (C05_negative_amount_refuted).
* **UTxO store.** An output that lists one token twice corrupts the token's balance and listing
  (C09_repeated_token_refuted, C10_repeated_token_refuted).
* **fraos.** A sequence number above 2^60 wraps and reads another record in a release build (C18_wraps_refuted). A failing
  flush leaves a record published though the append reports failure (C21_flush_failure_refuted), and so does a failing
  remapping (C21_remap_failure_refuted); when write-protecting a full mapping fails, reading an older record panics until the files are opened
  again (C21_protect_failure_refuted). Closing and opening the log right after the failed append helps in all these cases (C21_reopen_recovers, C21_reopen_history). After a failed flush, in an indexed log map a
  later successful append of another key answers with that record (C24_flush_failure_refuted), unless the map is opened again first (C24_late_failures). When one handle is dropped its
  close handler truncates the files, and an append through another handle is lost or faults (C22_append_after_drop_refuted; for every
  history and batch C22_append_past_end, and where no harm is done C22_first_append, C22_memory, C22_reopen).
* **indexed-log-map.** If the key index loses buffered writes in a crash, an acknowledged value is no longer returned
  (C25_acknowledged_lost_refuted); after a crash the map can say it is empty and still iterate over entries
  (C25_empty_but_iterates_refuted). Overlapping appends of one key can leave the older value as the latest
  (C26_equal_keys_refuted).
* **multiverse.** One identifier with two numbers panics (C28_same_id_refuted); a reference kept across removal and
  re-insertion panics (C28_held_reference_refuted) and can bring back a removed ancestor (C30_removed_ancestor_refuted); one identifier
  with two payloads makes memory and disk disagree (C28_payload_refuted). When a child arrives before its parent, the parent stays
  a tip (C29_child_first_refuted). The documented rule for ties is not what the code does (C31_first_selected_refuted). Opening with
  `store_from` loses the blocks below it (C32_store_from_refuted). Depth-ordered iteration skips forks
  (C33_forks_skipped_refuted, and C33_complete_iff says exactly when it is complete).
* **Sources.** A consumer that began with a point and lost the first delivery is refused for ever
  (C34_first_delivery_lost_refuted); a fork deeper than the depth delivers a sibling (C34_deep_fork_refuted). The fork-handling source
  panics on a first pull without a point (C35_no_point_panics_refuted) and when a collected block is sent again
  (C35_resent_block_panics_refuted), omits the rollback when no common ancestor is stored (C35_no_fork_point_refuted), and forgets
  its position in a restart (C35_restart_refuted) and the queued events too (C35_restart_queued_refuted); C35_restart_follows says
  when a restart does no harm.
* **Time.** A timestamp before the era start panics or wraps (C37_timestamp_before_era_refuted); epoch lengths in seconds are
  used as slot counts (C37_epoch_in_seconds_refuted).
* **Cardano source.** A block whose epoch cannot be computed is passed over: the next pull resumes after it, so there is a gap
  (C38_error_is_a_gap_refuted). A chain of only the first block returns nothing when starting from the beginning
  (C38_genesis_alone_refuted). The points given to pull are ignored while a request goes on (C38_from_ignored_refuted).
* **Stack.** If the node rolls back before the consumer has confirmed a block, the source asks only with points that the node
  left, and is given nothing for as long as the node stays on the new chain: without a start point for the confirming source
  (C49_no_start_refuted), and even with one for the fork-handling source (C49_fork_lost_refuted). If the node goes back to a
  chain that it had, the fork-handling source takes the consumer to be up to date and leaves it on the chain that the node left
  (C49_fork_back_refuted). Stopped while the first block is queued, the fork-handling source never gives that block again
  (C49_fork_restart_queued_refuted).
* **Selection.** The single change can be negative (C43_change_not_negative_refuted). Random-improve: two equal fixed outputs
  are counted twice (C44_equal_outputs_refuted), neither the fee nor the tokens need be covered (C44_fee_covered_refuted,
  C44_tokens_covered_refuted, C44_improvement_loses_tokens_refuted), a failed call loses its inputs
  (C44_failure_keeps_inputs_refuted), and set_available_inputs does not make them available (C44_set_available_refuted).
  Thermostat: tokens can be lost (C45_tokens_conserved_refuted), the fee can be too low with tokens or dust
  (C45_fee_covered_refuted, C45_fee_of_dust_refuted), a change can be below the minimum (C45_changes_above_minimum_refuted), a failed
  call loses its inputs (C45_failure_keeps_inputs_refuted), and it can panic (C45_no_panic_refuted; C45_no_panic says when it does not).
  Fixed inputs that suffice on their own are refused (C45_succeeds_iff), and having more outputs to choose from can make it fail
  (C45_more_available_refuted).
* **Estimator.** The reported size is wrong after add_protocol_magic, which overwrites it (C46_size_after_magic_refuted).
* **Conversion.** Assets listed twice under one fingerprint are not added up (C48_listed_twice_refuted), negative quantities
  become zero (C48_negative_refuted), fingerprints are not checked (C48_fingerprint_ignored).
* **Read-only log.** The search for the end of the index can run for ever, or report damage, when a writer adds entries during
  it (C50_search_ends_refuted, C50_search_reports_damage_refuted); a reader that opens the log while the writer closes it can be
  killed (C50_open_during_close_refuted); opening a missing log for reading creates its directory (C50_makes_directory_refuted).
* **JSON.** An output index is read from numbers only; its sibling counters also from text (C51_index_text_refuted).
* **Multisig plans.** A key that is listed twice counts twice (C52_repeated_key_refuted); a quorum of zero, which anybody can
  meet, and one that nobody can meet are read without complaint (C52_quorum_checked_refuted); the same keys in another order give
  another address (C52_key_order_address_refuted).
* **Minimum value.** Both estimators compute the minimum value of an output from its address alone. The result is the ledger's
  minimum without assets, and an output with any asset and that value is refused by the ledger (C53_min_value_refuted). The
  thermostat gives the change output of a token exactly this value when little of the main token comes with the token
  (thermostat.rs:272-289).
* **Fees not covered.** An output with several assets is charged as one with a single asset (C53_several_assets_refuted), and
  signatures beyond the quorum are not charged (C53_more_signatures_refuted).
* **Block fetcher.** When the node changes to another branch, the next pull finds no intersection and returns nothing, which the
  program takes for the end: it exits without an error, having printed blocks that are no longer on the chain and none of those
  that replaced them (C54_fork_refuted). `--since` with a number and no comma panics instead of giving an error
  (C54_since_panics), and what follows a second comma is ignored (C54_since).
* **Unfinished payments.** A selection takes its inputs out of the available ones when it returns, so if the change cannot be
  made afterwards they stay taken unless the caller puts the store back (C55_put_back_refuted).
* **Configurations are not checked.** A custom network whose prices are not numbers is accepted and panics at its first use
  (C56_usable_refuted); thermostat bounds in the wrong order or below zero are accepted (C56_bounds_refuted); so is an era whose
  epochs have no length, and then the conversion of any slot of that era panics (C56_empty_epochs_refuted).
* **Rollbacks are not printed** by the block fetcher over oura: until the next block arrives the output is the same as if there
  had been none (C57_rollback_refuted), and abandoned blocks stay in it.
* **The first-address tool trusts any first answer.** Only the second answer's status is checked (C58_first_status_refuted), and
  an unreadable body panics (C58_no_panic_refuted).
* **The builder is not told of changed outputs.** The thermostat goes on changing outputs after it has added them to the estimator:
  the builder then holds outputs that are not in the result (C59_thermostat_outputs_refuted), and its fee is for those.
  Any estimator is told of the change of a token before the token is put into it, and so prices an output without tokens
  (C45_changes_told_refuted); of the changes split off it is told as they are returned (C45_splits_told).
* **Fractions are dropped** on the way to the builder (C59_fraction_refuted); its size limit is the constant 16384, whatever the
  builder's own configuration says.
* **to_algo returns ether.** An amount of microalgos converted to whole coins is of type Value<Ether> (core/src/value.rs:365-371): converting
  it back gives wei, 10^12 times as many (C01_tag_round_trip_refuted).
* **Shares may exceed the whole.** Division rounds to nearest: three times a third of two is more than two (C60_shares_refuted).
* **Random-improve panics on large amounts.** It converts amounts to u64 and unwraps: it panics from 2^64 on and, with overflow checks, as soon
  as three times an output is that much. In units of 18 decimals that is 7 coins (C44_no_panic_refuted; C44_improvement_panics says exactly when).
* **Opening a map twice damages it.** A second open of an indexed log map with its key index is refused, because sled locks the index, but by then the
  log is open, and dropping it cuts both files to their used length under the first map: the next append there writes past the end of the file
  (C62_second_open_refuted, C62_second_cuts).
* **Large timestamps panic.** Converting a timestamp of 2^63 seconds or more to the system's time panics, though the type goes to 2^64
  (C63_every_timestamp_refuted, C63_panics).
* **Power failures can tear a batch of the log.** After a power failure inside an append of a batch whose index entries lie in
  several sectors, opening the log can find empty records in the middle of the batch (C64_torn_batch_refuted). Where nothing of
  the batch is found, its entries can still lie behind the end of the index; appends then grow up to them, and the next open
  without a clean close takes them for records, cuts the data file short and loses acknowledged records
  (C64_acknowledged_lost_refuted). Opening neither clears what lies behind the end of the index nor checks that entries are consecutive.
* **Records found after a process died are not made durable.** Opening does not synchronise what it finds, and an append
  synchronises its own mapping only; a later power failure can lose the earlier entries and with them all records appended and
  acknowledged since (C64_unsynchronised_refuted).
* **A slice that starts after the last usize.** SharedMmap::slice adds one to an excluded start: with the last number of usize a checked build
  panics and any other returns the whole view instead of nothing (C65_last_start_refuted).
* C38: `clear_buffers` while blocks are on their way makes the background task give up its connection to the node and connect
  again for the next request, although nothing was wrong with it (`C38_connection_cleared_case`).
* C66: no algorithm fails because of the size of the transaction: `max_size` only stops the thermostat from adding inputs beyond the need,
  so a payment out of many small outputs succeeds with a transaction the network refuses (`C66_within_limit_refuted`).
* C67: the block store never flushes, so an acknowledged insert may be gone after a crash (`C67_acknowledged_refuted`), and `clear` is not atomic: a
  crash can leave a block whose parent is gone (`C67_half_clear_refuted`).
* C67: if a crash loses the writes since the consumer accepted its last confirmed block, the confirming source opens but refuses every pull as not
  continuous, for ever and through restarts (`C67_lost_confirmation`): it cannot catch up, because it never asks the wrapped source.
* C67: when the process dies inside a pull of the fork-handling source after the received block was written, the consumer never gets that block: after
  the restart the source takes it for delivered and sends its child next, without an error (`C67_fork_crash_gap`).
* C67: a consumer that passes a start point and whose process dies inside the pull that confirms its first block, after the received block was written, is stuck: the
  store has a confirmed block, the consumer asks from neither it nor its parent, and every pull fails, through restarts (`C67_first_lost`, `C67_stack_first_lost`).
* C68: a record that a dead process left readable is not on the disk, and no later append puts it there. A power failure then shortens the log below
  the numbers of later acknowledged appends, which the key index still refers to; after further appends `get` of one key answers with the value of
  another (`C68_died_before_refuted`).

Seen while reading and not stated as a theorem: the thermostat's number of inputs that still fit divides bytes by lovelace (the
room that is left in the transaction by the fee of an input); C45_choice says under which condition on the estimator this is safe.

## Trusted base

* Coq's kernel, version 8.16.1 (`coqc`; the final state was also run through `coqchk`).
* Axioms: none. `Print Assumptions` of every theorem in the manifest (table below) says
  "Closed under the global context". The build prints it for each `*Props.v`. The libraries that are loaded (std++, and through
  them ssreflect's `ssrunder`) declare module parameters that `coqchk` lists; no theorem depends on them.
* No theorem uses native_compute. `vm_compute` is used for examples and witnesses; it is part of the kernel.
* That the model is the code. It was written by reading the code, definition by definition, with file and lines.

Contracts of code outside the repository that the models build in:

* **bigdecimal**: exact addition, subtraction and comparison of (digits, scale); its text parser and `Display` in plain notation
  as in 0.4.2. The repository has no Cargo.lock, and later versions print very small numbers in exponent notation.
* **memmap2 and the file system**: a shared mapping is a window of the file; set_len zero-fills; a flush makes no difference to
  a process crash. For power failures (C64): `msync` writes the whole pages of the mapping, and with them the length of the file;
  of what was not written so, each sector of the index file and each byte of the data file is on the disk in any state it had
  since, independently of the others. A sector is written whole. Creating the two files in the directory is taken to be durable.
* **parking/std locks**: never poisoned; each critical section is atomic for the others.
* **sled**: a finite map ordered by key bytes; inserts and removes are atomic; in a crash its newest inserts may be lost (C25).
  It does not fail otherwise. The JSON of a block reads back as that block.
* **imbl and std collections**: finite maps and sets; the iteration order is arbitrary.
* **rand**: `gen_range(0..n)` returns a number below n, any of them.
* **tokio**: bounded and unbounded mpsc channels deliver in order; a receiver that was dropped closes the channel; tasks
  interleave only at awaits.
* **Cardano node and cardano_sdk** (C38, C49): chain-sync answers the first given point that is on the chain, in the order given; block-fetch
  sends the blocks of a range; the node may change its chain at any time and any answer may be an error. Decoding of blocks and
  reading of ids are parameters.
* **Cardano library (cml)**: hashes are byte strings of a fixed length; bech32 and JSON are parameters with round-trip
  hypotheses (C48); the length of a script and the minimum value of an output are parameters (C46).
* **Blake2b** (C47): any function with 20-byte results.

Modelled: all functions of the files in the layout table that the properties mention, including error returns and panics.

Not modelled: `StoppableService` (a trait without code), logging and the
texts of errors,
the deps crate (re-exports), tests and benchmarks, memory use and timing.

## Tests against wrong programs

`seeded/LOG.jsonl` has one line for each edit of a model definition in a scratch copy: the edit, the claim it breaks, the theorems
that no longer hold (their proof fails, or they depend on a lemma whose proof fails), and the theorems that were added or tightened
because an edit survived. Edits that only touch code that is proved unreachable are marked as such.

## Theorems

Every theorem below is closed under the global context.

| property | file | theorems |
|---|---|---|
| C01 Unit conversions lose nothing | CoreProps.v, DivProps.v | C01_native_roundtrip, C01_native_roundtrip_back, C01_native_units, C01_rule_roundtrip, C01_default_rule, C01_coin_roundtrip, C01_tag_round_trip, C01_tag_round_trip_refuted |
| C02 Unit conversions respect comparison and arithmetic | CoreProps.v | C02_order_and_sums, C02_rules_order_and_sums, C02_exact_arithmetic, C02_common_scale |
| C03 Parsing an amount enforces the unit's rules | CoreProps.v | C03_accepts, C03_rejects, C03_print_parse, C03_serialize_deserialize, C03_deserialize_checks_refuted |
| C04 Truncation is rounding down | CoreProps.v | C04_truncate_floor, C04_truncate_idempotent, C04_truncate_negative, C04_truncate_whole_refuted |
| C05 A balance is the exact signed total of what was credited and debited | CoreProps.v | C05_balance_total, C05_status, C05_equal, C05_balance_order_free, C05_signed_total, C05_negative_amount_refuted |
| C06 Adding two balances adds their signed totals | CoreProps.v | C06_balance_sum, C06_balance_sum_normal |
| C07 Counters never wrap silently | CoreProps.v | C07_checked_add, C07_saturating, C07_next, C07_range_and_monotone |
| C08 The UTxO store holds exactly the inserted, not yet removed outputs | StoreProps.v | C08_results, C08_failing_changes_nothing, C08_contents, C08_unspent_meaning |
| C09 Token balances are the sum over the unspent outputs | StoreProps.v | C09_main_balance, C09_token_balance, C09_repeated_token_refuted |
| C10 Per-token listings are exact and sorted | StoreProps.v | C10_listings, C10_main_listing, C10_repeated_token_refuted |
| C11 The store's observable state does not depend on the history | StoreProps.v | C11_same_unspent_same_store, C11_insert_remove, C11_dictionary_first_registration |
| C12 A record is read back byte for byte under its sequence number | FraosProps.v | C12_opens, C12_read_back, C12_append_succeeds, C12_memory |
| C13 The log is append-only | FraosProps.v | C13_append_only |
| C14 Iteration yields the records in order, once each | FraosProps.v | C14_iteration, C14_iteration_items |
| C15 Closing and reopening keeps the log | FraosProps.v | C15_reopen, C15_disk_size |
| C16 A process crash in the middle of an append loses at most the batch being appended | FraosProps.v | C16_crash_exact, C16_crash |
| C17 Concurrent readers never see a half-written record | FraosProps.v | C17_whole_records, C17_monotone, C17_acknowledged, C17_len, C17_len_monotone, C17_steps_are_append |
| C18 A sequence number past the end reads as nothing | FraosProps.v | C18_past_the_end, C18_wraps_refuted |
| C19 Finding the end of a crash-padded index is exact and terminates | FraosProps.v | C19_search, C19_search_exact, C19_any_index_opens |
| C20 Invalid appends are refused and change nothing | FraosProps.v | C20_empty_batch, C20_empty_record, C20_put_empty |
| C21 A failed append does not corrupt later records | FraosLateFaults.v, FraosMemProps.v, FraosProps.v | C21_failed_append, C21_later_append, C21_flush_failure_refuted, C21_memory_failed, C21_memory_reported, C21_protect_failure_refuted, C21_remap_failure_refuted, C21_reopen_recovers, C21_reopen_history |
| C22 Dropping one handle of a database does not affect the others | FraosDropProps.v, FraosProps.v | C22_drop_keeps_reads, C22_append_after_drop_refuted, C22_append_past_end, C22_first_append, C22_memory, C22_reopen |
| C23 How the data are split into mappings is invisible | FraosProps.v | C23_mappings_invisible, C23_files_or_memory |
| C24 The indexed log map returns the latest value of a key and the full history | ILogFaults.v, ILogLate.v, ILogMapProps.v | C24_opens, C24_latest, C24_absent, C24_whole, C24_append_succeeds, C24_memory, C24_no_index, C24_failures, C24_failures_get, C24_flush_failure_refuted, C24_late_failures, C24_late_failures_get |
| C25 A crash during an append to the indexed log map never yields a wrong answer | ILogMapProps.v | C25_any_history, C25_never_wrong, C25_crash_in_append, C25_acknowledged_lost_refuted, C25_empty_but_iterates_refuted |
| C26 Concurrent appends to the indexed log map keep get consistent with the log | ILogConcCrash.v, ILogMapProps.v | C26_get_sound, C26_get_atomic, C26_latest, C26_iteration, C26_equal_keys_refuted, C26_crash |
| C27 Stored blocks sort by block number | MultiverseProps.v | C27_order, C27_injective, C27_total_order |
| C28 The block store is a map from identifiers to blocks | MultiverseProps.v | C28_any_history, C28_queries, C28_contents, C28_reinsert, C28_remove_absent, C28_same_id_refuted, C28_held_reference_refuted, C28_payload_refuted |
| C29 Tips are the blocks without a stored child | MultiverseProps.v | C29_tips, C29_non_empty, C29_tips_parents_first, C29_child_first_refuted |
| C30 Ancestor lookups follow parent links | MultiverseProps.v | C30_ancestor, C30_unique, C30_removed_ancestor_refuted |
| C31 The confirmed block is the depth-th ancestor of a highest block, and only older blocks are discarded | MultiverseCases.v, MultiverseProps.v | C31_select, C31_keeps_selected, C31_height, C31_preferred_fork, C31_first_selected_refuted, C31_example_program, C31_example_panics |
| C32 Reopening the block store gives the same store | MultiverseProps.v | C32_reopen, C32_reopen_same, C32_store_from_refuted |
| C33 Depth-ordered iteration goes up by block number and is complete exactly without forks | MultiverseProps.v | C33_one_per_number, C33_no_forks, C33_complete_iff, C33_forks_skipped_refuted |
| C34 The confirming source delivers each confirmed block once, in chain order | SourceProps.v | C34_settled_chain_unique, C34_settled_blocks_in_order, C34_all_settled_blocks, C34_linear_chain, C34_never_stuck, C34_next_pull, C34_first_delivery_lost_refuted, C34_deep_fork_refuted |
| C35 The fork-handling source lets the consumer follow every fork switch | SourceProps.v, SourceRestartProps.v | C35_consumer_follows, C35_chain_received, C35_rollback_known, C35_queue_first, C35_shallow_forks, C35_no_point_panics_refuted, C35_resent_block_panics_refuted, C35_no_fork_point_refuted, C35_restart_refuted, C35_restart_follows, C35_restart_resumes, C35_restart_queued_refuted |
| C36 The confirmed block stays in the store | SourceProps.v | C36_confirming_source, C36_fork_source |
| C37 Slots, epochs and timestamps convert consistently | TimeProps.v | C37_epoch_and_relative, C37_place_to_slot, C37_before_era_refused, C37_refused_only_before_era, C37_epoch_monotone, C37_timestamp, C37_timestamp_strictly_monotone, C37_timestamp_injective, C37_timestamp_before_era_refuted, C37_epoch_in_seconds_refuted, C37_epoch_of_time, C37_byron_slot, C37_byron_slot_ordered, C37_timestamp_checked, C37_timestamp_wraps, C37_epoch_overflow, C37_byron_overflow, C37_known_eras, C37_known_start |
| C38 The Cardano source resumes without loss or repetition | CardanoConnProps.v, CardanoDeliverProps.v, CardanoLiveProps.v, CardanoProps.v | C38_served, C38_asks_first, C38_asked, C38_ended, C38_no_loss, C38_no_loss_from_genesis, C38_caught_up, C38_next_from, C38_linked, C38_points, C38_from_origin, C38_event, C38_error_is_a_gap_refuted, C38_genesis_alone_refuted, C38_from_ignored_refuted, C38_pull_returns, C38_stops, C38_no_error, C38_connection_kept, C38_connection_again, C38_connection_lost, C38_request_ends, C38_comes_to_tip |
| C39 The selection setup totals are the sums of the given inputs and outputs | SelProps.v | C39_totals, C39_descriptions, C39_is_balanced, C39_are_utxos_balanced |
| C40 Largest-first selection covers outputs and fee with distinct available inputs | SelProps.v | C40_selected, C40_failure |
| C41 Largest-first fails only when the funds are insufficient, and uses the fewest inputs | SelProps.v | C41_fails_only_when_short, C41_fewest, C41_succeeds_iff |
| C42 Giving the excess to the fee balances the transaction | PipelineProps.v, SelProps.v | C42_fee_change, C42_pipeline, C42_succeeds_iff, C42_fee_suffices |
| C43 The single change output balances the transaction | PipelineProps.v, SelProps.v | C43_single_change, C43_failure, C43_pipeline, C43_change_not_negative_refuted, C43_change_follows, C43_succeeds, C43_succeeds_iff |
| C44 Random-improve chooses distinct available inputs that cover the outputs, whatever the random numbers | RandProps.v | C44_selected, C44_total, C44_new, C44_never_twice, C44_succeeds, C44_empty_output_fails, C44_improvement_rule, C44_improvement_panics, C44_pipeline, C44_equal_outputs_refuted, C44_fee_covered_refuted, C44_tokens_covered_refuted, C44_improvement_loses_tokens_refuted, C44_no_panic_refuted, C44_failure_keeps_inputs_refuted, C44_set_available_refuted, C44_set_available |
| C45 Thermostat selection conserves value | ThermoProps.v, ThermoSplitProps.v, ThermoTokenProps.v, ThermoToldProps.v, ThermoTotalProps.v | C45_main_value, C45_totals, C45_inputs, C45_tokens, C45_signs, C45_fee, C45_estimator_informed, C45_fee_of_result, C45_failure_keeps_inputs, C45_changes, C45_single_change, C45_choice, C45_needs, C45_never_with_free_inputs, C45_tokens_conserved_refuted, C45_fee_covered_refuted, C45_fee_of_dust_refuted, C45_changes_above_minimum_refuted, C45_failure_keeps_inputs_refuted, C45_no_panic_refuted, C45_splits_told, C45_changes_told_refuted, C45_splits_due, C45_succeeds_iff, C45_no_panic, C45_succeeds_with_tokens, C45_more_available_refuted |
| C46 The fee estimator is consistent | EstimProps.v, PipelineProps.v | C46_fee_formula, C46_announced, C46_size, C46_any_order, C46_new_panics, C46_calls_panic, C46_fixed_prices, C46_thermostat_fee, C46_thermostat_choice, C46_networks, C46_dummy_free, C46_dummy_never, C46_size_after_magic_refuted, C46_single_change_fee |
| C47 Asset fingerprints are fixed-width, and distinct from the main token | UtilProps.v | C47_accepts, C47_shape, C47_identifies, C47_not_main |
| C48 Converting outputs to the ledger format and back keeps the amounts | UtilProps.v | C48_refused, C48_sent, C48_read, C48_round_trip, C48_ledger_round_trip, C48_output_round_trip, C48_input_round_trip, C48_listed_twice_refuted, C48_negative_refuted, C48_fingerprint_ignored |
| C49 Stacked on the Cardano source, the confirming and the fork-handling source follow the node's chain | StackForkProps.v, StackLiveProps.v, StackProps.v, StackRestartProps.v | C49_confirmed_chain, C49_no_failure, C49_caught_up, C49_fork_chain, C49_tip, C49_fork_tip, C49_no_start_refuted, C49_fork_lost_refuted, C49_delivers, C49_fork_delivers, C49_fork_back_refuted, C49_fork_restart_chain, C49_fork_restart_possible, C49_fork_restart_delivers, C49_fork_restart_none, C49_fork_restart_queued_refuted |
| C50 A read-only handle of the log is a snapshot | FraosRoProps.v | C50_snapshot, C50_moments, C50_same_as_writable, C50_refuses, C50_refuses_put, C50_missing, C50_makes_no_files, C50_makes_directory_refuted, C50_no_place, C50_writable_makes_log, C50_search_while_growing, C50_search_still, C50_search_ends_refuted, C50_search_reports_damage_refuted, C50_open_during_close_refuted |
| C51 The JSON and text forms of the data types lose nothing | JsonPointProps.v, JsonProps.v | C51_counter_json, C51_counter_text, C51_counter_text_accepts, C51_counter_accepts, C51_index_accepts, C51_index_text_refuted, C51_value_json, C51_value_numbers, C51_pointer_json, C51_asset_json, C51_details_json, C51_builder_json, C51_transaction_json, C51_block_json, C51_event_json, C51_point_json, C51_config_json, C51_metadata_json, C51_distinct, C51_pointer_text_injective, C51_field_order, C51_unknown_refused, C51_unknown_ignored, C51_repeated_refused, C51_missing_refused, C51_defaults, C51_positional, C51_tip_not_written, C51_tip_not_read, C51_metadata_value, C51_metadata_last, C51_point_accepts |
| C52 A multisig plan's money moves exactly when its quorum signs | MultisigProps.v | C52_threshold, C52_different_keys, C52_monotone, C52_key_order, C52_script_determines_plan, C52_address_determines_plan, C52_address_always, C52_key_order_address_refuted, C52_repeated_key_refuted, C52_no_quorum, C52_unreachable_quorum, C52_reads, C52_read_well_formed, C52_case_ignored, C52_quorum_checked_refuted, C52_reads_in_any_order |
| C53 The estimated fee and size cover the real transaction | CoverProps.v | C53_size_covered, C53_fee_covered, C53_within_limit, C53_thermostat, C53_several_assets_refuted, C53_more_signatures_refuted, C53_min_value_refuted |
| C54 The block fetcher prints every block after the start once, in order, and ends | FetchProps.v | C54_prints, C54_prints_from_genesis, C54_complete, C54_ends, C54_no_error, C54_all, C54_line_lossless, C54_since, C54_since_written, C54_since_panics, C54_fork_refuted |
| C55 A wallet's books balance over any sequence of payments | WalletProps.v | C55_pool, C55_main_value, C55_tokens, C55_change_positions, C55_spent_once, C55_refusals, C55_put_back_refuted |
| C56 Configuration documents are read exactly | ConfigProps.v | C56_era, C56_thermostat, C56_network, C56_known_parameters, C56_custom_parameters, C56_custom_from_document, C56_rule, C56_rule_roundtrip, C56_field_order, C56_usable_refuted, C56_bounds_refuted, C56_empty_epochs_refuted |
| C57 The second block fetcher prints every block it is sent, and its output tells the chain | OuraProps.v | C57_prints, C57_no_error, C57_prefix, C57_output_tells_chain, C57_chain_printed, C57_no_rollback, C57_output_determines_chain, C57_rollback_refuted, C57_setup |
| C58 The first-address tool's verdict is about the right address and the server's answer | FirstAddrProps.v | C58_verdict, C58_complete, C58_no_other_output, C58_first_status_refuted, C58_no_panic_refuted |
| C59 On top of the Cardano library's builder, the fee covers what the builder requires | CmlProps.v | C59_fees_nonneg, C59_largest_first, C59_fee_change, C59_single_change, C59_thermostat_counts, C59_sizes, C59_new, C59_refused, C59_thermostat_outputs_refuted, C59_fraction_refuted |
| C60 Dividing an amount by a count gives the nearest amount, exactly where it can | DivProps.v | C60_panics, C60_nearest, C60_exact, C60_opposite, C60_same_amount, C60_same_amount_refuted, C60_threshold, C60_thermostat_pivot, C60_thermostat_half, C60_shares_refuted |
| C61 Equal amounts have equal hashes | DivProps.v | C61_hash, C61_hash_point |
| C62 Opening an indexed log map from its configuration | ILogOpenProps.v | C62_memory, C62_makes, C62_makes_nothing_read_only, C62_opens_again, C62_appends, C62_close_again, C62_without_index, C62_read_only, C62_reader, C62_second_refused, C62_second_cuts, C62_second_open_refuted |
| C63 A timestamp is the system time that many seconds after the Unix epoch | ClockProps.v | C63_exact, C63_order, C63_panics, C63_every_timestamp_refuted, C63_add, C63_slot_time |
| C64 A log keeps its acknowledged records through power failures | FraosPowerCases.v, FraosPowerProps.v | C64_history, C64_acknowledged_stay, C64_any_batch, C64_single_records, C64_torn_batch_refuted, C64_acknowledged_lost_refuted, C64_unsynchronised_refuted |
| C65 A view of a mapped file is a slice of it | FraosViewProps.v | C65_new, C65_slice, C65_slices, C65_selects_one, C65_last_start_refuted, C65_in_log |
| C66 The size of a selected transaction against the network's limit | SizeProps.v | C66_thermostat_size, C66_largest_first_size, C66_random_size, C66_single_change_size, C66_fits, C66_thermostat_oversized, C66_largest_first_oversized, C66_random_oversized, C66_within_limit_refuted |
| C67 A crash leaves the block store as after a part of its history | MultiverseCrashProps.v, SourceCrashProps.v, SourceFirstCrashProps.v, SourceForkCrashProps.v, StackCrashProps.v | C67_call_writes, C67_crash, C67_no_loss_possible, C67_half_clear, C67_half_clear_refuted, C67_acknowledged_refuted, C67_pull_writes, C67_source_crashes, C67_source_starts, C67_lost_confirmation, C67_fork_pull_writes, C67_fork_crash_before, C67_fork_crash_gap, C67_first_lost, C67_stack_chain, C67_stack_starts, C67_stack_first_lost, C67_stack_delivers |
| C68 The indexed log map after power failures | IMapPowerCases.v, IMapPowerProps.v | C68_history, C68_never_wrong, C68_nothing_lost, C68_keys_kept, C68_died_before_refuted |
