# Design of the nakamoto verification

Source: cloudhead/nakamoto at the pinned commit in /repo, read as text, never built.
Prover: Coq 8.16.1 with std++ (finite maps) only.  Every model definition cites the
/repo file and lines it models.

## Layout

* `rocq/theories/<Area>Model.v`  - executable model, function by function, no proofs.
* `rocq/theories/<Area>Spec.v`   - small independent vocabulary used in theorem statements.
* `rocq/theories/<Area>Proofs.v` - lemmas; further files of lemmas where one would be too long
  (e.g. InvTrack.v, InvViews.v, InvMore.v, PeerDial.v, CbfSeen.v, AddrWord.v).
* `rocq/theories/<Area>Props.v`  - the property theorems, each followed by a concrete case
  meeting its hypotheses and by `Print Assumptions`.

## Modelling conventions

* Heights, times, work, amounts: unbounded `N`/`Z`, except where a property is about
  overflow; there the machine width is modelled explicitly.
* Panics (assertions, index errors, arithmetic overflow where relevant) are explicit error
  values.  Loops get fuel only when not structurally bounded; running out of fuel is an
  explicit value that theorems exclude.
* Hashing is a function argument.  No collision freedom is assumed; where the code walks
  parent links the theorems assume the headers of the history have acyclic parent links
  (`acyclic`), which is a statement about the finite set of headers presented, and is what
  proof-of-work and SHA256 provide in practice.
* HashMap iteration order and random choices are arguments; theorems hold for all of them.
* The network, the operating system file calls and the `bitcoin` crate are outside /repo.
  What is assumed about them is written next to the definition that models them and
  collected in "Trusted base".

## Plan per property

| id | model | proof idea |
|----|-------|-----------|
| C01-C03 | BlockCache state machine (import_block, import_blocks, extend_tip) | state invariant by induction over operations |
| C04, C06 | chain_candidates and best-branch fold of import_block | fold invariant; case analysis of the network flag |
| C05 | same, with reference selection as in test model | invariant: active chain is the argmax over all connected known headers |
| C07-C09 | validate inside import_block/extend_tip | per-block history invariant; C08 is tested for a counterexample |
| C10-C12 | results of import_block / import_blocks | list reasoning on rollback + extension; C11, C12 batch part suspected false, to be refuted with a witness and proved in the restricted case |
| C13 | panics as error values | invariant excludes them; ancestor walk terminates by rank |
| C14-C17 | store as list, file store as bytes | refinement of file bytes to list; crash = prefix of the byte effects |
| C18-C21 | locators_indexes, locator_hashes, locate_headers, find_branch | induction with explicit 64-bit checks |
| C22 | double-ended iterator | invariant on (next, next_back) |
| C23 | AdjustedTime | invariant over record_offset |
| C24 | median_time_past | sorted-permutation argument |
| C25-C26 | next_difficulty_target, compact encoding | arithmetic; C26 suspected false (u32 wrap) |
| C27-C30 | cbfmgr + chain FilterCache | invariant over messages and rollbacks |
| C31-C34 | Rescan, HeightIterator | queue invariant; C32, C34 suspected false |
| C35 | p2p FilterCache | invariant on size vs. sum |
| C36-C37 | FeeEstimate, FeeEstimator | sorting; snapshot stack invariant |
| C38-C40 | InventoryManager | invariant over events |
| C41-C43 | AddressManager | invariant over events; C43 suspected partly false |
| C44-C48 | PeerManager | per-connection automaton invariant |
| C49 | PingManager | per-peer automaton |
| C50-C51 | SyncManager | invariant; C51 suspected false |
| C52 | TimeoutManager | invariant: strictly sorted and spaced |
| C53 | Decoder over a prefix-stable decode function | induction on chunks |
| C54-C55 | Outbox, StateMachine dispatch | queue refinement |
| C56 | Socket buffer | conservation invariant |
| C57 | peers.json | round trip over an abstract JSON tree |
| C58 | wallet apply over a UTXO map | refinement to set algebra |
| C59 | Emitter | per-subscriber queue invariant |
| C60-C61 | InventoryManager with FeeEstimator | the only reachable panic characterised, then reached |
| C62-C66 | cbfmgr | panics refuted with a witness; reply, match and pending-set specifications |
| C67-C69 | SyncManager | per-peer request history; panic freedom from C13 |
| C70-C72 | AddressManager | store/range agreement invariant |
| C73-C75 | PeerManager | loop termination measure; per-peer automaton |
| C76 | peers.json | prefix of the written text |
| C77 | service inboxes | per-connection projection of the run, using C53 |
| C78-C82 | reactor | source/peer agreement invariant, per-connection projection of the trace |
| C83 | validate, extend_tip | validation rules specified over the active chain, equivalence |
| C84 | FeeEstimator::apply | invariant: tracked outputs; exactness of the double rounding |
| C85 | Client::load, initialize over the file bytes | composition of C14, C17, C27 and C28; crash refuted with a witness |
| C86-C87 | header cache, sync, filter and inventory managers inside the dispatch loop | invariants of C13, C27, C60, C62, C69 composed; reported re-orgs followed through the queue; crash refuted with a witness |
| C88 | inventory manager | wanted blocks tracked by an observer of inputs and outputs |
| C89-C92 | header sync manager | outputs related to the history of inputs; events replayed by a listener; batch case refuted with a witness |
| C93-C95 | cbfmgr | requests and awaited blocks tracked by an observer; counting argument for requests; early Scanned refuted with a witness |
| C96 | addrmgr | reports and requests characterised by the history of inputs and outputs |
| C97 | syncmgr | potential argument: retries left in the requests in flight |
| C98-C99 | all managers, event queue and commands | a run of the whole machine, with the traffic of the peer, address and ping managers erased, is a run of the node of C86-C87 |
| C100 | header requests | six reasons over what an observer sees of the peers (`seen`), by an invariant that ties the peer table to it |
| C101 | peermgr | dialled addresses traced back to draws, user requests and persistent peers; idle times read off the history |
| C102 | block, filter and inventory managers in the dispatch loop | the run is projected to a run of each manager (NodeTold.v), whose own observers (C39, C88, C93, C100) are related to the events announced |
| C103-C105 | block, filter and inventory managers in the dispatch loop | the log of a run (inputs, times, heights, items) is shown to tell the calls of each manager (NodeSeen.v); watched scripts, awaited blocks, last requests and serving peers are folds over that log (NodeFetch.v) |
| C106-C109 | client handle, channels and the loop of the reactor | an interleaving of threads and node as one sequence of operations; an invariant per thread (`tinv`) and one over the channels (`ginv`), for any node; traces with the values returned |
| C110, C111 | chain of the whole node, as its user sees it | the header cache of a full run is `reachable` (projection to the node, C98), so that C03-C21 hold of it; emitted events were queued by a step before (`full_order`), traces cut at any item (`trace_ok`) |
| C112 | peer, address and ping managers in the whole machine | a step makes the calls that its input and announced events ask for (`calls_of`); by induction over the log the states of the managers are those of runs of their own |
| C113-C115 | connections of the whole client | `link_of` folds the log to the state of a connection; it agrees with the observer of the peer manager alone (`status_of`) over the history of C112, so that C44-C48, C73-C75 and C101 can be read off the log |
| C116, C117 | log of the whole client | the log of the whole client and that of the part with the chain, filter and inventory managers agree up to steps that do nothing to these (`corr` in FullNode.v), so C102-C105 carry over; events about peers come from the peer manager only and pass through its queue in order, which leads from a handshake announced back to the wire (FullWrites.v) |
| C118-C122 | the authors' wish list (comment of the test module in client/src/event.rs) | the scan as the drain of a queue, whose result is a function of the set of filters delivered (OrderProofs.v); heights requested, queued and cached are kept apart; arrivals of blocks likewise (OrderBlocks.v); a chain of headers over an append (OrderMore.v); C120 and C121 by computation on the state (OrderNode.v, OrderMore.v) |
| C123 | submitted transactions of the whole client | the pool as a fold of the log (PoolSpec.v) equals the mempool of the inventory manager: first per call of the manager, then per step of the node by the order of its outputs (PoolProofs.v), then carried to the whole client by the correspondence of logs (PoolFull.v) |
| C124 | headers taken by the whole client | which peers are connected and asked is a fold of the log (TakeSpec.v) that bounds the registers of the sync manager from both sides (TakeProofs.v); the effect of one import is SyncEvents.v, carried to the whole client (TakeFull.v), and its truth is that of the header cache |
| C125-C128 | network simulator | the log of outputs and calls is folded to what was sent, heard and told (SimSpec.v); an invariant ties it to the inbox, which is sorted by time (SimProofs.v); with delays of at least a millisecond nothing is dropped (SimSpace.v); attempts, connections and panics (SimLinks.v); timers that go off (SimFire.v) |
| C129-C131 | wallet loop and screen | an invariant says that whatever is not current on the screen is marked for redrawing; a redraw makes all of it current (ScreenProofs.v); ranges of what is drawn (ScreenPanic.v); times of redraws (ScreenLoad.v); the end of the loop (ScreenEnds.v) |

## Trusted base

* The Coq 8.16.1 kernel, including its virtual machine (`vm_compute` closes the concrete
  cases and the refutations; no property theorem over all inputs depends on it except
  through ground side conditions).
* `Print Assumptions` of every property theorem says "Closed under the global context":
  no axiom, neither of the standard library nor of std++ nor own, is used.  (The checker
  lists `Coq.ssr.ssrunder.*`, the interface of a standard library module that std++ loads;
  no theorem depends on it.)
* The correspondence between /repo and the model definitions, which was made by reading.
  Each definition cites the lines it models.

Modelled (function by function): chain/src/block/cache.rs, chain/src/block/store/{memory,io}.rs,
chain/src/filter/cache.rs, common/src/block/{iter,time,tree}.rs (the functions with a body),
common/src/block.rs, common/src/collections.rs, p2p/src/fsm/{addrmgr,cbfmgr,cbfmgr/rescan,fees,
filter_cache,invmgr,peermgr,pingmgr,syncmgr,output}.rs, the dispatch part of p2p/src/fsm.rs,
p2p/src/stream.rs, client/src/{service,peer}.rs, `Client::load` and `initialize` (block and filter stores), the state machine put together from
the header cache and the sync, filter and inventory managers (NodeModel.v) and from all managers
with the user commands (FullModel.v: `initialize`, `connected`, `disconnected`, `message_received`,
`event`, `command`, `next`; the clock offset and hooks that only observe are left out), net/src/{event,time,simulator}.rs,
net/poll/src/{reactor,socket,time}.rs, wallet/src/wallet.rs, wallet/src/wallet/db.rs and wallet/src/wallet/ui.rs with ui/table.rs (the screen is three areas that
show values; text, positions and colours are left out, the lengths of texts are arguments).

The methods of `Handle` in client/src/client.rs, the publishers and channels between the threads, and the loop of the
reactor around the node are modelled as interleavings (ClientModel.v).

Not modelled: the configuration and `listening` of client/src/client.rs, failing wakers,
the node and wallet binaries, the text the wallet puts on the terminal, hardware wallet code, DNS
seeding, logging, and the test helpers.

Assumed about code outside /repo, always as an argument or next to a definition:

* `bitcoin` crate: compact target conversion, `work`, `validate_pow`,
  `difficulty_adjustment_interval` are written out (PowModel.v) from memory, because the
  source of the crate is not available here; SHA256d, filter hashing and GCS matching, message framing payloads,
  checksums, script/address conversion and JSON text are function arguments without assumed
  properties, except where a theorem states one as a hypothesis (e.g. `streaming parse`,
  round trip of the address text, `watch_ok`).
* Header hashes: `acyclic` (see above) where the code walks parents.
* Store calls of the block cache: succeed, or fail after a whole number of headers
  (`choice`); `io_ok` restricts a theorem to successes.  The file store is modelled on bytes;
  a crash leaves a prefix of the written bytes.
* SQLite: one table with a uniqueness constraint, sums failing on 64-bit overflow.
* crossbeam channels: unbounded FIFO queues.  `popol`: a list of sources, level-triggered,
  reporting only registered sources.
* Release-mode arithmetic: where a wrap is reachable, it is modelled as wrapping (32, 64 or
  128 bits) and named in the comment; a debug build would panic there.
* Hash maps and sets are iterated in some order of their entries (`wfair`, `fair_aenv`, `fair_order`), which
  may differ from call to call.
* Time does not need to be monotonic unless a theorem says so.
* Chain work is unbounded (256-bit overflow of the total is out of scope), lists have no
  length limit, memory allocation does not fail.

## Findings

Found by failing to prove a property of the faithful model.  A theorem named in brackets shows
the finding with a concrete witness; the other remarks were made while reading the code and
are not backed by a theorem.

Header chain (chain/src/block/cache.rs)
* A stale branch that is shorter but heavier can revert blocks below a reached checkpoint:
  only the parent of the *new* header is compared with the last checkpoint
  (`C08_no_revert_below_checkpoint_refuted`).
* `import_blocks` over-reports connected blocks and under-reports reverted ones when a batch
  switches back and forth (`C11_batch_connected_refuted`, `C11_batch_reverted_refuted`).
* A batch that aborts half way has changed the chain but reports nothing; filter headers then
  run ahead (`C28_unreported_refuted`) and the assertion at cbfmgr.rs:571 fails.
* A store failure during a switch leaves the chain in memory truncated at the fork
  (`C03_work_monotone_refuted_on_store_failure`).
* A period whose last block is earlier than its first makes the target four times easier
  instead of harder: u32 wrap (`C26_backwards_refuted`).
* Loading does not check that the stored headers are linked (remark); parent cycles would make
  the ancestor walk diverge (`C13_cycle_diverges`).
* A branch is validated against medians and targets of the active chain, not its own; heights
  missing there count as time zero.  The chain with most work can be kept out for good, depending
  on the order of arrival (`C05_context_refuted`).
* On mainnet the active chain depends on the order of arrival (`C05_mainnet_refuted`, by design:
  first seen wins).  Remark: ties among several new branches depend on HashMap order there.

Stores
* A crash between switching the header file and rolling the filter file back leaves more filter
  headers than headers: every later start panics at cbfmgr.rs:571 (`C85_crash_refuted`,
  `C85_ahead`).  If the new branch was already as long, filter headers of the abandoned branch
  are kept without notice and filter sync makes no progress (`C85_stuck`).
* Remarks: a rollback beyond the end of the file extends it with zeros; `put` may leave part of a
  header if the write is cut; `create` of the peer cache (client/src/peer.rs) opens the file for
  writing only.
* Reading back relies on `read_exact` leaving partial bytes in the buffer
  (`C16_iteration_refuted_if_buffer_cleared`).

Time (common/src/block/time.rs)
* A sample of `i64::MIN` escapes the 70-minute bound (`C23_offset_bounded_refuted_at_i64_min`).

Compact filters (cbfmgr.rs, rescan.rs, filter_cache.rs)
* Any peer can make `headers_imported(..).unwrap()` panic (line 707); RequestFilters and
  `sync` assert at lines 449 and 571 (C62 theorems).
* A rescan whose end is passed over never stops (C32); after a re-org stale received filters
  are matched (C34); blocks matched from the cache are never reported (C65).
* When a matched block of an earlier scan arrives, `Scanned` runs ahead of the new scan
  (`C94_ahead_refuted`). After a filter, `Scanned` carries the first height not scanned; after a
  block it can carry the height of that block.
* `getcfheaders` with start above stop wraps, replies are incomplete above the filter height
  and not capped at 2000 (C63).
* The persistent flag looked at on a timeout is that of the wrong peer (C66); `cfheaders` are
  accepted from any peer while a request is in flight (C29).
* Memory is extended before the store write fails (C27); pushing the same height twice makes
  the cache size drift (`C35_exact_size_refuted`).

Transactions and fees (invmgr.rs, fees.rs)
* A block whose transaction spends less than it sends, which nothing checks before, crashes
  the client: assertion fees.rs:169 (`C37_no_panic_refuted`, `C60_no_panic_refuted`).  The body
  of a block is never compared with the merkle root (`C38_body_refuted`).
* The block queue is stuck if the last outstanding block became stale
  (`C38_progress_refuted`); queued blocks that became stale are still processed
  (`C38_on_chain_refuted`).
* Rolling back to the current height pops a snapshot (`C37_rollback_to_current_refuted`);
  the median can fall below the low estimate above 2^53 (`C36_order_refuted_above_2_53`).
* The retry limit is per peer, not per transaction (`C40_per_transaction_refuted`).
* Reverting a block that was never downloaded rolls the fee data back
  (`C61_unprocessed_revert_refuted`).
* Remarks: a new peer gets the whole mempool whatever its relay flag says; any `getdata` for a
  transaction resets the attempts.

Header sync (syncmgr.rs)
* Peers sending invalid headers are never marked as misbehaving, because errors arrive wrapped
  in `Abort` (C51 refutation); timed-out sync requests are ignored (C50); the debug assertion
  on repeated requests can fail (C67); a new tip is announced twice (C68).
* If all connected peers offer filters, headers are not asked from them although they are ahead,
  until the hourly sampling; its hour starts at startup, when nobody is connected
  (`C100_filters_refuted`).
* Remarks: an inbound peer that sends the new tip is sent its own header back, because its height
  is raised after the announcement; `now - TIP_STALE_DURATION` underflows for clocks before 1970
  plus two hours.

Addresses and peers (addrmgr.rs, peermgr.rs)
* `ImportAddresses` does nothing (`C72_import_refuted`); bans are recorded only if the range
  bucket exists (`C43_unknown_refuted`) and never for dial errors (`C43_dial_refuted`);
  connected addresses are tracked per IP (`C42_connected_refuted`); sampling gaps are measured
  with the idle clock (`C42_clock_refuted`); eviction forgets failed attempts
  (`C42_forgotten_refuted`).
* The inbound limit is effectively one lower (C46); self-connections are never detected
  (`C45_self_refuted`); a resent `version` resets the handshake (`C44_again_refuted`); inbound
  connections count against the outbound target (`C48_reached_refuted`); the attempt counter
  wraps at 32 bits (`C47_wrap_refuted`); a dial error while connecting emits no event
  (`C75_dial_refuted`).
* Remarks: a negative start height in `version` becomes a huge height (`C45_exact` has the cast);
  any peer can add to the local addresses (C72_case); no connections are sought if a persistent
  peer is configured; `connect` to an address that is disconnecting is lost; inverted retry limits
  panic in `clamp` (C73_case); a message before `initialize` panics (C70_case); a ping timer is not
  set on negotiation (`C49_first_refuted`), and a second handshake replaces the outstanding ping.
* peers.json: times wrap in 2106 (`C57_wrap_refuted`); saving is not crash-safe
  (`C76_lost_refuted`); a malformed address panics (remark).

Wallet
* Replaying an old block resurrects spent coins (`C58_resurrect_refuted`); disconnected blocks
  are not undone (`C58_reorg_refuted`).

Whole node
* A peer can crash the client with one block: a branch that is shorter but heavier makes the
  chain drop below the filter headers, and until the event that reports it has come round, any
  other event (another peer connecting) runs into the assertion at cbfmgr.rs:571
  (`C86_drop_refuted`).  The reactor handles all ready sockets before it takes outputs
  (net/poll/src/reactor.rs:186-273), so this order is possible.
* Taking all outputs between inputs avoids this for single headers (`C87_single`), but not for
  batches: a batch that switches back and forth reports too few reverted blocks
  (`C87_batch_refuted`).  A listener that follows the block events then sees blocks disconnected
  that were never connected (`C90_batch_refuted`).
* `Broadcast` also writes to peers in the middle of the handshake: it takes the peers that have sent
  `version` (`C114_handshake_refuted`); `GetPeers` takes those with a complete handshake.

Client handle (client/src/client.rs)
* `wait_for_height` misses a height that a batch of headers passes over (`C108_passed_refuted`), and
  can return the hash of a block that was in the chain at no time during the call, because commands
  are executed before the outputs of earlier inputs are published (`C108_stale_refuted`).
* `wait_for_peers` compares with `==`: it waits with more peers than asked for
  (`C108_enough_refuted`); and peers that left are counted (`C108_gone_refuted`).
* `connect` to a peer that is connected waits until it times out (`C108_connected_refuted`); so does
  a dial that fails (remark: no event is matched for it).
* Receivers of events, blocks and filters never learn that the node is gone, as the handle keeps
  the senders alive (`C107_silent`).
* `submit_transaction` that fails with `NotConnected` has submitted the transaction: it is kept and
  announced to the next peer that connects (`C109_submit_refuted`).
* `shutdown` blocks if another shutdown is under way (remark: channel of capacity one).
* `get_filters` with an empty range panics in the thread of the caller (`C108_reasons`, HPanic).

The authors' wish list (comment of the test module in client/src/event.rs)
* Whether the end of a scan is noticed depends on the order in which filters arrive: the end is
  tested once per batch and by equality, so a batch that goes past it never stops the scan
  (`C118_stop_refuted`).
* A requested block that has left the chain holds back the others if it arrives last
  (`C119_left_refuted`, see also `C38_progress_refuted`).
* "A rescan of the future is no rescan" is false: it abandons a scan that has not caught up
  (`C121_future_refuted`), and blocks below the new start that a re-org replaces are not scanned
  (`C121_reorg_refuted`).

Dispatch and reactor
* Order is kept per component only: a write queued before a disconnect can be emitted after it
  (`C54_across_refuted`).
* An inbound connection from an address being dialled replaces the socket and registers the
  source twice (`C80_twice_refuted`), which can panic (`C78_duplicate_refuted`).
* Remarks: a frame whose payload is shorter than its message needs counts as incomplete for good;
  a failed non-blocking connect is reported as connected and then disconnected; an error of
  `local_address` or `accept` ends the reactor.
* Timers do not fire while polls return events (`C82_starved_refuted`); a timer registered
  close to another is silently dropped (`C82_early_refuted`).

Simulator (net/src/simulator.rs), with which the authors test
* Handling a disconnection that a node asked for removes whatever is scheduled for the present
  instant, line 358: a message sent with latency zero is lost (`C126_instant_refuted`).
* A timer is dropped if a timer of any other node is due at the same instant, lines 577-583
  (`C128_forgotten_refuted`).
* Messages are received after the disconnection was told (`C126_connected_refuted`).
* A node that dials a peer it is connected to changes its address unnoticed: later messages come
  from an address that the receiver was never told of (`C125_stranger_refuted`) and overtake
  earlier ones (`C125_nodes_refuted`); a disconnection then fails the assertion at line 391
  (`C127_both_refuted`).
* `is_done` does not look at disconnections that are still to be told (`C127_done_refuted`).

Wallet screen (wallet/src/wallet.rs, wallet/src/wallet/ui.rs)
* The height scanned is compared with the height of the last header *import*, which is zero until
  a header is imported: after a restart with all headers the screen says "Syncing 10/0 (inf%)"
  when the scan has reached the tip (`C129_restart_refuted`).
* `received` is a column of `addresses` that nothing updates; the tab of addresses shows zero for
  every address (`C129_received_refuted`).
* The last loading event within 16 ms of a redraw is never shown (`C129_loading_refuted`).
* `Aligned::right` and `Aligned::center` subtract unsigned numbers and overflow on a terminal
  narrower than the text (`C130_narrow_refuted`).
* An overflow of the sum of the coins, or a hardware wallet that is not there when `F1` is
  pressed, ends the wallet (`C131_ends`, `C131_overflow_refuted`).

## Seeded bugs

`seeded/LOG.jsonl` has one line per edit of a model definition made in a scratch copy: the
edit, the claim it breaks, the theorems whose proof no longer goes through, and what was
tightened when a claim survived.
