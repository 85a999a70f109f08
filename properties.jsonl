{"id": "C01", "title": "Active chain is linked from genesis", "statement": "After any history of header imports and tip extensions, the block at height 0 is the genesis header, the height reported is the number of blocks above genesis, and every block at height h+1 names the block at height h as its parent.", "quantifier": "every starting genesis, every finite history of import_blocks/extend_tip calls with arbitrary headers (valid, invalid, duplicated, out of order), every clock reading and every hash-map iteration order", "why_tests_cant": "a unit test fixes one header tree and one delivery order; re-orgs of unbounded depth and arbitrary interleavings cannot be enumerated", "anchors": ["chain/src/block/cache.rs: BlockCache::import_block, switch_to_fork, rollback, extend_chain, extend_tip", "common/src/block/tree.rs: BlockReader::get_block_by_height, height"]}
{"id": "C02", "title": "Lookup by hash agrees with lookup by height", "statement": "get_block(x) returns (h, header) exactly when the block at height h of the active chain hashes to x; contains(x) is true exactly then; no two heights carry the same hash; and a block is never both on the active chain and in the stale/orphan pool.", "quantifier": "every reachable state and every hash", "why_tests_cant": "the index is updated incrementally over re-orgs; a single dropped or stale entry shows only for particular histories", "anchors": ["chain/src/block/cache.rs: get_block, contains, is_known, rollback, extend_chain"]}
{"id": "C03", "title": "Reported chain work is the sum of the work on the active chain and never decreases", "statement": "chain_work() is the work of genesis plus the work of every active block, and, as long as store calls succeed, no import or extension ever makes it smaller.", "quantifier": "every reachable state and every next operation", "why_tests_cant": "the total is maintained incrementally by addition and subtraction; drift shows only after particular re-orgs", "anchors": ["chain/src/block/cache.rs: chain_work, rollback, extend_chain, import_block"]}
{"id": "C04", "title": "An accepted import selects the best valid branch", "statement": "When importing one header succeeds, no branch of known headers that hangs off the previous active chain and passes validation would give a chain with more total work than the chain that is active afterwards.", "quantifier": "every reachable state, header, clock and iteration order", "why_tests_cant": "must hold over all header trees in the pool, an unbounded space", "anchors": ["chain/src/block/cache.rs: import_block, chain_candidates, fork, validate_branch"]}
{"id": "C05", "title": "Chain selection converges independently of delivery order", "statement": "On networks other than mainnet, if all headers of a set are individually acceptable and validate in any context, then importing them in any order, in any batches and with any repetition ends with the same active chain: the one with most work, ties going to the smaller tip hash.", "quantifier": "every finite set of headers, every permutation with repetitions, every iteration order", "why_tests_cant": "number of delivery orders is factorial in the number of headers", "anchors": ["chain/src/block/cache.rs: import_block", "test/src/block/cache/model.rs: Cache::longest_chain"]}
{"id": "C06", "title": "On mainnet an equal-work competitor never displaces the active chain", "statement": "On mainnet the tip changes only to a chain with strictly more work: a re-org to an equal-work branch never happens.", "quantifier": "every reachable state and every imported header with network = Bitcoin", "why_tests_cant": "ties arise only for specific work values over unbounded branches", "anchors": ["chain/src/block/cache.rs: import_block (best_work, Network::Bitcoin)"]}
{"id": "C07", "title": "Checkpointed heights carry the checkpointed hash", "statement": "Whenever the active chain contains a block at a checkpoint height (other than a preloaded store), its hash is the checkpoint hash.", "quantifier": "every checkpoint table, every reachable state", "why_tests_cant": "needs all histories, including re-orgs that cross checkpoint heights", "anchors": ["chain/src/block/cache.rs: validate, checkpoints, last_checkpoint"]}
{"id": "C08", "title": "Blocks at or below the last checkpoint are never reverted", "statement": "Once the active chain has reached a checkpoint, no import reverts a block at or below that checkpoint height.", "quantifier": "every checkpoint table and history of imports", "why_tests_cant": "depends on the interleaving of side-branch headers with the arrival of the checkpoint block", "anchors": ["chain/src/block/cache.rs: import_block (last_checkpoint check), last_checkpoint"]}
{"id": "C09", "title": "Every active block passed full header validation", "statement": "Every non-genesis block on the active chain satisfies its own proof-of-work target, was not further in the future than 2 hours of the network-adjusted clock when accepted, and was later than the median time past computed when it was accepted.", "quantifier": "every reachable state", "why_tests_cant": "quantifies over all histories, including multi-block re-orgs", "anchors": ["chain/src/block/cache.rs: validate, validate_branch, import_block, extend_tip, median_time_past"]}
{"id": "C10", "title": "Single-import report is exact", "statement": "When importing one header changes the tip, the reported reverted blocks are exactly the blocks that left the active chain with their old heights, the reported connected blocks are exactly those that joined it with their new heights in ascending order, and the reported tip is the new tip.", "quantifier": "every reachable state and header", "why_tests_cant": "must hold for any fork depth and branch length", "anchors": ["chain/src/block/cache.rs: import_block, ImportResult::TipChanged"]}
{"id": "C11", "title": "Batch import report is exact", "statement": "When a batch import reports a tip change, the reverted list holds exactly the blocks that were active before the call and are not after it, in descending height order, and the connected list exactly the blocks that are active after and were not before.", "quantifier": "every batch of headers and every reachable state", "why_tests_cant": "a batch can re-org back and forth any number of times", "anchors": ["chain/src/block/cache.rs: import_blocks (seen, reverted, connected)"]}
{"id": "C12", "title": "A failed import leaves the active chain untouched", "statement": "If a single header import returns an error while the store works, the active chain, its work, its index, the stale pool and the store are unchanged; if a batch import aborts, the height reported to the caller is the height of the chain that is then active; and a batch of headers that are all on the active chain changes nothing and reports the unchanged tip. A new header that does not meet the target it claims, or claims a target above the network limit, is refused without effect wherever it belongs.", "quantifier": "every reachable state, batch and abort position", "why_tests_cant": "abort positions times batch contents is unbounded", "anchors": ["chain/src/block/cache.rs: import_block, import_blocks (BlockImportAborted)", "p2p/src/fsm/syncmgr.rs: SyncManager::import_blocks"]}
{"id": "C13", "title": "Header import never panics", "statement": "No sequence of imports, extensions and queries hits an assertion, an out-of-bounds index or a non-terminating ancestor walk.", "quantifier": "every history of headers whose parent links are acyclic", "why_tests_cant": "assertions depend on invariants over all histories", "anchors": ["chain/src/block/cache.rs: fork, validate, import_block, chain_suffix, find_branch"]}
{"id": "C14", "title": "The header store mirrors the active chain", "statement": "As long as store calls succeed, after every operation the header store holds exactly the active chain in order, so reloading from the store rebuilds the same chain, height, tip, work and hash index.", "quantifier": "every reachable state", "why_tests_cant": "requires agreement of two independently updated structures over all histories", "anchors": ["chain/src/block/cache.rs: switch_to_fork, rollback, extend_tip, load_with", "common/src/block/store.rs: Store"]}
{"id": "C15", "title": "A crash during a re-org leaves a loadable linked chain", "statement": "If the process dies at any point while the header store is being truncated and appended to, including in the middle of a record, then healing and reloading yields a linked chain from genesis that is a prefix of the old chain or of the new chain.", "quantifier": "every re-org and every byte position at which writing may stop", "why_tests_cant": "crash points are as many as bytes written", "anchors": ["chain/src/block/cache.rs: switch_to_fork", "chain/src/block/store/io.rs: put, rollback, heal", "client/src/client.rs: Client::load"]}
{"id": "C16", "title": "The file store behaves like the in-memory store", "statement": "Any sequence of put, rollback to an existing height, get, len, height and iteration gives the same answers on the file store as on the in-memory store.", "quantifier": "every operation sequence, every header list and every fixed-size encoding that round-trips", "why_tests_cant": "the batched reader has boundary behaviour at every multiple of the batch size", "anchors": ["chain/src/block/store/io.rs: put, get, FileReader::next, Iter, File", "chain/src/block/store/memory.rs: Memory"]}
{"id": "C17", "title": "Healing drops only a torn last record", "statement": "heal keeps every complete record, removes only a trailing partial record, makes check succeed, and does nothing on a well-formed file; without a torn record check succeeds.", "quantifier": "every file content", "why_tests_cant": "all file lengths", "anchors": ["chain/src/block/store/io.rs: heal, check, len"]}
{"id": "C18", "title": "Locator heights", "statement": "The locator heights for a height start at that height, strictly decrease, end at 0, list the first nine heights (down from the start) without gaps, never overflow 64-bit arithmetic and are at most 8 + 64 + 1 in number, growing only logarithmically.", "quantifier": "every 64-bit height", "why_tests_cant": "2^64 inputs", "anchors": ["common/src/block.rs: locators_indexes"]}
{"id": "C19", "title": "Locator hashes never reach below the last checkpoint", "statement": "locator_hashes(from) returns hashes of active blocks in strictly descending height order starting with the block at `from` (when not below the last checkpoint), and never one below the last checkpoint.", "quantifier": "every reachable state and from <= height", "why_tests_cant": "all chains and checkpoint tables", "anchors": ["chain/src/block/cache.rs: locator_hashes, last_checkpoint"]}
{"id": "C20", "title": "Headers served to a peer form a contiguous bounded run", "statement": "locate_headers(locators, stop, max) returns at most max headers, consecutive on the active chain, starting right after the first locator found on the active chain (after genesis if none is known), and not going past the stop block if it is on the active chain; with no locators it returns exactly the stop block or nothing.", "quantifier": "every reachable state, locator list, stop hash and bound", "why_tests_cant": "all chain/locator combinations", "anchors": ["chain/src/block/cache.rs: locate_headers, range"]}
{"id": "C21", "title": "Branch lookup returns the path from the active chain", "statement": "find_branch(x) returns the block itself with its height if x is active; otherwise, if x is a known stale block connected to the active chain, the fork height and the path fork block .. x with every element the parent of the next; otherwise nothing.", "quantifier": "every reachable state and hash", "why_tests_cant": "all header trees", "anchors": ["chain/src/block/cache.rs: find_branch, fork"]}
{"id": "C22", "title": "The chain iterator visits every block exactly once from either end", "statement": "Any interleaving of front and back steps of the chain iterator yields each (height, block) exactly once, front steps in ascending and back steps in descending order, and then nothing forever.", "quantifier": "every chain and every sequence of next/next_back calls", "why_tests_cant": "exponentially many interleavings", "anchors": ["common/src/block/iter.rs: Iter::next, Iter::next_back"]}
{"id": "C23", "title": "Network time never moves more than 70 minutes and one source counts once", "statement": "The network time offset is always within 4200 seconds of local time, is 0 until five samples exist, is the median of the recorded samples (or 0 if the median is out of bounds) whenever it was just recomputed, counts each source at most once and accepts at most 200 sources.", "quantifier": "every sequence of (source, sample) reports", "why_tests_cant": "unbounded sequences of adversarial samples", "anchors": ["common/src/block/time.rs: AdjustedTime::record_offset, from"]}
{"id": "C24", "title": "Median past time is a lower bound that resists outliers", "statement": "For every height h >= 1 not above the tip + 1, the median time past is the median of the timestamps of the last min(h, 11) blocks below h: at least half of them are not greater and at least half are not smaller.", "quantifier": "every chain and height", "why_tests_cant": "all timestamp combinations", "anchors": ["chain/src/block/cache.rs: median_time_past"]}
{"id": "C25", "title": "Difficulty adjustment is bounded", "statement": "The next required target equals the previous target off adjustment heights; on adjustment heights it is never easier than the proof-of-work limit and the time span used is clamped to [T/4, 4T], so the target changes by at most a factor 4 (up to the rounding of the compact encoding).", "quantifier": "every height, timestamp, target and parameter set", "why_tests_cant": "2^256 targets times 2^64 times", "anchors": ["common/src/block/tree.rs: next_difficulty_target"]}
{"id": "C26", "title": "Difficulty adjustment follows elapsed time", "statement": "On an adjustment height, if the last block's timestamp is earlier than the first block's timestamp of the period, the difficulty is treated as the fastest case (time span T/4), as in Bitcoin Core.", "quantifier": "every pair of timestamps", "why_tests_cant": "boundary behaviour of 32-bit subtraction", "anchors": ["common/src/block/tree.rs: next_difficulty_target (actual_timespan)"]}
{"id": "C27", "title": "Filter header chain stays self-consistent", "statement": "Starting from the genesis filter header, after any sequence of filter-header messages, re-orgs and rollbacks, every filter header in the chain is the hash of its filter hash and the previous header, so verification of the stored chain succeeds.", "quantifier": "every history of cfheaders messages and rollbacks", "why_tests_cant": "all message contents and re-org points", "anchors": ["p2p/src/fsm/cbfmgr.rs: received_cfheaders, rollback", "chain/src/filter/cache.rs: import_headers, rollback, verify"]}
{"id": "C28", "title": "Filter headers never run ahead of block headers", "statement": "The filter header height never exceeds the block header height, after any sequence of header imports that are reported to the filter manager, cfheaders messages and re-orgs.", "quantifier": "every interleaving of block-header re-orgs and cfheaders messages", "why_tests_cant": "interleavings of two protocols", "anchors": ["p2p/src/fsm/cbfmgr.rs: received_cfheaders, sync, rollback, received_event"]}
{"id": "C29", "title": "Only solicited filter headers are imported", "statement": "A cfheaders message changes the filter chain only if its stop hash was requested and is still on the active chain, it continues exactly from the current filter tip, and carries exactly stop height minus filter height hashes, between 1 and 2000; each request is satisfied at most once. Unsolicited answers are ignored; solicited ones with another filter type, an unknown stop block or the wrong number of headers are blamed on the sender, those that bring nothing new are ignored, those that do not connect to the tip make the manager look again within a second, and all others extend the chain.", "quantifier": "every message and state", "why_tests_cant": "adversarial message space", "anchors": ["p2p/src/fsm/cbfmgr.rs: received_cfheaders, get_cfheaders"]}
{"id": "C30", "title": "Only authentic filters are reported or matched", "statement": "A cfilter message leads to a FilterReceived event or enters matching only if the block is on the active chain and the filter commits to the filter header stored for that height. Every such filter is reported as received, and its sender is blamed exactly when the filter header for the block is known and does not commit to the filter.", "quantifier": "every message and state", "why_tests_cant": "adversarial message space", "anchors": ["p2p/src/fsm/cbfmgr.rs: received_cfilter", "p2p/src/fsm/cbfmgr/rescan.rs: received"]}
{"id": "C31", "title": "Rescan processes heights in order without gaps", "statement": "During one rescan, processed filter events carry consecutive heights beginning at the start height; no height is skipped and none is repeated unless a re-org rolled the scan back, in which case processing resumes at the height right after the fork (or the start).", "quantifier": "every arrival order of filters, every interleaving with re-orgs", "why_tests_cant": "factorial arrival orders", "anchors": ["p2p/src/fsm/cbfmgr/rescan.rs: process, received", "p2p/src/fsm/cbfmgr.rs: rollback"]}
{"id": "C32", "title": "A bounded rescan covers its whole range and then stops", "statement": "A rescan over start..=end processes every height of the range, including the end height, and then stops.", "quantifier": "every range and every arrival order", "why_tests_cant": "all ranges and orders", "anchors": ["p2p/src/fsm/cbfmgr/rescan.rs: process", "p2p/src/fsm/cbfmgr.rs: rescan"]}
{"id": "C33", "title": "Filter requests cover exactly what is missing", "statement": "Asked to fetch a range, the requested sub-ranges are disjoint, ascending, each at most 1000 long, and together contain exactly the heights of the range that are neither cached, nor received, nor already requested; all of them are then marked requested. A rescan asks for every filter of its range that has not come before and for none outside it; the requests of one call go to the peers in turn.", "quantifier": "every range and every set of cached, received and requested heights", "why_tests_cant": "all subsets of heights", "anchors": ["p2p/src/fsm/cbfmgr/rescan.rs: requests", "p2p/src/fsm/cbfmgr.rs: HeightIterator"]}
{"id": "C34", "title": "Filters of reverted blocks are not matched after a re-org", "statement": "After a re-org below height h, a filter processed for height h belongs to the block that is now active at h.", "quantifier": "every interleaving of filter arrivals and re-orgs", "why_tests_cant": "interleavings", "anchors": ["p2p/src/fsm/cbfmgr.rs: rollback", "p2p/src/fsm/cbfmgr/rescan.rs: rollback, received, process"]}
{"id": "C35", "title": "The filter cache respects its capacity", "statement": "The reported size never exceeds capacity, the filters held never take more bytes than reported, eviction removes lowest heights first, rollback(h) removes exactly the heights above h, and every push terminates; when no height is pushed twice the reported size is exactly the number of bytes held.", "quantifier": "every sequence of push and rollback", "why_tests_cant": "unbounded sequences with arbitrary sizes", "anchors": ["p2p/src/fsm/filter_cache.rs: push, rollback"]}
{"id": "C36", "title": "Fee estimate is ordered and within the block's fee range", "statement": "For a non-empty list of fee rates (each below 2^53, where the code's conversion to floating point is exact) the estimate satisfies low <= median <= high, low and high are the minimum and maximum, and the estimate does not depend on the order of the list; for the empty list there is no estimate.", "quantifier": "every list of fee rates", "why_tests_cant": "all lists, plus 64-bit/floating point rounding", "anchors": ["p2p/src/fsm/fees.rs: FeeEstimate::from"]}
{"id": "C37", "title": "Fee estimator rollback restores the earlier state", "statement": "After processing blocks at increasing heights and rolling back to a height that was processed within the last 12 blocks, the estimator state equals the state right after processing that height, so replaying the new branch gives the same estimates as if the reverted blocks had never been seen.", "quantifier": "every block sequence and rollback height", "why_tests_cant": "all histories", "anchors": ["p2p/src/fsm/fees.rs: FeeEstimator::process, rollback"]}
{"id": "C38", "title": "Requested blocks are processed in height order", "statement": "Blocks downloaded out of order are reported as processed in ascending height order, each requested block at most once, and only once no requested block on the chain is still missing below it.", "quantifier": "every arrival order", "why_tests_cant": "factorial orders", "anchors": ["p2p/src/fsm/invmgr.rs: received_block"]}
{"id": "C39", "title": "A submitted transaction stays tracked until confirmed", "statement": "A submitted transaction remains in the mempool and is re-announced until a processed block contains it, to the peers that were connected and to those that connect later; only such transactions are announced, and a peer that asks for one by id gets it. A Confirmed status is reported at most once per inclusion, and after a re-org that reverts its block (before it is buried more than 12 blocks deep) it is reported Reverted and is tracked again. Confirmations are reported just before the block that contains them, and everything that leaves something to announce or ask for sets a timer. Whatever is tracked, sent, announced or reported is a transaction that the user has submitted.", "quantifier": "every history of announcements, blocks, re-orgs and timers", "why_tests_cant": "unbounded histories", "anchors": ["p2p/src/fsm/invmgr.rs: announce, peer_negotiated, received_block, block_reverted, timer_expired, received_getdata"]}
{"id": "C40", "title": "Transaction announcement retries are bounded and spaced", "statement": "For every peer and transaction at most 3 announcements are made before the peer is dropped, and consecutive announcements to a peer are at least one minute apart. A peer is dropped over announcements only if it did not react to three in a row, and is sent no fourth.", "quantifier": "every timer schedule", "why_tests_cant": "all schedules", "anchors": ["p2p/src/fsm/invmgr.rs: timer_expired"]}
{"id": "C41", "title": "Address book indices agree", "statement": "Every address in the address manager's range buckets is a stored peer, and every range bucket holds at most 256 addresses and no empty bucket is sampled. At most 256 stored addresses belong to the same network (16 bits of an IPv4, 32 bits of an IPv6 address).", "quantifier": "every history of address messages, bans and connections", "why_tests_cant": "all histories", "anchors": ["p2p/src/fsm/addrmgr.rs: insert, populate_address_ranges, discard_address, ban"]}
{"id": "C42", "title": "Sampling never returns an unusable address", "statement": "A sampled address is a stored peer, has the requested services, is not connected, was not attempted or sampled too recently, and is not local or unroutable (for learned addresses).", "quantifier": "every state and every random choice", "why_tests_cant": "random choices and states are unbounded", "anchors": ["p2p/src/fsm/addrmgr.rs: sample_with, insert, is_routable"]}
{"id": "C43", "title": "Banned peers are not sampled again", "statement": "After an address is banned it is never returned by sampling and never re-inserted.", "quantifier": "every history", "why_tests_cant": "all histories", "anchors": ["p2p/src/fsm/addrmgr.rs: ban, insert"]}
{"id": "C44", "title": "Handshake completes only after version and verack", "statement": "A peer is reported negotiated only after a version message with an accepted protocol version and then a verack were received from it on the current connection, and before that no other message from it reaches the sub-protocols as from a negotiated peer. The version we send carries our own best height, user agent, services and the receiver's address, and the clock offset of a peer is taken from its version.", "quantifier": "every message sequence from every peer", "why_tests_cant": "all message interleavings", "anchors": ["p2p/src/fsm/peermgr.rs: handle_version, received_verack"]}
{"id": "C45", "title": "Peers below the minimum protocol version or without required services are dropped", "statement": "An outbound peer whose version message has too low a protocol version, or lacks required services, or (any peer) whose nonce reveals a self-connection, is disconnected and never negotiated on that connection. A first version message is answered with a disconnect exactly if there is a reason to turn the peer away (services, version, height, limits, nonce, hook); otherwise with the handshake messages.", "quantifier": "every version message", "why_tests_cant": "message space", "anchors": ["p2p/src/fsm/peermgr.rs: handle_version"]}
{"id": "C46", "title": "Inbound connections are limited", "statement": "The number of connected inbound peers that are not being disconnected never exceeds the configured maximum.", "quantifier": "every connection history", "why_tests_cant": "all histories", "anchors": ["p2p/src/fsm/peermgr.rs: peer_connected, handle_version"]}
{"id": "C47", "title": "Persistent peers are retried with bounded exponential back-off", "statement": "The delay before reconnecting a persistent peer lies between the configured minimum and maximum, does not decrease while attempts fail, and no arithmetic overflow occurs for any number of attempts.", "quantifier": "every number of attempts and configuration", "why_tests_cant": "unbounded attempts", "anchors": ["p2p/src/fsm/peermgr.rs: peer_disconnected, persistent_disconnected"]}
{"id": "C48", "title": "Outbound connections never exceed the configured total", "statement": "The connection target computation never asks for more connections than the target allows, and never underflows.", "quantifier": "every peer table", "why_tests_cant": "all tables", "anchors": ["p2p/src/fsm/peermgr.rs: delta, maintain_connections"]}
{"id": "C49", "title": "Dead peers are detected and live ones kept", "statement": "A negotiated peer that does not answer a ping is disconnected at the first timer at or after the ping timeout; a peer that answered each ping in time is never disconnected by the ping mechanism; a pong counts only with the outstanding nonce, and at most one ping is outstanding per peer. The latencies kept for a peer are its last 64 round-trip times. Every ping after the first sets the timer that will check it.", "quantifier": "every schedule of timers and messages", "why_tests_cant": "all schedules", "anchors": ["p2p/src/fsm/pingmgr.rs"]}
{"id": "C50", "title": "At most one header request per peer is in flight", "statement": "The sync manager never has two outstanding getheaders requests to the same peer, and a request that is not answered within its timeout leads to the peer being replaced or dropped.", "quantifier": "every message and timer schedule", "why_tests_cant": "all schedules", "anchors": ["p2p/src/fsm/syncmgr.rs: request, received_headers, timer_expired"]}
{"id": "C51", "title": "Invalid headers are attributed to the peer that sent them", "statement": "If a headers message contains a header that fails validation, the sending peer is reported as misbehaving or disconnected.", "quantifier": "every headers message and tree state", "why_tests_cant": "all invalid headers", "anchors": ["p2p/src/fsm/syncmgr.rs: received_headers, handle_error"]}
{"id": "C52", "title": "Timers fire exactly when due", "statement": "A wake-up at time t returns exactly the registered timers due at or before t (each once) and keeps all later ones; the suggested wait never passes the earliest deadline; and a registration is refused only when another pending timer lies within the threshold of it.", "quantifier": "every sequence of register and wake calls", "why_tests_cant": "unbounded sequences", "anchors": ["net/poll/src/time.rs: TimeoutManager"]}
{"id": "C53", "title": "Message decoding is independent of chunking", "statement": "Feeding a byte stream in any chunking yields the same sequence of messages and leaves the same undecoded remainder as feeding it in one piece.", "quantifier": "every byte stream and every chunking", "why_tests_cant": "exponentially many chunkings", "anchors": ["p2p/src/stream.rs: Decoder", "client/src/service.rs: message_received"]}
{"id": "C54", "title": "Outgoing effects are delivered in order, once", "statement": "Each effect queued by a component is emitted exactly once, and effects of one component are emitted in the order they were queued; events are delivered to every component before being emitted.", "quantifier": "every run", "why_tests_cant": "all interleavings", "anchors": ["p2p/src/fsm/output.rs: Outbox", "p2p/src/fsm.rs: StateMachine::next, event"]}
{"id": "C55", "title": "Messages from unknown peers or other networks have no effect", "statement": "A message with a wrong network magic only disconnects the sender, and a message from a peer that is not connected changes nothing.", "quantifier": "every message and state", "why_tests_cant": "message space", "anchors": ["p2p/src/fsm.rs: message_received"]}
{"id": "C56", "title": "Socket write buffer delivers bytes in order", "statement": "Bytes pushed to a socket are written in order without loss or duplication, whatever partial writes the system performs, and an unwritten suffix remains buffered on error.", "quantifier": "every sequence of pushes and partial writes", "why_tests_cant": "all partial-write schedules", "anchors": ["net/poll/src/socket.rs: Socket::push, flush"]}
{"id": "C57", "title": "Peer addresses survive a save and reload", "statement": "Flushing the peer cache and reopening it yields the same addresses, with times truncated to whole seconds.", "quantifier": "every set of known addresses", "why_tests_cant": "all sets", "anchors": ["client/src/peer.rs: Cache::flush, from", "common/src/p2p/peer.rs: KnownAddress::to_json, from_json"]}
{"id": "C58", "title": "Wallet balance is the sum of its unspent outputs", "statement": "After any sequence of matched blocks applied in chain order, the wallet's coins are exactly the outputs paying watched scripts that were created and not spent, and the balance is their sum; applying a block twice does not change the balance of a chain-ordered history unless it resurrects spent outputs.", "quantifier": "every sequence of transactions", "why_tests_cant": "all histories", "anchors": ["wallet/src/wallet.rs: Wallet::apply", "wallet/src/wallet/db.rs: add_utxo, remove_utxo, balance"]}
{"id": "C59", "title": "Event subscribers all receive the same events in order", "statement": "Every live subscriber receives every event published after it subscribed, in order, and a subscriber that is gone does not affect the others. Waiting for an event that does not come reports that the emitter is gone exactly if it is, and otherwise that time is up.", "quantifier": "every interleaving of subscribe, emit and drop", "why_tests_cant": "all interleavings", "anchors": ["net/src/event.rs: Emitter::emit, Subscriber::subscribe"]}
{"id": "C60", "title": "Inventory handling never crashes the client", "statement": "No sequence of connections, block deliveries, re-orgs, data requests, timers and submissions makes the inventory manager panic.", "quantifier": "every history, every block content", "why_tests_cant": "all block bodies a peer could send", "anchors": ["p2p/src/fsm/invmgr.rs: received_block", "p2p/src/fsm/fees.rs: FeeEstimator::process, apply"]}
{"id": "C61", "title": "Reverting blocks that were never downloaded leaves fee data alone", "statement": "A re-org that reverts only blocks the client never downloaded does not change the fee estimator.", "quantifier": "every set of processed heights and every re-org", "why_tests_cant": "all patterns of processed heights", "anchors": ["p2p/src/fsm/invmgr.rs: block_reverted", "p2p/src/fsm/fees.rs: FeeEstimator::rollback"]}
{"id": "C62", "title": "Filter handling never crashes the client", "statement": "No sequence of peer events, filter and filter-header messages, timers, rescans and user requests makes the compact filter manager panic.", "quantifier": "every history", "why_tests_cant": "all message interleavings, including messages from peers that were not asked", "anchors": ["p2p/src/fsm/cbfmgr.rs: received_cfheaders, get_cfilters, sync"]}
{"id": "C63", "title": "Served filter headers are exact", "statement": "A getcfheaders request for start..=stop is answered with the filter hashes of exactly those heights and the filter header before the start, whenever the filter headers are known.", "quantifier": "every state and request", "why_tests_cant": "all ranges", "anchors": ["p2p/src/fsm/cbfmgr.rs: received_getcfheaders", "chain/src/filter/cache.rs: get_headers"]}
{"id": "C64", "title": "A filter match is reported exactly when something watched is in the filter", "statement": "A processed filter is reported as matched if and only if it contains a watched script or all outputs of a watched transaction, and the block of a match is requested or already pending. What is watched is the scripts of the last rescan and of the watch calls since, and the transactions that were submitted or reverted and not confirmed since.", "quantifier": "every filter, watch set and history", "why_tests_cant": "all watch sets and arrival orders", "anchors": ["p2p/src/fsm/cbfmgr/rescan.rs: match_filter, process", "p2p/src/fsm/cbfmgr.rs: received_event"]}
{"id": "C65", "title": "Every matched block is reported when it arrives", "statement": "When the block of a matched filter is processed, a BlockMatched event is emitted for it; and one is emitted for no other block.", "quantifier": "every history", "why_tests_cant": "all interleavings of matches, block arrivals and rescans", "anchors": ["p2p/src/fsm/cbfmgr.rs: rescan, received_event"]}
{"id": "C66", "title": "Persistent peers are not dropped for slow filter headers", "statement": "A peer configured as persistent is not disconnected because a filter header request to it timed out.", "quantifier": "every history", "why_tests_cant": "which peer is sampled is random", "anchors": ["p2p/src/fsm/cbfmgr.rs: timer_expired"]}
{"id": "C67", "title": "No peer is asked twice in a row for the same headers", "statement": "The node never sends a peer a getheaders request with the same locators as the last one it sent that peer.", "quantifier": "every history of messages, timers and disconnections", "why_tests_cant": "needs particular timeouts and repeated messages", "anchors": ["p2p/src/fsm/syncmgr.rs: request, is_request_candidate, idle"]}
{"id": "C68", "title": "A new tip is announced to the inbound peers that lack it, once", "statement": "When importing headers changes the tip, every inbound peer whose known height is below the new one is sent the new tip header exactly once, and no unsolicited headers message carries anything else.", "quantifier": "every chain, peer set and batch of headers", "why_tests_cant": "all chains, re-orgs and peer sets", "anchors": ["p2p/src/fsm/syncmgr.rs: import_blocks, broadcast_tip, received_headers"]}
{"id": "C69", "title": "Header sync never panics", "statement": "No sequence of messages, timers, disconnections and user imports makes header sync panic, whatever headers peers send.", "quantifier": "every history", "why_tests_cant": "infinitely many chains and interleavings of hostile input", "anchors": ["p2p/src/fsm/syncmgr.rs: all handlers", "common/src/block/tree.rs", "chain/src/block/cache.rs"]}
{"id": "C70", "title": "The address manager never panics", "statement": "Once initialized, no sequence of messages, connections, disconnections, timers, insertions and samples makes the address manager panic, whatever addresses peers send and whatever the random choices are.", "quantifier": "every history and every random choice", "why_tests_cant": "unbounded histories of hostile input", "anchors": ["p2p/src/fsm/addrmgr.rs: all handlers"]}
{"id": "C71", "title": "Address requests are answered from the book, one address per range", "statement": "The reply to getaddr holds at most 255 addresses, all of them stored, no two of them from the same network (16 bits of an IPv4, 32 bits of an IPv6 address). The activity and services given for an address are those it came with, updated by the messages received from it and the handshakes with it.", "quantifier": "every state and every random choice", "why_tests_cant": "random choices and states are unbounded", "anchors": ["p2p/src/fsm/addrmgr.rs: received_getaddr"]}
{"id": "C72", "title": "Only acceptable addresses are learned", "statement": "Every address in the book that was not loaded from disk was presented by a peer, a seed or the user with an allowed last activity and the required services, and is routable and not one of our own. An acceptable address in a message of at most 1000 is learned if there is room; nothing is learned from a larger message.", "quantifier": "every history of address messages", "why_tests_cant": "message space and histories", "anchors": ["p2p/src/fsm/addrmgr.rs: insert, is_routable, is_local"]}
{"id": "C73", "title": "Connection maintenance never panics and always ends", "statement": "With a target that does not overflow and ordered retry limits, no sequence of calls makes the peer manager or the address manager it draws from panic, and every dialling round ends.", "quantifier": "every sequence of calls, every address book, every choice of random draws", "why_tests_cant": "all address books and draws", "anchors": ["p2p/src/fsm/peermgr.rs: maintain_connections, delta, persistent_disconnected"]}
{"id": "C74", "title": "Slow peers are disconnected, others are not", "statement": "A timer disconnects exactly the peers whose connection attempt is six seconds old, or whose handshake has waited twelve seconds for version or verack.", "quantifier": "every history and time", "why_tests_cant": "all histories", "anchors": ["p2p/src/fsm/peermgr.rs: timer_expired"]}
{"id": "C75", "title": "Connection events are reported exactly", "statement": "A connected event is emitted for every connection, a disconnected event for exactly the ends of connections, and a failure for exactly the failed attempts. A request of another component to drop a peer closes the connection exactly if there is one.", "quantifier": "every history", "why_tests_cant": "all histories", "anchors": ["p2p/src/fsm/peermgr.rs: peer_connected, peer_disconnected"]}
{"id": "C76", "title": "A stop while saving the peer addresses does not lose them", "statement": "If the program stops anywhere while the peers file is being saved, the next start reads either the old or the new addresses. (Of the code only a weaker claim holds: it reads the old, the new or no addresses, or an error, without a panic.)", "quantifier": "every set of addresses, old file and stopping point", "why_tests_cant": "stopping points inside a save are not reachable from a test", "anchors": ["client/src/peer.rs: Cache::flush, from", "client/src/client.rs: Client::load"]}
{"id": "C77", "title": "Each connection's bytes are decoded as a stream of its own", "statement": "The bytes read from a connection are decoded as one stream, however they are cut and whatever other peers do; decoding starts afresh with each connection and bytes of a peer that is not connected are ignored.", "quantifier": "every interleaving of bytes, connections and disconnections", "why_tests_cant": "interleavings and cuts", "anchors": ["client/src/service.rs: Service::message_received, connected, disconnected", "p2p/src/stream.rs: Decoder"]}
{"id": "C78", "title": "The reactor does not panic", "statement": "As long as no address has two connections, no sequence of readiness events, answers of the system and requests of the service makes the reactor panic.", "quantifier": "every run", "why_tests_cant": "all schedules", "anchors": ["net/poll/src/reactor.rs: Reactor::run, process, handle_readable, handle_writable"]}
{"id": "C79", "title": "The reactor sends what the service asked for", "statement": "On every connection, what the system took followed by what is still buffered is what the service asked to send on that connection, in order.", "quantifier": "every run", "why_tests_cant": "all schedules of partial writes, polls and reconnections", "anchors": ["net/poll/src/reactor.rs: process, handle_writable, register_peer, unregister_peer"]}
{"id": "C80", "title": "The service is told of connections in order", "statement": "The service is told of an attempt or incoming connection, then of success, bytes and the end of a connection, in this order, and of nothing about an address without a connection; the reactor has a socket exactly for the connections the service knows of.", "quantifier": "every run", "why_tests_cant": "all schedules", "anchors": ["net/poll/src/reactor.rs: process, handle_readable, handle_writable, run"]}
{"id": "C81", "title": "Unsent bytes are waited for", "statement": "While a connection has unsent bytes, the reactor asks to be told when it is writable.", "quantifier": "every run", "why_tests_cant": "all schedules of partial writes", "anchors": ["net/poll/src/reactor.rs: process, handle_writable"]}
{"id": "C82", "title": "Timers wake the service when due", "statement": "The service is woken at the first loop iteration after a timer it asked for is due. (Of the code: only if the poll times out, and not for timers within a second of another one.)", "quantifier": "every run", "why_tests_cant": "unbounded delays", "anchors": ["net/poll/src/reactor.rs: run", "net/poll/src/time.rs: TimeoutManager"]}
{"id": "C83", "title": "The tip is extended exactly by valid headers", "statement": "extend_tip appends a header if and only if it names the tip as its parent, claims the required target, meets it, agrees with a checkpoint at its height, is later than the median of the last eleven block times and at most two hours ahead of the clock. The required target is unique; on networks that allow easy blocks, between adjustments it is the easiest target if the header is more than two spacings later than the tip, and otherwise that of the last active block that is not easy or starts an adjustment period.", "quantifier": "every reachable state, header and clock", "why_tests_cant": "all chains, times and parameter sets", "anchors": ["chain/src/block/cache.rs: extend_tip, validate, next_min_difficulty_target, median_time_past"]}
{"id": "C84", "title": "Fee rates are those of transactions with known inputs", "statement": "Processing blocks at increasing heights, each block's estimate is over the fee rates of exactly those of its non-coinbase transactions all of whose inputs were created by transactions processed before; the rate is value in minus value out per virtual byte, rounded to the nearest integer, halves up, unaffected by floating point. The estimates reported with blocks are those of an estimator given exactly the reported blocks, and rolled back below every reverted height.", "quantifier": "every sequence of blocks of a sensible transaction history (distinct ids, no double spends, amounts below 2^50)", "why_tests_cant": "all transaction graphs and amounts", "anchors": ["p2p/src/fsm/fees.rs: FeeEstimator::process, apply"]}
{"id": "C85", "title": "A client starts again from what it stored", "statement": "Started over the files of an earlier run (complete records, possibly followed by part of one), the client comes up without panic or error in every environment, with the same active chain, work, checkpoints, filter headers and reported heights, and with the files repaired; without files it starts at genesis. (Of the code: not if the process died during a re-org; then the filter file can be ahead of the header file and every later start panics, or stale filter headers stay for good.)", "quantifier": "every earlier history of the header cache and the filter manager, every environment at start, every torn tail", "why_tests_cant": "all histories and crash points", "anchors": ["client/src/client.rs: Client::load", "p2p/src/fsm.rs: initialize", "p2p/src/fsm/cbfmgr.rs: sync"]}
{"id": "C86", "title": "Filter headers never overtake the chain of a running node", "statement": "In the node put together from header cache, sync manager, filter manager and inventory manager, for any inputs (messages of any peers, connections, timers, user commands) and outputs taken at any time, as long as the height of the active chain never goes down: the filter headers never reach beyond the active chain, and the node panics only if the user asks for filters beyond the filter headers, if filter headers arrive during a rescan with no filter peer connected, or on a block that spends more than it has. (Of the code: not otherwise; a shorter chain with more work followed by any other event crashes the node.)", "quantifier": "every loaded header and filter store, every interleaving of inputs and outputs, every message content", "why_tests_cant": "all interleavings of managers and of the event queue", "anchors": ["p2p/src/fsm.rs: message_received, event, next", "p2p/src/fsm/syncmgr.rs: extend_chain, import_blocks", "p2p/src/fsm/cbfmgr.rs: sync, rollback"]}
{"id": "C87", "title": "A node that empties its queue survives re-orgs", "statement": "If all outputs are taken between two inputs and headers come one at a time, then whatever re-orgs happen, including to shorter chains, every change of the active chain is reported exactly, the filter headers never reach beyond the active chain between inputs, and the node panics only in the three known cases. (Of the code: not for batches of headers, whose report can miss reverted blocks.)", "quantifier": "every loaded header and filter store, every sequence of inputs, every message content", "why_tests_cant": "all re-org patterns and message contents", "anchors": ["p2p/src/fsm.rs: event, next", "p2p/src/fsm/syncmgr.rs: import_blocks", "p2p/src/fsm/cbfmgr.rs: received_event, rollback"]}
{"id": "C88", "title": "Wanted blocks are asked for until they arrive", "statement": "A block that was requested and has not arrived is asked for at the first timer at which a connected peer serves blocks, and again by each timer at least 15 seconds after the last time, as long as there is such a peer. It is asked for in no other case, from no other peer, and not from two peers at once.", "quantifier": "every history of requests, connections, blocks and timers", "why_tests_cant": "all schedules of timers and peers", "anchors": ["p2p/src/fsm/invmgr.rs: get_block, timer_expired, received_block"]}
{"id": "C89", "title": "Which headers are taken", "statement": "Headers from a peer are imported, and the outcome is reported block by block, exactly if the peer is connected, the message has at most 2000 headers, it answers an outstanding request or has at most 24 headers, and its last header is not on the active chain. All other headers leave the chain as it is and no change is reported, and nothing else changes the chain or is reported as a change of it.", "quantifier": "every history of messages, timers and connections, every batch of headers", "why_tests_cant": "all message histories and header contents", "anchors": ["p2p/src/fsm/syncmgr.rs: received_headers, import_blocks"]}
{"id": "C90", "title": "The reported events replay to the active chain", "statement": "A listener that starts with the loaded chain, appends every reported connected block and drops every reported disconnected block ends up, after every input, with exactly the active chain. (Of the code: if headers come one at a time; a batch can report the disconnection of blocks that were never reported as connected.)", "quantifier": "every history of inputs and every header", "why_tests_cant": "all histories of re-orgs", "anchors": ["p2p/src/fsm/syncmgr.rs: import_blocks (BlockConnected, BlockDisconnected)"]}
{"id": "C91", "title": "Synced is said only when it is true", "statement": "Whenever the node reports that it is synced, the reported hash and height are the tip of the active chain, no connected peer has told a greater height in its handshake or shown one by its headers, and the tip is less than two hours old.", "quantifier": "every history of messages, timers and connections", "why_tests_cant": "all histories", "anchors": ["p2p/src/fsm/syncmgr.rs: sync, is_synced, stale_tip"]}
{"id": "C92", "title": "Requests for headers and announcements of blocks are answered from the chain", "statement": "A getheaders message changes nothing; it is answered with the headers it locates on the active chain if the node has no request of its own outstanding, and not at all otherwise. After an inv message only its sender is asked for headers, only up to an unknown block it has announced, with the locator of the active chain; and it is asked if it has announced an unknown block and nothing is outstanding.", "quantifier": "every history, every locator, every announcement", "why_tests_cant": "all histories and message contents", "anchors": ["p2p/src/fsm/syncmgr.rs: received_getheaders, received_inv"]}
{"id": "C93", "title": "Filter headers are asked for once, in order, and again on a timeout", "statement": "Filter headers are requested only from connected outbound peers with filters, only from the height after the last filter header up to the block 2000 further or the tip, and not while the same request is outstanding; an expired request, and no other, is repeated for the same range while a peer is connected; and after a new peer, a change of the chain or new filter headers, a request for the next ones is outstanding if the node is behind and past its checkpoints. The same when a minute has passed without a look, and the filter headers are reported as synced exactly when an answer has brought them to the height of the block headers. Filters are asked for from connected outbound filter peers only, and filter headers are sent only to a peer that has just asked for those up to that block.", "quantifier": "every history of messages, timers, connections and chain changes", "why_tests_cant": "all interleavings of requests, replies and timeouts", "anchors": ["p2p/src/fsm/cbfmgr.rs: sync, send_getcfheaders, get_cfheaders, received_wake"]}
{"id": "C94", "title": "The reported scan height is true", "statement": "Whenever the node reports that it has scanned up to a height, every lower height of the current rescan has been processed and no block below it is still awaited. (Of the code: if no matched block of an earlier scan is outstanding, blocks come in order and the chain does not change.)", "quantifier": "every history of messages and rescans", "why_tests_cant": "all arrival orders of filters and blocks", "anchors": ["p2p/src/fsm/cbfmgr.rs: Scanned, received_event, received_cfilter"]}
{"id": "C95", "title": "A filter is processed at most once per request", "statement": "At every height, filters that come from the network are processed at most as often as a request that covers the height has been sent. A scan that has not moved on for six seconds asks again for every filter it needs that has not come.", "quantifier": "every height and every history", "why_tests_cant": "all histories of requests, duplicate replies and rescans", "anchors": ["p2p/src/fsm/cbfmgr/rescan.rs: received, process, requests"]}
{"id": "C96", "title": "When the node asks for addresses", "statement": "The address manager reports that it has run out of addresses exactly when a timer fires at least a minute after the last such report and none of its addresses can be used. It then asks every outbound peer for addresses; otherwise it asks a peer only after the first handshake with an address it knows.", "quantifier": "every history of address messages, connections, timers and random choices", "why_tests_cant": "all histories and sets of addresses", "anchors": ["p2p/src/fsm/addrmgr.rs: received_timer, is_exhausted, get_addresses, peer_negotiated"]}
{"id": "C97", "title": "Requests for announced headers are retried at most three times", "statement": "Over any history, the requests for headers up to an announced block that are repeated at timers are at most three times those made on announcements.", "quantifier": "every history of messages, timers and connections", "why_tests_cant": "all histories, unbounded in length", "anchors": ["p2p/src/fsm/syncmgr.rs: received_inv, received_timer (OnTimeout::Retry)"]}
{"id": "C98", "title": "The whole client keeps its filter headers within the chain and does not panic", "statement": "In the complete state machine (all managers, the event queue and the user commands), started as the reactor does, for any bytes-decoded messages of any network, connections, handshakes, disconnections, timers and commands, outputs taken at any time: as long as the height of the active chain never goes down, the filter headers never reach beyond it, and the client panics in the three known cases only (filters requested beyond the filter headers, filter headers during a rescan with no filter peer, a block that spends more than it has).", "quantifier": "every loaded store and address book, every configuration that is sane, every interleaving of inputs and outputs, every message content", "why_tests_cant": "all interleavings of seven managers and of the event queue", "anchors": ["p2p/src/fsm.rs: message_received, event, next, command, connected, disconnected, initialize", "p2p/src/fsm/peermgr.rs", "p2p/src/fsm/addrmgr.rs", "p2p/src/fsm/pingmgr.rs"]}
{"id": "C99", "title": "The whole client survives re-orgs if it empties its queue", "statement": "If all outputs of the complete state machine are taken between two inputs, headers come one at a time and the header store works, then whatever re-orgs happen, including to shorter chains, the filter headers never reach beyond the active chain between inputs, and the client panics in the three known cases only.", "quantifier": "every loaded store and address book, every sane configuration, every sequence of inputs, every message content", "why_tests_cant": "all re-org patterns and message contents", "anchors": ["p2p/src/fsm.rs: message_received, event, next, command", "p2p/src/fsm/syncmgr.rs: import_blocks", "p2p/src/fsm/cbfmgr.rs: rollback"]}
{"id": "C100", "title": "Headers are asked for only with a reason, and whenever there is one", "statement": "A getheaders message goes to a peer only because somebody told a greater height, or the tip is old and the peer is outbound and was not asked the same before, or that peer sent headers that do not change the tip, or sent a full message, or announced an unknown block, or another peer did not answer the same request; the locators are those of the active chain (or the new tip, or those of the unanswered request) and the stop hash is the one the reason says. Conversely, with no request outstanding, somebody ahead and a peer connected that offers no filters, a peer is asked after each handshake, after headers that changed the tip and every ten minutes. Peers are asked merely because the tip is old at most once an hour.", "quantifier": "every history of messages, timers, connections and clock values that do not go back", "why_tests_cant": "all histories; who was told what and when is a function of the whole history", "anchors": ["p2p/src/fsm/syncmgr.rs: sync, sample_peers, idle, request, timer_expired, received_headers, received_inv, preferred_peer, is_request_candidate"]}
{"id": "C101", "title": "Who is dialled and when", "statement": "A peer is dialled only if it is of a configured address family and neither connected nor being dialled, and only because the user asked for it, because it is a configured persistent peer, or because the address book gave it out; the last happens only without persistent peers, at the start, when a connection is lost and once a minute, and only for addresses with the preferred services unless too few peers are connected. What the user asks for and the persistent peers at the start are dialled; if connections are missing at those times and the address book has a suitable address, some address is drawn; and the timer for this is set again each time.", "quantifier": "every history of connections, messages, timers and draws", "why_tests_cant": "all histories and random draws", "anchors": ["p2p/src/fsm/peermgr.rs: initialize, timer_expired, maintain_connections, connect, peer_disconnected"]}
{"id": "C102", "title": "Every message the node writes has a reason in what it announced and was told", "statement": "In any run of the state machine with its block, filter and inventory managers: headers are asked for only from a peer that has shaken hands since it was last disconnected and is inbound or serves blocks; headers are sent only to a peer that has just asked for them or that is connected inbound; filters and filter headers are asked for only from connected outbound peers that offer filters; filter headers are sent only to a peer that has just asked for those up to that block; blocks are asked for only from a connected peer that said in its last handshake that it serves them; the inventory announced to a connected peer names only transactions that the user has submitted, by the kind of id that the peer negotiated; a transaction is sent only if the user has submitted it, and to a peer that has just asked for it by one of its ids; blocks and filters are never sent.", "quantifier": "every loaded chain and filter header store, every sequence of inputs, message contents, environment choices, outputs taken at any time", "why_tests_cant": "all interleavings of inputs, events and outputs of four managers", "anchors": ["p2p/src/fsm.rs: event, next, command, message_received, timer_expired", "p2p/src/fsm/syncmgr.rs: received_event", "p2p/src/fsm/cbfmgr.rs: received_event", "p2p/src/fsm/invmgr.rs: received_event"]}
{"id": "C103", "title": "The node reports a filter as a match exactly when it matches what the user looks for", "statement": "In any run of the state machine with its block, filter and inventory managers: when the node reports that the filter of a block at a height was processed, there is a filter that was authentic for that height (it hashes, with the previous filter header, to the stored filter header) at some step before or after which that block was at that height of the active chain; and the report says 'matched' exactly if this filter matches one of the scripts of the last rescan or of the watch commands since, or all the outputs of a transaction that was submitted or reverted and not confirmed since.", "quantifier": "every loaded chain and filter header store, every sequence of inputs, message contents, environment choices, outputs taken at any time", "why_tests_cant": "all interleavings of inputs, events and outputs of four managers", "anchors": ["p2p/src/fsm/cbfmgr.rs: received_cfilter", "p2p/src/fsm/cbfmgr/rescan.rs: process", "p2p/src/fsm.rs: event, command"]}
{"id": "C104", "title": "Blocks whose filters match are fetched and reported", "statement": "In any run of the state machine with its block, filter and inventory managers: a block is reported as matched exactly when it has just been announced as processed and its filter has matched since the height was last processed or disconnected. A block that the user asked for, or whose filter matched, and that no block message has brought since, is asked for whenever a timer fires fifteen seconds or more after it was last asked for, if a peer is connected and serves blocks.", "quantifier": "every loaded chain and filter header store, every sequence of inputs, message contents, environment choices, outputs taken at any time", "why_tests_cant": "all interleavings of inputs, events and outputs of four managers", "anchors": ["p2p/src/fsm/cbfmgr.rs: received_event", "p2p/src/fsm/invmgr.rs: timer_expired, get_block, received_block", "p2p/src/fsm.rs: event, next"]}
{"id": "C105", "title": "A transaction reported as confirmed is reported as reverted when its block is", "statement": "In any run of the state machine with its block, filter and inventory managers: if a transaction was reported as confirmed at a height, and since then no import was announced that reverts that height and timers fired only while the height was among the last thirteen of the active chain, then the step that announces an import reverting that height reports the transaction as reverted, with the transaction itself.", "quantifier": "every loaded chain and filter header store, every sequence of inputs, message contents, environment choices, outputs taken at any time", "why_tests_cant": "all interleavings of inputs, events and outputs of four managers", "anchors": ["p2p/src/fsm/invmgr.rs: block_reverted, received_event, timer_expired", "p2p/src/fsm.rs: event"]}
{"id": "C106", "title": "Commands of all threads are executed once, in the order sent, and answered during the call", "statement": "For every interleaving of any number of threads calling the methods of a handle with the thread of the node: commands are executed in the order in which they were sent, each at most once, and while the node runs those sent and not executed are exactly what is in the command channel. A value returned as the reply to a command is the reply of one execution of that command which happened between the call and the return. A call that waits for its reply has its command in the channel with the node awake or woken, or its reply ready, or the node has ended and the call fails. When the node wakes, it executes all commands in the channel.", "quantifier": "every number of threads, calls and arguments, every interleaving, every behaviour of the node", "why_tests_cant": "all interleavings of threads; lost wake-ups and reordering show only in some", "anchors": ["client/src/client.rs: Handle (_command, command and the methods of handle::Handle)", "net/poll/src/reactor.rs: run"]}
{"id": "C107", "title": "Subscribers get exactly the events since they subscribed, and the node runs as if alone", "statement": "For every interleaving: the inputs that reach the state machine form one run of it, and the events published are those it emits, in order. A receiver obtained by subscribing to events, blocks or filters has been sent, in order and without gaps or repetitions, exactly what the subscription makes of the events published since. After the node has ended nothing more is published and receivers are not told.", "quantifier": "every number of subscribers, every interleaving, every run of the node", "why_tests_cant": "all interleavings of subscribing, publishing and receiving", "anchors": ["client/src/client.rs: load, events, blocks, filters, subscribe", "net/src/event.rs: emit, broadcast, subscribe, publish", "net/poll/src/reactor.rs: run, process"]}
{"id": "C108", "title": "Every call returns at most once and for a reason", "statement": "For every interleaving: every method of a handle returns at most once, and only because of the reply to its command, an event published after it was called, its timeout, the end of the node, or because there is nothing to wait for. connect and disconnect succeed only after a matching connection or disconnection was reported during the call; wait_for_peers returns as many peers as asked for, each in the reply of the node or negotiated during the call; wait_for_height returns the hash of the header the node had at that height during the call, or one reported as the new tip at that height during the call.", "quantifier": "every number of threads, calls and arguments, every interleaving, every behaviour of the node", "why_tests_cant": "all interleavings of threads and events", "anchors": ["client/src/client.rs: connect, disconnect, wait, wait_for_peers, wait_for_height, submit_transaction", "client/src/handle.rs: Error", "net/src/event.rs: wait"]}
{"id": "C109", "title": "Waiting calls miss nothing, and errors mean what they say", "statement": "For every interleaving: a call that waits for events listens to them before its command is sent; while it waits it has seen every event published since, in order and without a gap up to those in its channel, none of them was the one it waits for, and it takes the next one when it runs. wait returns what its function says at the first event at which it says something. Disconnected is returned only if the node has stopped, NotConnected and the error of get_filters only if the node said so in its reply, a timeout only by a call that waits for events. Receivers of events, blocks and filters hold one item per event, matching block or received filter published since they were subscribed, and no other.", "quantifier": "every number of threads, calls and arguments, every interleaving, every behaviour of the node", "why_tests_cant": "all interleavings of threads, commands and events", "anchors": ["client/src/client.rs: connect, disconnect, wait, wait_for_peers, wait_for_height, submit_transaction, get_filters", "client/src/handle.rs: Error", "net/src/event.rs: wait, subscribe, publish"]}
{"id": "C110", "title": "The chain of a running node, its queries and its reports", "statement": "Whatever a started node is sent, by whom and in which order: its chain starts at genesis, is linked by hashes, has no hash twice, and is made of headers that were stored or that it was sent. get_tip, get_block_by_height, get_block and find_branch are all answered from this one chain and the headers set aside, and change nothing: the tip with height and total work, the header at the height, the place of the hash or none, a path from the chain to the hash through headers set aside or none if there is no such path. An input that makes the node report a new tip has moved the chain as reported: tip and height are those of the chain after, reverted blocks were on it at their heights and are not any more, connected ones are on it at theirs, and no block that is new on it is missing.", "quantifier": "every store, configuration, choice of the environment and sequence of inputs of the whole state machine, outputs taken at any time", "why_tests_cant": "all inputs of the whole node in all orders", "anchors": ["p2p/src/fsm.rs: command, received, step, initialize", "p2p/src/fsm/syncmgr.rs: import_blocks, extend_chain", "chain/src/block/cache.rs: import_blocks, get_block, get_block_by_height, find_branch, tip"]}
{"id": "C111", "title": "What the calls of a user say of the chain", "statement": "However the threads of a client and the node take turns: what a query for headers returns is true, in the sense of C110, of the chain that the node had when it answered, which was after the call and before its return. The hash that wait_for_height returns was on the chain of the node at this height in some state before the return.", "quantifier": "every store, configuration and environment, every number of threads and calls, every interleaving with the inputs of the node", "why_tests_cant": "all interleavings of threads with all inputs of the node", "anchors": ["client/src/client.rs: get_tip, get_block, get_block_by_height, find_branch, wait_for_height", "p2p/src/fsm.rs: command", "p2p/src/fsm/syncmgr.rs: import_blocks, extend_chain"]}
{"id": "C112", "title": "The peer, address and ping managers keep their promises inside the whole client", "statement": "In every run of the client, each of the three managers does a run of its own: its calls are those that the inputs and the announced events of each step ask for, in this order, at times the clock showed, and what it queued in each step is what these calls put out. What is proved of the managers alone (C44-C49, C70-C75, C96, C101) so holds of them inside the client.", "quantifier": "every configuration, store, address book, environment and hook; every run from the start, every next input", "why_tests_cant": "every order of inputs and announced events, with queues of any length between them", "anchors": ["p2p/src/fsm.rs: Machine for StateMachine (initialize, message_received, attempted, connected, disconnected, timer_expired, command), event, Iterator::next"]}
{"id": "C113", "title": "Messages are passed on exactly from open connections, and handshakes are what the log shows", "statement": "A received message reaches the managers exactly when it has the magic number of the network, comes from an address with an open connection, and the hook lets it pass. A peer is announced as negotiated exactly when its first verack after its version gets through, with the services, height, agent and so on of that version. An open connection goes back to the input that made it, with no end since, and its version message to an input on it. We send version only on connecting or in answer to one, with the height of our chain. Fewer than the configured number of inbound connections are open at a time.", "quantifier": "every configuration, store, address book, environment and hook; every run from the start, every next input", "why_tests_cant": "all interleavings of connections, messages, commands and timers over any number of peers", "anchors": ["p2p/src/fsm.rs: message_received, connected, disconnected", "p2p/src/fsm/peermgr.rs: peer_connected, handle_version, received_verack, received_wtxidrelay, version"]}
{"id": "C114", "title": "Questions about peers, broadcasts and dialled addresses", "statement": "GetPeers returns exactly the peers with a complete handshake and the services asked for, each once, with what its version message said; Broadcast writes the message once to each peer that has sent its version and is picked by the predicate, and replies these. We dial only addresses of a domain we connect to, with no connection open or being made, and only for a command, a persistent peer, or a drawn address that is announced; a command to connect dials exactly then. (That broadcasts reach only peers with a complete handshake is refuted.)", "quantifier": "every configuration, store, address book, environment and hook; every run from the start, every next input", "why_tests_cant": "all histories of connections; commands at any point, also during handshakes", "anchors": ["p2p/src/fsm.rs: Command::GetPeers, Command::Broadcast, Command::Connect", "p2p/src/fsm/peermgr.rs: peers, negotiated, connect, maintain_connections, maintain_persistent"]}
{"id": "C115", "title": "Connections are given up for the reason stated, and ends are reported exactly", "statement": "The peer manager ends a connection only for a cause that the log of the run shows, and the reason tells which: wrong magic, undecodable data, a command, misbehaviour or silence announced by another manager, a message of the handshake repeated, a handshake that takes too long, too many inbound connections, or a version message with a protocol version, services, height or nonce that are refused. The first five end an open connection and do nothing otherwise. Connections made, ended and failed are reported exactly when the reactor reports them for a connection in the respective state.", "quantifier": "every configuration, store, address book, environment and hook; every run from the start, every next input", "why_tests_cant": "all causes in all states of the connection and orders of inputs", "anchors": ["p2p/src/fsm/peermgr.rs: disconnect, peer_connected, peer_disconnected, handle_version, received_verack, received_wtxidrelay, received_wake", "p2p/src/fsm.rs: message_received, command, event"]}
{"id": "C116", "title": "Filters, blocks and transactions that the running client reports and fetches", "statement": "Over any run of the whole client: a filter is reported as a match exactly if it matches the scripts and transactions that the user watches at that time by the log, and it was authentic for that block and height; a block is reported as a match exactly when it is processed and its filter had matched; a block that was asked for or whose filter matched, and has not come, is asked for at a timer fifteen seconds after it was last asked for if a peer that serves blocks is there; a transaction reported as confirmed is reported as reverted when its height is.", "quantifier": "every configuration, start, environment, hook; every run with peers, pings, addresses and commands interleaved, every next input", "why_tests_cant": "all interleavings of the managers and of the outputs taken with inputs", "anchors": ["p2p/src/fsm.rs: StateMachine::event, command, timer_expired, Iterator::next", "p2p/src/fsm/cbfmgr.rs: received_cfilter, block_processed", "p2p/src/fsm/invmgr.rs: received_wake, received_block, block_reverted"]}
{"id": "C117", "title": "Every message of the running client about chain, filters, blocks and transactions has a reason on the wire", "statement": "Over any run of the whole client: a message about headers, filter headers, filters, blocks or transactions that is written to an address was broadcast by the user in this step, or answers the message just announced from it, or is for a peer with a handshake announced since it was last reported as disconnected, in the right direction and with the services needed; transactions announced or sent were submitted. Each such handshake was made on the wire: a verack from that address got through on a connection of that direction, after a version message that told these services.", "quantifier": "every configuration, start, environment, hook; every run, every next input", "why_tests_cant": "all histories of connections; a write at any later time", "anchors": ["p2p/src/fsm.rs: StateMachine::event, command, Iterator::next", "p2p/src/fsm/peermgr.rs: received_verack, handle_version", "p2p/src/fsm/syncmgr.rs: peer_negotiated, received_getheaders", "p2p/src/fsm/cbfmgr.rs: peer_negotiated, get_cfilters, received_getcfheaders", "p2p/src/fsm/invmgr.rs: received_wake, received_getdata"]}
{"id": "C118", "title": "The order in which filters arrive does not matter", "statement": "Given the same inputs so far and the same filters delivered afterwards by peers in two different orders and at different times, the client reports the same filters as processed, in the same order and with the same verdicts, fetches the same blocks in the same order, and ends with the scan at the same height.", "quantifier": "every history of the filter manager, every pair of permutations of every list of filter messages with any times, repeated and forged filters included; no two authentic filters for a block among them", "why_tests_cant": "all permutations of all message lists, from any state", "anchors": ["p2p/src/fsm/cbfmgr.rs: received_cfilter, rescan", "p2p/src/fsm/cbfmgr/rescan.rs: Rescan::process, received", "client/src/event.rs: comment of the test module"]}
{"id": "C119", "title": "The order in which requested blocks arrive does not matter", "statement": "Given the same inputs so far, blocks of the active chain that arrive in two different orders lead to the same outputs, in the same order, and to the same state of the inventory manager; or both orders panic alike.", "quantifier": "every state of the inventory manager, every pair of permutations of every list of blocks on the chain, repeats included", "why_tests_cant": "all permutations of all lists of blocks", "anchors": ["p2p/src/fsm/invmgr.rs: received_block, InventoryManager::process"]}
{"id": "C120", "title": "Repeating a command changes nothing", "statement": "Watching scripts or a transaction that are watched already leaves the filter manager as it is and puts out nothing. Giving a running client a command to watch, to submit a transaction or to request a block twice leaves its managers as giving it once; the only output is a request to be woken up.", "quantifier": "every history; every list of scripts, transaction, block", "why_tests_cant": "all histories and states", "anchors": ["p2p/src/fsm.rs: StateMachine::command", "p2p/src/fsm/cbfmgr.rs: watch, watch_transaction", "p2p/src/fsm/invmgr.rs: announce, get_block"]}
{"id": "C121", "title": "A rescan of the future asks for nothing", "statement": "A rescan that starts above the filter headers only reports that it has started: it requests nothing, scans nothing, and leaves headers, peers and outstanding requests as they are. If the scan had caught up, has no end and watches the same scripts, then a rescan from the next height on cannot be told from none by any later output, until blocks are reverted or another rescan is asked for.", "quantifier": "every state, every start, end and watch list; every continuation", "why_tests_cant": "all continuations of all states", "anchors": ["p2p/src/fsm/cbfmgr.rs: rescan, get_cfilters", "client/src/event.rs: comment of the test module"]}
{"id": "C122", "title": "How filter headers are divided into messages does not matter", "statement": "If the same filter hashes arrive in two different series of filter header messages that are all accepted, the filter header chain ends up the same, in memory and on disk.", "quantifier": "every reachable state, every two divisions of every list of hashes into accepted messages", "why_tests_cant": "all divisions of all lists", "anchors": ["p2p/src/fsm/cbfmgr.rs: received_cfheaders", "client/src/event.rs: comment of the test module"]}
{"id": "C123", "title": "Submitted transactions are held until confirmed, served to peers, and reported truthfully", "statement": "A running client holds exactly the transactions that were submitted, or brought back by a reorganisation, and that no block it has reported since contains. A query for a submitted transaction returns one it holds with that id, or nothing if it holds none. A submission is answered with exactly the connected peers that want to hear of transactions and have not been given up, each once, and with an error exactly if there is none. A peer that asks for transactions is sent, of those it names, exactly what the client holds, and nobody else is sent any in that step.", "quantifier": "every run of the whole client from its start, every transaction, every peer and request", "why_tests_cant": "all interleavings of submissions, blocks, reorganisations, handshakes and disconnections", "anchors": ["p2p/src/fsm/invmgr.rs: announce, get_submitted_tx, received_getdata, received_block, block_reverted", "p2p/src/fsm.rs: Command::SubmitTransaction, Command::GetSubmittedTransaction"]}
{"id": "C124", "title": "Which headers a running client takes, and what it says of them", "statement": "Headers sent by a connected peer (one that, if we connected to it, offers the blocks), no more than one message may hold, that the peer was asked for with no timer or other answer since or are at most 24, and the last of which is not on the chain, are all given to the chain in their order. Nothing but such headers (a timer may have fired since) and headers that the user imports changes the chain or the headers set aside, or makes the client report about the chain. What is reported, and what the user who imports headers is told, is the result of giving those headers to the chain, and true of the chain before and after: new tip, blocks gone and blocks connected, or that nothing changed, or at which height the batch was given up.", "quantifier": "every run of the whole client from its start, every next input, all headers; the conditions are read off the log of the run", "why_tests_cant": "all interleavings of announcements, requests, timers, handshakes and disconnections that decide whether headers are wanted", "anchors": ["p2p/src/fsm/syncmgr.rs: received_headers, import_blocks, extend_chain, unregister, received_inv", "p2p/src/fsm.rs: Command::ImportHeaders, message_received", "chain/src/block/cache.rs: import_blocks"]}
{"id": "C125", "title": "Simulated messages keep their order", "statement": "In every simulation, the messages that a node receives from an address are, in the order of arrival, among those that the node of that address wrote to it while it was told to be connected: none is made up, doubled or overtaken. This holds per address, not per node: a node that dials a second time while connected changes its address, messages of the new address overtake those of the old one, and the receiver was never told of the new address.", "quantifier": "every sequence of steps, all nodes (whatever they put out), latencies, failures and random numbers", "why_tests_cant": "all interleavings of writes, dials, disconnections and random latencies", "anchors": ["net/src/simulator.rs: Inbox::insert, Inbox::last, Simulation::schedule (Io::Write), Simulation::step_"]}
{"id": "C126", "title": "Without failures every simulated message arrives", "statement": "If the rate of failures is zero and latencies and timers are at least a millisecond, then once the simulation has settled each node has received exactly the messages written to it by connected nodes, each as often as it was written. With a latency of zero a message can be lost: telling a node of its own disconnection drops whatever is scheduled for the same instant. Messages may come after the receiver was told of the disconnection.", "quantifier": "every sequence of steps, all nodes, random numbers within their bounds", "why_tests_cant": "all interleavings; loss needs two unrelated inputs at the same instant", "anchors": ["net/src/simulator.rs: Simulation::step_, Simulation::schedule, Simulation::is_settled, Simulation::latency"]}
{"id": "C127", "title": "Simulated connections are told consistently", "statement": "In every simulation a node is told of a connection to a node only while it has none to it, of an outbound one only after it was told of the attempt, and of a disconnection only after a connection or an attempt. Simulations over fixed nodes that connect to each other only, and not to themselves, panic at most at the assertion that a node is not both connected and connecting to another; that assertion can fail, if a connected node dials again. A simulation that says it is done may still have a disconnection to tell.", "quantifier": "every sequence of steps, all nodes, latencies, failures and random numbers", "why_tests_cant": "all interleavings of dials, simultaneous disconnections and partitions", "anchors": ["net/src/simulator.rs: Simulation::step_, Simulation::schedule (Io::Connect, Io::Disconnect), Simulation::is_done"]}
{"id": "C128", "title": "Simulated time moves forwards and timers belong to their nodes", "statement": "In every simulation the times of what happens never decrease, and every wake-up of a node goes with a timer that this node set, a different one for each wake-up, and is not before the timer is due. With delays of at least a millisecond and without failures, when a simulation is done every timer has been followed by a wake-up of its node at or after its time, or by a wake-up of another node at exactly its time. Not every timer goes off for its node: one that is due at the instant of a timer of another node is dropped.", "quantifier": "every sequence of steps, all nodes, latencies, failures and random numbers", "why_tests_cant": "all combinations of timers of different nodes that meet", "anchors": ["net/src/simulator.rs: Simulation::schedule (Io::SetTimer), Simulation::step_"]}
{"id": "C129", "title": "The wallet's screen is current", "statement": "After every turn of the wallet's loop that handles a key, a signal or an event, the screen shows the tab selected by the keys so far, the balance of the coins, every coin with its address and value (in the tab of coins), and the status which the last event about progress calls for. It says that it is synced to a height only if the last event about progress was a scan of that height and the last header import before it had that height. After a restart with all headers present no header is imported, and the screen then says that it is syncing towards block zero though the scan has reached the tip; amounts received by addresses are never updated; while loading, what is loaded more than 16 ms after everything before it is shown, but the last status may not be shown.", "quantifier": "every sequence of keys, signals, loading events and client events, all terminal sizes and times, all databases", "why_tests_cant": "all interleavings of events that set redraw flags with keys and signals that clear them", "anchors": ["wallet/src/wallet.rs: Wallet::run, handle_client_event, handle_signal", "wallet/src/wallet/ui.rs: Ui, refresh"]}
{"id": "C130", "title": "What makes the wallet's screen panic", "statement": "Running the wallet panics only if the terminal is at some point too narrow for the text of a balance or a status, has no column or no line, or has 65535 columns, or if there are more than 65533 addresses or coins; on a terminal of usual size it never panics. On a terminal eight columns wide it panics at the first drawing (an unsigned subtraction overflows).", "quantifier": "every sequence of turns, terminal sizes, databases of coins at addresses, and blocks", "why_tests_cant": "all sizes of terminals at all turns with all texts", "anchors": ["wallet/src/wallet/ui.rs: Aligned::right, Aligned::center, draw_utxo_tab, draw_footer", "wallet/src/wallet/ui/table.rs: Table::render"]}
{"id": "C131", "title": "When the wallet ends", "statement": "The wallet's loop ends exactly on an interrupt, when the hardware wallet is asked for after loading and cannot be reached, or when the sum of the coins overflows a signed 64-bit integer, at the start or after a block. So it is not only the user who ends it: two outputs of half the range of the type, whose values the client does not check, end it.", "quantifier": "every sequence of turns, all databases, blocks and terminal sizes", "why_tests_cant": "all orders of keys, signals and blocks", "anchors": ["wallet/src/wallet.rs: Wallet::run, handle_input, handle_signal, handle_client_event"]}
