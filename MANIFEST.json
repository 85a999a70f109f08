{
 "claims": [
  {
   "property": "C01",
   "status": "proved",
   "theorems": [
    "C01_linked_chain"
   ],
   "note": ""
  },
  {
   "property": "C02",
   "status": "proved",
   "theorems": [
    "C02_hash_index"
   ],
   "note": ""
  },
  {
   "property": "C03",
   "status": "proved",
   "theorems": [
    "C03_work_is_sum",
    "C03_work_monotone",
    "C03_work_monotone_refuted_on_store_failure"
   ],
   "note": "Monotone as long as store calls succeed; a failing rollback shortens the chain in memory (refuted without that hypothesis)."
  },
  {
   "property": "C04",
   "status": "proved",
   "theorems": [
    "C04_best_branch"
   ],
   "note": "For a header not yet known whose parent is known; also gives the tie rule on networks other than mainnet."
  },
  {
   "property": "C05",
   "status": "proved",
   "theorems": [
    "C05_converge",
    "C05_steady",
    "C05_mainnet_refuted",
    "C05_context_refuted"
   ],
   "note": "For caches without checkpoints that start at genesis, imports only, a store that does not fail and headers with distinct hashes. C05_steady replaces validity in any context by conditions on the headers. The refuted theorems show that the network and context hypotheses are needed."
  },
  {
   "property": "C06",
   "status": "proved",
   "theorems": [
    "C06_mainnet_strict"
   ],
   "note": ""
  },
  {
   "property": "C07",
   "status": "proved",
   "theorems": [
    "C07_checkpoint_hash"
   ],
   "note": "Blocks preloaded from the store are not checked by the code and are excluded."
  },
  {
   "property": "C08",
   "status": "partial",
   "theorems": [
    "C08_no_revert_below_checkpoint_refuted",
    "C08_checkpoint_kept_partial",
    "C08_below_checkpoint_refused"
   ],
   "note": "False of the code: a shorter but heavier branch that forked before the checkpoint was reached reverts checkpointed blocks. Proved for imports after which the chain is at least as high as the checkpoint."
  },
  {
   "property": "C09",
   "status": "proved",
   "theorems": [
    "C09_active_validated",
    "C09_active_presented"
   ],
   "note": "Required target and median are those computed from the chain active at acceptance."
  },
  {
   "property": "C10",
   "status": "proved",
   "theorems": [
    "C10_single_report",
    "C10_extend_report"
   ],
   "note": ""
  },
  {
   "property": "C11",
   "status": "partial",
   "theorems": [
    "C11_batch_connected_refuted",
    "C11_batch_reverted_refuted",
    "C11_batch_report_partial"
   ],
   "note": "False of the code for batches that switch back and forth; the partial theorem gives what holds of every batch."
  },
  {
   "property": "C12",
   "status": "proved",
   "theorems": [
    "C12_failed_import",
    "C12_aborted_height",
    "C12_known",
    "C12_worthless"
   ],
   "note": ""
  },
  {
   "property": "C13",
   "status": "proved",
   "theorems": [
    "C13_load_total",
    "C13_next_total",
    "C13_queries_total"
   ],
   "note": "Debug-build arithmetic overflow is outside the model (u32 arithmetic wraps)."
  },
  {
   "property": "C14",
   "status": "proved",
   "theorems": [
    "C14_store_mirror",
    "C14_reload"
   ],
   "note": ""
  },
  {
   "property": "C18",
   "status": "proved",
   "theorems": [
    "C18_locator_heights"
   ],
   "note": ""
  },
  {
   "property": "C19",
   "status": "proved",
   "theorems": [
    "C19_locator_hashes"
   ],
   "note": ""
  },
  {
   "property": "C20",
   "status": "proved",
   "theorems": [
    "C20_located_headers",
    "C20_located_no_locators"
   ],
   "note": ""
  },
  {
   "property": "C21",
   "status": "proved",
   "theorems": [
    "C21_find_branch"
   ],
   "note": ""
  },
  {
   "property": "C24",
   "status": "proved",
   "theorems": [
    "C24_median_time_past"
   ],
   "note": ""
  },
  {
   "property": "C25",
   "status": "proved",
   "theorems": [
    "C25_target_kept",
    "C25_target_adjusted",
    "C25_target_no_retarget"
   ],
   "note": "Bounds hold up to the rounding of the compact encoding (relative error 2^-15)."
  },
  {
   "property": "C26",
   "status": "partial",
   "theorems": [
    "C26_backwards_refuted"
   ],
   "note": "False of the code: the 32-bit difference wraps and the period counts as the slowest case."
  },
  {
   "property": "C22",
   "status": "proved",
   "theorems": [
    "C22_exactly_once",
    "C22_exhausted"
   ],
   "note": ""
  },
  {
   "property": "C23",
   "status": "proved",
   "theorems": [
    "C23_offset_bounded",
    "C23_report",
    "C23_network_time",
    "C23_offset_bounded_refuted_at_i64_min"
   ],
   "note": "For samples other than i64::MIN, where the code's abs() wraps and the bound fails (refuted for that value). The initial zero sample counts as one of the five."
  },
  {
   "property": "C35",
   "status": "proved",
   "theorems": [
    "C35_within_capacity",
    "C35_push",
    "C35_rollback",
    "C35_exact_size_refuted"
   ],
   "note": "C35_exact_size_refuted shows that the condition 'no height pushed twice' is needed for the exact size."
  },
  {
   "property": "C52",
   "status": "proved",
   "theorems": [
    "C52_wake",
    "C52_conserved",
    "C52_next",
    "C52_register"
   ],
   "note": "For any sorting routine returning a sorted permutation."
  },
  {
   "property": "C53",
   "status": "proved",
   "theorems": [
    "C53_chunking",
    "C53_framing",
    "C53_remainder"
   ],
   "note": "For any decoder whose verdict depends only on consumed bytes; the bitcoin message framing is shown to be one."
  },
  {
   "property": "C15",
   "status": "proved",
   "theorems": [
    "C15_crash_reload"
   ],
   "note": "A crash is the step with a failing store choice plus torn bytes; one header at a time. A rewrite that stops in the middle of a record is the torn suffix."
  },
  {
   "property": "C16",
   "status": "proved",
   "theorems": [
    "C16_file_like_memory",
    "C16_iteration_refuted_if_buffer_cleared"
   ],
   "note": "For a read_exact that leaves the partial bytes in its buffer, as the standard library does; the second theorem shows this is needed."
  },
  {
   "property": "C17",
   "status": "proved",
   "theorems": [
    "C17_heal",
    "C17_torn_iteration"
   ],
   "note": ""
  },
  {
   "property": "C36",
   "status": "proved",
   "theorems": [
    "C36_estimate",
    "C36_order_refuted_above_2_53"
   ],
   "note": "The median goes through f64; above 2^53 rounding can put it below the minimum (refuted there)."
  },
  {
   "property": "C37",
   "status": "proved",
   "theorems": [
    "C37_rollback",
    "C37_rollback_to_current_refuted",
    "C37_rollback_too_deep",
    "C37_no_panic_refuted"
   ],
   "note": "Rolling back to the current height, or above it, pops a snapshot although nothing has to be undone (refuted separately)."
  },
  {
   "property": "C38",
   "status": "proved",
   "theorems": [
    "C38_ascending",
    "C38_at_most_once",
    "C38_complete",
    "C38_progress_refuted",
    "C38_on_chain_refuted",
    "C38_body_refuted"
   ],
   "note": "The refuted theorems are further findings: the queue can get stuck, and blocks removed from the chain or with a wrong body are processed."
  },
  {
   "property": "C39",
   "status": "proved",
   "theorems": [
    "C39_tracked",
    "C39_confirmed_once",
    "C39_confirmed_event",
    "C39_reverted",
    "C39_announced",
    "C39_new_peer",
    "C39_announced_only",
    "C39_served",
    "C39_order",
    "C39_wakes",
    "C39_submitted"
   ],
   "note": ""
  },
  {
   "property": "C40",
   "status": "partial",
   "theorems": [
    "C40_bounded_partial",
    "C40_spaced_partial",
    "C40_tries",
    "C40_per_transaction_refuted"
   ],
   "note": "False of the code per transaction, because fetching one transaction resets the counters of the peer; proved per peer with the fetched transactions counted."
  },
  {
   "property": "C60",
   "status": "partial",
   "theorems": [
    "C60_only_panic",
    "C60_no_panic_refuted"
   ],
   "note": "False of the code: one assertion can be reached by a peer; proved that it is the only one."
  },
  {
   "property": "C61",
   "status": "partial",
   "theorems": [
    "C61_unprocessed_revert_refuted",
    "C61_undoes"
   ],
   "note": "False of the code: as many processed blocks are undone as blocks are reverted (C61_undoes)."
  },
  {
   "property": "C27",
   "status": "proved",
   "theorems": [
    "C27_chain",
    "C27_store",
    "C27_store_refuted_after_failed_write"
   ],
   "note": "The chain in memory always; what is on disk as long as writes succeed. After a failed write a later import leaves a store that does not verify (refuted separately)."
  },
  {
   "property": "C28",
   "status": "proved",
   "theorems": [
    "C28_height",
    "C28_unreported_refuted",
    "C28_store_error_refuted",
    "C28_restart_refuted"
   ],
   "note": "For reported header changes and working storage. The refuted theorems show that an unreported change, a failing rollback and a crash between the two stores each lead to a crash of the client."
  },
  {
   "property": "C29",
   "status": "proved",
   "theorems": [
    "C29_conditions",
    "C29_reply",
    "C29_once",
    "C29_asked_peer_refuted"
   ],
   "note": "The answer may come from any peer (C29_asked_peer_refuted), which the property does not exclude."
  },
  {
   "property": "C30",
   "status": "proved",
   "theorems": [
    "C30_received",
    "C30_blamed",
    "C30_processed"
   ],
   "note": ""
  },
  {
   "property": "C31",
   "status": "partial",
   "theorems": [
    "C31_follows",
    "C31_consecutive",
    "C31_resume_refuted"
   ],
   "note": "Consecutive heights proved; resuming at the fork is proved when filter headers were reverted and false of the code otherwise: a scan that ran over stale filters past the filter headers is not sent back."
  },
  {
   "property": "C32",
   "status": "partial",
   "theorems": [
    "C32_stopped_partial",
    "C32_end_missed_refuted",
    "C32_never_stops_refuted"
   ],
   "note": "False of the code: the scan stops before its end height or runs past it without stopping. Proved: all heights below the reported one were processed."
  },
  {
   "property": "C33",
   "status": "proved",
   "theorems": [
    "C33_requests",
    "C33_rescan",
    "C33_spread"
   ],
   "note": ""
  },
  {
   "property": "C34",
   "status": "partial",
   "theorems": [
    "C34_unchanged_partial",
    "C34_stale_refuted"
   ],
   "note": "False of the code: queued filters survive a re-org. Proved for heights whose block does not change."
  },
  {
   "property": "C62",
   "status": "partial",
   "theorems": [
    "C62_only_panics",
    "C62_no_panic_refuted",
    "C62_user_request_refuted"
   ],
   "note": "False of the code: two assertions can be reached; proved that these are the only ones for reported header changes and working storage."
  },
  {
   "property": "C63",
   "status": "partial",
   "theorems": [
    "C63_reply",
    "C63_range_refuted",
    "C63_incomplete_refuted"
   ],
   "note": "Proved for start <= stop <= filter height; false otherwise."
  },
  {
   "property": "C64",
   "status": "proved",
   "theorems": [
    "C64_matched"
   ],
   "note": ""
  },
  {
   "property": "C65",
   "status": "partial",
   "theorems": [
    "C65_reported_partial",
    "C65_exact",
    "C65_cached_refuted"
   ],
   "note": "False of the code for matches found in the cache; proved for matches found when a filter arrives."
  },
  {
   "property": "C66",
   "status": "partial",
   "theorems": [
    "C66_persistent_refuted",
    "C66_dropped",
    "C66_kept"
   ],
   "note": "False of the code. Proved: who is dropped had let the time run out, another peer that is not persistent is asked in its place, and nobody is dropped while all filter peers are persistent."
  },
  {
   "property": "C49",
   "status": "proved",
   "theorems": [
    "C49_disconnect",
    "C49_ping",
    "C49_pong",
    "C49_once",
    "C49_latency",
    "C49_timer",
    "C49_first_refuted"
   ],
   "note": "A second handshake on the same connection sends another ping, which replaces the outstanding one. The first ping sets no timer (C49_first_refuted)."
  },
  {
   "property": "C50",
   "status": "partial",
   "theorems": [
    "C50_single",
    "C50_connected",
    "C50_full_batch",
    "C50_silent_refuted"
   ],
   "note": "One request at a time, only to connected peers: proved. Dropping or replacing a silent peer: proved after a full batch of headers, false of the code for other requests."
  },
  {
   "property": "C51",
   "status": "partial",
   "theorems": [
    "C51_oversized_partial",
    "C51_never_refuted",
    "C51_invalid_refuted"
   ],
   "note": "False of the code: the arms for invalid headers cannot be reached. Only oversized messages are reported."
  },
  {
   "property": "C67",
   "status": "partial",
   "theorems": [
    "C67_idle_refuted",
    "C67_inv_refuted",
    "C67_headers_refuted"
   ],
   "note": "False of the code in three ways; each fails a debug assertion."
  },
  {
   "property": "C68",
   "status": "partial",
   "theorems": [
    "C68_announced",
    "C68_only",
    "C68_once_refuted"
   ],
   "note": "The announcement is sent, but twice."
  },
  {
   "property": "C69",
   "status": "proved",
   "theorems": [
    "C69_no_panic"
   ],
   "note": "Acyclic parent links (implied by hash collision resistance), working storage and fewer than 2^64 headers; debug assertions excluded, see C67."
  },
  {
   "property": "C41",
   "status": "proved",
   "theorems": [
    "C41_index",
    "C41_bounded",
    "C41_group"
   ],
   "note": ""
  },
  {
   "property": "C42",
   "status": "partial",
   "theorems": [
    "C42_usable",
    "C42_routable",
    "C42_local",
    "C42_complete",
    "C42_failed",
    "C42_gap",
    "C42_clock_refuted",
    "C42_connected_refuted",
    "C42_forgotten_refuted"
   ],
   "note": "Proved with the idle clock as the measure of recency, connection tracked per IP address as the code does, and for addresses not evicted meanwhile; false of the code for the wall clock, for a second connection from the same IP address, and after eviction."
  },
  {
   "property": "C43",
   "status": "partial",
   "theorems": [
    "C43_gone",
    "C43_not_sampled",
    "C43_unknown_refuted",
    "C43_dial_refuted"
   ],
   "note": "Proved for connected peers in the book; false of the code for peers that are not in it and for dial errors."
  },
  {
   "property": "C70",
   "status": "proved",
   "theorems": [
    "C70_no_panic"
   ],
   "note": ""
  },
  {
   "property": "C71",
   "status": "proved",
   "theorems": [
    "C71_reply",
    "C71_known"
   ],
   "note": ""
  },
  {
   "property": "C72",
   "status": "proved",
   "theorems": [
    "C72_learned",
    "C72_stored",
    "C72_oversized",
    "C72_import_refuted"
   ],
   "note": "C72_import_refuted shows that the user's import command never adds anything."
  },
  {
   "property": "C44",
   "status": "proved",
   "theorems": [
    "C44_order",
    "C44_content",
    "C44_greeted",
    "C44_offset",
    "C44_again_refuted"
   ],
   "note": "The report of negotiation. A second version message restarts the handshake, so the report can come twice (refuted separately). Messages of peers without a handshake are dispatched to the other managers, which keep their own tables of negotiated peers."
  },
  {
   "property": "C45",
   "status": "partial",
   "theorems": [
    "C45_refused",
    "C45_final",
    "C45_exact",
    "C45_self_refuted"
   ],
   "note": "Version and services proved. False of the code for a real connection to ourselves: the nonce check compares with nonces received, not sent. Proved for a nonce equal to that of an outbound peer."
  },
  {
   "property": "C46",
   "status": "proved",
   "theorems": [
    "C46_limited"
   ],
   "note": "The limit is in fact one less than configured."
  },
  {
   "property": "C47",
   "status": "partial",
   "theorems": [
    "C47_timer",
    "C47_delay",
    "C47_redialled",
    "C47_wrap_refuted"
   ],
   "note": "Proved for up to 2^32 failures; after that the exponent wraps and the delay starts over."
  },
  {
   "property": "C48",
   "status": "proved",
   "theorems": [
    "C48_dial",
    "C48_outbound",
    "C73_no_panic",
    "C48_reached_refuted"
   ],
   "note": "No underflow by C73_no_panic. Without persistent peers; commands of the user may exceed the target. C48_reached_refuted: inbound peers count against the outbound target."
  },
  {
   "property": "C73",
   "status": "proved",
   "theorems": [
    "C73_no_panic"
   ],
   "note": ""
  },
  {
   "property": "C74",
   "status": "proved",
   "theorems": [
    "C74_timeouts"
   ],
   "note": ""
  },
  {
   "property": "C75",
   "status": "partial",
   "theorems": [
    "C75_events",
    "C75_dropped",
    "C75_dial_refuted"
   ],
   "note": "Failures are reported only if the connection failed; an attempt that cannot be started (dial error) is not."
  },
  {
   "property": "C56",
   "status": "proved",
   "theorems": [
    "C56_in_order",
    "C56_flush",
    "C56_no_panic"
   ],
   "note": ""
  },
  {
   "property": "C57",
   "status": "partial",
   "theorems": [
    "C57_round_trip",
    "C57_stable",
    "C57_wrap_refuted"
   ],
   "note": "Proved for times before 2106, given text and JSON codecs that read back what they write; later times are wrapped to 32 bits of seconds."
  },
  {
   "property": "C58",
   "status": "partial",
   "theorems": [
    "C58_coins",
    "C58_balance",
    "C58_again",
    "C58_resurrect_refuted",
    "C58_reorg_refuted"
   ],
   "note": "Proved for blocks in chain order and for re-applying the last blocks. Re-applying earlier blocks alone brings spent coins back, and blocks disconnected by a re-organization stay applied (refuted)."
  },
  {
   "property": "C59",
   "status": "proved",
   "theorems": [
    "C59_delivered",
    "C59_fresh",
    "C59_wait",
    "C59_wait_error"
   ],
   "note": ""
  },
  {
   "property": "C76",
   "status": "partial",
   "theorems": [
    "C76_stopped",
    "C76_lost_refuted"
   ],
   "note": "False of the code: a stop can leave an empty or unreadable file. Proved: nothing worse than that."
  },
  {
   "property": "C54",
   "status": "proved",
   "theorems": [
    "C54_in_order",
    "C54_empty",
    "C54_delivered",
    "C54_across_refuted"
   ],
   "note": "The managers are arbitrary functions here. The order across components is not kept (refuted separately)."
  },
  {
   "property": "C55",
   "status": "proved",
   "theorems": [
    "C55_other_network",
    "C55_unknown"
   ],
   "note": ""
  },
  {
   "property": "C77",
   "status": "proved",
   "theorems": [
    "C77_stream",
    "C77_unknown",
    "C77_no_panic"
   ],
   "note": ""
  },
  {
   "property": "C78",
   "status": "proved",
   "theorems": [
    "C78_no_panic",
    "C78_duplicate_refuted"
   ],
   "note": "The hypothesis that an address has one connection at a time is needed (C78_duplicate_refuted)."
  },
  {
   "property": "C79",
   "status": "proved",
   "theorems": [
    "C79_sent"
   ],
   "note": ""
  },
  {
   "property": "C80",
   "status": "proved",
   "theorems": [
    "C80_notes",
    "C80_known",
    "C80_twice_refuted"
   ],
   "note": "Same hypothesis as C78, and that the system reports a connecting socket as readable only together with writable."
  },
  {
   "property": "C81",
   "status": "proved",
   "theorems": [
    "C81_waited_for"
   ],
   "note": "Except for sockets the system reported as invalid, which the reactor keeps without ever polling them again."
  },
  {
   "property": "C82",
   "status": "partial",
   "theorems": [
    "C82_woken",
    "C82_starved_refuted",
    "C82_early_refuted"
   ],
   "note": "False of the code: timers are looked at only when the poll times out, and a timer within a second of another one is dropped. Proved: on a timeout exactly the due timers fire."
  },
  {
   "property": "C83",
   "status": "proved",
   "theorems": [
    "C83_extend_iff",
    "C83_required_unique"
   ],
   "note": "valid_at reads required target and median off the active chain with an independent specification; the adjustment at period boundaries is the one of C25."
  },
  {
   "property": "C84",
   "status": "proved",
   "theorems": [
    "C84_block_rates",
    "C84_reported"
   ],
   "note": "Sensible histories: distinct transaction ids, no double spends, known inputs of one transaction below 2^50 satoshis."
  },
  {
   "property": "C85",
   "status": "partial",
   "theorems": [
    "C85_restart",
    "C85_fresh",
    "C85_ahead",
    "C85_stuck",
    "C85_crash_refuted"
   ],
   "note": "Proved for runs over working storage that end between two operations. False of the code for crashes inside a re-org (C85_crash_refuted, C85_ahead, C85_stuck)."
  },
  {
   "property": "C86",
   "status": "proved",
   "theorems": [
    "C86_heights",
    "C86_panics",
    "C86_drop_refuted"
   ],
   "note": "The peer, address and ping managers are inputs here; C98 includes them. C86_drop_refuted shows the hypothesis on the height is needed."
  },
  {
   "property": "C87",
   "status": "proved",
   "theorems": [
    "C87_settled",
    "C87_settled_panics",
    "C87_single",
    "C87_batch_refuted"
   ],
   "note": "For exact reports in general, and for headers that come one at a time with a working store, where reports are exact (C87_single). False of the code for batches (C87_batch_refuted)."
  },
  {
   "property": "C88",
   "status": "proved",
   "theorems": [
    "C88_asked",
    "C88_again"
   ],
   "note": ""
  },
  {
   "property": "C89",
   "status": "proved",
   "theorems": [
    "C89_taken",
    "C89_ignored",
    "C89_other",
    "C89_import"
   ],
   "note": ""
  },
  {
   "property": "C90",
   "status": "partial",
   "theorems": [
    "C90_replay_partial",
    "C90_batch_refuted"
   ],
   "note": "False of the code for batches of headers (C90_batch_refuted). Proved if headers come one at a time and the store works."
  },
  {
   "property": "C91",
   "status": "proved",
   "theorems": [
    "C91_synced",
    "C91_shown"
   ],
   "note": "The age of the tip only for a clock that is past two hours: before that the subtraction underflows."
  },
  {
   "property": "C92",
   "status": "proved",
   "theorems": [
    "C92_getheaders",
    "C92_inv"
   ],
   "note": "Which headers a locator locates is C19."
  },
  {
   "property": "C93",
   "status": "proved",
   "theorems": [
    "C93_asked",
    "C93_again",
    "C93_next",
    "C93_idle",
    "C93_synced",
    "C93_filters"
   ],
   "note": ""
  },
  {
   "property": "C94",
   "status": "partial",
   "theorems": [
    "C94_scanned",
    "C94_ahead_refuted"
   ],
   "note": "False of the code if a matched block of an earlier scan arrives (C94_ahead_refuted). Proved if none is outstanding when the scan starts, the chain does not change and no lower block is awaited when a block is processed."
  },
  {
   "property": "C95",
   "status": "proved",
   "theorems": [
    "C95_once",
    "C95_again"
   ],
   "note": "With faithful reports of chain changes, working storage and complete traversals of hash maps."
  },
  {
   "property": "C96",
   "status": "proved",
   "theorems": [
    "C96_exhausted",
    "C96_asks"
   ],
   "note": "An address can be used if it was not tried in vain, was not sampled in the last three minutes and is not connected."
  },
  {
   "property": "C97",
   "status": "proved",
   "theorems": [
    "C97_retries"
   ],
   "note": ""
  },
  {
   "property": "C98",
   "status": "proved",
   "theorems": [
    "C98_heights",
    "C98_panics"
   ],
   "note": "The hypothesis on the height is needed (C86_drop_refuted). The configuration has inbound and outbound limits and retry times that do not panic by themselves (sane, see C73)."
  },
  {
   "property": "C99",
   "status": "proved",
   "theorems": [
    "C99_settled"
   ],
   "note": "Not for batches (C87_batch_refuted)."
  },
  {
   "property": "C100",
   "status": "proved",
   "theorems": [
    "C100_reason",
    "C100_started",
    "C100_hourly",
    "C100_filters_refuted"
   ],
   "note": "If all peers offer filters, none is asked though it is ahead, until the hourly sampling (C100_filters_refuted)."
  },
  {
   "property": "C101",
   "status": "proved",
   "theorems": [
    "C101_who",
    "C101_drawn",
    "C101_first",
    "C101_asked",
    "C101_replaced",
    "C101_timer"
   ],
   "note": "An address that is drawn though it is already connected counts against the number to dial."
  },
  {
   "property": "C102",
   "status": "proved",
   "theorems": [
    "C102_reason"
   ],
   "note": "Reasons are read off the inputs and the events announced, not off the state. The peer manager is an input here; its own messages are C44 and C47."
  },
  {
   "property": "C103",
   "status": "proved",
   "theorems": [
    "C103_matched"
   ],
   "note": "Everything but the authenticity of the filter is read off the inputs and the events announced."
  },
  {
   "property": "C104",
   "status": "proved",
   "theorems": [
    "C104_reported",
    "C104_fetched"
   ],
   "note": "That the asked peer answers is not claimed."
  },
  {
   "property": "C105",
   "status": "proved",
   "theorems": [
    "C105_reverted"
   ],
   "note": "The transaction pool forgets a confirmed transaction once its height is more than twelve deep when a timer fires, hence the condition."
  },
  {
   "property": "C106",
   "status": "proved",
   "theorems": [
    "C106_order",
    "C106_reply",
    "C106_waiting",
    "C106_served"
   ],
   "note": "Holds for any step function in place of the node. That the thread of the node gets to run again, and that a drain of its outputs ends, is not claimed."
  },
  {
   "property": "C107",
   "status": "proved",
   "theorems": [
    "C107_run",
    "C107_feed",
    "C107_silent"
   ],
   "note": "C107_silent shows that receivers are not told when the node ends."
  },
  {
   "property": "C108",
   "status": "partial",
   "theorems": [
    "C108_reasons",
    "C108_connect",
    "C108_peers",
    "C108_height",
    "C108_passed_refuted",
    "C108_stale_refuted",
    "C108_enough_refuted",
    "C108_gone_refuted",
    "C108_connected_refuted"
   ],
   "note": "Soundness of every return is proved. Completeness is false: wait_for_height misses a height that a batch passes over and can return a hash that was not in the chain during the call, wait_for_peers waits when there are more peers than asked for and counts those that left, connect to a connected peer waits."
  },
  {
   "property": "C109",
   "status": "proved",
   "theorems": [
    "C109_listening",
    "C109_waiting",
    "C109_wait",
    "C109_errors",
    "C109_feeds",
    "C109_submit_refuted"
   ],
   "note": "Holds for any step function in place of the node. C109_submit_refuted shows that a submission that fails with NotConnected is kept and announced later."
  },
  {
   "property": "C110",
   "status": "proved",
   "theorems": [
    "C110_queries",
    "C110_reports"
   ],
   "note": "For the whole state machine of FullModel.v, over the setup of C98."
  },
  {
   "property": "C111",
   "status": "proved",
   "theorems": [
    "C111_queries",
    "C111_height"
   ],
   "note": "That the state of C111_height need not be during the call is C108_stale_refuted."
  },
  {
   "property": "C112",
   "status": "proved",
   "theorems": [
    "C112_peer",
    "C112_addr",
    "C112_ping"
   ],
   "note": "Over the start of the client with any chain, filter chain and address book. Assumes that the hash maps iterate in some order of their entries (wfair)."
  },
  {
   "property": "C113",
   "status": "proved",
   "theorems": [
    "C113_passed",
    "C113_passed_only",
    "C113_inbound",
    "C113_negotiated",
    "C113_origin",
    "C113_greeting"
   ],
   "note": "The state of a connection is read off the log of inputs, announced events and outputs of the peer manager (link_of in FullLinkSpec.v). What the ping manager disconnects counts once the reactor reports it."
  },
  {
   "property": "C114",
   "status": "partial",
   "theorems": [
    "C114_peers",
    "C114_broadcast",
    "C114_handshake_refuted",
    "C114_dial",
    "C114_dial_asked"
   ],
   "note": "C114_handshake_refuted shows that a broadcast reaches peers whose handshake is incomplete. That a drawn address is one the address manager offered is C101, by C112_peer."
  },
  {
   "property": "C115",
   "status": "proved",
   "theorems": [
    "C115_cause",
    "C115_dropped",
    "C115_events"
   ],
   "note": "Ends by the ping manager are C49, by C112_ping."
  },
  {
   "property": "C116",
   "status": "proved",
   "theorems": [
    "C116_matched",
    "C116_reported",
    "C116_fetched",
    "C116_reverted"
   ],
   "note": "C103-C105 for the whole state machine of FullModel.v. Everything but the authenticity of the filter is read off the log."
  },
  {
   "property": "C117",
   "status": "proved",
   "theorems": [
    "C117_reason",
    "C117_handshake"
   ],
   "note": "Version messages and the rest of the handshake are C113, pings C49, address messages C112."
  },
  {
   "property": "C118",
   "status": "proved",
   "theorems": [
    "C118_filters",
    "C118_stop_refuted"
   ],
   "note": "Whether the end of the scan is noticed does depend on the order: C118_stop_refuted."
  },
  {
   "property": "C119",
   "status": "proved",
   "theorems": [
    "C119_blocks",
    "C119_left_refuted"
   ],
   "note": "Not if one of the blocks has left the chain: C119_left_refuted."
  },
  {
   "property": "C120",
   "status": "proved",
   "theorems": [
    "C120_watch",
    "C120_submitted",
    "C120_twice"
   ],
   "note": "A repeated rescan is not in the statement: it starts over."
  },
  {
   "property": "C121",
   "status": "proved",
   "theorems": [
    "C121_quiet",
    "C121_caught_up",
    "C121_future_refuted",
    "C121_reorg_refuted"
   ],
   "note": "C121_future_refuted and C121_reorg_refuted show that a scan that has not caught up is abandoned, and that blocks below the new start that are replaced later are not scanned."
  },
  {
   "property": "C122",
   "status": "proved",
   "theorems": [
    "C122_granularity"
   ],
   "note": "Which filters are asked for on the way may differ."
  },
  {
   "property": "C123",
   "status": "proved",
   "theorems": [
    "C123_submitted",
    "C123_submit",
    "C123_served"
   ],
   "note": "The pool is told from the log alone: submissions, reverted transactions, and reported blocks."
  },
  {
   "property": "C124",
   "status": "proved",
   "theorems": [
    "C124_taken",
    "C124_only",
    "C124_imported",
    "C124_reported_refuted"
   ],
   "note": "That a request ends when a timer fires is only needed in one direction: a timer may or may not find it timed out. A batch that is given up half way may have moved the chain with nothing reported: C124_reported_refuted."
  },
  {
   "property": "C125",
   "status": "proved",
   "theorems": [
    "C125_order",
    "C125_nodes_refuted",
    "C125_stranger_refuted"
   ],
   "note": "Per address; per node it is refuted."
  },
  {
   "property": "C126",
   "status": "proved",
   "theorems": [
    "C126_complete",
    "C126_instant_refuted",
    "C126_connected_refuted"
   ],
   "note": "The condition that nothing happens in the same instant is needed: C126_instant_refuted."
  },
  {
   "property": "C127",
   "status": "proved",
   "theorems": [
    "C127_fit",
    "C127_panics",
    "C127_both_refuted",
    "C127_done_refuted"
   ],
   "note": "Self-connections that a node asks for when told something are not excluded by the hypothesis of C127_panics, and are named in its conclusion."
  },
  {
   "property": "C128",
   "status": "proved",
   "theorems": [
    "C128_time",
    "C128_timers",
    "C128_fired",
    "C128_forgotten_refuted"
   ],
   "note": "That every timer goes off for the node which set it is refuted: the wake-up at its time may be that of another node."
  },
  {
   "property": "C129",
   "status": "proved",
   "theorems": [
    "C129_screen",
    "C129_synced",
    "C129_loading",
    "C129_restart_refuted",
    "C129_received_refuted",
    "C129_loading_refuted"
   ],
   "note": "That the status shown while loading is the latest is refuted, as is that a client scanned to its tip is shown so and that the amounts received are shown."
  },
  {
   "property": "C130",
   "status": "proved",
   "theorems": [
    "C130_panics",
    "C130_roomy",
    "C130_narrow_refuted"
   ],
   "note": "The lengths of the texts are arguments; formatting is not modelled."
  },
  {
   "property": "C131",
   "status": "proved",
   "theorems": [
    "C131_ends",
    "C131_overflow_refuted"
   ],
   "note": "Channels that close, other than that of loading, are not modelled."
  }
 ]
}