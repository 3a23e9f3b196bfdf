{
 "claims": [
  {
   "property": "C01",
   "status": "proved",
   "theorems": [
    "C01_cache_counts_exactly_the_recent_ids",
    "C01_check_block"
   ],
   "note": "Refinement to a never-pruned map for all histories; duration 0 <= d < 2^63-1, non-decreasing clock."
  },
  {
   "property": "C02",
   "status": "proved",
   "theorems": [
    "C02_admitted_at_most_once_per_window",
    "C02_duplicate_iff_recently_new"
   ],
   "note": ""
  },
  {
   "property": "C03",
   "status": "proved",
   "theorems": [
    "C03_cache_bounded_by_window",
    "C03_cache_never_panics"
   ],
   "note": ""
  },
  {
   "property": "C04",
   "status": "proved",
   "theorems": [
    "C04_fork_bomb_exactly_on_fourth_sibling",
    "C04_histories_run"
   ],
   "note": "A block without header panics (callers check or not: see C50)."
  },
  {
   "property": "C05",
   "status": "proved",
   "theorems": [
    "C05_purge_exact",
    "C05_purge_forgets"
   ],
   "note": ""
  },
  {
   "property": "C06",
   "status": "partial",
   "theorems": [
    "C06_honest_producer_refuted",
    "C06_fewer_than_three_others_partial"
   ],
   "note": "REFUTED as stated: three forged siblings make the honest block a fork bomb; true with at most two other counted ids."
  },
  {
   "property": "C07",
   "status": "proved",
   "theorems": [
    "C07_disconnect_exactly_at_threshold",
    "C07_unknown_address_changes_nothing",
    "C07_score_told"
   ],
   "note": "For any decay function; addition is uint64 (see C13)."
  },
  {
   "property": "C08",
   "status": "proved",
   "theorems": [
    "C08_gate_exactly_at_reconnect_threshold",
    "C08_uncharged_host_allowed"
   ],
   "note": "For any decay function."
  },
  {
   "property": "C09",
   "status": "proved",
   "theorems": [
    "C09_hosts_independent",
    "C09_same_host_same_answer"
   ],
   "note": ""
  },
  {
   "property": "C10",
   "status": "proved",
   "theorems": [
    "C10_score_never_rises_without_error",
    "C10_no_time_no_change",
    "C10_bound_is_needed"
   ],
   "note": "float64 rounding by Flocq; math.Exp is any value in [0,1]."
  },
  {
   "property": "C11",
   "status": "partial",
   "theorems": [
    "C11_halflife",
    "C11_reads_change_the_score_refuted",
    "C11_queries_clear_a_ban_refuted",
    "C11_queries_clear_a_ban_float_refuted",
    "C11_reads_lose_at_most_one_each_partial"
   ],
   "note": "Half-life and ban-lifting proved; independence from reads REFUTED (each later read costs at least one point, so enough queries clear any ban)."
  },
  {
   "property": "C12",
   "status": "proved",
   "theorems": [
    "C12_score_by_kind",
    "C12_wrapping_keeps_the_score",
    "C12_defaults_ban_exactly_fatal_kinds",
    "C12_local_faults_cost_nothing"
   ],
   "note": ""
  },
  {
   "property": "C13",
   "status": "partial",
   "theorems": [
    "C13_score_wraps_refuted",
    "C13_no_wrap_partial",
    "C13_histories_do_not_wrap_partial"
   ],
   "note": "REFUTED for extreme option values (uint64 wrap); true while the sums stay below 2^53."
  },
  {
   "property": "C14",
   "status": "proved",
   "theorems": [
    "C14_enabled_iff_connected_and_recent"
   ],
   "note": "Head times up to the int64 nanosecond range; C14_range_is_needed shows the bound is needed."
  },
  {
   "property": "C15",
   "status": "proved",
   "theorems": [
    "C15_calls_alternate"
   ],
   "note": ""
  },
  {
   "property": "C16",
   "status": "proved",
   "theorems": [
    "C16_always_enable",
    "C16_always_disable",
    "C16_flags"
   ],
   "note": ""
  },
  {
   "property": "C17",
   "status": "proved",
   "theorems": [
    "C17_subscriptions_alternate",
    "C17_calls"
   ],
   "note": ""
  },
  {
   "property": "C18",
   "status": "partial",
   "theorems": [
    "C18_publish_after_disable_refuted",
    "C18_enabled_without_reader_refuted",
    "C18_nothing_published_partial"
   ],
   "note": "REFUTED: the start-up goroutine of an earlier enable may run after the disable. True if none is outstanding at the disable."
  },
  {
   "property": "C19",
   "status": "partial",
   "theorems": [
    "C19_send_on_closed_channel_refuted",
    "C19_no_crash_while_running_partial",
    "C19_crash_only_this_way_partial"
   ],
   "note": "REFUTED: the reader may send on the channel its owner closed. No crash while no gossip context was cancelled; the crashing step is characterised exactly."
  },
  {
   "property": "C20",
   "status": "proved",
   "theorems": [
    "C20_publish",
    "C20_history"
   ],
   "note": ""
  },
  {
   "property": "C21",
   "status": "proved",
   "theorems": [
    "C21_block_accepted_iff"
   ],
   "note": ""
  },
  {
   "property": "C22",
   "status": "proved",
   "theorems": [
    "C22_malformed_block",
    "C22_malformed_tx",
    "C22_never_panics"
   ],
   "note": "Messages signed by this node itself only need to decode (they are accepted without being looked at)."
  },
  {
   "property": "C23",
   "status": "partial",
   "theorems": [
    "C23_below_lib_costs_nothing_partial",
    "C23_irreversible_block_charged_refuted"
   ],
   "note": "REFUTED at the LIB height itself and when the applicator's LIB is ahead: charged 5000. True strictly below the LIB the validator sees."
  },
  {
   "property": "C24",
   "status": "partial",
   "theorems": [
    "C24_fork_bomb_charged_to_forwarder_refuted",
    "C24_fork_bomb_not_relayed_partial"
   ],
   "note": "REFUTED for every message: the kind is lost and the forwarding peer is charged as a block application error."
  },
  {
   "property": "C25",
   "status": "partial",
   "theorems": [
    "C25_gossip_charges_every_block_failure_refuted",
    "C25_gossip_charges_tx_failure_refuted",
    "C25_sync_charges_local_failures_refuted",
    "C25_sync_timeouts_are_free_partial"
   ],
   "note": "REFUTED on the gossip paths (every failure is charged) and on the sync path for local failures other than a timeout. Proved on the sync path: local timeouts of the applicator and all failures of the round's own local calls cost nothing."
  },
  {
   "property": "C26",
   "status": "proved",
   "theorems": [
    "C26_tx_accepted_iff",
    "C26_failures_charged_by_kind",
    "C26_one_report_per_rejection"
   ],
   "note": ""
  },
  {
   "property": "C27",
   "status": "proved",
   "theorems": [
    "C27_one_submission_per_id"
   ],
   "note": "All interleavings of callers, goroutines, workers, results; the ids of submissions in progress are pairwise different and their number (with transactions) is at most ApplicationJobs."
  },
  {
   "property": "C28",
   "status": "proved",
   "theorems": [
    "C28_pool_bounded",
    "C28_full_pool_refuses",
    "C28_C29_C38_admission"
   ],
   "note": "Pool bound in every reachable state; the exact verdict on each arriving block."
  },
  {
   "property": "C29",
   "status": "proved",
   "theorems": [
    "C29_held_in_window",
    "C28_C29_C38_admission"
   ],
   "note": "In every reachable state; the LIB half unless a LIB of 2^64-1 was processed (then the dispatcher loops, see C40); admission for max accepted height + MaxHeightDelta < 2^64."
  },
  {
   "property": "C30",
   "status": "proved",
   "theorems": [
    "C30_indexes_agree"
   ],
   "note": "Both indexes, both directions, no empty sets."
  },
  {
   "property": "C31",
   "status": "proved",
   "theorems": [
    "C31_answers"
   ],
   "note": "At most one answer, no panic on complete inputs, no call lost before shutdown."
  },
  {
   "property": "C32",
   "status": "partial",
   "theorems": [
    "C32_submits_only_above_lib_refuted",
    "C32_checked_before_submission_partial",
    "C32_no_lib_in_between_partial"
   ],
   "note": "REFUTED: LIB can advance between check and submission. Proved: each submission was checked against the LIB that was the latest at the check; the claim when no LIB is processed in between."
  },
  {
   "property": "C33",
   "status": "partial",
   "theorems": [
    "C33_success_means_accepted_refuted",
    "C33_success_partial",
    "C33_success_for_past_blocks_partial"
   ],
   "note": "REFUTED: a block from the far future is reported as success after DelayTimeout without submission. Proved: otherwise the chain accepted a block of that id; the full claim for blocks not from the future."
  },
  {
   "property": "C34",
   "status": "proved",
   "theorems": [
    "C34_errors_accounted"
   ],
   "note": "Every returned error is traced to its cause; transient errors are never returned."
  },
  {
   "property": "C35",
   "status": "partial",
   "theorems": [
    "C35_fate_of_own_block_refuted",
    "C35_fate_of_own_block_partial"
   ],
   "note": "REFUTED: two different blocks with one id share the result of the first. Proved when blocks passed in under one id are equal."
  },
  {
   "property": "C36",
   "status": "proved",
   "theorems": [
    "C36_children_scheduled",
    "C36_blocks_stay",
    "C36_scheduled_attempt_starts"
   ],
   "note": "For all three kinds of report; how a held block can leave; a scheduled attempt is startable."
  },
  {
   "property": "C37",
   "status": "partial",
   "theorems": [
    "C37_no_lost_wakeup_refuted",
    "C37_recent_child_not_lost_partial"
   ],
   "note": "REFUTED for children older than ForceChildRequestThreshold: a non-forced request is dropped while an attempt is in flight that then fails with unknown previous block. Proved for recent children."
  },
  {
   "property": "C38",
   "status": "proved",
   "theorems": [
    "C38_highest_is_maximum",
    "C38_never_decreases",
    "C38_maximum",
    "C28_C29_C38_admission"
   ],
   "note": "The height window is computed from the maximum."
  },
  {
   "property": "C39",
   "status": "partial",
   "theorems": [
    "C39_lib_monotone_refuted",
    "C39_last_lib_partial"
   ],
   "note": "REFUTED: updates are delivered by goroutines and can be processed out of order; the LIB moves back. Proved: LIB is the last processed one; the maximum when processed in order."
  },
  {
   "property": "C40",
   "status": "partial",
   "theorems": [
    "C40_lib_releases",
    "C40_max_lib_refuted"
   ],
   "note": "Proved for every LIB below 2^64-1 (any pool, any jump, also backwards). REFUTED for LIB = 2^64-1: the clean-up loop never ends and no caller is ever answered."
  },
  {
   "property": "C41",
   "status": "partial",
   "theorems": [
    "C41_not_before_timestamp_refuted",
    "C41_less_than_a_second_early_partial"
   ],
   "note": "REFUTED: milliseconds are used as nanoseconds, so up to 999 ms early. Proved: less than one second early, until shutdown."
  },
  {
   "property": "C42",
   "status": "partial",
   "theorems": [
    "C42_submissions_apart",
    "C42_recently_accepted_refuted",
    "C42_recently_accepted_partial"
   ],
   "note": "First half proved. Second half REFUTED: an accepted block does not renew an entry of the cache. Proved with that exception named."
  },
  {
   "property": "C43",
   "status": "partial",
   "theorems": [
    "C43_success_means_accepted_refuted",
    "C43_result_partial"
   ],
   "note": "REFUTED: repeating a rejected transaction within the cache duration returns nil. Proved: what every result means."
  },
  {
   "property": "C44",
   "status": "partial",
   "theorems": [
    "C44_not_submitted_again_refuted",
    "C44_not_submitted_again_partial"
   ],
   "note": "REFUTED: a second attempt scheduled before the acceptance is started after it. Proved once nothing of the id is under way."
  },
  {
   "property": "C69",
   "status": "proved",
   "theorems": [
    "C69_fork_bomb_stopped_at_the_door"
   ],
   "note": "Applicator side of C04: what ApplyBlock does with the watchdog's verdict, over every schedule."
  },
  {
   "property": "C45",
   "status": "proved",
   "theorems": [
    "C45_first_failing_check",
    "C45_passes_iff"
   ],
   "note": "For every answer; hypothesis: the local node does not answer with a nil response and no error."
  },
  {
   "property": "C46",
   "status": "proved",
   "theorems": [
    "C46_only_from_connected_chains"
   ],
   "note": ""
  },
  {
   "property": "C47",
   "status": "proved",
   "theorems": [
    "C47_right_range",
    "C47_requested_when_behind"
   ],
   "note": ""
  },
  {
   "property": "C48",
   "status": "proved",
   "theorems": [
    "C48_in_order_until_failure"
   ],
   "note": ""
  },
  {
   "property": "C49",
   "status": "partial",
   "theorems": [
    "C49_flag_refuted",
    "C49_flag_partial",
    "C49_pause_partial"
   ],
   "note": "REFUTED: a last block above the reported head makes the uint64 difference wrap. Proved when no received block is above the reported head, for single rounds and for the pauses of whole sessions."
  },
  {
   "property": "C50",
   "status": "partial",
   "theorems": [
    "C50_peer_can_crash_us_refuted",
    "C50_no_crash_partial",
    "C50_with_rpc_clients_partial"
   ],
   "note": "REFUTED: a block without a header panics. Proved: that is the only way, also with the actual RPC clients below."
  },
  {
   "property": "C51",
   "status": "partial",
   "theorems": [
    "C51_exactly_once",
    "C51_all_reported",
    "C51_in_order_refuted",
    "C51_sync_in_order_partial",
    "C51_sync_only_after_handshake",
    "C51_cancel_refuted",
    "C51_cancel_partial"
   ],
   "note": "Exactly-once, peer id and order of rounds proved. REFUTED: order of handshake reports (each in its own goroutine), and a sync round may start after the cancellation. Proved: sync reports in order; at most the current round and a first sync round follow the cancellation."
  },
  {
   "property": "C52",
   "status": "proved",
   "theorems": [
    "C52_error_kinds",
    "C52_irreversible_skipped"
   ],
   "note": ""
  },
  {
   "property": "C70",
   "status": "proved",
   "theorems": [
    "C70_cancelled_session_ends"
   ],
   "note": "Calls are assumed to return (they carry deadlines, C71)."
  },
  {
   "property": "C71",
   "status": "proved",
   "theorems": [
    "C71_configured_deadlines"
   ],
   "note": ""
  },
  {
   "property": "C72",
   "status": "partial",
   "theorems": [
    "C72_timeout_bans_refuted",
    "C72_other_failures_do_not_ban_partial"
   ],
   "note": "REFUTED: any failed call for the chain id or a checkpoint ancestor bans. Proved: failures of the other calls do not."
  },
  {
   "property": "C53",
   "status": "proved",
   "theorems": [
    "C53_answers",
    "C53_answer_unique"
   ],
   "note": "Every interleaving of notifications, calls, expiries and shutdown; a call whose context ended may return the zero answer."
  },
  {
   "property": "C54",
   "status": "partial",
   "theorems": [
    "C54_live_connection_refuted",
    "C54_live_connection_partial"
   ],
   "note": "REFUTED: closing the second of two connections ends the session although the first is open. Proved when a peer never has two connections at a time."
  },
  {
   "property": "C55",
   "status": "proved",
   "theorems": [
    "C55_sessions"
   ],
   "note": ""
  },
  {
   "property": "C56",
   "status": "partial",
   "theorems": [
    "C56_start_refuted",
    "C56_start_partial"
   ],
   "note": "REFUTED for every schedule and every non-empty set of connections: Start sends on an unbuffered channel before the receiver is started. Proved when the host has no connections."
  },
  {
   "property": "C57",
   "status": "partial",
   "theorems": [
    "C57_rounds",
    "C57_stops_refuted",
    "C57_blocked_forever",
    "C57_stops_partial"
   ],
   "note": "Rounds proved. REFUTED: the loop has no exit; without seeds it spins after cancellation, with seeds it blocks for ever. Proved: at most one more dial after shutdown."
  },
  {
   "property": "C58",
   "status": "proved",
   "theorems": [
    "C58_exact",
    "C58_immediate",
    "C58_not_missed",
    "C58_announced"
   ],
   "note": "The semver parser is any function; for the last theorem it accepts 1.0.0. Scheduling may be late by any amount."
  },
  {
   "property": "C68",
   "status": "partial",
   "theorems": [
    "C68_apply_block_returns_refuted",
    "C68_apply_transaction_returns_refuted",
    "C68_sent_calls_return_partial",
    "C68_query_returns_refuted",
    "C68_taken_query_returns_partial",
    "C68_gate_returns_refuted",
    "C68_handed_over_gate_returns_partial"
   ],
   "note": "REFUTED: the send to the serving loop does not watch the context. Proved: once the message is taken (or buffered) the call returns when its context ends."
  },
  {
   "property": "C73",
   "status": "partial",
   "theorems": [
    "C73_impatient_caller_refuted",
    "C73_served_partial"
   ],
   "note": "REFUTED: a caller that gives up between its question and the answer blocks the manager until shutdown. Proved when no caller's context ends."
  },
  {
   "property": "C74",
   "status": "proved",
   "theorems": [
    "C74_sequential",
    "C74_right_answers",
    "C74_served_once",
    "C74_reports_once"
   ],
   "note": "With C74_sequential the sequential properties C07-C13 hold of every concurrent execution."
  },
  {
   "property": "C75",
   "status": "proved",
   "theorems": [
    "C75_handed_over_is_answered",
    "C75_serves_until_cancelled",
    "C75_loop_never_blocked",
    "C75_call_can_return"
   ],
   "note": "While the loop waits for a peer's address (handleError) it serves nothing; the statement is about the serving loop, and says that it returns to serving whatever the address query answers."
  },
  {
   "property": "C76",
   "status": "partial",
   "theorems": [
    "C76_gater_usable_at_once_refuted",
    "C76_no_answer_before_start",
    "C76_usable_once_wired_partial"
   ],
   "note": "REFUTED: a peer gate before SetPeerAddressProvider panics; an address gate does not answer before Start. Proved: no panic once the provider is set."
  },
  {
   "property": "C59",
   "status": "proved",
   "theorems": [
    "C59_get_head_block",
    "C59_apply_block",
    "C59_apply_transaction",
    "C59_get_blocks_by_id",
    "C59_get_blocks_by_height",
    "C59_get_chain_id",
    "C59_get_fork_heads",
    "C59_is_connected"
   ],
   "note": "Marshalling and the message queue are arbitrary functions."
  },
  {
   "property": "C60",
   "status": "proved",
   "theorems": [
    "C60_no_oversized_request",
    "C60_oversized_fails_unsent"
   ],
   "note": ""
  },
  {
   "property": "C61",
   "status": "partial",
   "theorems": [
    "C61_blocks_all_decode",
    "C61_count_refuted",
    "C61_count_partial",
    "C61_remote_blocks",
    "C61_remote_blocks_succeeds",
    "C61_remote_ancestor",
    "C61_remote_chain_id",
    "C61_remote_head",
    "C61_error_kinds"
   ],
   "note": "REFUTED only for answers of 2^32 or more blocks (the length is cut to 32 bits before it is compared); everything else proved."
  },
  {
   "property": "C77",
   "status": "proved",
   "theorems": [
    "C77_healthy_round"
   ],
   "note": ""
  },
  {
   "property": "C62",
   "status": "proved",
   "theorems": [
    "C62_one_response",
    "C62_always_answered"
   ],
   "note": "Protobuf decoding and encoding are arbitrary functions; that responses can be encoded is a visible hypothesis."
  },
  {
   "property": "C63",
   "status": "proved",
   "theorems": [
    "C63_content_ids",
    "C63_other_topics"
   ],
   "note": "base64 is modelled and proved injective; SHA-256 is an arbitrary function. A message without a topic is outside the statement (the code dereferences it)."
  },
  {
   "property": "C64",
   "status": "proved",
   "theorems": [
    "C64_generator_seed",
    "C64_distinct_prefixes",
    "C64_identity"
   ],
   "note": "SHA-256 and the key derivation are arbitrary functions."
  },
  {
   "property": "C65",
   "status": "partial",
   "theorems": [
    "C65_effects",
    "C65_delivered_once",
    "C65_delivery_possible",
    "C65_malformed_ignored",
    "C65_panic_only_headless",
    "C65_headless_head_panics_refuted"
   ],
   "note": "REFUTED only in one case: a head announcement whose block has no header panics the node. Everything else proved for all interleavings."
  },
  {
   "property": "C66",
   "status": "partial",
   "theorems": [
    "C66_graylisted_may_not_connect",
    "C66_exactly",
    "C66_refused_peer_ignored_refuted",
    "C66_refused_peer_ignored_partial"
   ],
   "note": "The statement is proved for reconnect thresholds up to 2^52. The title is REFUTED for the scores equal to the threshold and one above it, and proved for all higher ones."
  },
  {
   "property": "C67",
   "status": "partial",
   "theorems": [
    "C67_well_formed",
    "C67_unambiguous",
    "C67_face_value_refuted",
    "C67_every_option_partial",
    "C67_misspelt_refuses_peers"
   ],
   "note": "REFUTED: errors in the height and in the identifier are only logged and a wrong checkpoint is used. Proved: well-formed options are taken at face value; what every other option becomes; that a misspelt identifier makes the node refuse the peers that have the intended block."
  },
  {
   "property": "C78",
   "status": "partial",
   "theorems": [
    "C78_few_identities",
    "C78_distinct_identities_refuted",
    "C78_collision"
   ],
   "note": "REFUTED: the generator reduces its seed modulo 2^31-1, so that there are at most 2^31-2 identities."
  },
  {
   "property": "C79",
   "status": "partial",
   "theorems": [
    "C79_is_latest",
    "C79_never_goes_back_refuted",
    "C79_never_goes_back_partial"
   ],
   "note": "First half proved. REFUTED: start-up may store an older answer over a newer announcement. Proved when the stored values arrive in order."
  },
  {
   "property": "C80",
   "status": "partial",
   "theorems": [
    "C80_in_order_refuted",
    "C80_in_order_partial"
   ],
   "note": "REFUTED: every effect has its own goroutine. Proved when the goroutines of a broadcast run before the next broadcast."
  },
  {
   "property": "C81",
   "status": "partial",
   "theorems": [
    "C81_malformed_peer_stops",
    "C81_malformed_peers_skipped_refuted",
    "C81_peers_partial"
   ],
   "note": "REFUTED: any malformed address stops the program, since the nil result is dereferenced. Proved: exactly the lists of well-formed addresses are accepted, and used in order."
  },
  {
   "property": "C82",
   "status": "proved",
   "theorems": [
    "C82_every_maximal_run_settles",
    "C82_can_settle",
    "C82_settled_reports"
   ],
   "note": "All callers in the node use the node's context or the background context, so that \"no context ends\" means that the node is not stopped. The seed loop may be left in a dial or in its pause."
  },
  {
   "property": "C83",
   "status": "proved",
   "theorems": [
    "C83_charged_to_the_peer",
    "C83_nothing_else_charged"
   ],
   "note": ""
  },
  {
   "property": "C84",
   "status": "proved",
   "theorems": [
    "C84_peer_gates"
   ],
   "note": ""
  },
  {
   "property": "C85",
   "status": "partial",
   "theorems": [
    "C85_first_report_stops_the_handler",
    "C85_peer_gates_hang",
    "C85_settles_refuted",
    "C82_every_maximal_run_settles"
   ],
   "note": "REFUTED: with a connection at start-up the manager never starts, the first report taken stops the error handler for ever, and every gate call about a peer hangs, also after its context ends. Proved without such a connection (C82)."
  },
  {
   "property": "C86",
   "status": "proved",
   "theorems": [
    "C86_tick_decides_right",
    "C86_ticks_complete"
   ],
   "note": "The head time is assumed to be below 2^63/10^6 milliseconds, where the conversion does not overflow."
  },
  {
   "property": "C87",
   "status": "partial",
   "theorems": [
    "C87_announcements_partial",
    "C87_delivered_partial",
    "C87_status_delivered_refuted"
   ],
   "note": "REFUTED: an error of the broadcast is dropped and the status is not announced again. Proved: the announcements made alternate and the last one is what IsEnabled tells; delivered too if every broadcast succeeds."
  },
  {
   "property": "C88",
   "status": "partial",
   "theorems": [
    "C88_tick_reenables_refuted",
    "C88_late_starter_refuted",
    "C88_forced_stays_enabled_refuted",
    "C88_closed_for_good_refuted",
    "C88_publishes_nothing_partial"
   ],
   "note": "REFUTED in each part: Close does not stop the toggle, nor wait for the goroutines of StartGossip, nor clear the toggle's flag. Proved: nothing is published after Close if the toggle had ended and those goroutines had begun before."
  },
  {
   "property": "C89",
   "status": "partial",
   "theorems": [
    "C89_close_crashes_refuted",
    "C89_only_both_stopping_partial",
    "C89_not_before_close_partial",
    "C89_not_with_flags_partial"
   ],
   "note": "REFUTED: Close and a tick that turn gossip off at the same time dereference a nil gossipCancel. Proved: this is the only way, so not without Close and not with a gossip flag."
  },
  {
   "property": "C90",
   "status": "partial",
   "theorems": [
    "C90_never_enabled",
    "C90_can_enable_refuted",
    "C90_enabled_partial"
   ],
   "note": "REFUTED: with a connection at start-up gossip is never enabled. Proved without: a tick with peers connected throughout and a fresh head enables it."
  },
  {
   "property": "C91",
   "status": "partial",
   "theorems": [
    "C91_toggle_hangs",
    "C91_toggle_refuted",
    "C91_handler_hangs",
    "C91_handler_refuted",
    "C91_toggle_can_end_partial",
    "C91_handler_can_end_partial",
    "C91_manager_can_end_partial"
   ],
   "note": "REFUTED for the toggle and the error handler: if the manager ends before taking their message they hang for ever. Proved while the manager has not ended; the manager itself can always end."
  },
  {
   "property": "C92",
   "status": "partial",
   "theorems": [
    "C92_stalls",
    "C92_catches_up_refuted",
    "C92_follows_partial",
    "C92_rounds_partial",
    "C92_goes_on_partial",
    "C92_catches_up_partial"
   ],
   "note": "REFUTED if irreversibility is a whole batch of blocks or more behind the head: every round fetches the same blocks again and the head does not move. Proved if it never is (default batch: 500 blocks)."
  },
  {
   "property": "C93",
   "status": "partial",
   "theorems": [
    "C93_nothing_left_waiting_refuted",
    "C93_nothing_left_waiting_partial",
    "C93_chain_applied_partial"
   ],
   "note": "REFUTED: a block that waits for an attempt at its parent is forgotten if the LIB reaches the parent before the attempt gets a worker. Proved for any set of blocks of which none is answered with an error, ends an attempt with a lasting error or times out waiting for a future timestamp, whatever happens to other blocks; each block of the set is recent or was submitted only when the chain had its parent."
  },
  {
   "property": "C94",
   "status": "proved",
   "theorems": [
    "C94_cut_off",
    "C94_comes_to_rest",
    "C94_peer_is_cut_off",
    "C94_nobody_else"
   ],
   "note": "The network (libp2p's swarm) is an environment that opens only connections the address gate allowed and calls the notifications in order for each connection. The node starts without connections (C85). A connection opened after the charge is the subject of C96."
  },
  {
   "property": "C95",
   "status": "partial",
   "theorems": [
    "C95_reports_count_refuted",
    "C95_reports_count_partial",
    "C95_never_charged"
   ],
   "note": "REFUTED: a peer with two connections that closes one is taken for disconnected and nothing it does is charged any more, although a connection is open. Proved if the network never gives a peer two connections at a time."
  },
  {
   "property": "C96",
   "status": "partial",
   "theorems": [
    "C96_other_peer_refuted",
    "C96_late_open_refuted",
    "C96_gate_after_ban_partial"
   ],
   "note": "REFUTED twice: other peers of the host stay connected, and a connection whose gate was passed before the charge is opened after it. Proved for connections whose gate call began after the charge."
  },
  {
   "property": "C97",
   "status": "partial",
   "theorems": [
    "C97_catches_up_refuted",
    "C97_honest",
    "C97_no_failure_partial",
    "C97_catches_up_partial"
   ],
   "note": "REFUTED in general for the reason of C92: if the chain becomes irreversible later than a batch of blocks, the node that is behind never catches up. Proved if irreversibility is never a whole batch behind the head. The two services behind each node are environments; the applicator's answer is that of C92."
  },
  {
   "property": "C98",
   "status": "partial",
   "theorems": [
    "C98_block_state_refuted",
    "C98_never_stuck",
    "C98_no_circles",
    "C98_comes_to_rest"
   ],
   "note": "REFUTED: while the chain answers 'block state error', the applicator submits the same block again at once, any number of times at one instant. Proved for every other answer of the chain, for blocks with header, a positive number of workers and no announced LIB of 2^64-1 (C40). A forced request that finds its block under way and is put back counts as waiting."
  },
  {
   "property": "C99",
   "status": "partial",
   "theorems": [
    "C99_old_child_refuted",
    "C99_never_stuck",
    "C99_no_circles",
    "C99_comes_to_rest",
    "C99_chain_delivered_partial",
    "C99_left_alone_partial"
   ],
   "note": "REFUTED for blocks older than ForceChildRequestThreshold: a child whose attempt failed before its parent was in the chain, and is still being reported when the parent succeeds, is kept for ever and never submitted again. Proved for blocks that are recent or handed over only after the chain has announced the parent, within the height window, not from the future, and with room in the pool. The last irreversible block may move on and reach blocks of the chain once the chain service has them and the applicator is done with them. The parent may be one that the chain got from elsewhere meanwhile. The chain service is an environment that accepts, refuses and announces as stated; the chain's answers, the truthfulness and the absence of refusals that C93 assumes are derived here."
  },
  {
   "property": "C100",
   "status": "partial",
   "theorems": [
    "C100_gap_refuted",
    "C100_no_gap_partial",
    "C100_parent_again_partial"
   ],
   "note": "REFUTED: the applicator takes the head's height when the node is made, broadcasts are received only after that; a block that the chain gets in between is never heard of, and its child is held for ever as too high. Proved if the chain gets no block in that gap (also on top of blocks that it got during the rest of the start), and, in every run, if the parent is reported again later. The chain service is that of C99."
  },
  {
   "property": "C101",
   "status": "partial",
   "theorems": [
    "C101_stored_before_read",
    "C101_no_crash_partial",
    "C101_nil_lib_refuted"
   ],
   "note": "REFUTED if the chain service sends an announcement without a last irreversible block: the next read crashes the program. Proved: something is always stored before anybody can read, and if all messages name a LIB there is no crash and what is read is a LIB the chain named."
  },
  {
   "property": "C102",
   "status": "partial",
   "theorems": [
    "C102_one_too_many_refuted",
    "C102_listed_partial"
   ],
   "note": "REFUTED: from twelve connections on, twelve are listed and the number said to be left out is one too high (twelve of twelve listed 'and 1 more'). Proved: exactly the first twelve are listed, nothing is said to be left out up to eleven, and by how much the number is off."
  },
  {
   "property": "C103",
   "status": "partial",
   "theorems": [
    "C103_race_refuted",
    "C103_latest_partial",
    "C103_no_race_partial"
   ],
   "note": "REFUTED: an announcement handled between GetForkHeads' answer and the storing of it is overwritten by the older answer, until the next announcement. Proved from the first announcement after the storing on, and from the start on if none comes between the two."
  },
  {
   "property": "C104",
   "status": "partial",
   "theorems": [
    "C104_honest_peer_charged_refuted",
    "C104_no_error_partial",
    "C104_complete_partial",
    "C104_ends_partial"
   ],
   "note": "REFUTED: if the chain gets the first block of the batch from elsewhere while its attempt waits for a worker, and the last irreversible block reaches it, the call returns 'irreversible', the round hands over the second block, which waits for the attempt at the first one and is then forgotten; the deadline passes and the honest peer is charged with a block application error. Proved if meanwhile the last irreversible block reaches only such blocks of the batch as the chain has announced and the applicator is done with, the deadline of ApplyBlock does not pass, the fork watchdog does not object, each block is within the height window and not from the future when it is handed over, and others hand over the batch's blocks only after their parents or the blocks are recent."
  },
  {
   "property": "C105",
   "status": "partial",
   "theorems": [
    "C105_ends_refuted",
    "C105_leak_refuted",
    "C105_off_partial",
    "C105_at_most_latest_partial",
    "C105_stopped",
    "C105_can_return"
   ],
   "note": "REFUTED: node.Close disables gossip without synchronising with the toggle. Close cancels, the toggle disables and enables again, Close clears gossipCancel: the new goroutines can then be ended only by the end of the node's context. Proved in every run until Close is called, and in every run once the node's context is done; then each goroutine can return by its own steps."
  },
  {
   "property": "C106",
   "status": "proved",
   "theorems": [
    "C106_idle_before_start"
   ],
   "note": "All that is logged before the start of the applicator are calls that returned an error."
  },
  {
   "property": "C107",
   "status": "proved",
   "theorems": [
    "C107_no_failure",
    "C107_catches_up",
    "C107_never_waits",
    "C107_goes_on"
   ],
   "note": "The conditions of the statement are the hypotheses (Follow_Spec.nice, sound_setting). That they are needed: C92 (a last irreversible block a batch behind) and C104 (a last irreversible block that overtakes an attempt) are refuted without them."
  },
  {
   "property": "C108",
   "status": "proved",
   "theorems": [
    "C108_relayed",
    "C108_spread"
   ],
   "note": "The conditions are those of C99 (Honest_Spec.welcome). The charged cases are real: the example beside the theorems has a peer charged for a valid block at the height of the last irreversible block (compare C23)."
  },
  {
   "property": "C109",
   "status": "partial",
   "theorems": [
    "C109_late_block_refuted",
    "C109_spreads_partial",
    "C109_nobody_charged"
   ],
   "note": "REFUTED: if the deadline of a validator passes (BlockTimeout, 3 seconds by default) while the chain service is still at work on the block, the message is not sent on and its sender is charged; when the chain service has accepted the block, the node's own publication has the id of a message seen (generateMessageID hashes the payload only) and pubsub drops it. Nodes behind this node never get the block by gossip. Proved if no deadline of a call with one of the blocks passes, the last irreversible block stays below the blocks, the fork watchdog does not object to them, and the applicators stay open for them (conditions of C99). pubsub is taken as described in Flood_Spec.v; it may forget at any time that it has seen a message and look at it again."
  },
  {
   "property": "C110",
   "status": "partial",
   "theorems": [
    "C110_twin_refuted",
    "C110_late_refuted",
    "C110_spreads_partial",
    "C110_nobody_charged"
   ],
   "note": "REFUTED twice. The transaction cache goes by the id that the sender wrote into the transaction and keeps the id whatever the chain service answers: a peer that sends another transaction with the same id first (the chain service rejects it, the peer is charged once) keeps the true one away from the node's chain service for the five minutes of the cache, although the node accepts the true one and sends it on. And as in C109, if the deadline of a validator passes (TransactionTimeout) the message is not sent on and the node's own publication is dropped as seen. Proved if whatever has the id of the transaction is the transaction, and no deadline of a call with it passes. pubsub is taken as described in TxNet_Spec.v; it may forget at any time that it has seen a message and look at it again."
  },
  {
   "property": "C111",
   "status": "proved",
   "theorems": [
    "C111_order",
    "C111_goes_on",
    "C111_misconfigured"
   ],
   "note": "The command line and the YAML file are read by libraries outside the repository: the settings are what they give. An answer that reports an error counts as an answer, as in the code."
  },
  {
   "property": "C112",
   "status": "partial",
   "theorems": [
    "C112_pile_refuted",
    "C112_one_each_partial"
   ],
   "note": "REFUTED: each question derives a context from the root context and defers its cancellation to the end of main (main.go:204-205, 215-216), so the contexts, with the deferred calls, pile up without bound while a service does not answer. Proved: there is exactly one per question, no more are made once both services have answered, and all are released when main returns."
  },
  {
   "property": "C113",
   "status": "partial",
   "theorems": [
    "C113_early_refuted",
    "C113_orderly_partial",
    "C113_early"
   ],
   "note": "REFUTED: signals are asked for only after Start has returned (main.go:236-237); a signal that arrives before, also while the services are waited for and right after the node was started, ends the process at once, without Close. Proved: once they are asked for, and as long as the host has an address whenever it is asked (C116), no signal ends the process by itself, nor does a panic; after one has come the main goroutine closes the node once, cancels its contexts and returns; and it returns only so. That Close returns is not part of this model (C88)."
  },
  {
   "property": "C114",
   "status": "partial",
   "theorems": [
    "C114_memory_of_blocks_refuted",
    "C114_memory_of_blocks_partial",
    "C114_lib_clears_partial"
   ],
   "note": "REFUTED: the fork watchdog records the id before any check (applicator.go:100, fork_watchdog.go:45) also for blocks it refuses, and drops records only when a last irreversible block reaches their height, which a peer may choose as high as it likes: for every n there is a run, without time passing, in which all calls fail, nothing is submitted or held, and n records stay until a last irreversible block at height 2^63. Proved: exactly the blocks passed to ApplyBlock since a last irreversible block at or above their height are remembered, at most one record per call, and a last irreversible block clears exactly what lies at or below it."
  },
  {
   "property": "C115",
   "status": "partial",
   "theorems": [
    "C115_forgiven_hosts_forgotten_refuted",
    "C115_hosts_on_record_partial"
   ],
   "note": "REFUTED: no code deletes from errorScores; n hosts with one forgiven error each, all with score zero and free to connect, stay on record in every continuation. Proved: a host is on record exactly if it was once reported while its address was known; queries add no record."
  },
  {
   "property": "C116",
   "status": "partial",
   "theorems": [
    "C116_no_address_refuted",
    "C116_no_panic_partial",
    "C116_address"
   ],
   "note": "REFUTED: GetAddress takes element 0 of the list without a check (node.go:363-366); with an empty list the look after the start (main.go:233), and any later one of logConnectionsLoop (node.go:388), panics and ends the process, without a signal and without Close. Proved: if the host has an address whenever it is asked, the settings can be followed and the node can be made, the program never panics in any run; what is logged is the first address, and only after the node was started."
  },
  {
   "property": "C117",
   "status": "proved",
   "theorems": [
    "C117_never_charged",
    "C117_relayed",
    "C117_nobody_waits",
    "C117_catches_up"
   ],
   "note": "Composition of the validators (C108) and the session (C107) over one applicator and chain. The conditions named in the property are necessary: C108_nonvacuous shows a charge for a block that has just become irreversible, C109_late_block_refuted one for a deadline that passes."
  },
  {
   "property": "C118",
   "status": "partial",
   "theorems": [
    "C118_early_costs_nothing_refuted",
    "C118_early_is_charged",
    "C118_in_time_partial"
   ],
   "note": "REFUTED: the validator's deadline (BlockTimeout, 3 s) runs while the attempt sleeps until DelayThreshold (4 s) before the block's time (applicator.go:244-264), so whatever the chain would say, every message with a block more than 7 s (8 s with the rounding of C41) ahead is refused and its sender charged with ErrBlockApplication (C118_early_is_charged, for all runs); the chain accepts the block when its time comes. Proved: a block handed over when its time is at most DelayThreshold away is accepted by the validator only if the chain accepted it; C108 gives the other outcomes."
  },
  {
   "property": "C119",
   "status": "proved",
   "theorems": [
    "C119_not_closed",
    "C119_not_charged",
    "C119_let_in",
    "C119_no_score"
   ],
   "note": "Composition of C117 (validators, sessions, applicator, chain) with the error handler, the connection manager and the closing loop of C94-C96, through the channel of reports. The condition about other peers at the same host is necessary (scores are kept per host: C09). Reports about the peer from the transaction validator are excluded by the condition that it passes on no bad transactions (hs_net)."
  },
  {
   "property": "C120",
   "status": "proved",
   "theorems": [
    "C120_submissions_bounded",
    "C120_once",
    "C120_bound_met"
   ],
   "note": "A weight of everything under way (calls, queued blocks, requests, attempts, results, messages) grows only with an occasion. C120_once is the special case in which the calls are the only occasions. C120_bound_met: for every n a run with one call in which n head messages leave n goroutines, so the bound is met with equality and no smaller one holds."
  },
  {
   "property": "C121",
   "status": "proved",
   "theorems": [
    "C121_few_errors",
    "C121_rare_errors",
    "C121_frequent_errors",
    "C121_defaults",
    "C121_connections_closed",
    "C121_connections_stay"
   ],
   "note": "Decay in exact real arithmetic with the truncation to an integer at every look (decay_real, as in C11); C121_few_errors holds for any decay that does not raise scores, so also for the float64 formula. Rare: the score stays below the geometric limit m/(1-q). Frequent: each error brings the score to at least q times itself plus m minus one per look. C121_frequent_errors and C121_defaults ask that the sum of the charges stays below 2^64 (C13). C121_connections_closed and C121_connections_stay carry this over to the network of C94: connections and sync sessions."
  },
  {
   "property": "C122",
   "status": "proved",
   "theorems": [
    "C122_refused",
    "C122_let_in",
    "C122_defaults",
    "C122_no_connection",
    "C122_proviso_needed"
   ],
   "note": "Decay in exact real arithmetic with the truncation at every request (as in C11, C121). The bound on the number of requests is part of the statement; C122_proviso_needed shows that it cannot be dropped: every request costs at least a point, so a host that asks often enough is let in at once."
  },
  {
   "property": "C123",
   "status": "partial",
   "theorems": [
    "C123_only_reads",
    "C123_never_submits",
    "C123_no_crash_refuted",
    "C123_no_crash_partial",
    "C123_bounded_reads_refuted",
    "C123_bounded_reads_partial"
   ],
   "note": "Proved: reads only, at most one message per request, no submissions. REFUTED: a request for the head crashes the node exactly if its chain service answers head info without topology (peer_rpc_service.go:86-87 dereferences it unchecked); with a chain that names its head every request is answered. REFUTED: NumBlocks is passed on unchecked, so a peer can ask the block store for up to 2^32-1 blocks in one request."
  },
  {
   "property": "C124",
   "status": "proved",
   "theorems": [
    "C124_pace",
    "C124_strangers",
    "C124_defaults",
    "C124_bound_met"
   ],
   "note": "The session of C45-C52 with a clock (Pace_Model): a timer is not ready before its time, everything else takes any time. Programs within a budget (whatever the answers), an invariant over the steps. The bound is per session: a peer that reconnects gets a new one."
  },
  {
   "property": "C125",
   "status": "proved",
   "theorems": [
    "C125_polls",
    "C125_blocks_per_round",
    "C125_catches_up_in_time",
    "C125_defaults"
   ],
   "note": "The timed session of C124 with upper bounds: time passes only while a call is under way (at most its latency), a timer runs or a report is being taken (prompt). C125_blocks_per_round sharpens C92 (one block per round) to g blocks per round. by_timeouts gives the latencies that the configured time-outs allow. The condition on irreversibility is the one of C92: without it the node does not catch up (C92_catches_up_refuted)."
  },
  {
   "property": "C126",
   "status": "proved",
   "theorems": [
    "C126_errors_in_a_window",
    "C126_failures_reported",
    "C126_cut_off_in_time",
    "C126_defaults"
   ],
   "note": "Errors counted in a window instead of spaced (C121); the timed session of C125 in which nothing succeeds; both together. That the session's reports are charged to the host is a hypothesis of (3), as the number of charges in the time of the session (reports and charges of one host are related in C74, C94). Real-number decay as in C121: the standard library's axioms for reals."
  },
  {
   "property": "C127",
   "status": "proved",
   "theorems": [
    "C127_messages",
    "C127_listener_agrees",
    "C127_version"
   ],
   "note": "The content of the broadcast over the switch of C86-C91. That the two ways of asking can differ when an announcement fails, or after Close, is C87 (refuted there). The hypothesis that the encoding can be decoded holds of protobuf; the example uses its encoding of the message."
  },
  {
   "property": "C128",
   "status": "proved",
   "theorems": [
    "C128_on_in_time",
    "C128_off_in_time",
    "C128_bound_met"
   ],
   "note": "The switch of C86-C91 with times at its steps (in_time): the ticker fires every second, a check takes at most L from the tick to the end. That checks do end is C86_ticks_complete. Twice L because a check that began before t0 may still decide by what it saw before. Head times whose nanoseconds do not fit in 64 bits are excluded (see C14)."
  },
  {
   "property": "C129",
   "status": "partial",
   "theorems": [
    "C129_publishes_partial",
    "C129_in_time",
    "C129_mute_refuted",
    "C129_refuted"
   ],
   "note": "REFUTED as stated (C129_refuted): a failed subscription is dropped and never tried again while gossip is reported as enabled (C129_mute_refuted: for every continuation without a further switch). Proved for each topic whose last subscription did not fail, whatever happened to earlier ones. Missing from the full statement: exactly the states in which the last subscription to the topic failed. The encoding of the block or transaction is taken to succeed. C129_in_time adds from when on (with C128). That nothing is published while gossip is off is C18/C88."
  },
  {
   "property": "C130",
   "status": "proved",
   "theorems": [
    "C130_redialled",
    "C130_again_and_again"
   ],
   "note": "C130_again_and_again: in k times that bound (plus a nanosecond each) at least k dials. The manager of C53-C57 with times at its steps (seeds_in_time). Two rounds because the question about the peer may have been answered before it went away, in which case the present round leaves it out; the example shows this. What happens once the context is done is C57."
  },
  {
   "property": "C131",
   "status": "proved",
   "theorems": [
    "C131_not_too_often",
    "C131_rate"
   ],
   "note": "C131_rate: hence in any time T at most T/10s + 1 dials of the peer. The manager of C53-C57 with times at its steps (pauses_kept). Restricted, as the property is, to the time before the context is done: after that the pause is skipped (C57)."
  }
 ]
}