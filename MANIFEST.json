{
 "claims": [
  {
   "property": "C01",
   "status": "proved",
   "theorems": [
    "C01_root_is_MTH",
    "C01_MTH_functional",
    "C01_root_history_independent",
    "C01_hash_full_tree"
   ],
   "note": "Any mix of append/extend; any digest function."
  },
  {
   "property": "C02",
   "status": "proved",
   "theorems": [
    "C02_audit_path_verifies",
    "C02_append_path_verifies",
    "C02_append_total",
    "C02_tree_head",
    "C02_merkle_tree_hash_stable"
   ],
   "note": "Every leaf, every size since then."
  },
  {
   "property": "C03",
   "status": "proved",
   "theorems": [
    "C03_inclusion_sound",
    "C03_path_unique",
    "C03_out_of_range",
    "C03_root_binding"
   ],
   "note": "Membership, or an explicitly computed digest collision; digests of one length."
  },
  {
   "property": "C04",
   "status": "proved",
   "theorems": [
    "C04_consistency_complete"
   ],
   "note": "Old size at least 1 (for 0 the code serves no proof)."
  },
  {
   "property": "C05",
   "status": "proved",
   "theorems": [
    "C05_consistency_sound"
   ],
   "note": "Both roots are roots of some logs; result is a prefix or an explicit collision."
  },
  {
   "property": "C06",
   "status": "proved",
   "theorems": [
    "C06_store_dense",
    "C06_node_contents",
    "C06_positions_injective"
   ],
   "note": ""
  },
  {
   "property": "C07",
   "status": "proved",
   "theorems": [
    "C07_crash_in_commit",
    "C07_crash_in_add",
    "C07_clean_restart",
    "C07_crash_between_resets_refuted"
   ],
   "note": "Crash at any database write of add/commitTxns and of recoveries, except between the two resets inside recoverTreeFromTxnLog, where the refutation shows the ledger can no longer start."
  },
  {
   "property": "C08",
   "status": "proved",
   "theorems": [
    "C08_two_part_list",
    "C08_discard_too_many",
    "C08_committed_immutable",
    "C08_commit_returns",
    "C08_add_while_uncommitted_refuted",
    "C08_commit_range_refuted"
   ],
   "note": "Direct add is only covered with nothing uncommitted (refuted otherwise); commitTxns range only for count <= uncommitted (refuted otherwise)."
  },
  {
   "property": "C09",
   "status": "proved",
   "theorems": [
    "C09_numbering",
    "C09_number_kept_by_commit"
   ],
   "note": "Same histories as C08."
  },
  {
   "property": "C10",
   "status": "proved",
   "theorems": [
    "C10_state_is_a_map"
   ],
   "note": "Over every sequence of set, remove, commit, revert, restart and crash (losing any number of the last puts of an operation). Hypotheses: no hash collision among the strings put, key length within the recursion limit, sizes below 2^58, no root of 32 ASCII hex digits."
  },
  {
   "property": "C100",
   "status": "partial",
   "theorems": [
    "C100_exact",
    "C100_others_partial",
    "C100_prepares_commits",
    "C100_backup",
    "C100_correct_primary",
    "C100_bad_primary",
    "C100_digest_refuted",
    "C100_attack_refuted",
    "C100_silent_refuted"
   ],
   "note": "The messages that cause a vote are characterised exactly. Refuted: a PrePrepare with a wrong digest causes a vote whoever sends it, so one faulty node that is not the primary brings about a view change in any pool and any view; a wrong pool state root or a wrong list of primaries is reported but not voted on."
  },
  {
   "property": "C101",
   "status": "partial",
   "theorems": [
    "C101_listing",
    "C101_leaves_partial",
    "C101_leaves_refuted",
    "C101_prefix_head",
    "C101_prefix_proof",
    "C101_omission_refuted"
   ],
   "note": "as_dict and the values under a prefix are exactly the map; the proof of a prefix verifies every key under it, present or not. Refuted: the leaves at the root of the empty map are those of the current map (so the leaves are proved for roots of maps that are not empty); a listing from which keys were left out verifies as well, so that a listing is complete cannot be verified from the proof by verify_state_proof_multi."
  },
  {
   "property": "C102",
   "status": "partial",
   "theorems": [
    "C102_no_exception",
    "C102_exact",
    "C102_count",
    "C102_apart",
    "C102_bounded",
    "C102_disabled",
    "C102_stop_refuted"
   ],
   "note": "Proved for stacks that are not stopped and started from outside. Refuted: a stack that is stopped and started again (node stop and start) keeps its count although its clients are gone."
  },
  {
   "property": "C103",
   "status": "partial",
   "theorems": [
    "C103_delivery_partial",
    "C103_sent_partial",
    "C103_prefix",
    "C103_account",
    "C103_unsubscribe",
    "C103_unsubscribe_fails",
    "C103_types",
    "C103_cleanup_partial",
    "C103_cleanup_own_partial",
    "C103_subscribe_both",
    "C103_raise_refuted",
    "C103_self_unsubscribe_refuted",
    "C103_cleanup_refuted"
   ],
   "note": "Proved when nobody changes the subscriptions of the type while the message is delivered and no handler raises. Refuted: a handler that unsubscribes itself keeps the message from the next one; one that raises keeps it from all later ones; a clean-up that meets a subscription already undone raises, undoes nothing further and can never be completed."
  },
  {
   "property": "C104",
   "status": "partial",
   "theorems": [
    "C104_fifo",
    "C104_shares",
    "C104_ends",
    "C104_share_of_limit",
    "C104_share_none",
    "C104_total",
    "C104_inbox",
    "C104_ordered",
    "C104_unlimited_refuted",
    "C104_limit_refuted",
    "C104_zero_refuted",
    "C104_no_replicas_refuted"
   ],
   "note": "Proved: order, no loss, shares, end of limited rounds, ordered batches. Refuted: the limit can be exceeded (rounding; at least one per replica); without a limit, which is how the node is run, a replica that sends again for each message keeps all others waiting; limit 0 means no limit for inboxes and one per replica for outboxes."
  },
  {
   "property": "C105",
   "status": "partial",
   "theorems": [
    "C105_restart",
    "C105_on_disk_partial",
    "C105_since_start_partial",
    "C105_new_key",
    "C105_authenticator_partial",
    "C105_new_key_refuted",
    "C105_loaded_refuted",
    "C105_former_refuted",
    "C105_authenticator_refuted"
   ],
   "note": "Proved: keys on disk after every start, at any time while no VERKEY is given, and right after a VERKEY. Refuted: a changed key does not survive a restart; the running stack keeps the keys it was started with; keys of former validators stay; the authenticator is bound where libzmq does not ask."
  },
  {
   "property": "C106",
   "status": "partial",
   "theorems": [
    "C106_add",
    "C106_remove",
    "C106_has",
    "C106_names",
    "C106_started",
    "C106_pass_partial",
    "C106_round",
    "C106_sum",
    "C106_stopped",
    "C106_shutdown",
    "C106_shutdown_flight_partial",
    "C106_exception_refuted",
    "C106_shutdown_refuted",
    "C106_removal_refuted",
    "C106_removed_refuted"
   ],
   "note": "Proved: turns of rounds without removals, names, start before the first turn, stop. Refuted: one exception ends the turns of all; a removal in a round makes the next one miss its turn; an exception during a shutdown keeps all from being stopped; removed prodables are not stopped."
  },
  {
   "property": "C107",
   "status": "partial",
   "theorems": [
    "C107_answers",
    "C107_gap",
    "C107_default",
    "C107_wait_partial",
    "C107_wait_refuted"
   ],
   "note": "Proved: every answer is that of the specification over the granted calls; gaps; one action per window by default; granted after more than the time told. Refuted: exactly at the time told the call is refused again and told to wait for 0."
  },
  {
   "property": "C108",
   "status": "partial",
   "theorems": [
    "C108_roundtrip_partial",
    "C108_injective_partial",
    "C108_more_fields_partial",
    "C108_dotted_refuted",
    "C108_delimiter_refuted",
    "C108_empty_refuted"
   ],
   "note": "Proved for values whose text is not empty, has no delimiter and is decoded to the value. Refuted: a value with the delimiter spills into the next field; the empty text is read as None; an added field with a dot in its name makes old texts unreadable."
  },
  {
   "property": "C109",
   "status": "partial",
   "theorems": [
    "C109_off",
    "C109_warmup",
    "C109_average",
    "C109_idle",
    "C109_spike_partial",
    "C109_steady_partial",
    "C109_plugins",
    "C109_weighted_refuted",
    "C109_average_refuted"
   ],
   "note": "Proved: off, warm-up, idle, average, exact bounds without weights, steady level while log10 of the count is within the factor, plugins. Refuted: with weights, once log10 of the count exceeds the factor every measurement sends a message; with min_cnt 0 the expected value overshoots."
  },
  {
   "property": "C11",
   "status": "proved",
   "theorems": [
    "C11_root_of_content",
    "C11_content_of_root"
   ],
   "note": "Both directions: equal content gives equal roots whatever the history, and equal roots stand for equal content unless a collision is at hand."
  },
  {
   "property": "C110",
   "status": "partial",
   "theorems": [
    "C110_form",
    "C110_roundtrip",
    "C110_injective",
    "C110_plenum",
    "C110_digit_dot_partial",
    "C110_digit_dot_accepts",
    "C110_digit_dot_parts",
    "C110_digit_dot_refuted"
   ],
   "note": "Proved for the parser of the repository (used when the package packaging is not installed). Refuted: development version 0 passes as a version of digits and dots."
  },
  {
   "property": "C12",
   "status": "proved",
   "theorems": [
    "C12_proofs_verify",
    "C12_multi_proofs_verify",
    "C12_wire"
   ],
   "note": "Presence and absence, at every root read, for any superset and order of the nodes, several keys at once, and through serialization."
  },
  {
   "property": "C13",
   "status": "proved",
   "theorems": [
    "C13_accepted_value_is_true",
    "C13_one_value",
    "C13_multi_is_each"
   ],
   "note": "Soundness against the state's own root, and binding of two accepted proofs without assuming an honest state."
  },
  {
   "property": "C14",
   "status": "proved",
   "theorems": [
    "C14_committed_reads",
    "C14_past_roots",
    "C14_isolation",
    "C14_restart",
    "C14_commit",
    "C14_crash",
    "C14_hex_root_refuted"
   ],
   "note": "Holds unless a committed root consists of 32 ASCII hex digits; C14_hex_root_refuted shows commit then stores 16 bytes and the state cannot be opened."
  },
  {
   "property": "C15",
   "status": "proved",
   "theorems": [
    "C15_roundtrip",
    "C15_encodes",
    "C15_injective",
    "C15_prefix_free",
    "C15_decode_total",
    "C15_decode_injective_refuted"
   ],
   "note": "Every item whose lengths fit a prefix; the encoder of the rlp package is taken to be the function in fast_rlp.py."
  },
  {
   "property": "C16",
   "status": "proved",
   "theorems": [
    "C16_bin_roundtrip",
    "C16_bin_injective",
    "C16_nibbles_to_bin",
    "C16_pack_roundtrip",
    "C16_pack_injective"
   ],
   "note": "The empty key without terminator is refused by pack_nibbles."
  },
  {
   "property": "C17",
   "status": "proved",
   "theorems": [
    "C17_max_failures",
    "C17_strong_quorums_intersect",
    "C17_prepare_certificates_intersect",
    "C17_weak_quorums_have_honest",
    "C17_strong_contains_weak_honest",
    "C17_honest_nodes_suffice"
   ],
   "note": "All quorum sizes of Quorums(n), for every pool size and every set of at most f faulty nodes."
  },
  {
   "property": "C18",
   "status": "proved",
   "theorems": [
    "C18_ordered_in_order",
    "C18_ordered_once"
   ],
   "note": "Every sequence of PrePrepare, Prepare and Commit messages, own batches, batches of older views, stable checkpoints and timer ticks within a view."
  },
  {
   "property": "C19",
   "status": "partial",
   "theorems": [
    "C19_ordered_has_commits_partial",
    "C19_commit_has_prepares_partial",
    "C19_one_vote",
    "C19_prepare_certificate_refuted"
   ],
   "note": "n-f Commits and the primary's PrePrepare: proved for ordering; n-f-1 matching Prepares: proved for sending a Commit. Ordering itself does not require the Prepares (refuted): n-f Commits suffice."
  },
  {
   "property": "C20",
   "status": "partial",
   "theorems": [
    "C20_commits_agree",
    "C20_agreement_partial",
    "C20_signed_agreement_partial",
    "C20_correct_primary_partial",
    "C20_agreement_refuted",
    "C20_signed_agreement_refuted"
   ],
   "note": "False of the code in general: a Commit names no digest and ordering does not need a Prepare certificate, so an equivocating primary splits correct nodes (refuted with 4 nodes, also with BLS when Commits are obtained by message requests). Proved: correct nodes never commit different batches; agreement of nodes that sent their own Commit; agreement on roots and time with signed Commits; agreement under a correct primary."
  },
  {
   "property": "C21",
   "status": "partial",
   "theorems": [
    "C21_ordered_batches_survive_partial",
    "C21_repeated_messages_refuted"
   ],
   "note": "For any ViewChange messages of distinct senders with at most f faulty: whatever collection of at least n-f the list is computed from, the committed batches are in it. Hypotheses on what correct nodes report are spelled out in may_be_ordered. Acceptance of a NewView does not check that the listed messages are distinct (refuted)."
  },
  {
   "property": "C22",
   "status": "partial",
   "theorems": [
    "C22_batches_partial",
    "C22_no_batches",
    "C22_same_messages",
    "C22_ascending_partial",
    "C22_ascending_refuted",
    "C22_same_list_refuted"
   ],
   "note": "Gap-free, no repetition, certified, same places on every node: proved. The list need not be ascending and need not be the same on every node: both refuted with all-correct or one-faulty pools; proved under the stated extra condition."
  },
  {
   "property": "C23",
   "status": "proved",
   "theorems": [
    "C23_checkpoint",
    "C23_correct_nodes_have_it",
    "C23_same_checkpoint_refuted"
   ],
   "note": "Support and maximality, and None exactly when nothing is supported; uniqueness among equal ends depends on message order (refuted)."
  },
  {
   "property": "C24",
   "status": "partial",
   "theorems": [
    "C24_stable_moves",
    "C24_backup_stable_moves",
    "C24_own_checkpoints",
    "C24_sent_after_ordering",
    "C24_watermarks_partial",
    "C24_watermarks_refuted",
    "C24_old_votes_dropped",
    "C24_stabilizes"
   ],
   "note": "Every history of messages, orderings, NewViews and catch-ups. The clause that the low watermark equals the stable checkpoint holds between catch-ups only: after a catch-up the master sets it to the last ordered batch, and it can go back (refuted)."
  },
  {
   "property": "C25",
   "status": "proved",
   "theorems": [
    "C25_log",
    "C25_once",
    "C25_received",
    "C25_forward_quorum",
    "C25_forwarded_when_quorum",
    "C25_finalised_count",
    "C25_ordered_ignored"
   ],
   "note": "Propagate_Model.v models propagator.py and its callers in node.py. f+1 includes this node's own echo; so f other nodes (C25_forward_quorum). Different request bodies with one digest (see C36) are not told apart by the code; the theorem says the forwarded one was propagated."
  },
  {
   "property": "C26",
   "status": "partial",
   "theorems": [
    "C26_quorum",
    "C26_starts",
    "C26_recorded",
    "C26_received",
    "C26_restart",
    "C26_window_refuted"
   ],
   "note": "Trigger_Model.v models view_change_trigger_service.py and instance_change_provider.py whole. Proved for every history with restarts: a start needs n-f distinct voters for exactly that view, none outdated by the node's clock. Not true in real time: the stored readings of time.perf_counter are compared with readings of a clock that started anew (C26_window_refuted). The code counts votes of connected nodes, whether or not they are validators."
  },
  {
   "property": "C27",
   "status": "partial",
   "theorems": [
    "C27_state",
    "C27_view_partial",
    "C27_catchup_refuted"
   ],
   "note": "ViewChange_Model.v models view_change_service.py:28-355, view_change_storages.py, the ViewChange and NewView reply handlers and node.py:1829-1872. Messages never change the view; a view change asked for a higher view (the trigger, C26_quorum, and the service itself, C46_asked_partial, ask for no other) raises it. Catch-up whose audit ledger ends in an older view lowers it (refuted)."
  },
  {
   "property": "C28",
   "status": "proved",
   "theorems": [
    "C28_total_distinct",
    "C28_fuel_irrelevant",
    "C28_fair",
    "C28_registry_master",
    "C28_registry_agreement",
    "C28_registry_distinct",
    "C28_duplicates_loop_forever_refuted"
   ],
   "note": "Primary selection over a list of distinct validators; with repeated names the loop never ends (refuted)."
  },
  {
   "property": "C29",
   "status": "proved",
   "theorems": [
    "C29_processed_iff",
    "C29_discarded_iff",
    "C29_old_never_stashed",
    "C29_stashed_has_obstacle"
   ],
   "note": "Against a predicate written without the validator's helpers; every state and message."
  },
  {
   "property": "C30",
   "status": "partial",
   "theorems": [
    "C30_in_view_partial",
    "C30_committed_partial",
    "C30_first",
    "C30_revert_refuted",
    "C30_catchup_refuted",
    "C30_reordered_refuted"
   ],
   "note": "PpTime_Model.v models the times in ordering_service.py. Between two reverts (start of a catch-up, view change) a primary's times never decrease, whatever the clock and the messages; over all views they are not before any committed or accepted batch as long as no catch-up adds transactions, batches are accepted only for their time and the primary does not order old batches again. Refuted beyond: a revert forgets the time of batches already sent, the time of caught up batches is not noted, and a new primary does not note the time of the batches it orders again."
  },
  {
   "property": "C31",
   "status": "partial",
   "theorems": [
    "C31_lifecycle",
    "C31_queues",
    "C31_sorted",
    "C31_accounted_partial",
    "C31_accounted_refuted",
    "C31_all_offered",
    "C31_until_first_restash",
    "C31_until_stops_at_restash",
    "C31_stops_only_without_script",
    "C31_verdicts",
    "C31_codes",
    "C31_all_codes_inbox",
    "C31_all_codes_taken",
    "C31_same_handler_partial",
    "C31_same_handler_refuted"
   ],
   "note": "Every behaviour of the handlers, also re-entrant ones, and every sequence of calls. Two clauses are false in general: a handler that raises makes process_all_stashed lose the messages it has taken out, and a message stashed by a second subscriber of a type comes back to the first one."
  },
  {
   "property": "C32",
   "status": "proved",
   "theorems": [
    "C32_runs_next_due",
    "C32_service_complete",
    "C32_service_returns",
    "C32_runs_once",
    "C32_never_after_cancel",
    "C32_cancelled",
    "C32_scheduled_for"
   ],
   "note": "Every application (callbacks may schedule and cancel), every sequence of calls and clock readings."
  },
  {
   "property": "C33",
   "status": "proved",
   "theorems": [
    "C33_split",
    "C33_split_too_long",
    "C33_split_nothing",
    "C33_flush",
    "C33_flush_drops_all",
    "C33_prepare",
    "C33_prepare_terminates"
   ],
   "note": "Batch splitting and flushing; an oversize message drops the outbox of that peer."
  },
  {
   "property": "C34",
   "status": "proved",
   "theorems": [
    "C34_interval_list_is_set",
    "C34_interval_list_eq",
    "C34_tracker_contains",
    "C34_tracker_len",
    "C34_tracker_eq_sound",
    "C34_tracker_eq_adds",
    "C34_tracker_eq_refuted"
   ],
   "note": "Equality of trackers is set equality only while no absent view was asked for: a membership test enters the view (finding)."
  },
  {
   "property": "C35",
   "status": "proved",
   "theorems": [
    "C35_refines",
    "C35_commit",
    "C35_remove_refuted",
    "C35_remove_inverted"
   ],
   "note": "Set, get and commit refine a pair of maps; remove is refuted (its filter is inverted)."
  },
  {
   "property": "C36",
   "status": "partial",
   "theorems": [
    "C36_unambiguous_refuted",
    "C36_nesting_refuted",
    "C36_same_shape_partial",
    "C36_order_irrelevant",
    "C36_pp_digest_input",
    "C36_replica_batch_digest_input"
   ],
   "note": "The full claim is false of the code and refuted with witnesses; proved for objects of one shape whose string values hold no separator. Floats are not modelled."
  },
  {
   "property": "C37",
   "status": "partial",
   "theorems": [
    "C37_cover",
    "C37_spread",
    "C37_start",
    "C37_timer",
    "C37_replied",
    "C37_awaited_start",
    "C37_awaited_timer",
    "C37_nobody_has_the_end",
    "C37_stall_refuted",
    "C37_timer_raises_refuted",
    "C37_nobody_eligible_refuted"
   ],
   "note": "The split itself, the requests on a start and, while all replies are honest, the timer's requests. Refuted: with transactions beyond the target in a reply the timer asks for nothing or raises; with no eligible node at the start nothing is ever asked."
  },
  {
   "property": "C38",
   "status": "partial",
   "theorems": [
    "C38_only_agreed_partial",
    "C38_complete_partial",
    "C38_honest_completes",
    "C38_honest_progress",
    "C38_unusual_key_refuted",
    "C38_unknown_type_raises_refuted"
   ],
   "note": "Up to digest collisions, for replies whose keys are the usual decimal numbers; with other spellings one node can add a transaction nobody agreed on (refuted). With honest replies catch-up always completes."
  },
  {
   "property": "C39",
   "status": "partial",
   "theorems": [
    "C39_target",
    "C39_uptodate_partial",
    "C39_decides",
    "C39_once",
    "C39_genuine",
    "C39_true_target",
    "C39_asks",
    "C39_asks_again",
    "C39_newer",
    "C39_asks_statuses",
    "C39_sends_status",
    "C39_timer_partial",
    "C39_never_raises",
    "C39_matching_refuted",
    "C39_stuck_refuted",
    "C39_empty_stuck_refuted"
   ],
   "note": "ConsProof_Model.v models cons_proof_service.py whole. The target clause is proved for every history (f+1 distinct nodes, last word of each), and with at most f faulty nodes the target is true of the agreed transactions. The up-to-date clause holds with 'not longer' instead of 'matching': roots are never compared (refuted). Also proved: when it decides, that it decides once per start, what is asked of whom. Refuted: that the search always keeps a timer; a node with an empty ledger stays stuck among correct nodes of different sizes."
  },
  {
   "property": "C40",
   "status": "proved",
   "theorems": [
    "C40_tracker",
    "C40_tracker_errors",
    "C40_handler"
   ],
   "note": "Tracker of uncommitted batches together with the ledger, as the audit handler uses them."
  },
  {
   "property": "C41",
   "status": "partial",
   "theorems": [
    "C41_names",
    "C41_roots",
    "C41_root_present_partial",
    "C41_never_raises",
    "C41_read_primaries",
    "C41_read_ordered",
    "C41_read_roots_partial",
    "C41_new_ledger_refuted",
    "C41_frozen_lost_refuted",
    "C41_frozen_timing_refuted"
   ],
   "note": "Audit_Model.v models audit_batch_handler.py whole and the readers in node.py, ordering_service.py and ledgers_freeze_handler.py. Over every history of applied, committed, rejected and caught-up batches: primaries, node registry, sizes and recorded roots stand for the batch's own values; readers return them; nothing raises. Refuted: that every live ledger's root is recorded (a ledger registered later with genesis transactions has none; a ledger frozen right after a change loses its entry), and that the transaction is a function of the ordered history (the frozen set is read from committed state)."
  },
  {
   "property": "C42",
   "status": "partial",
   "theorems": [
    "C42_prepares_only_proposed_partial",
    "C42_committed_is_reported",
    "C42_foreign_batch_refuted"
   ],
   "note": "Above the NewView's batches every Prepare is for a batch of the primary; below, for batches already ordered, a PrePrepare of anybody is accepted (refuted)."
  },
  {
   "property": "C43",
   "status": "proved",
   "theorems": [
    "C43_reply"
   ],
   "note": "Over every history; the comparison of the replier with the author is that of the model, in the code it compares a replica name with a node name and so always asks for f+1."
  },
  {
   "property": "C44",
   "status": "proved",
   "theorems": [
    "C44_certificates_agree",
    "C44_stable_agreement"
   ],
   "note": "From C24's invariant and quorum intersection."
  },
  {
   "property": "C45",
   "status": "partial",
   "theorems": [
    "C45_started_for",
    "C45_stopped",
    "C45_only_when_started",
    "C45_fires",
    "C45_one_pending_partial",
    "C45_one_pending_refuted"
   ],
   "note": "The clause that a started timer has exactly one pending call holds unless a timer stops itself in its own callback: then the old event stays and a restart makes it fire twice per interval (refuted)."
  },
  {
   "property": "C46",
   "status": "partial",
   "theorems": [
    "C46_asked_partial",
    "C46_refuted"
   ],
   "note": "The code counts messages, not nodes: proved for n-f messages, refuted for nodes (one node sending n-f copies suffices)."
  },
  {
   "property": "C47",
   "status": "proved",
   "theorems": [
    "C47_new_view",
    "C47_once",
    "C47_sends",
    "C47_copied_new_view_refuted"
   ],
   "note": "All clauses about what is sent and when; the last one (the primary finishes) fails when another node sent the same NewView first (refuted, with the AttributeError it gives)."
  },
  {
   "property": "C48",
   "status": "partial",
   "theorems": [
    "C48_accepted",
    "C48_once",
    "C48_view",
    "C48_equivocation",
    "C48_finishes",
    "C48_left",
    "C48_timeout",
    "C48_reply",
    "C48_relayed_refuted",
    "C48_other_view_refuted",
    "C48_correct_primary_refuted"
   ],
   "note": "The view clause holds unless a catch-up ran during the view change (refuted otherwise); finishing holds when the primary is the only sender of NewViews (a relayed copy blocks it: refuted); a correct primary's NewView may be refused (refuted), an equivocating ViewChange sender keeps replicas out (C48_equivocation)."
  },
  {
   "property": "C49",
   "status": "proved",
   "theorems": [
    "C49_reports",
    "C49_sent"
   ],
   "note": "For every history of view changes and shared data."
  },
  {
   "property": "C50",
   "status": "partial",
   "theorems": [
    "C50_only_senders",
    "C50_bad_reply",
    "C38_honest_completes",
    "C50_honest_refuted"
   ],
   "note": "Only senders are blacklisted in every history; a first reply that leaves the agreed transactions is blacklisted; if all replies are honest nobody is. Refuted: an honest node is blacklisted when its reply is mixed with wrong transactions sent earlier by another node."
  },
  {
   "property": "C51",
   "status": "partial",
   "theorems": [
    "C51_get_all",
    "C51_reply",
    "C51_no_reply",
    "C51_no_ledger",
    "C51_split",
    "C51_proof",
    "C51_new_root",
    "C51_proofs_agree",
    "C51_behind",
    "C51_behind_empty",
    "C51_not_behind",
    "C51_serve",
    "C51_serve_empty",
    "C51_empty_agree_refuted"
   ],
   "note": "All clauses for ranges that start above 0. For a range from 0 two correct nodes of different sizes give different proofs (refuted), and a request for such a proof is never answered (C51_serve_empty)."
  },
  {
   "property": "C52",
   "status": "partial",
   "theorems": [
    "C52_registry_partial",
    "C52_votes_partial",
    "C52_next_primary_partial",
    "C52_refuted"
   ],
   "note": "NodeReg_Model.v models node_reg_handler.py whole, list objects included. All clauses hold in every history in which no operation changes the registry after a batch was rejected while others stayed applied (until all are rejected). Refuted without that restriction: the rejected batch's successor shares its list with the youngest applied batch, so a registry change that is itself rejected is committed, written into later batches and triggers a view change."
  },
  {
   "property": "C53",
   "status": "partial",
   "theorems": [
    "C53_reload_partial",
    "C53_as_running_partial",
    "C53_same_primaries_refuted",
    "C53_first_batch_refuted"
   ],
   "note": "Reloading gives exactly what the committed batches determine, and what a running node holds, when consecutive batches of different views have different primaries and the first batch does not change the validators. Refuted without either condition."
  },
  {
   "property": "C54",
   "status": "partial",
   "theorems": [
    "C54_recovers_partial",
    "C54_states_partial",
    "C54_index_partial",
    "C54_state_refuted",
    "C54_creation_refuted",
    "C54_ahead_refuted",
    "C54_index_refuted"
   ],
   "note": "Recover_Model.v models the order of durable writes of committing a batch, of catch-up and of the creation of states at the start. Proved for every history with any number of crashes at points other than: between adding a transaction and committing its state, inside the first creation of a state, and (for the index) between adding a transaction and its index entry. At each of those points the loss is shown never to be repaired, whatever is ordered later and however often the node restarts and catches up."
  },
  {
   "property": "C55",
   "status": "partial",
   "theorems": [
    "C55_order_partial",
    "C55_complete_partial",
    "C55_targets_partial",
    "C55_sizes",
    "C55_no_exception",
    "C55_counts",
    "C55_new_at_rest",
    "C55_order_refuted",
    "C55_divergence_refuted",
    "C55_targets_refuted"
   ],
   "note": "NodeLeecher_Model.v models node_leecher_service.py and ledger_leecher_service.py. Order, completion and absence of exceptions hold for every sequence of reports after a start at rest (and the service is at rest again after completion); targets are those of the last audited batch when every ledger without a recorded root has the node's own size. Refuted: a restart during a catch-up skips ledgers and still reports completion; a ledger of the right size and wrong content is not noticed; one ledger without a root and of another size removes all targets."
  },
  {
   "property": "C56",
   "status": "partial",
   "theorems": [
    "C56_accepted_partial",
    "C56_checked",
    "C56_refused",
    "C56_vouched",
    "C56_blocked_refuted",
    "C56_vouched_refuted",
    "C56_late_refuted"
   ],
   "note": "What is accepted as regular satisfies the check, and a batch of a correct primary passes if nothing later was accepted and it was not processed before. Refuted: a PrePrepare for an already ordered number is accepted from anybody without checks and its time blocks later batches; the Prepares that vouch for a wrong time may all come from one node and carry another time; a batch first seen late is refused for ever, so batches re-ordered after a long view change are refused."
  },
  {
   "property": "C57",
   "status": "partial",
   "theorems": [
    "C57_distinct",
    "C57_owners_partial",
    "C57_stable",
    "C57_owner_stable_partial",
    "C57_update",
    "C57_owner_refuted",
    "C57_anyone_refuted",
    "C57_demoted_refuted",
    "C57_shared_refuted"
   ],
   "note": "Pool_Model.v models node_handler.py over histories of batches. Names and addresses of the same kind are distinct in every state, nodes and names stay; owners are distinct and stay if no request carries an identifier in its data. Refuted: an identifier in the data (not refused by the schema) replaces the owner; the author is never checked, so anybody adds, changes and demotes nodes; the node address of one may be the client address of another; BLS keys may be shared."
  },
  {
   "property": "C58",
   "status": "partial",
   "theorems": [
    "C58_unchanged_partial",
    "C58_order_partial",
    "C58_digest_partial",
    "C58_latest",
    "C58_written",
    "C58_aml_written",
    "C58_disabled",
    "C58_accepted",
    "C58_not_required",
    "C58_agree_partial",
    "C58_text_changed_refuted",
    "C58_anyone_disables_refuted",
    "C58_agree_refuted",
    "C58_no_mechanisms_refuted",
    "C58_retired_refuted",
    "C58_static_refuted"
   ],
   "note": "Taa_Model.v models the three handlers and do_taa_validation over histories of applied, committed and rejected batches. What is recorded never changes provided no two agreements of different versions have the same digest; which requests pass is characterised exactly. Refuted: version and text are concatenated without separator before hashing, so a second agreement can replace the text of the first whatever the hash; anybody may disable the agreements; mechanisms are read from the committed state, so nodes that applied the same batches disagree, or raise an error nobody catches; a retirement is taken back by an update without a date."
  },
  {
   "property": "C59",
   "status": "partial",
   "theorems": [
    "C59_registry_partial",
    "C59_agree_partial",
    "C59_order_partial",
    "C59_restart_refuted"
   ],
   "note": "Pool_Model.v models the incremental registry of pool_manager.py and stack_manager.py, the reading at start and the order of updates in commits and catch-up. Proved for histories in which each node's first transaction carries services. Refuted without: a node added without services is remembered as known by a running node and forgotten by a restarted one, which then raises KeyError while executing the batch that makes it a validator."
  },
  {
   "property": "C60",
   "status": "partial",
   "theorems": [
    "C60_once_partial",
    "C60_reply_partial",
    "C60_refused_partial",
    "C60_zero_refuted",
    "C60_disagree_refuted"
   ],
   "note": "Exec_Model.v models applying, ordering, executing and reverting batches with the index of written requests. Proved for any PrePrepares, if no request number is 0, catch-up brings only new requests and a batch executed after a revert repeats none. Refuted with a request number 0 (a client cannot send it, but the schema allows it and a faulty node can bring a signed one in with a PROPAGATE): the whole batch is left out of the index, so that other requests of it are reported as not written and are written again; a node that caught up the same ledger refuses the batch the others accept."
  },
  {
   "property": "C61",
   "status": "partial",
   "theorems": [
    "C61_no_exception_partial",
    "C61_exec_partial",
    "C61_agree_partial",
    "C61_state_partial",
    "C61_revert_partial",
    "C61_rejected_partial",
    "C61_mixed_refuted",
    "C61_mixed_rejected_refuted",
    "C61_not_final_refuted",
    "C61_discarded_refuted",
    "C61_swapped_refuted"
   ],
   "note": "Proved for all histories whose PrePrepares are made by the modelled primary code in any state. Refuted with a faulty primary: requests of another ledger than that of the batch, a batch not marked final, repeated or other indices in discarded; the first three make every correct node raise an exception when it executes the next correct batch."
  },
  {
   "property": "C62",
   "status": "partial",
   "theorems": [
    "C62_accepted_partial",
    "C62_fresh",
    "C62_refused",
    "C62_endorser_refuted",
    "C62_stale_refuted"
   ],
   "note": "Nym_Model.v models the validation and authentication of requests over every history of identities and requests; ed25519 and sha256 are parameters, digests of the requests received are assumed distinct. Proved: an accepted write request has an author, and everybody it names signed a request of the same content, checked with the key the node had then. Refuted: for a NYM request about its author, the signature of an unknown endorser is checked with the author's key; a request accepted once passes after the key was replaced."
  },
  {
   "property": "C63",
   "status": "partial",
   "theorems": [
    "C63_author_partial",
    "C63_creator",
    "C63_last",
    "C63_threshold_partial",
    "C63_allowed",
    "C63_reject_refuted",
    "C63_blocked_refuted",
    "C63_restart_refuted",
    "C63_role_lost_refuted",
    "C63_any_key_refuted"
   ],
   "note": "Authorship holds in every history (given catch-up brings what the pool accepted); the threshold in histories without reverted batches and without restarts that find the state on disk. Refuted otherwise: the counter of stewards is not put back by a revert and starts from zero after a restart, so that the threshold is exceeded, used up, or judged differently by nodes with the same ledger; a NYM request without role takes the role away; a steward may replace anybody's key and become trustee."
  },
  {
   "property": "C64",
   "status": "partial",
   "theorems": [
    "C64_key_of",
    "C64_table",
    "C64_current_partial",
    "C64_no_exception_partial",
    "C64_rotation_refuted",
    "C64_no_key_refuted"
   ],
   "note": "The table in memory holds the key of the first transaction of each identity, in every history; so the right key is used for identities whose key was never replaced, or which are not in the table; nothing raises if every identity written carries a key. Refuted: after a replacement the old key is accepted and the new one refused, also after restart; a valid NYM request without key about a 16-byte identifier makes every node raise while executing, catching up and starting."
  },
  {
   "property": "C65",
   "status": "partial",
   "theorems": [
    "C65_order_partial",
    "C65_quorum_partial",
    "C65_genuine_partial",
    "C65_no_exception_partial",
    "C65_complete_partial",
    "C65_forged_refuted",
    "C65_exception_refuted",
    "C65_ledgers_refuted",
    "C65_gap_refuted",
    "C65_blocked_refuted"
   ],
   "note": "Proved for every sequence of messages: what is applied follows on; a quorum sent a batch with that number. If the messages tell of one history: what is applied was sent by a quorum, nothing fails, and every batch that follows on with a quorum is applied in any order of arrival. Refuted with one faulty sender: its batch is applied in place of the one the quorum sent; it makes the observer fail; it blocks an empty observer. Refuted with none: batches of a second ledger are dropped, an empty observer may skip the first batch."
  },
  {
   "property": "C66",
   "status": "partial",
   "theorems": [
    "C66_survives_partial",
    "C66_agreement_partial",
    "C66_ordered_is_committed_partial",
    "C66_message_is_built",
    "C66_refuted",
    "C66_unchecked_refuted"
   ],
   "note": "Views_Model.v composes the ordering service, the ViewChange messages and the NewView checks over any number of views with at most f faulty nodes. Proved by induction over views if every NewView lists its highest batch last and no correct node takes a PrePrepare of another batch for a place of the NewView. Refuted without either, see DESIGN.md: without any faulty node, the order of batches from different views in a NewView lets the new primary propose a new batch for a place another node has ordered; with one faulty node, a PrePrepare for an ordered place is noted unchecked and later chosen. Nodes that catch up between or within views are outside."
  },
  {
   "property": "C67",
   "status": "partial",
   "theorems": [
    "C67_sound_partial",
    "C67_correct_signers",
    "C67_accepted_partial",
    "C67_store",
    "C67_complete_partial",
    "C67_no_exception_partial",
    "C67_cache_partial",
    "C67_keys",
    "C67_audit_for",
    "C67_audit_regular",
    "C67_shared_refuted",
    "C67_strangers_refuted",
    "C67_blocked_refuted",
    "C67_no_pool_root_refuted",
    "C67_unknown_root_refuted",
    "C67_backup_refuted",
    "C67_key_change_refuted",
    "C67_same_root_refuted",
    "C67_cache_refuted"
   ],
   "note": "Proved for every history if the replica signs with the key that the pool state of the batch has for it: quorum of distinct, correct signatures; more than f correct signers; acceptance; completeness if ledgers are named in the usual way; no exception if PrePrepares name existing pool states. Refuted: a faulty primary replaces a stored multi-signature by one of a single node, or with participants without keys; one faulty Commit naming a ledger with a leading zero prevents all multi-signatures of the batch; a PrePrepare without pool state root, one with an unknown one, and a signed Commit on a backup instance make nodes raise; a node whose key changes makes multi-signatures that are rejected; two ledgers with the same state root share one place in the store."
  },
  {
   "property": "C68",
   "status": "partial",
   "theorems": [
    "C68_now",
    "C68_at_time_partial",
    "C68_taa_partial",
    "C68_accepted",
    "C68_lost_refuted",
    "C68_genesis_refuted",
    "C68_order_refuted"
   ],
   "note": "Proved on the model of the trie (C10 to C14): reads now without further condition, reads at a time and the agreement if batches have their times in order and no crash came between the commit of a batch and the store of its time, and if proofs are shorter than 2^64 bytes; soundness for clients without hash collisions. Refuted: after such a crash reads at later times give the old value with a valid proof for ever; the state made by genesis transactions is not found at any time; times that go back give older content."
  },
  {
   "property": "C69",
   "status": "partial",
   "theorems": [
    "C69_delivered",
    "C69_once",
    "C69_asks",
    "C69_served",
    "C69_own_partial",
    "C69_recovered",
    "C69_own_refuted",
    "C69_reported_refuted",
    "C69_retry_refuted"
   ],
   "note": "Proved: what is asked and how often, what replies are handled, and that a reply to a request reaches the replica that asked. The reply is the own message of the node asked if all votes for the batch say the same. Refuted for Commits: the reply has the Commit that was counted first, with the signatures of another node; the replica that asked then reports the node that replied, and does not count the Commit (the step of C67). A request whose reply is lost is not repeated."
  },
  {
   "property": "C70",
   "status": "partial",
   "theorems": [
    "C70_write",
    "C70_repeated_partial",
    "C70_new",
    "C70_get",
    "C70_accepted",
    "C70_signed_partial",
    "C70_signature_there",
    "C70_query",
    "C70_number_refuted",
    "C70_signed_refuted",
    "C70_repeated_refuted",
    "C70_refused_refuted"
   ],
   "note": "Proved: replies to writes and to repeated writes for batches in which all requests have a request id that is not 0; GET_TXN; that a client is not deceived, up to collisions. The multi-signature is for the root in the reply if no two batches have the same state root and nothing was added to the ledger since the last batch. Refuted: after a batch that brings an old state back the reply has a multi-signature for an old root; one request with request id 0 leaves its whole batch without replies to repeated requests; a query that is refused is replied to as well; a client that does not compare the number in the transaction can be deceived, because the size of the tree is not signed."
  },
  {
   "property": "C71",
   "status": "partial",
   "theorems": [
    "C71_sent",
    "C71_ready",
    "C71_only",
    "C71_order_partial",
    "C71_not_lost",
    "C71_numbers_partial",
    "C71_in_flight_partial",
    "C71_fresh_apart",
    "C71_fresh_partial",
    "C71_monitor",
    "C71_wait_refuted",
    "C71_in_flight_refuted",
    "C71_numbers_refuted",
    "C71_order_refuted",
    "C71_fresh_refuted"
   ],
   "note": "Proved for all histories in a view: what one call proposes and when, that no request is lost, the number of batches on their way up to one for each further ledger, the distance of freshness batches, when the monitor votes. Proved without reverts: the order of requests, that numbers grow, that all ledgers are fresh when all is ordered. Refuted: requests of a ledger wait as long as another ledger fills batches; the limit on batches on their way is exceeded when several ledgers are due at once; after a catch-up the primary uses numbers of the view again for other batches, requests change their order, and a reverted freshness batch is not sent again for another interval."
  },
  {
   "property": "C72",
   "status": "proved",
   "theorems": [
    "C72_total",
    "C72_measure",
    "C72_levelled",
    "C72_bounds",
    "C72_steady",
    "C72_idle",
    "C72_back",
    "C72_one_refuted",
    "C72_more_refuted"
   ],
   "note": "The four states of the code are proved equal to a specification without states, for all histories; times and rates are exact numbers, not floats. C72_total holds for calls at any times, also not in order. Beside it: with min_cnt = 1 a busy instance is never measured, and an instance that orders more in every window can be measured as slower."
  },
  {
   "property": "C73",
   "status": "partial",
   "theorems": [
    "C73_total",
    "C73_tracked",
    "C73_reported",
    "C73_master",
    "C73_backups",
    "C73_performance",
    "C73_stalled",
    "C73_fair",
    "C73_inflate_refuted",
    "C73_skip_refuted"
   ],
   "note": "Proved for all histories; the specification has no state and gives medians by counting. Times are whole numbers and rates exact fractions. The accumulating strategy (off by default), spikes of the whole pool and the statistics are not modelled. Refuted: that a master that orders every request first is never found degraded (a backup that orders a request again and again counts it each time), and that a check of performance gives a verdict whenever something was ordered since the last one (not after a reset)."
  },
  {
   "property": "C74",
   "status": "partial",
   "theorems": [
    "C74_master",
    "C74_quorum",
    "C74_removed",
    "C74_few",
    "C74_told",
    "C74_restored",
    "C74_restored_all",
    "C74_adjusted_partial",
    "C74_lost_partial",
    "C74_back_partial",
    "C74_position_refuted",
    "C74_neighbour_refuted",
    "C74_replaced_refuted",
    "C74_surplus_refuted",
    "C74_error_refuted",
    "C74_reason_refuted",
    "C74_stale_refuted"
   ],
   "note": "Master, votes, messages and restoration proved in full. The claims on pool changes and on lost primaries are proved while no instance is missing and refuted otherwise: times are looked up by position instead of by instance, and the number of running instances is taken for the next identifier, so that a LogicError is raised at the first batch of the next view. Also refuted: that nodes configured not to decide by quorum never do (other reasons are not filtered), and that votes count only against the replica they were cast for."
  },
  {
   "property": "C75",
   "status": "partial",
   "theorems": [
    "C75_vote_partial",
    "C75_votes_partial",
    "C75_told_partial",
    "C75_since_partial",
    "C75_innocent_refuted",
    "C75_early_refuted",
    "C75_restarted_refuted"
   ],
   "note": "Proved for histories in which no primary is selected within a vote. That the primary voted against is the present one and the tolerated time is counted for it is refuted: a view change names a new primary without telling the watch, so the pending check of the old one decides. A selection within a vote is refuted as well: the repeating timer is started after it was stopped."
  },
  {
   "property": "C76",
   "status": "partial",
   "theorems": [
    "C76_who",
    "C76_frozen",
    "C76_kept",
    "C76_refused",
    "C76_no_error_partial",
    "C76_recorded_partial",
    "C76_agree_partial",
    "C76_replay_partial",
    "C76_stale_refuted",
    "C76_state_root_refuted",
    "C76_timing_refuted",
    "C76_first_refuted",
    "C76_replay_refuted",
    "C76_lost_refuted",
    "C76_audit_timing_refuted"
   ],
   "note": "Who freezes what, that it stays and takes no transactions is proved. That the record tells of the ledger as it is, and is the same on all nodes, is proved for root and size when no transaction of the ledger waits to be committed, and refuted else: the handler reads the committed audit ledger while it applies an uncommitted batch, so nodes that committed more or fewer batches make different config states; so do nodes that catch up. The audit ledger may lose a frozen ledger. Before the first committed batch the request raises an error."
  },
  {
   "property": "C77",
   "status": "partial",
   "theorems": [
    "C77_no_reuse_partial",
    "C77_no_gap_partial",
    "C77_remembered",
    "C77_never_ahead",
    "C77_reuse_refuted",
    "C77_empty_refuted",
    "C77_removed_refuted",
    "C77_stale_view_refuted",
    "C77_lagging_refuted",
    "C77_skipped_refuted"
   ],
   "note": "No number is used twice if the number on disk is there at each restart and the instance is not removed; it stays on disk until a view change, a catch-up or a restart. No number is left out if no catch-up moves the instance to another view. Without these the property fails: a catch-up of a running node in any view but 0 erases the record; so does one while the audit ledger is empty; an instance removed and restored starts at 1 again; the view of the record is not compared; in view 0 a catch-up takes batches for ordered that are not."
  },
  {
   "property": "C78",
   "status": "partial",
   "theorems": [
    "C78_accepted",
    "C78_request",
    "C78_client_request",
    "C78_required",
    "C78_three_phase",
    "C78_ledger",
    "C78_request_parts",
    "C78_view_change_partial",
    "C78_digest_fails",
    "C78_bool_refuted",
    "C78_newline_refuted",
    "C78_view_change_refuted",
    "C78_view_change_mixed_refuted",
    "C78_batches_mixed_refuted",
    "C78_new_view_refuted"
   ],
   "note": "Which messages are accepted is characterized exactly, for every class. The property fails where the accepted values are wider than meant: bools as numbers, a newline after a digest, anything as a checkpoint of a ViewChange or NewView; in a ViewChange of which no checkpoint is a dict the digest cannot be computed, and that error is raised while the message is processed. With dicts as checkpoints it is as stated."
  },
  {
   "property": "C79",
   "status": "partial",
   "theorems": [
    "C79_client_partial",
    "C79_node_partial",
    "C79_node_dict",
    "C79_client_inbox",
    "C79_node_inbox",
    "C79_answered",
    "C79_node_posted",
    "C79_client_posted",
    "C79_node_batch",
    "C79_list_refuted",
    "C79_signatures_refuted",
    "C79_unsigned_refuted",
    "C79_number_refuted",
    "C79_client_batch_refuted"
   ],
   "note": "The messages that stop a node are characterized exactly. From a client: anything but a dict (with small exceptions), a dict without author whose signatures are no dict, an unsigned request with op LEDGER_STATUS. From a node: null, booleans, numbers, strings and lists with op in them. All else leaves the node running, in Batches of any depth. What is passed on is valid and has a handler; other dicts of clients are answered. In a Batch of a client what follows a bad message is lost."
  },
  {
   "property": "C80",
   "status": "partial",
   "theorems": [
    "C80_never_raises",
    "C80_conserved",
    "C80_bounded",
    "C80_why",
    "C80_within_limits",
    "C80_answer_partial",
    "C80_resent",
    "C80_cleaned",
    "C80_reachable",
    "C80_order_partial",
    "C80_order_refuted",
    "C80_answer_refuted",
    "C80_kept_refuted",
    "C80_no_clients_refuted"
   ],
   "note": "Conservation, bounds, reasons and sweeps are proved for all histories. Order: refuted in general, proved when a client found out of reach stays so during one walk over its list. The answer False does not mean that the message will not be sent (refuted). Missing: the socket is an oracle; the text of errors."
  },
  {
   "property": "C81",
   "status": "partial",
   "theorems": [
    "C81_read",
    "C81_service",
    "C81_no_exception_partial",
    "C81_conserved",
    "C81_known",
    "C81_clients",
    "C81_overflow",
    "C81_no_overflow",
    "C81_two_parts_refuted",
    "C81_uncounted_refuted",
    "C81_order_refuted",
    "C81_unknown_refuted"
   ],
   "note": "Quota, order, conservation and reports are proved for all histories; order and completeness for clients and for senders that stay known. Refuted: a message of two parts from a known node raises an error nobody catches; frames without content or with too many parts are not counted, so one turn can last for ever; messages of a sender that becomes known later are overtaken or lost. Missing: the answers to pings and reconnecting because of them."
  },
  {
   "property": "C82",
   "status": "partial",
   "theorems": [
    "C82_lost",
    "C82_places",
    "C82_connects",
    "C82_change",
    "C82_check",
    "C82_seen",
    "C82_heard",
    "C82_reports",
    "C82_report",
    "C82_retry",
    "C82_quiet_refuted",
    "C82_polling_refuted",
    "C82_same_address_refuted"
   ],
   "note": "Places, keys, sockets, reports and who counts as connected are proved for all histories (the first while no two nodes share an address, which C57 is about); trying again if it is configured. Refuted: as delivered (RETRY_CONNECT off) a lost node is neither pinged nor taken for connected again until it says something; whether a loss is noticed depends on the moment of the check; two nodes at one address that connect at once raise an error. Missing: reconnecting because of pings (off as delivered), pongs sent later."
  },
  {
   "property": "C83",
   "status": "partial",
   "theorems": [
    "C83_justified",
    "C83_complete",
    "C83_kept",
    "C83_error",
    "C83_repeats",
    "C83_leak_refuted",
    "C83_order_refuted",
    "C83_restart_refuted",
    "C83_raised_refuted",
    "C83_cancel_refuted",
    "C83_zero_refuted"
   ],
   "note": "Once, when due, not if cancelled, all that is due when the call ends, and one waiting run per repeated action, for all actions and histories (the last while it is not stopped and nothing fails). Refuted: actions due together run last first; stopped and started again within an interval, an action runs twice in each; after an error a repeated action never runs again and cannot be started; it cannot be cancelled; without interval it runs for ever; the table of actions only grows."
  },
  {
   "property": "C84",
   "status": "partial",
   "theorems": [
    "C84_keys_partial",
    "C84_numbers_partial",
    "C84_crash_partial",
    "C84_directory_partial",
    "C84_twice_refuted",
    "C84_twice_witness",
    "C84_separator_refuted",
    "C84_half_separator_refuted",
    "C84_torn_refuted",
    "C84_torn_key_refuted",
    "C84_hash_refuted",
    "C84_prefix_refuted",
    "C84_end_refuted",
    "C84_beyond_refuted",
    "C84_zero_refuted"
   ],
   "note": "One file: all histories without crash, if keys and values do not run into the separators and no record ends at a multiple of the size of a read; with a record there, records are read twice (refuted for every such history). After a crash the earlier records are read. A directory: all histories that ask for nothing beyond the end. Refuted: separators in values; half separators at the end of values; records put after a crash; hashes; prefixes; ends of ranges of keys; asking beyond the end, which changes the size and, after a restart, the place of new records; ranges from 0. Missing: text files; the serializer of the directory tells where records end (oracle)."
  },
  {
   "property": "C85",
   "status": "partial",
   "theorems": [
    "C85_signed",
    "C85_multi_partial",
    "C85_anonymous_refuted",
    "C85_authentic",
    "C85_unchanged",
    "C85_recorded",
    "C85_audit_partial",
    "C85_audit_sound_partial",
    "C85_unique_partial",
    "C85_version_refuted",
    "C85_null_version_refuted",
    "C85_form_refuted",
    "C85_first_read",
    "C85_first_read_payload",
    "C85_stale_refuted"
   ],
   "note": "Several signers: requests with an author; without one, wallets sign what no node accepts (refuted for all). Checking from the ledger: all accepted requests but those for an author agreement without version and those with version null (refuted). Refuted too: the full digest cannot be computed from the ledger; a digest read before signing stays. Signatures and hashes are ideal (oracles); missing: plugin fields, the old format of transactions."
  },
  {
   "property": "C86",
   "status": "partial",
   "theorems": [
    "C86_created",
    "C86_create_fails",
    "C86_numbered",
    "C86_length",
    "C86_starts_partial",
    "C86_same_partial",
    "C86_kept",
    "C86_crash_refuted",
    "C86_bad_line_refuted",
    "C86_number_refuted",
    "C86_one_line_refuted"
   ],
   "note": "Histories in which no start is cut short between the first and the last genesis transaction. Refuted: after such a crash the rest is never written by later starts; a file with a bad line makes only the first start fail; adding to a file numbers from 1 again; a file of one character. The JSON serializer is an oracle; adding one transaction is atomic (C07)."
  },
  {
   "property": "C87",
   "status": "partial",
   "theorems": [
    "C87_status_partial",
    "C87_change",
    "C87_told",
    "C87_pool_refuted",
    "C87_alone_refuted",
    "C87_ready_partial",
    "C87_ready_refuted",
    "C87_all_partial",
    "C87_outsider_refuted",
    "C87_events",
    "C87_known_partial",
    "C87_known_after_change",
    "C87_new_refuted",
    "C87_counted",
    "C87_warned_only",
    "C87_warned_partial",
    "C87_watched_partial",
    "C87_watched_pool",
    "C87_shrunk_refuted",
    "C87_swap_refuted"
   ],
   "note": "Status for pools of fixed size, at least four; readiness and quorum for 3f+1 nodes; knowledge of instances made before the first connection; warnings for fixed pools. Refuted: the status is not renewed when the pool changes; a pool of one is never ready; five nodes are ready with three connected; nodes outside the pool count; an instance made later knows of no connection until the next change; warnings missed when the pool shrinks, and given when nodes are swapped."
  },
  {
   "property": "C88",
   "status": "partial",
   "theorems": [
    "C88_recorded",
    "C88_order",
    "C88_boot_refuted",
    "C88_played",
    "C88_spaced",
    "C88_prompt",
    "C88_combined",
    "C88_replayed",
    "C88_again_refuted",
    "C88_runs",
    "C88_crash_refuted",
    "C88_unfinished_refuted"
   ],
   "note": "Order for clocks that do not go back. Refuted: after a boot of the machine later events come first; after a crash no start with recording succeeds, and a first run that was not stopped cannot be replayed; a second replay fails at entries only the client stack has. JSON is an oracle; times while playing are whole numbers instead of floats; the node that replays is not modelled."
  },
  {
   "property": "C89",
   "status": "partial",
   "theorems": [
    "C89_accumulated",
    "C89_parts",
    "C89_order",
    "C89_bounds",
    "C89_bytes",
    "C89_single",
    "C89_empty_refuted",
    "C89_loaded",
    "C89_frames",
    "C89_unflushed",
    "C89_closed",
    "C89_tick_refuted",
    "C89_wrap_refuted"
   ],
   "note": "For clocks that do not go back, move on within 2048 readings and stay below 2^53 microseconds. Refuted: with a clock that stands still at most 2048 entries are kept, after 2^53 microseconds times wrap around, an accumulator of nothing cannot be stored. Values are whole numbers instead of floats; averages and deviations are not modelled."
  },
  {
   "property": "C90",
   "status": "partial",
   "theorems": [
    "C90_only",
    "C90_then",
    "C90_rate",
    "C90_fades",
    "C90_fails_only",
    "C90_new_refuted",
    "C90_late_refuted",
    "C90_back_refuted"
   ],
   "note": "For times that do not go back. Refuted: after a reset a newly added instance makes every look fail; an instance added late is compared by all the others did before; one taken away and put back is judged by the time it was away. Times are whole ticks and rates rationals instead of floats."
  },
  {
   "property": "C91",
   "status": "partial",
   "theorems": [
    "C91_kept_partial",
    "C91_count_partial",
    "C91_forged_refuted",
    "C91_sender_refuted",
    "C91_rejects_refuted",
    "C91_last_partial",
    "C91_comma_refuted",
    "C91_log_partial",
    "C91_log_refuted"
   ],
   "note": "For answers without line breaks and senders without the mark ~. Refuted: a refusal with a line break in its reason makes replies of other nodes; a sender with the mark is taken for another; rejections are not told beside refusals; identifiers with commas break the last request id; the log takes one request for another. Files are texts by key."
  },
  {
   "property": "C92",
   "status": "partial",
   "theorems": [
    "C92_handed_partial",
    "C92_none_lost_partial",
    "C92_held_partial",
    "C92_other_refuted",
    "C92_faulty_refuted",
    "C92_overwritten_refuted",
    "C92_bound_refuted"
   ],
   "note": "Proved while no instance is found faulty, for three-phase messages that come early. Refuted: other messages (checkpoints) that come early are held and then thrown away; messages for a removed instance are dropped; growth while an instance is removed makes another instance anew and loses what it was handed; what is held is not bounded."
  },
  {
   "property": "C93",
   "status": "partial",
   "theorems": [
    "C93_order",
    "C93_came",
    "C93_known",
    "C93_primary",
    "C93_kept",
    "C93_complete_partial",
    "C93_blocked_refuted",
    "C93_final_refuted",
    "C93_replaced_refuted",
    "C93_asks",
    "C93_far_refuted"
   ],
   "note": "Completeness is proved for a correct primary if what was applied before is ordered. Refuted: a repeated batch blocks those after it until it is ordered; requests need only be known, not finalised; a malicious primary can have a waiting batch replaced; if more than CHK_FREQ are missing nothing is asked for. Master instance, one view, no water marks; applying a batch is an oracle."
  },
  {
   "property": "C94",
   "status": "partial",
   "theorems": [
    "C94_named",
    "C94_order",
    "C94_digest",
    "C94_asks",
    "C94_answers",
    "C94_waiting",
    "C94_complete_partial",
    "C94_fetched_partial",
    "C94_left_refuted",
    "C94_view_refuted",
    "C94_blamed_refuted",
    "C94_forged_refuted",
    "C94_stale_refuted",
    "C94_unsorted_refuted"
   ],
   "note": "Completeness is proved if all is held, or all but the last ones and one answer brings these in order, with times that are not too old. Refuted: if an earlier batch is missing and a later one is held, the waiting messages may be left; a batch held from another view than the NewView names is refused; any node can make the primary suspected, or replace a batch that was ordered; a batch that is too old is not applied again by anyone who has not ordered it; a NewView whose list is not in the order of numbers loses batches. Not the primary, no water marks, all requests known; applying a batch is an oracle."
  },
  {
   "property": "C95",
   "status": "partial",
   "theorems": [
    "C95_observers",
    "C95_order",
    "C95_complete_partial",
    "C95_sent_partial",
    "C95_recipients",
    "C95_send",
    "C95_all_refuted",
    "C95_removed_refuted",
    "C95_twice_refuted",
    "C95_lost_refuted",
    "C95_gone_refuted"
   ],
   "note": "Exact: who are observers, to whom a batch is sent. Completeness if there is an observer whenever the queues are served. Refuted: if none of the nodes that a message is for is connected, or the last observer was removed, it is sent to everybody; an observer added twice stays when removed; batches whose requests were dropped, or that are served while nobody observes, are not sent."
  },
  {
   "property": "C96",
   "status": "partial",
   "theorems": [
    "C96_conserved",
    "C96_order",
    "C96_outcome",
    "C96_processed_partial",
    "C96_catchup",
    "C96_dropped_refuted",
    "C96_share",
    "C96_unlimited",
    "C96_wait",
    "C96_limit_partial",
    "C96_limit_refuted",
    "C96_blocked_refuted",
    "C96_client",
    "C96_once",
    "C96_rejected"
   ],
   "note": "Exact: conservation and order, shares, who is answered. Processing of ordered batches if the node takes part whenever it serves the queues. Refuted: a batch met while the node does not take part is dropped for good; a turn may take more than its limit; an exception of one instance keeps the node from the later ones."
  },
  {
   "property": "C97",
   "status": "partial",
   "theorems": [
    "C97_kept_partial",
    "C97_all",
    "C97_few_partial",
    "C97_size_partial",
    "C97_space_partial"
   ],
   "note": "All numbers of files to be kept except 1 (the default is 150). With 1, the file that is being compressed is removed and its number may be used again while the old process is at work."
  },
  {
   "property": "C98",
   "status": "partial",
   "theorems": [
    "C98_accepted_partial",
    "C98_rotated",
    "C98_install",
    "C98_files",
    "C98_other_txn",
    "C98_missing",
    "C98_restart_refuted",
    "C98_demoted_refuted",
    "C98_first_refuted",
    "C98_cut_refuted",
    "C98_damaged_refuted"
   ],
   "note": "Proved for operators who start the node only when the saved key is the one on the ledger and change keys of running validators. Refuted: restart between the script and the transaction; key changed while demoted; first transaction of a running node; script cut short; damaged files."
  },
  {
   "property": "C99",
   "status": "partial",
   "theorems": [
    "C99_decode",
    "C99_encode",
    "C99_one_name",
    "C99_reads",
    "C99_signer",
    "C99_named",
    "C99_bad_name",
    "C99_distinct",
    "C99_cryptonym",
    "C99_key",
    "C99_abbreviated",
    "C99_agree_partial",
    "C99_agree_refuted",
    "C99_hex_refuted"
   ],
   "note": "All of it but two clauses that are refuted: for an identifier that is a key and has no verkey the owner sees no full verkey; the hexadecimal text of a key written in base58 is a second verkey for it (not on the ledger, where verkeys have 32 bytes)."
  }
 ]
}