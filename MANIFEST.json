{
 "claims": [
  {
   "property": "C01",
   "status": "proved",
   "theorems": [
    "C01_reads_last_write",
    "C01_change_set"
   ],
   "note": "All histories incl. cache hits, evictions and copies; no panic."
  },
  {
   "property": "C02",
   "status": "proved",
   "theorems": [
    "C02_balanced_search_tree",
    "C02_height_fits_uint8"
   ],
   "note": "Balance, exact cached fields, search order, logarithmic bound, uint8 height never overflows."
  },
  {
   "property": "C03",
   "status": "proved",
   "theorems": [
    "C03_get_by_index",
    "C03_get_with_index",
    "C03_inverse",
    "C03_negative_index_refuted",
    "C03_out_of_range_index_refuted"
   ],
   "note": "With explicit uint32 wrap-around; requires fewer than 2^32 keys and 0 <= i < 2^32. Outside that range: C03_negative_index_refuted, C03_out_of_range_index_refuted."
  },
  {
   "property": "C04",
   "status": "proved",
   "theorems": [
    "C04_iterate"
   ],
   "note": "Both directions, nil/equal/inverted bounds."
  },
  {
   "property": "C05",
   "status": "proved",
   "theorems": [
    "C05_copies_behave_as_independent_trees",
    "C05_other_trees_unaffected",
    "C05_committed_tree_may_be_copied",
    "C05_copy_with_pending_writes_isolated_refuted"
   ],
   "note": "Heap model of copy-on-write nodes with cached hashes (nodes are mutable cells shared by all copies). For every schedule in which copies are taken from committed trees (proved to hold right after SaveVersion) each tree behaves as its own value tree, and calls on other trees leave it unchanged. A copy taken with pending writes is not isolated: refuted with a witness. Real data races between goroutines (two unsynchronised writes to one Go variable) are outside the model: calls are atomic and interleaved; the uint32 wrap of version+1 is not modelled."
  },
  {
   "property": "C06",
   "status": "proved",
   "theorems": [
    "C06_snapshot_round_trip",
    "C06_reads_through_snapshot"
   ],
   "note": "Byte-level file format; mixed in-memory/persisted reads. File system errors are not modelled. Out-of-range ranks on mixed trees: C03_out_of_range_index_refuted."
  },
  {
   "property": "C07",
   "status": "proved",
   "theorems": [
    "C07_export_import",
    "C07_restored_tree"
   ],
   "note": "Both exporters and the importer; the channel plumbing and early cancellation are not modelled."
  },
  {
   "property": "C08",
   "status": "proved",
   "theorems": [
    "C08_any_snapshot_replays_to_live_state",
    "C08_load_gives_live_state",
    "C08_rewrite_with_pending_changes_refuted",
    "C08_stale_snapshot_refuted"
   ],
   "note": "For every run of the store machine (upgrades, change sets, commits, background rewrites at any interleaving, pruning, clean restarts, rollbacks) any snapshot on disk plus the log gives the live state at every retained version, commit infos included. Conditions in `regular`: upgrades come before change sets in a block, a rewrite starts with nothing pending, no log entries lost. Outside: C08_rewrite_with_pending_changes_refuted, C08_stale_snapshot_refuted, C13_two_upgrade_calls_refuted."
  },
  {
   "property": "C09",
   "status": "proved",
   "theorems": [
    "C09_versions_and_positions_correspond",
    "C09_no_wrap_around",
    "C09_below_initial_version_refuted"
   ],
   "note": "Explicit uint64/int64 arithmetic, initial version > 1 included. Below the initial version the subtraction wraps: C09_below_initial_version_refuted."
  },
  {
   "property": "C10",
   "status": "proved",
   "theorems": [
    "C10_crash_recovery",
    "C10_synchronous_commits_survive",
    "C10_leftover_link_refuted",
    "C10_commit_after_lost_tail_refuted"
   ],
   "note": "Crash at any point of commit, rewrite (its five disk steps) and pruning, with any number of lost log entries; recovery gives the greatest surviving version. Synchronous commits lose nothing. Not covered by the code: C10_leftover_link_refuted, C10_commit_after_lost_tail_refuted. fsync ordering inside the WAL library is not modelled."
  },
  {
   "property": "C11",
   "status": "proved",
   "theorems": [
    "C11_rollback_is_exact",
    "C11_rollback_succeeds",
    "C11_target_entry_pruned_refuted",
    "C11_future_target_refuted",
    "C11_crash_during_rollback_refuted",
    "C11_large_versions_refuted"
   ],
   "note": "Exactness and success of rollback for targets whose log entry is retained. Refuted outside: target entry pruned, target in the future, crash during rollback, versions above 2^31-1."
  },
  {
   "property": "C12",
   "status": "partial",
   "theorems": [
    "C12_longest_prefix_exists",
    "C12_truncate_exact",
    "C12_open_repairs_tail_partial",
    "C12_valid_segment_untouched",
    "C12_torn_append_partial",
    "C12_equal_lengths_refuted",
    "C12_half_valid_never_opens_refuted"
   ],
   "note": "Opening a damaged log keeps exactly the longest valid prefix of the last segment and is then a no-op on reopening. Refuted when the valid prefix is exactly half of the file: the truncated segment and the backup have equal lengths and opening fails."
  },
  {
   "property": "C13",
   "status": "proved",
   "theorems": [
    "C13_pending_log_replays_to_live_state",
    "C13_stores_are_independent",
    "C13_duplicate_store_in_one_call_refuted",
    "C13_failed_call_poisons_log_refuted",
    "C13_upgrade_after_changes_refuted",
    "C13_two_upgrade_calls_refuted"
   ],
   "note": "Any split of a block's changes into calls; refuted for a first multi-store call that names a store twice, failed calls, upgrades after changes, two upgrade calls with renames."
  },
  {
   "property": "C14",
   "status": "proved",
   "theorems": [
    "C14_pruning_is_exact"
   ],
   "note": "Which snapshots and log entries survive pruning, at every interrupted step; recovery from them is covered by C08/C10."
  },
  {
   "property": "C15",
   "status": "proved",
   "theorems": [
    "C15_membership_proof_verifies",
    "C15_no_proof_for_absent_key",
    "C15_empty_tree_panics_refuted",
    "C15_non_membership_proof",
    "C15_root_hash_binds"
   ],
   "note": "Membership and non-membership proofs of every reachable tree; binding up to an explicit collision of the hash function. The ics23 verifier is modelled by its recomputation only. Empty tree: C15_empty_tree_panics_refuted."
  },
  {
   "property": "C16",
   "status": "proved",
   "theorems": [
    "C16_delta_round_trip",
    "C16_delta_round_trip_any_start",
    "C16_plain_round_trip",
    "C16_delta_injective"
   ],
   "note": "Delta and plain encodings decode to exactly the items written, from any starting item, and the encoding is injective on item lists."
  },
  {
   "property": "C17",
   "status": "proved",
   "theorems": [
    "C17_sorted_permutation",
    "C17_always_succeeds",
    "C17_oversized_item_rejected",
    "C17_end_is_final"
   ],
   "note": "For every input, chunk split, goroutine completion order and delta/plain choice, the iterator yields a sorted permutation of the input; oversized items are rejected; the end is final. sort.Slice and snappy enter as hypotheses (sorts its input; decompress after compress is the identity)."
  },
  {
   "property": "C18",
   "status": "partial",
   "theorems": [
    "C18_journal_acts_as_copying",
    "C18_revert_restores_partial",
    "C18_revert_after_failed_precompile_refuted",
    "C18_revert_after_committing_precompile_refuted"
   ],
   "note": "Journal = copying machine for all sequences without precompile calls; with precompile calls, revert restores everything provided none failed and none commits the state itself. Both conditions are shown necessary by refutations (the faithful model keeps reverted writes)."
  },
  {
   "property": "C19",
   "status": "partial",
   "theorems": [
    "C19_reverted_commits_nothing_partial",
    "C19_untouched_accounts_not_written",
    "C19_commit_never_panics",
    "C19_reverted_slot_not_written_refuted"
   ],
   "note": "A fully reverted transaction commits and leaves the store identical (no failed / committing precompile calls); only dirty accounts are written; commit never panics (precompile-free). Refuted: a reverted slot write of a later-committed account is stored as an explicit zero."
  },
  {
   "property": "C20",
   "status": "proved",
   "theorems": [
    "C20_warm_exactly",
    "C20_prepare",
    "C20_adding_twice_is_idempotent"
   ],
   "note": "Warm iff added by a surviving operation; PrepareAccessList exact and panic-free; adding twice is the identity."
  },
  {
   "property": "C21",
   "status": "partial",
   "theorems": [
    "C21_at_most_seven_calls_partial",
    "C21_cap_holds_for_every_number_of_calls_refuted",
    "C21_failing_calls_are_counted_refuted"
   ],
   "note": "Exactly min(7, calls) succeed below 256 counted calls; refuted beyond (uint8 counter wraps) and failed calls are not counted."
  },
  {
   "property": "C22",
   "status": "proved",
   "theorems": [
    "C22_base_fee_is_eip1559",
    "C22_next_fee_bounds",
    "C22_next_fee_monotone",
    "C22_monotone_without_floor_refuted",
    "C22_floor_invariant",
    "C22_floor_zero_target_refuted"
   ],
   "note": "Exact EIP-1559 formula, bounds, monotonicity and floor invariant proved for accepted parameters with non-zero elasticity and target; two boundary deviations (fee below floor, zero target) are shown by the _refuted theorems."
  },
  {
   "property": "C23",
   "status": "proved",
   "theorems": [
    "C23_gas_wanted_update",
    "C23_gas_wanted_total"
   ],
   "note": "Exact value, bounds, error condition."
  },
  {
   "property": "C24",
   "status": "partial",
   "theorems": [
    "C24_no_panic_partial",
    "C24_elasticity_zero_refuted",
    "C24_huge_base_fee_refuted"
   ],
   "note": "Refuted as stated: Validate accepts elasticity 0 and huge base fees. The _partial theorem covers all other accepted parameters."
  },
  {
   "property": "C25",
   "status": "proved",
   "theorems": [
    "C25_identifiers_independent",
    "C25_clock_on_grid",
    "C25_tick",
    "C25_never_ahead",
    "C25_in_sync",
    "C25_genesis_unique",
    "C25_negative_duration_refuted"
   ],
   "note": "For positive durations; Validate also accepts negative durations, see the _refuted theorem."
  },
  {
   "property": "C26",
   "status": "partial",
   "theorems": [
    "C26_hook_trace_partial",
    "C26_end_hook_number_refuted"
   ],
   "note": "Refuted: the end hook receives the number of the epoch that starts. The _partial theorem gives the exact hook trace for every schedule."
  },
  {
   "property": "C27",
   "status": "proved",
   "theorems": [
    "C27_read_is_sum_of_elapsed_periods",
    "C27_read_bounds",
    "C27_count_matches_read"
   ],
   "note": "Amount read = sum of the dated releases, zero at or before the start, total at or after the end, monotone, bounded; elapsed-period count agrees. Unbounded times and amounts (int64 / 256-bit limits not modelled)."
  },
  {
   "property": "C28",
   "status": "partial",
   "theorems": [
    "C28_merge_is_sum_partial",
    "C28_merge_is_sum_everywhere",
    "C28_release_at_start_refuted",
    "C28_grant_adds_partial"
   ],
   "note": "Proved at every time except the start of the later schedule when that schedule releases at its very start (refuted there); proved everywhere for equal starts or non-empty first periods; lifted to AddGrant."
  },
  {
   "property": "C29",
   "status": "partial",
   "theorems": [
    "C29_conjunction_is_minimum_partial",
    "C29_conjunction_is_minimum_everywhere",
    "C29_release_at_start_refuted"
   ],
   "note": "Proved at every time except the start of the later schedule when that schedule releases at its very start (refuted there); proved everywhere for equal starts, as used by ComputeClawback."
  },
  {
   "property": "C30",
   "status": "partial",
   "theorems": [
    "C30_validated_accounts_are_ok",
    "C30_computed_account_partial",
    "C30_message_moves_unvested",
    "C30_lockup_survives_refuted"
   ],
   "note": "Proved for the account computed by ComputeClawback (conservation, nothing unvested, same lockup capped) and for the coins moved by the message. Refuted for the message: the stored account is a plain one, so vested but locked coins become spendable at once."
  },
  {
   "property": "C31",
   "status": "partial",
   "theorems": [
    "C31_queueing_takes_amount_and_fee",
    "C31_cancelling_returns_amount_and_fee",
    "C31_executing_pays_the_fees",
    "C31_fees_always_covered",
    "C31_batch_always_payable",
    "C31_value_conserved",
    "C31_cleanups_return_what_is_due",
    "C31_executed_after_refund_refuted",
    "C31_refund_lost_refuted",
    "C31_blocked_sender_refuted",
    "C31_first_deposit_extra_unit_refuted"
   ],
   "note": "Exact effects of queueing, cancelling and executing on every balance, supply and contract balance; the module account covers all pending fees in every reachable state, so a batch can always be paid unless the recipient is blocked; conservation of supply plus coins in transit over every history without a counter reset, under honest deposits; clean-ups return exactly what is due. Refuted: a late execution after a timeout refund, refunds of unlinked tokens, blocked senders, the extra unit of a first deposit. Vesting locks and bank hooks are outside."
  },
  {
   "property": "C32",
   "status": "partial",
   "theorems": [
    "C32_exactly_one_place",
    "C32_cancel_only_unbatched",
    "C32_no_missing_entry",
    "C32_deleted_chain_limbo_refuted",
    "C32_overwritten_batch_refuted"
   ],
   "note": "Proved for every history of the fifteen modelled steps except the two administrator messages that set the batch counter back; for these the claim is refuted (deleted chain, overwritten batch)."
  },
  {
   "property": "C33",
   "status": "proved",
   "theorems": [
    "C33_best_paying",
    "C33_requested_ids",
    "C33_requested_ids_not_best_refuted"
   ],
   "note": "Length, membership, order, fee bound, effect on what stays available, pool and money unchanged; a batch requested by identifiers holds exactly those, and need not be the best paying (refuted for that message)."
  },
  {
   "property": "C34",
   "status": "partial",
   "theorems": [
    "C34_transfer_ids_increase",
    "C34_batch_numbers_increase",
    "C34_batch_number_reused_refuted"
   ],
   "note": "Transfer numbers increase over every history, administrator messages included; batch numbers over every history without a counter reset; reuse after a reset refuted. Counters are unbounded integers; genesis import is outside."
  },
  {
   "property": "C35",
   "status": "partial",
   "theorems": [
    "C35_observed_needs_quorum",
    "C35_voters_saw_the_claim_partial",
    "C35_quorum_is_observed",
    "C35_short_of_quorum_unchanged",
    "C35_two_thirds_reached_refuted",
    "C35_voters_have_power_refuted",
    "C35_distinct_voters_refuted",
    "C35_voters_still_registered_refuted",
    "C35_majority_claim_executed_refuted"
   ],
   "note": "Proved for every history of votes, blocks and cleanings above height 34800: an executed claim has distinct voters with accepted votes for that event and text, holding 66% rounded down of the registered power; conversely such a quorum is executed at the next block end and anything short of it is left unchanged. Refuted: exact 66% (rounding), voters need power when the total is 1, distinct voters up to height 34800, a voter that unregistered still counts, the claim of the first voter is executed even if the quorum voted another claim with the same text."
  },
  {
   "property": "C36",
   "status": "partial",
   "theorems": [
    "C36_claim_executed_once",
    "C36_no_vote_after_execution",
    "C36_event_executed_once_partial",
    "C36_event_executed_once_refuted",
    "C36_powers_may_change_refuted",
    "C36_replay_before_244300_refuted",
    "C36_other_bridge_cleaned_refuted"
   ],
   "note": "Proved from height 244300 on without cleaning: no claim text is executed twice and no vote on an executed nonce is accepted; at most one execution per nonce while powers are fixed and nobody double votes (_partial). Refuted: double voters, changed powers, replay below 244300, cleaning of another bridge."
  },
  {
   "property": "C37",
   "status": "partial",
   "theorems": [
    "C37_shared_bucket_same_claim_partial",
    "C37_transfers_and_valsets_same_claim_partial",
    "C37_deposits_same_claim",
    "C37_same_claim_shared_bucket",
    "C37_token_claims_distinct_refuted",
    "C37_deposit_is_not_a_token_claim_refuted",
    "C37_separator_free_fields_suffice_refuted",
    "C37_withdrawal_height_hashed_refuted",
    "C37_valset_reward_hashed_refuted"
   ],
   "note": "Proved for all accepted claims: sharing a bucket implies agreeing on every hashed field or an explicit hash collision (deposits fully; withdrawals without height; validator sets without reward; token claims when no field holds a slash). Refuted: token claims with slashes, a deposit colliding with a token claim (also with no slash in any field), unhashed withdrawal height, unhashed validator-set reward."
  },
  {
   "property": "C38",
   "status": "proved",
   "theorems": [
    "C38_keys_are_unambiguous",
    "C38_write_touches_one_record",
    "C38_keys_sort_numerically",
    "C38_iteration_is_numeric"
   ],
   "note": "All 33 record kinds of the bridge store: keys are injective across kinds and fields (field sizes as the code writes them), a write or delete touches one record, key order is numeric order, iteration is numeric."
  },
  {
   "property": "C39",
   "status": "partial",
   "theorems": [
    "C39_prefix_range_is_exact",
    "C39_prefix_range_is_complete",
    "C39_short_key_is_outside_refuted",
    "C39_scans_return_exactly_their_records",
    "C39_cleaning_removes_exactly_its_records",
    "C39_clean_valset_confirms_refuted",
    "C39_unslashed_batches_refuted",
    "C39_clean_nonce_observed_refuted"
   ],
   "note": "PrefixRange exact for keys at least as long as the prefix and complete for all; every scan of the module returns exactly its records, in order, and five of the cleaning scans remove exactly theirs. Refuted: short keys can fall into a range; cleaning valset confirmations, slashing batches by block and clearing observed nonces select other records."
  },
  {
   "property": "C40",
   "status": "proved",
   "theorems": [
    "C40_normalised",
    "C40_order_kept",
    "C40_nobody_or_no_power",
    "C40_order_free",
    "C40_difference",
    "C40_shared_address_refuted"
   ],
   "note": "Exact shares, order, sums, panics, independence of the listing order and the distance laws are proved; two validators sharing one Ethereum address break the distance law (C40_shared_address_refuted)."
  },
  {
   "property": "C41",
   "status": "partial",
   "theorems": [
    "C41_transfers_partial",
    "C41_waiting_refuted",
    "C41_transfer_number_refuted",
    "C41_sets_partial",
    "C41_export_works_iff",
    "C41_keys_partial",
    "C41_export_unobserved_refuted",
    "C41_export_unset_key_refuted",
    "C41_keys_refuted",
    "C41_latest_set_refuted",
    "C41_judged_again_refuted",
    "C41_votes_partial",
    "C41_executed_again_refuted",
    "C41_skipped_refuted",
    "C41_last_events_lost",
    "C41_last_events_refuted",
    "C41_last_events_rebuilt"
   ],
   "note": "Restored: coins, pending transfers, batches and batch counters; sets, observed set, confirmations of stored sets and batches; attestations, last event and heights; the exact condition for the export to succeed. Refuted: waiting transfers can no longer be cancelled or batched, transfer numbers restart and overwrite, export panics without an observed set or after a key is taken back, keys return on bridge 0, the oldest set becomes the latest, sets are judged twice, executed events can be executed again, skipped events and last events are forgotten. Default tokens and the block index of batches are not modelled."
  },
  {
   "property": "C42",
   "status": "partial",
   "theorems": [
    "C42_set_confirmation_partial",
    "C42_batch_confirmation_partial",
    "C42_once_and_kept",
    "C42_set_words_bind",
    "C42_batch_words_bind",
    "C42_kinds_differ",
    "C42_any_signature_refuted",
    "C42_named_address_refuted",
    "C42_other_bridge_refuted",
    "C42_fees_refuted"
   ],
   "note": "Proved: who may store a confirmation, at most one per orchestrator, none lost, and what the signed words bind. Missing because false: any signature is accepted, the named address is unchecked, the bridge and the fees are not signed (refuted theorems)."
  },
  {
   "property": "C43",
   "status": "partial",
   "theorems": [
    "C43_needs_available_partial",
    "C43_comparison_never_refuses",
    "C43_cheaper_batch_refuted"
   ],
   "note": "The comparison never refuses a batch (the sum of the pending batch's fees is always zero), so the claim is refuted; what remains is that a new batch needs an available transfer and leaves pending ones alone."
  },
  {
   "property": "C44",
   "status": "partial",
   "theorems": [
    "C44_skipped_are_the_gaps",
    "C44_last_is_the_largest",
    "C44_start_height_refuted",
    "C44_skipped_nonce_is_stored_partial",
    "C44_skipped_nonces_are_listed_refuted",
    "C44_full_listing_reports_ids_refuted"
   ],
   "note": "Proved: the skipped nonces are exactly the numbers between the start and the last observed nonce that were not executed, for every history with nonces below 2^64-1; the last nonce is the largest executed. Refuted: the recorded start height is a nonce; the listing and re-use claims (see PropsKeys)."
  },
  {
   "property": "C45",
   "status": "partial",
   "theorems": [
    "C45_creating_moves_the_deposit_partial",
    "C45_negative_deposit_accepted_refuted",
    "C45_cancelling_returns_everything",
    "C45_owner_can_always_cancel_partial",
    "C45_upper_case_owner_never_refunded_refuted",
    "C45_sum_of_balances_constant",
    "C45_no_account_overdrawn"
   ],
   "note": "Proved for every reachable state: a non-negative deposit is moved exactly; cancelling returns the whole balance and touches nothing else; the sum of balances is constant and no account is overdrawn in any history of messages, blocks and payments; a lower-case owner of a priced task can always cancel. Refuted: a negative deposit is accepted; a task whose owner is written in upper case can never be cancelled in any continuation. End-of-block processing is modelled as written although module.go has its body commented out."
  },
  {
   "property": "C46",
   "status": "partial",
   "theorems": [
    "C46_only_the_owner",
    "C46_others_change_nothing",
    "C46_tasks_keep_their_identity",
    "C46_cancelled_stays_gone_partial",
    "C46_self_cancelled_task_returns_refuted",
    "C46_update_during_run_lost_refuted"
   ],
   "note": "Proved for all reachable states: a message changes only tasks and money of its signer; others' updates and cancellations change nothing; owner, account, call and kind never change and no record is lost. Cancelled tasks stay gone when runs do not cancel the running task (partial). Refuted: a task cancelling itself while running comes back; an update during the task's own run is lost."
  },
  {
   "property": "C47",
   "status": "partial",
   "theorems": [
    "C47_queue_exact_partial",
    "C47_removed_task_not_queued_partial",
    "C47_repriced_task_stays_queued_refuted",
    "C47_new_task_counts_as_waiting_refuted"
   ],
   "note": "Exact queue content proved for all histories above height 34800 that do not change the price of a waiting task and whose runs do not update tasks or cancel the running one. Refuted outside these: repricing leaves a stale entry that survives cancellation; below the height a new task counts as waiting."
  },
  {
   "property": "C48",
   "status": "partial",
   "theorems": [
    "C48_answer_source",
    "C48_same_request_only",
    "C48_uncached_fresh",
    "C48_errors_not_cached",
    "C48_one_answer_per_call",
    "C48_waiting_call_completes",
    "C48_bounded",
    "C48_repeat_is_served",
    "C48_one_at_a_time_never_back",
    "C48_default_lives",
    "C48_overlapping_calls_go_back_refuted",
    "C48_older_than_its_life_refuted",
    "C48_fallback_key_refuted",
    "C48_invalid_text_key_refuted"
   ],
   "note": "RPC response cache. Proved for every interleaving of calls, clock steps and evictions: an answer comes from the node for the same method and parameters (when the key is the JSON text), is no older than its life when calls do not overlap, errors are not kept, waiting calls complete, size is bounded. Refuted: overlapping calls can see an older answer after a newer one, an answer can be served beyond its life when its call was slow, the fallback key and invalid text merge different requests."
  },
  {
   "property": "C49",
   "status": "partial",
   "theorems": [
    "C49_offered_to_every_subscriber",
    "C49_delivered_to_subscribers_only",
    "C49_close_reaches_every_subscriber",
    "C49_closed_once_and_no_panic",
    "C49_numbers_never_reused",
    "C49_unsubscribed_is_left_alone",
    "C49_one_publisher_per_topic",
    "C49_subscriber_left_open_refuted",
    "C49_subscribed_to_nothing_refuted",
    "C49_topic_added_twice_refuted",
    "C49_removed_topic_lives_on_refuted",
    "C49_slow_reader_misses_messages_refuted"
   ],
   "note": "Event bus. Proved for every schedule: offered once to exactly the live subscribers, delivered to nobody else and never after unsubscribe, closing reaches exactly the live subscribers, once, without panic; numbers never reused; one publisher per topic when additions do not overlap. Refuted: subscriber left open by a race with the end of the topic (twice), overlapping additions both succeed, a removed topic's old source serves and closes the new topic's subscribers, a slow reader misses messages."
  },
  {
   "property": "C50",
   "status": "partial",
   "theorems": [
    "C50_plain_truncation_reported",
    "C50_delta_truncation_refuted"
   ],
   "note": "Proved for plain chunks; refuted for delta chunks: a cut after the two length varints ends the chunk quietly."
  },
  {
   "property": "C51",
   "status": "proved",
   "theorems": [
    "C51_only_funder_or_governance",
    "C51_only_these_balances_fall"
   ],
   "note": "Every message case, with bank, bech32 and contract checks as parameters."
  },
  {
   "property": "C52",
   "status": "proved",
   "theorems": [
    "C52_accounts_stay_consistent",
    "C52_messages_never_panic",
    "C52_locked_coins_not_spendable"
   ],
   "note": "Invariant over arbitrary event histories."
  },
  {
   "property": "C53",
   "status": "partial",
   "theorems": [
    "C53_vote_blocks_manual_clawback_partial",
    "C53_overlapping_proposals_refuted"
   ],
   "note": "Proved when no account is named by two proposals under vote; refuted when two overlap: the first ending clears the flag."
  },
  {
   "property": "C54",
   "status": "partial",
   "theorems": [
    "C54_next_transaction_reads_the_result_partial",
    "C54_destroyed_account_leaves_nothing",
    "C54_created_account_is_written_refuted",
    "C54_commit_succeeds_refuted"
   ],
   "note": "Exact for precompile-free runs when created accounts get a nonce or code. Refuted: CreateAccount alone is not written; pre-funded account created and destroyed in one transaction makes Commit fail."
  },
  {
   "property": "C55",
   "status": "partial",
   "theorems": [
    "C55_supply_follows_balances_partial",
    "C55_transfers_keep_the_supply_partial",
    "C55_precompiles_conserve_coins_refuted"
   ],
   "note": "Exact for precompile-free runs. Refuted for precompiles that move coins without recording the balance change."
  },
  {
   "property": "C56",
   "status": "partial",
   "theorems": [
    "C56_quote_is_lowest_hundred",
    "C56_quote_exact_partial",
    "C56_quote_too_low_refuted",
    "C56_quote_with_ids_refuted"
   ],
   "note": "The quote is the sum of the lowest-paying hundred; equal to the next batch when at most a hundred transfers are available; refuted beyond, and refuted for the quote with identifiers."
  },
  {
   "property": "C57",
   "status": "partial",
   "theorems": [
    "C57_a_run_costs_its_gas_partial",
    "C57_funded_task_runs",
    "C57_recorded_fees_wrong_refuted"
   ],
   "note": "Cost bounds and exact cost proved for runs that do not cancel or update tasks; funded tasks run. Refuted: recorded total of fees is wrong after one run."
  },
  {
   "property": "C58",
   "status": "partial",
   "theorems": [
    "C58_what_is_picked",
    "C58_best_paying_left_out_refuted"
   ],
   "note": "Proved exactly what is picked (the cheapest unexpired entries first); the claim itself is refuted."
  },
  {
   "property": "C59",
   "status": "partial",
   "theorems": [
    "C59_poor_owner_stops_the_chain_refuted",
    "C59_failing_call_stops_the_chain_refuted",
    "C59_missing_price_stops_the_chain_refuted",
    "C59_huge_price_stops_the_chain_refuted",
    "C59_zero_limit_stops_the_chain_refuted"
   ],
   "note": "Refuted five ways (poor owner, failing call, missing price, 256-bit overflow, zero limit). The positive half is C57_funded_task_runs."
  },
  {
   "property": "C60",
   "status": "proved",
   "theorems": [
    "C60_task_numbers_never_reused",
    "C60_results_kept"
   ],
   "note": "Task numbers fresh in every reachable state; results consecutive and immutable over every history."
  },
  {
   "property": "C61",
   "status": "partial",
   "theorems": [
    "C61_owner_listing_exact_partial",
    "C61_old_task_not_listed_refuted"
   ],
   "note": "Exact when the chain is past height 40600 from the start; refuted for tasks created earlier."
  },
  {
   "property": "C62",
   "status": "partial",
   "theorems": [
    "C62_tasks_survive_partial",
    "C62_no_creation_after_import_refuted",
    "C62_queue_lost_refuted"
   ],
   "note": "Live tasks and balances survive; refuted: the next number and the queue are lost."
  },
  {
   "property": "C63",
   "status": "partial",
   "theorems": [
    "C63_deposit_covers_a_run_partial",
    "C63_huge_gas_needs_no_deposit_refuted"
   ],
   "note": "Proved for gas limits below 2^63; refuted at 2^63 where the product wraps."
  },
  {
   "property": "C64",
   "status": "partial",
   "theorems": [
    "C64_exactly_the_wanted_logs",
    "C64_out_of_range",
    "C64_one_block_by_hash",
    "C64_beyond_the_head_nothing",
    "C64_end_after_head_loses_logs_refuted",
    "C64_by_hash_misses_scheduled_tasks_refuted"
   ],
   "note": "Exactness for ranges inside the chain, errors and out-of-range answers proved end to end from block execution through the bloom filter. Refuted: a range ending after the head loses all logs; the by-hash query misses the logs of scheduled tasks."
  },
  {
   "property": "C65",
   "status": "partial",
   "theorems": [
    "C65_completed_pays_for_its_gas",
    "C65_bill_within_limits",
    "C65_failed_pays_the_whole_limit",
    "C65_rejected_changes_nothing",
    "C65_accepted_price_is_fair",
    "C65_nobody_in_debt",
    "C65_money_only_moves",
    "C65_refund_is_always_there",
    "C65_charged_without_running_refuted"
   ],
   "note": "Exact balance changes for completed, failed and rejected transactions, bounds, solvency, conservation and availability of the refund proved for all chains with arbitrary EVM outcomes. Refuted: a message with too little gas to start is accepted in a block, charged in full and never runs. The EVM itself is an arbitrary outcome."
  },
  {
   "property": "C66",
   "status": "partial",
   "theorems": [
    "C66_nonces_in_order",
    "C66_executed_at_most_once",
    "C66_single_messages_run_once",
    "C66_wrong_nonce_rejected",
    "C66_bundled_message_replayed_refuted"
   ],
   "note": "Proved for chains where no creation is followed in the same transaction by a message of the same sender (in particular single-message transactions). Refuted in general: a creation bundled with a later message of the same sender puts the nonce back, and the later message runs again."
  },
  {
   "property": "C67",
   "status": "partial",
   "theorems": [
    "C67_numbered_from_zero",
    "C67_logs_name_their_transaction",
    "C67_announced_number_is_kept",
    "C67_bloom_is_that_of_the_logs",
    "C67_failed_transaction_shares_a_number_refuted"
   ],
   "note": "Numbering, ownership of logs, kept announced numbers of completed transactions, bloom filter and totals proved. Refuted: a transaction that fails to commit announces the number the next one gets."
  },
  {
   "property": "C68",
   "status": "partial",
   "theorems": [
    "C68_completed_is_found",
    "C68_shown_failure_is_found",
    "C68_found_is_there",
    "C68_numbers_have_no_gaps",
    "C68_reindexing_changes_nothing",
    "C68_last_block_is_the_highest",
    "C68_number_differs_after_a_commit_failure_refuted",
    "C68_charged_but_not_found_refuted",
    "C68_wrong_block_after_replay_refuted"
   ],
   "note": "Lookups proved complete and sound for regular chains (messages run once, hashes bind, distinct heights); numbers equal the chain's when no transaction of the block failed to commit. Refuted: number shift after a commit failure; a charged message that could not start is not found; after a replay the first place is answered with the second."
  },
  {
   "property": "C69",
   "status": "proved",
   "theorems": [
    "C69_set_follows_power",
    "C69_numbers",
    "C69_sets_kept",
    "C69_lowered_offset_refuted",
    "C69_announced_number_refuted"
   ],
   "note": "Follows, numbering and keeping are proved under an unchanging offset; lowering the offset overwrites a set and the announced number is wrong (refuted theorems)."
  },
  {
   "property": "C70",
   "status": "partial",
   "theorems": [
    "C70_judged_once",
    "C70_never_early",
    "C70_only_debtors",
    "C70_all_debtors",
    "C70_confirmed_is_safe",
    "C70_first_bridge_judged_partial",
    "C70_offset_refuted",
    "C70_second_bridge_refuted",
    "C70_other_window_refuted",
    "C70_separate_key_refuted",
    "C70_foreign_key_refuted",
    "C70_named_address_refuted",
    "C70_operator_text_refuted"
   ],
   "note": "Judged once, never early, exactly the debtors, confirmed is safe are proved for all histories; judged before pruned holds for the first bridge with offset zero and equal windows; the remaining cases and the identification of the guilty are refuted by witnesses."
  },
  {
   "property": "C71",
   "status": "proved",
   "theorems": [
    "C71_reads",
    "C71_later_blocks",
    "C71_latest",
    "C71_replay",
    "C71_import",
    "C71_feed_one_store",
    "C71_slash_refuted",
    "C71_rollback_refuted",
    "C71_negative_refuted",
    "C71_skip_zero_refuted"
   ],
   "note": "For heights 0..2^63-1 and store names without a slash. Refuted outside: names with a slash share keys, negative heights, writing an older block moves the latest version back, entries of height 0 are hidden when version-zero skipping is on."
  },
  {
   "property": "C72",
   "status": "proved",
   "theorems": [
    "C72_iterate",
    "C72_empty_bound",
    "C72_skip_zero_refuted"
   ],
   "note": "Both directions, any bounds that are not empty (an empty bound is an error, as in the code). Refuted: with version-zero skipping entries of height 0 are missing although older versions should show."
  },
  {
   "property": "C73",
   "status": "partial",
   "theorems": [
    "C73_one_run_partial",
    "C73_enough_runs",
    "C73_history",
    "C73_idempotent_refuted",
    "C73_deletion_refuted",
    "C73_short_key_refuted",
    "C73_all_stores"
   ],
   "note": "Holds after enough runs (one per damaged version of a key); one run repairs a part (C73_one_run_partial). Refuted: a second run may still change something, a repaired value can hide under a deletion, keys shorter than 8 bytes abort the repair."
  },
  {
   "property": "C74",
   "status": "partial",
   "theorems": [
    "C74_read_back",
    "C74_cut",
    "C74_resume",
    "C74_non_empty",
    "C74_cut_noticed_refuted",
    "C74_versions_cut_refuted"
   ],
   "note": "Reading back, cut files, resuming and choice of files are proved in full. Refuted: that a cut is reported (a cut at a field boundary, or anywhere when only versions are read, ends without error)."
  },
  {
   "property": "C75",
   "status": "proved",
   "theorems": [
    "C75_item_round_trip",
    "C75_files",
    "C75_duplicates",
    "C75_zero_size"
   ],
   "note": "For items below 4 GiB; RocksDB's writer refuses out-of-order keys, so duplicates fail (C75_duplicates). A target size of zero converts nothing (C75_zero_size)."
  },
  {
   "property": "C76",
   "status": "partial",
   "theorems": [
    "C76_restored_contents_partial",
    "C76_restore_refuted",
    "C76_all_but_first_lost_refuted",
    "C76_broken_stream_refuted"
   ],
   "note": "Refuted: inner nodes of the exported tree are imported as entries with an empty value, so that in every store all keys but the smallest read empty (C76_all_but_first_lost_refuted holds for every tree); read errors are ignored. Proved: the exact contents after a restore."
  },
  {
   "property": "C77",
   "status": "proved",
   "theorems": [
    "C77_transfer",
    "C77_transfer_from",
    "C77_supply",
    "C77_consent",
    "C77_run_supply",
    "C77_wrapped",
    "C77_zero_transfer_refuted"
   ],
   "note": "Exact effect and exact success condition of transfer and transferFrom, supply constant over any run, no loss without consent, wrapped coin. Exception proved as refuted: a transfer of zero fails, ERC-20 wants it to succeed."
  },
  {
   "property": "C78",
   "status": "partial",
   "theorems": [
    "C78_approve",
    "C78_increase",
    "C78_decrease",
    "C78_when",
    "C78_never_overspent",
    "C78_taken_le_granted",
    "C78_first_year",
    "C78_approve_zero_refuted",
    "C78_every_year_refuted",
    "C78_event_owner_refuted",
    "C78_always_changeable_refuted",
    "C78_receivers_kept_refuted"
   ],
   "note": "Exact effect of the three calls with full frame, success conditions, never overspent over any run, first approval lasts a year. Refuted: approve zero fails when the grant covers only other tokens; later approvals inherit the old expiration; the event names the contract as owner; approve fails at the last instant of a grant or with a generic grant; an earlier list of receivers stays."
  },
  {
   "property": "C79",
   "status": "proved",
   "theorems": [
    "C79_one_to_one",
    "C79_listing",
    "C79_never_redirected",
    "C79_additions",
    "C79_toggle_and_removal",
    "C79_face",
    "C79_genesis_contracts_refuted",
    "C79_create_redirects_refuted",
    "C79_create_mints_refuted",
    "C79_lookup_by_denom_refuted",
    "C79_link_redirects_refuted",
    "C79_register_again_refuted"
   ],
   "note": "Proved for all genesis states with distinct contracts and all histories in which newly made contracts have fresh addresses, erc20creator is used for unregistered denominations and the bridge links denominations that do not look like an address. Refuted without those conditions: genesis validation compares address texts (two pairs for one contract); erc20creator redirects and mints a registered coin that lacks bank metadata; denominations of 40 hex digits are looked up as addresses. Also refuted: a removed contract can be registered again (the metadata stays)."
  },
  {
   "property": "C80",
   "status": "partial",
   "theorems": [
    "C80_pairs_survive_partial",
    "C80_export_is_valid",
    "C80_faces_survive_refuted",
    "C80_faces_return_refuted"
   ],
   "note": "Pairs, lookups, switch and validation proved. Refuted: which contracts have the chain's own code is not exported, and a later packet does not bring it back."
  },
  {
   "property": "C81",
   "status": "proved",
   "theorems": [
    "C81_tokens_into_coins",
    "C81_coins_into_tokens",
    "C81_when",
    "C81_never_panics_refuted",
    "C81_no_other_panic",
    "C81_success_converts_refuted"
   ],
   "note": "Both directions proved for arbitrary contracts. Refuted: a log without topics makes the conversion panic; converting at a contract without code answers with success and converts nothing."
  },
  {
   "property": "C82",
   "status": "proved",
   "theorems": [
    "C82_backed",
    "C82_redeemable",
    "C82_transfer",
    "C82_round_trip",
    "C82_receive",
    "C82_received_amount_refuted",
    "C82_same_form_refuted",
    "C82_refund_always_refuted",
    "C82_switched_off_refuted",
    "C82_vesting_refuted"
   ],
   "note": "Backing, redeemability, exact transfers, refunds and returns proved for an ordinary token, for accounts without vesting where stated. Refuted: a return converts only the received amount (it converts the whole balance); a refund restores coins as coins; a refund does not depend on the contract (a paused contract blocks it); nothing is converted while the pair is switched off; unlocked coins and tokens together suffice for a vesting account."
  },
  {
   "property": "C83",
   "status": "partial",
   "theorems": [
    "C83_mint",
    "C83_burn",
    "C83_hand_over",
    "C83_only_admin",
    "C83_admin_history",
    "C83_supply",
    "C83_backed",
    "C83_giving_up_refuted",
    "C83_same_account_refuted",
    "C83_burn_by_admin_refuted",
    "C83_burn_factory_refuted"
   ],
   "note": "Proved for every history including restarts (C83_mint, _burn, _hand_over, _only_admin, _admin_history, _supply, _backed). Refuted: the admin is a text, so an account that created a coin with the upper-case form of its address cannot mint with the lower-case form (C83_same_account_refuted); against the documentation any holder may burn (C83_burn_by_admin_refuted), the native coin can be burnt (C83_burn_factory_refuted) and the admin role cannot be given up (C83_giving_up_refuted)."
  },
  {
   "property": "C84",
   "status": "partial",
   "theorems": [
    "C84_names",
    "C84_create",
    "C84_never_again",
    "C84_decimals",
    "C84_listing",
    "C84_restart_partial",
    "C84_list_of_account_refuted",
    "C84_list_after_restart_refuted",
    "C84_metadata_after_restart_refuted",
    "C84_own_names_refuted"
   ],
   "note": "Proved: names, creation, permanence, decimals, listing; C84_restart_partial covers what a restart keeps. Refuted: the list of an account depends on how its address was written (C84_list_of_account_refuted) and changes over a restart (C84_list_after_restart_refuted); a restart loses the rest of the metadata (C84_metadata_after_restart_refuted); metadata set by governance takes a name from its account (C84_own_names_refuted)."
  },
  {
   "property": "C85",
   "status": "partial",
   "theorems": [
    "C85_register",
    "C85_update",
    "C85_cancel",
    "C85_created",
    "C85_only_author",
    "C85_genuine",
    "C85_rightful",
    "C85_author_list",
    "C85_payee_list_partial",
    "C85_restart",
    "C85_payee_list_refuted",
    "C85_restart_list_refuted",
    "C85_long_account_refuted",
    "C85_same_account_refuted"
   ],
   "note": "Proved for all histories; the list of a paid account only for contracts that name somebody else than their author (C85_payee_list_partial). Refuted: a contract entered on creation is missing in the list of the account it names (C85_payee_list_refuted) and appears there after a restart (C85_restart_list_refuted); keys do not delimit the account, so a contract can be put into another account's list (C85_long_account_refuted); the author's account in another spelling is refused (C85_same_account_refuted)."
  },
  {
   "property": "C86",
   "status": "partial",
   "theorems": [
    "C86_paid",
    "C86_due",
    "C86_enough",
    "C86_income",
    "C86_entered_and_unpaid_refuted",
    "C86_small_fees_refuted"
   ],
   "note": "Proved: exact payment, bound, refund safety, history sums. Refuted: an account that may not receive can be entered and payments are then dropped in silence (C86_entered_and_unpaid_refuted); fees whose share is below one unit never pay (C86_small_fees_refuted)."
  },
  {
   "property": "C87",
   "status": "partial",
   "theorems": [
    "C87_ask",
    "C87_answer",
    "C87_block",
    "C87_other_kind",
    "C87_enough",
    "C87_power_partial",
    "C87_votes_once",
    "C87_escrow",
    "C87_overtaken_refuted",
    "C87_few_votes_refuted",
    "C87_separate_key_refuted",
    "C87_left_over_refuted",
    "C87_any_contract_refuted",
    "C87_statistics_refuted"
   ],
   "note": "Proved: exactly when a request is taken and all it changes (C87_ask), the same for a claim (C87_answer), all that a block end does to requests, archive, balances and figures (C87_block), enough power wins (C87_enough), votes are unique and cast by orchestrators of bonded validators in every history (C87_votes_once), the module always holds the pending fees (C87_escrow). C87_power_partial: a winner has the power only together with the voters of earlier open requests. Refuted: a pending request is thrown away without refund when a later one to the same contract wins; votes are carried from one request to the next; validators answering with a separate key count nothing; the rest of the division stays in the module; any contract called may spend all coins of the sender of the transaction; the figures of fees collected count the whole fee for each voter."
  },
  {
   "property": "C88",
   "status": "partial",
   "theorems": [
    "C88_most_given",
    "C88_clear_winner",
    "C88_nobody_else",
    "C88_decoded",
    "C88_not_hex",
    "C88_hex_text",
    "C88_tie_refuted",
    "C88_bar_refuted",
    "C88_backing_refuted",
    "C88_wrong_paid_refuted"
   ],
   "note": "Proved: the answer delivered is one given most often (C88_most_given); with a clear winner it is the same for every order of the map (C88_clear_winner); no other callback changes (C88_nobody_else); hex decoding is exact (C88_decoded, C88_not_hex). Refuted: in a tie two nodes may store different answers; different answers containing the sign | are counted as one; the answer is chosen by heads and may be backed by less than 33 percent of the power; voters of a wrong answer are paid alike."
  },
  {
   "property": "C89",
   "status": "proved",
   "theorems": [
    "C89_jump",
    "C89_analysis",
    "C89_disjoint",
    "C89_next"
   ],
   "note": "Every branch of the analysis loop (8 and 16 bit writes, single bits, the last PUSH running past the end) is modelled; C89_jump and C89_analysis hold for all codes."
  },
  {
   "property": "C90",
   "status": "proved",
   "theorems": [
    "C90_memory_is_paid"
   ],
   "note": "All 256 entries of the jump table (London rules) with their constant gas, dynamic gas and memory size functions are modelled; the invariant is kept by every step."
  },
  {
   "property": "C91",
   "status": "proved",
   "theorems": [
    "C91_call_ends",
    "C91_create_ends",
    "C91_caller_keeps_a_64th"
   ],
   "note": "Each step costs at least one unit of gas net of what nested calls give back; xle/exec_le by induction on the number of allowed steps."
  },
  {
   "property": "C92",
   "status": "proved",
   "theorems": [
    "C92_call_never_crashes",
    "C92_create_never_crashes",
    "C92_frames_stay_healthy"
   ],
   "note": "Refund arithmetic included: the potential refund + 200*gas never grows, and the refund counter always covers the slots emptied in this transaction. Assumes what the keeper does before: the called address is in the access list (C92_access_list_needed shows the crash otherwise). Precompiles enter as arbitrary functions that keep the stated promises."
  },
  {
   "property": "C93",
   "status": "proved",
   "theorems": [
    "C93_failed_call",
    "C93_failed_callcode",
    "C93_failed_delegate",
    "C93_failed_static",
    "C93_failed_create",
    "C93_depth_limit",
    "C93_caller_sees_failure",
    "C93_creator_sees_failure"
   ],
   "note": "For any behaviour of the callee. The world is a value in this model; that the journal of x/evm/statedb acts like one is C18."
  },
  {
   "property": "C94",
   "status": "partial",
   "theorems": [
    "C94_static_call_changes_nothing_partial",
    "C94_static_frame_changes_nothing_partial",
    "C94_refuted_static_call_changes_state",
    "C94_refuted_static_call_makes_account"
   ],
   "note": "Proved when built-in contracts only compute. Refuted in general: inside a read-only call a plain CALL to a stateful built-in contract runs it with readOnly = false (C94_refuted_static_call_changes_state), so staking, distribution or bank precompiles can be made to write from a static call. A read-only call also makes a blank account at an unused address (C94_refuted_static_call_makes_account)."
  },
  {
   "property": "C95",
   "status": "proved",
   "theorems": [
    "C95_no_money_made",
    "C95_no_money_lost",
    "C95_bystanders_are_spared",
    "C95_plain_payment",
    "C95_refuted_money_is_never_lost"
   ],
   "note": "By induction over the tree of effects of the run. C95_refuted_money_is_never_lost: a contract that destroys itself in favour of itself burns its balance (EVM rule), which is why exactness asks that none was destroyed."
  },
  {
   "property": "C96",
   "status": "proved",
   "theorems": [
    "C96_code_is_for_ever",
    "C96_creation"
   ],
   "note": "Destroyed accounts keep code and nonce until the end of the transaction; their removal at commit is in Statedb."
  },
  {
   "property": "C97",
   "status": "proved",
   "theorems": [
    "C97_binary",
    "C97_unary",
    "C97_ternary",
    "C97_exp"
   ],
   "note": "step-level theorems from the byte in the code to the next state; integer functions in Evm/WordSpec.v; EXP is priced by the number of bytes of the exponent"
  },
  {
   "property": "C98",
   "status": "proved",
   "theorems": [
    "C98_mstore",
    "C98_mstore8",
    "C98_mload",
    "C98_keccak",
    "C98_copy",
    "C98_returndatacopy",
    "C98_return",
    "C98_push",
    "C98_dup",
    "C98_swap",
    "C98_pop",
    "C98_jump",
    "C98_jumpi",
    "C98_environment",
    "C98_calldataload",
    "C98_blockhash"
   ],
   "note": "each theorem gives the next state exactly, and when the run ends instead"
  },
  {
   "property": "C99",
   "status": "proved",
   "theorems": [
    "C99_sload",
    "C99_sstore",
    "C99_sstore_read_only",
    "C99_account",
    "C99_selfbalance",
    "C99_extcodecopy",
    "C99_log"
   ],
   "note": "SSTORE is stated for states that C92 proves reachable states to be (healthy, the running contract exists and is on the access list)"
  },
  {
   "property": "C100",
   "status": "proved",
   "theorems": [
    "C100_call",
    "C100_callee",
    "C100_built_in_callee",
    "C100_refused",
    "C100_read_only",
    "C100_create",
    "C100_creation"
   ],
   "note": "one instruction, for an arbitrary callee; C100_callee and C100_creation say what is run, C100_call and C100_create what comes back"
  },
  {
   "property": "C101",
   "status": "proved",
   "theorems": [
    "C101_price",
    "C101_access_list",
    "C101_charge",
    "C101_failed",
    "C101_creation",
    "C101_money"
   ],
   "note": "the interpreter of C90-C100 inside ApplyMessageWithConfig; C101_failed assumes that the sender has an account and C101_money that the sender has no code, both checked before (C65-C66)"
  },
  {
   "property": "C102",
   "status": "partial",
   "theorems": [
    "C102_estimate_runs_partial",
    "C102_least_partial",
    "C102_affordable",
    "C102_answered",
    "C102_revert",
    "C102_message_partial",
    "C102_funds_refuted",
    "C102_endless_refuted"
   ],
   "note": "that the limit suffices is proved for caps below 2^63 when the funds of the sender do not lower the highest limit tried (C102_estimate_runs_partial, C102_message_partial); leastness needs that more gas never hurts, which contracts can break by looking at their gas. Refuted: the highest limit is compared with the cap taken before the funds of the sender lowered it, so that an estimate that fails is given as an answer (C102_funds_refuted); with a cap of 2^64-1 the search never ends (C102_endless_refuted)"
  },
  {
   "property": "C103",
   "status": "partial",
   "theorems": [
    "C103_rewards_of_a_block",
    "C103_fees_and_ratios",
    "C103_rewards_partial",
    "C103_cache_is_bounded",
    "C103_panic_refuted",
    "C103_percentiles_refuted",
    "C103_next_fee_refuted",
    "C103_bundled_refuted",
    "C103_order_refuted"
   ],
   "note": "base fees, ratios, counts and the bound of the cache are proved for all histories of queries; rewards are proved when all queries ask for the same ascending percentiles (C103_rewards_partial). Refuted: the cache is keyed by the block only, so percentiles asked for earlier by others are shown (C103_percentiles_refuted); the fee of the next block is the base fee of the newest block when the entry was made (C103_next_fee_refuted); huge arguments panic (C103_panic_refuted); each message of a transaction counts with the gas of the whole transaction (C103_bundled_refuted); percentiles out of order are not refused (C103_order_refuted)"
  },
  {
   "property": "C104",
   "status": "partial",
   "theorems": [
    "C104_a_signer_acts_for_itself",
    "C104_a_contract_uses_up_its_approval",
    "C104_without_approval_nothing_happens",
    "C104_an_approval_bounds_all_later_use",
    "C104_no_approval_no_use",
    "C104_approvals_change_only_in_own_transactions",
    "C104_approve_sets_the_limit",
    "C104_revoke_removes",
    "C104_raise_and_lower_by_the_amount",
    "C104_only_the_owner_edits_a_validator",
    "C104_failed_calls_move_nothing_refuted",
    "C104_failed_approvals_grant_nothing_refuted",
    "C104_only_the_user_approves_refuted",
    "C104_only_the_users_coins_count_refuted",
    "C104_only_the_owner_unjails_refuted",
    "C104_approvals_can_be_adjusted_refuted",
    "C104_commission_limits_kept_refuted",
    "C104_edits_touch_what_they_name_refuted",
    "C104_only_native_coins_are_reported_refuted"
   ],
   "note": "Proved: successful use exact (approval alive, covers, reduced by the amount, frame), refusals change nothing, bound over all histories, admin calls exact, signers act for themselves. Refuted by witness: a call that fails after the message was carried out (validator or token outside the approval) still moves the stake when the contract swallows the failure, without limit; failed approvals leave their first entries; a contract can approve itself in the signer's name; a contract's own coins use up the user's approval; anybody unjails any validator; lowering by 'no limit' crashes and cancel approvals cannot be raised; create/edit validator mix up fields; delegating another token is reported to the EVM as native coins. SDK authz and StakeAuthorization.Accept are modelled from their documented behaviour."
  },
  {
   "property": "C105",
   "status": "partial",
   "theorems": [
    "C105_acts_for_signer_or_caller",
    "C105_bystanders_are_left_alone",
    "C105_direct_calls_need_no_approval",
    "C105_contracts_need_approval_to_stake_or_transfer",
    "C105_contracts_need_approval_refuted",
    "C105_bystanders_are_never_acted_for_refuted",
    "C105_contracts_dispose_of_their_own_refuted"
   ],
   "note": "Proved: acts only for signer or caller, bystanders untouched over all histories (unjail apart), only CALL works, staking and transfers from contracts need approval. Refuted: every other method acts for the signer without approval when any contract in the transaction calls it; unjail acts for anybody; a contract cannot stake or transfer its own without the signer's approval."
  },
  {
   "property": "C106",
   "status": "partial",
   "theorems": [
    "C106_reported_money_arrives_once_partial",
    "C106_contracts_see_the_moved_money",
    "C106_native_token_reports_exactly",
    "C106_refuted_direct_delegation_with_value_is_free",
    "C106_refuted_delegating_another_token_burns_native_coins",
    "C106_refuted_rewards_paid_on_undelegation_are_burned",
    "C106_refuted_unreported_coins_are_not_seen"
   ],
   "note": "Proved for every sequence of state operations without reverts and self-destructs whose built-in contract calls report exactly the native coins they move: every final balance, the supply and every balance seen in between are exact. The native token contract and its wrapper are shown to report exactly. Refuted for the staking contract: a direct delegation with a coin sent along costs nothing (the delegated amount is minted back), delegating another token from a contract burns native coins, rewards paid out on undelegation to an account touched before are burned, and unreported payments are invisible to contracts called later in the transaction."
  },
  {
   "property": "C107",
   "status": "partial",
   "theorems": [
    "C107_nothing_is_smuggled",
    "C107_exactly_the_harmless_and_light",
    "C107_nesting_is_bounded",
    "C107_refuted_six_in_a_row"
   ],
   "note": "Proved as an equivalence: exactly the harmless lists whose weight is at most 5 pass, and nothing else. Refuted part: the last sentence (every other transaction passes) fails for six unnested execution messages side by side, because the nesting counter also counts siblings (C107_refuted_six_in_a_row)."
  },
  {
   "property": "C108",
   "status": "partial",
   "theorems": [
    "C108_what_is_paid",
    "C108_no_surprise",
    "C108_minimum_gas_price",
    "C108_turned_away",
    "C108_priority",
    "C108_refuted_minimum_is_paid",
    "C108_signature_gas",
    "C108_signature_gas_is_safe",
    "C108_refuted_signature_gas_is_total"
   ],
   "note": "All bounds proved for the model of the two fee decorators. Refuted parts: with no base fee and a dynamic fee option without tip nothing is charged although a minimum gas price is set (C108_refuted_minimum_is_paid); malformed multi-signature data makes the gas computation panic, which baseapp recovers (C108_refuted_signature_gas_is_total)."
  },
  {
   "property": "C109",
   "status": "partial",
   "theorems": [
    "C109_one_payload",
    "C109_one_transaction",
    "C109_nothing_left_out",
    "C109_only_what_can_be_shown",
    "C109_refuted_who_pays_is_not_signed",
    "C109_refuted_mixed_arrays"
   ],
   "note": "Proved, up to an explicit hash collision, for all canonical payloads whose arrays do not mix numbers and texts. Refuted: the fee payer and the fee granter of a sign document are not part of the signed bytes (C109_refuted_who_pays_is_not_signed), and arrays that mix numbers and texts share bytes (C109_refuted_mixed_arrays). Not covered: the older encoding that VerifySignature also tries (encoding_legacy.go)."
  },
  {
   "property": "C110",
   "status": "partial",
   "theorems": [
    "C110_approvals_stay_well_formed",
    "C110_a_signer_acts_for_itself",
    "C110_a_contract_uses_up_its_approval",
    "C110_without_approval_nothing_happens",
    "C110_an_approval_bounds_all_later_use",
    "C110_nothing_without_an_allowance",
    "C110_a_failed_call_changes_nothing",
    "C110_approvals_change_only_in_own_transactions",
    "C110_approve_sets_the_limits",
    "C110_revoke_removes",
    "C110_raise_and_lower_by_the_amount",
    "C110_the_query_shows_what_counts",
    "C110_refuted_gas_runs_out_after_sending",
    "C110_refuted_a_contract_approves_itself",
    "C110_refuted_own_tokens_need_no_approval",
    "C110_refuted_raised_to_no_limit"
   ],
   "note": "Proved: exact effect of a successful use (approval alive, place, receiver, memo, amount; one limit down by the amount, everything else the same), refusals change nothing, bound over all histories incl. failing calls and any gas for the settled calls, nothing at all where the limit is zero, frame of approvals, approve/revoke/raise/lower/query exact. Refuted by witness: a contract handing over gas for the transfer but not for writing off the approval sends any multiple of the allowed amount (the error does not undo the transfer); a contract approves itself in the signer's name; a contract's own tokens need and use up the signer's approval; a limit raised to exactly 2^256-1 becomes no limit. ibc-go's TransferAuthorization and SDK authz are modelled from their documented behaviour; gas running out inside the transfer module is not modelled."
  },
  {
   "property": "C111",
   "status": "partial",
   "theorems": [
    "C111_only_governance",
    "C111_listed_once",
    "C111_lists_are_exact",
    "C111_listed_for_ever",
    "C111_others_untouched",
    "C111_items_one_by_one",
    "C111_adding_lists",
    "C111_adding_again",
    "C111_removing",
    "C111_updating",
    "C111_updating_goes_through",
    "C111_texts_do_the_same",
    "C111_power_is_close",
    "C111_even_changes_keep_step",
    "C111_weights_stay_positive",
    "C111_refuted_power_grows_at_the_same_weight",
    "C111_refuted_there_and_back",
    "C111_refuted_removed_assets_gain_weight",
    "C111_refuted_removed_assets_pass_the_check",
    "C111_refuted_weight_zero",
    "C111_refuted_raising_lowers"
   ],
   "note": "Proved: only governance, listed once and for ever with the same description, others untouched, all or nothing item by item, the effect of adding, re-adding, removing and updating, exact float64 arithmetic for weights below 2^48, weights stay positive, the error of the told power per vote, and exact agreement of power and weight as long as every change comes out even. Refuted, with witnesses: power and weight drift apart (a 5 percent vote at weight ten leaves the weight and raises the power, for any number of votes; thirds are told with two decimals), removed assets can be voted up and their power stays doubled when they return, the staking contract's check lets removed assets through, the message accepts weight zero after which no update works, and a weight near 2^64 wraps. The staking module itself is a fork outside /repo: what it is told is modelled, not what it does."
  },
  {
   "property": "C112",
   "status": "partial",
   "theorems": [
    "C112_bytes_and_transactions_match",
    "C112_one_transaction_one_byte_form",
    "C112_comes_out_as_it_went_in",
    "C112_which_transactions_go_in",
    "C112_charged_as_the_transaction_says",
    "C112_never_above_the_offer",
    "C112_taken_exactly_when",
    "C112_what_was_sent_is_broadcast",
    "C112_different_bytes_different_messages",
    "C112_a_checked_message",
    "C112_a_message_passes_exactly_when",
    "C112_the_hash_names_the_transaction",
    "C112_the_node_has_its_own_form",
    "C112_refuted_one_message_per_transaction",
    "C112_refuted_access_lists_are_checked",
    "C112_refuted_chain_ids_are_checked",
    "C112_refuted_bad_bytes_are_refused"
   ],
   "note": "All of the statement is proved for raw bytes sent to the node, with go-ethereum's RLP form modelled and proved to be a bijection between transactions and the bytes accepted. Refuted on the faithful model: one transaction has many messages that pass the checks (letter case of addresses, leading zeros in V, R, S, a missing zero amount), so the Cosmos transaction around it can be changed by others; access list entries of a message are not checked (words that are not hexadecimal stand for address 0); a negative chain id in a message passes ValidateBasic and its hash is then the hash of the type byte alone; raw bytes with a chain id of more than 256 bits stop the request with a panic instead of being refused. The theorem about messages made by others therefore asks for a chain id that is not negative."
  },
  {
   "property": "C113",
   "status": "partial",
   "theorems": [
    "C113_no_client_exceeds_its_limit",
    "C113_no_client_exceeds_the_limit_of_a_method",
    "C113_answer_of_every_request",
    "C113_estimate",
    "C113_cleaning_changes_no_answer",
    "C113_connections_partial",
    "C113_computing_time_partial",
    "C113_refuted_connections_of_one_client",
    "C113_refuted_one_limit_per_host",
    "C113_refuted_clients_cannot_choose_their_name",
    "C113_refuted_computing_time_of_a_local_name",
    "C113_refuted_computing_time_of_cut_off_requests",
    "C113_refuted_limits_survive_a_reset_request",
    "C113_refuted_a_client_uses_only_its_own_limit"
   ],
   "note": "The limits per client and per method, the exact answers and the harmlessness of cleaning are proved for all runs without a reset. The connection and computing time limits are proved as long as no client sends a request before its last one is answered. Refuted on the faithful model: the connection limit counts clients, so with two connections allowed one client has any number of requests served at once; the client of a request without headers is its address with the port, so each new connection of a host has limits of its own; a client chooses its own name in X-Forwarded-For and so escapes every limit, uses up the limit of another client, or as 127.0.0.1 escapes the computing time limit; requests cut off at the time limit use up no computing time; a POST to /reset, open to everybody, clears the limits. Not in the model: a JSON batch counts as one request with an empty method name."
  },
  {
   "property": "C114",
   "status": "partial",
   "theorems": [
    "C114_unvested_coins_stay_partial",
    "C114_new_accounts_hold",
    "C114_delegation_of_the_bond_coin",
    "C114_every_delegation",
    "C114_stake_that_comes_back",
    "C114_slashes",
    "C114_clawback_finds_the_coins_partial",
    "C114_unvested_coins_of_other_kinds_refuted",
    "C114_free_coins_of_other_kinds_refuted"
   ],
   "note": "Proved for the bond coin, and for other coins as long as the account does not delegate them. Refuted for the other coins that can be staked: the delegated amount is compared with the balance of the bond coin whatever coin is delegated, so coins of another kind that are not vested can be staked, after which a clawback by the funder or by governance fails as a whole; and coins of another kind that the account owns freely cannot be staked when it has fewer bond coins."
  },
  {
   "property": "C115",
   "status": "partial",
   "theorems": [
    "C115_each_item_once_partial",
    "C115_when_filters_end",
    "C115_when_filters_expire",
    "C115_unused_filters_go",
    "C115_limit_of_filters",
    "C115_new_filters",
    "C115_polls",
    "C115_filters_of_others_refuted",
    "C115_logs_of_later_messages_refuted",
    "C115_busy_filters_refuted"
   ],
   "note": "Exactly-once, order, when filters end and expire, the limit and the condition for new filters are proved for all histories. Refuted parts: only the first subscription of a kind is entered in the index, so when the oldest filter of a kind is uninstalled or expires, all other filters of that kind end with it and lose what waits in them; of a transaction with several Ethereum messages only the logs of the first arrive; a report that comes while the goroutine of the filter is busy is dropped."
  },
  {
   "property": "C116",
   "status": "partial",
   "theorems": [
    "C116_forgers_go_free_refuted",
    "C116_asked_signatures_are_safe_partial",
    "C116_what_evidence_does",
    "C116_the_signer_pays",
    "C116_honest_signers_refuted",
    "C116_punished_again_refuted",
    "C116_leaving_is_free_refuted",
    "C116_anyone_shields_refuted",
    "C116_new_chain_forgets_refuted"
   ],
   "note": "Proved for the check itself: what was asked for on a bridge is never evidence on that bridge, the exact condition and effect of accepted evidence, and that the punished validator registered the key. Refuted parts: as the code is, no evidence is accepted at all, because the signed kinds are not registered for decoding; were they registered, a signature made on request for one bridge could be presented as one for another bridge and punish an honest validator, the same evidence would work again and again, a validator that is unbonding loses nothing, any account can shield a forger by unsetting the forger's address, and a chain started from an export forgets what was asked."
  },
  {
   "property": "C117",
   "status": "partial",
   "theorems": [
    "C117_history",
    "C117_update_hides_history_refuted",
    "C117_pages_partial",
    "C117_page_size",
    "C117_finished_repeat_refuted",
    "C117_incoming_lost_refuted",
    "C117_finished_lost_refuted",
    "C117_page_without_address_refuted",
    "C117_other_spelling_refuted"
   ],
   "note": "Proved while the chain stays on one side of the update height: the record of each address, its numbering, ranges and the last hundred; the first page, all pages within outgoing transfers and all pages when nothing has come in or finished are pages of one list; a page for an address is never too long. Refuted parts: past the transfers under way every page shows the same newest finished ones, so older ones are on no page; an incoming transfer can be on no page; without an address up to a hundred more entries than asked for are returned; an address in bech32 form misses its finished transfers; the update height hides the earlier record and numbers start again."
  },
  {
   "property": "C118",
   "status": "partial",
   "theorems": [
    "C118_every_logo_is_fine",
    "C118_what_storing_does",
    "C118_served_as_uploaded",
    "C118_logos_stay",
    "C118_export",
    "C118_served_only_what_is_stored",
    "C118_messages",
    "C118_largest_image_refuted",
    "C118_one_image_many_hashes_refuted",
    "C118_date_changes_refuted",
    "C118_limit_overflow_refuted",
    "C118_genesis_unchecked_refuted"
   ],
   "note": "Proved: the exact condition and effect of storing, that every stored logo is fine if the genesis ones are, that uploaded bytes are served unchanged after any history by hash and by token, that no logo is removed or changed, and that export and import keep everything. Refuted parts: an image of exactly the largest size is refused unless that size is a multiple of three; one image has many hashes, as line ends and spare bits are not compared; storing it again changes the creation height; the limit set by governance is not checked and a huge one wraps, so nothing is accepted; a genesis may put any text under any hash."
  },
  {
   "property": "C119",
   "status": "partial",
   "theorems": [
    "C119_new_token",
    "C119_new_token_effect",
    "C119_known_token",
    "C119_names_stay",
    "C119_unnamed_is_lost_refuted",
    "C119_no_decimals_refuted",
    "C119_digit_first_refuted",
    "C119_first_deposit_names_refuted",
    "C119_same_symbol_refuted",
    "C119_one_unbacked_refuted"
   ],
   "note": "Proved: the exact condition and effect of a first deposit (which symbols are accepted and how they are shown), that a known token's deposit credits exactly the amount whatever its data says, and that symbol and decimals never change. Refuted parts: a first deposit without usable metadata is always lost, because the default symbol is the coin's own name and the bank refuses the same unit twice; so is one of a token with no decimals or with a symbol such as 1INCH; the first deposit decides symbol and decimals for ever; any number of tokens can share a symbol; the supply is one unit more than was deposited."
  },
  {
   "property": "C120",
   "status": "partial",
   "theorems": [
    "C120_below_threshold",
    "C120_no_supply",
    "C120_errors",
    "C120_never_above_refuted",
    "C120_panics_above_refuted",
    "C120_unneeded_rate_refuted",
    "C120_genesis_supply_moves_refuted",
    "C120_half_refuted",
    "C120_rewards_not_counted_refuted"
   ],
   "note": "Proved: the exact answer for every supply below the first threshold (with roundings) and for no supply. Refuted parts: with a supply at or above the first threshold the query always panics, because the sum of the phases starts from a decimal without a value; the reported genesis supply falls with every block; where the reported rewards reach the supply, half of the supply is called genesis supply; the reported rewards depend on the height and the early rate only; a rate that cannot be read ends the answer even where it is not used."
  },
  {
   "property": "C121",
   "status": "partial",
   "theorems": [
    "C121_register",
    "C121_register_with_fee",
    "C121_unregister",
    "C121_fees",
    "C121_only_self",
    "C121_lasts",
    "C121_shared_key_refuted",
    "C121_forgotten_key_refuted",
    "C121_still_acts_refuted",
    "C121_old_key_stays_refuted",
    "C121_taken_refuted",
    "C121_fee_stuck_refuted"
   ],
   "note": "Proved: the exact condition and effect of registering with and without fees, of ending a registration and of changing fees; that no other sender changes a validator's key or fee or lets anyone act for it; that a registration lasts through everything others do. Refuted parts: several validators can register the same key, which then counts as that of the last one only; anyone can make the chain forget whose key a key is; ending a registration leaves another account's right to act, and the validator cannot register with it again; with a wrong key in the message the old key still belongs to the validator; a validator can name another one as its orchestrator unasked and so keep it from registering for itself; a validator for whom another account acts cannot change its fee."
  },
  {
   "property": "C122",
   "status": "partial",
   "theorems": [
    "C122_by_number",
    "C122_by_hash",
    "C122_by_block",
    "C122_listed_exactly",
    "C122_own_listed",
    "C122_listed_same_length_partial",
    "C122_listed_once",
    "C122_all",
    "C122_archived",
    "C122_receipts_refuted",
    "C122_others_listed_refuted",
    "C122_order_refuted",
    "C122_block_cut_refuted"
   ],
   "note": "Proved for all histories: reading by number and by hash is exact; a block's list is its first hundred transactions in order; the list of all and the archive are exact; no list has anything twice; every transaction is in its task's list; exactly what else is there (two decimal numbers put one after the other read the same), and nothing else while all task numbers have the same length (C122_listed_same_length_partial). Refuted parts: a task's list can have another task's transaction (task 12's number 3 makes number 23 appear under task 1); the list of a task's receipts is always empty, because the entries it reads are never written; lists are in the order of decimal texts, 10 before 9; the transactions of a block after the hundredth are not given."
  },
  {
   "property": "C123",
   "status": "partial",
   "theorems": [
    "C123_accepted_iff",
    "C123_other_bridges",
    "C123_effect_partial",
    "C123_set_exactly",
    "C123_spellings_kept",
    "C123_own_bridge",
    "C123_other_founder_refuted",
    "C123_spelling_refuted",
    "C123_remove_shuts_out_refuted",
    "C123_never_open_again_refuted"
   ],
   "note": "Proved: exactly which messages are accepted; that no other bridge's list changes; the exact effect on every account of adding and removing and, in the usual spelling, of setting the list; that stored addresses stay in that spelling; that only the authority and the founder change a list where chains and bridges have the same numbers. Refuted parts: an address set in another spelling (such as lower case) is not admitted and cannot be removed; removing an account where there is no list shuts out everyone; no message opens a bridge again, and the list outlives the bridge; where a bridge's number differs from its chain's (registering a bridge forbids this, parameters set otherwise do not) the founder of another bridge decides."
  },
  {
   "property": "C124",
   "status": "partial",
   "theorems": [
    "C124_accepted_iff",
    "C124_effect",
    "C124_orderly",
    "C124_strangers",
    "C124_pause_reported_refuted",
    "C124_unknown_panics_refuted",
    "C124_any_founder_refuted"
   ],
   "note": "Proved for all orderly states, and that they stay orderly over all histories: exactly which messages are accepted, their exact effect on every chain's bridge, and that strangers change nothing. Refuted parts: a pause by a stranger, or of a chain without a bridge, is reported as done and does nothing; handing over a bridge that does not exist panics; a bridge can be handed to any account, validator or not, and the old founder cannot take it back."
  },
  {
   "property": "C125",
   "status": "partial",
   "theorems": [
    "C125_accepted_iff",
    "C125_mint",
    "C125_blocked_refuted",
    "C125_burn_partial",
    "C125_burns_the_modules_refuted",
    "C125_burns_nothing_refuted",
    "C125_sound",
    "C125_others"
   ],
   "note": "Proved: exactly which messages are accepted; the effect of issuing to receivers that are not blocked and of destroying what the sender has; over all histories no debts, supply equal to the sum of balances, and nobody touched but those named and the module. Refuted parts, all reported as done: tokens issued to a blocked receiver stay with the module; tokens a sender does not have are destroyed from what the module has; if it has too little, nothing happens."
  },
  {
   "property": "C126",
   "status": "partial",
   "theorems": [
    "C126_tidy",
    "C126_use_partial",
    "C126_full",
    "C126_remove",
    "C126_best_dropped_refuted",
    "C126_oldest_kept_refuted"
   ],
   "note": "Proved: over all histories each node is listed once and there are at most 101; with up to a hundred nodes the exact effect of a use on every node (C126_use_partial); the exact effect of a removal; a full list loses exactly one node to a use. Refuted part: the list is ordered with the longest unused first and cut after a hundred, so with 101 nodes a known node that is used at a height above all others is itself dropped, and the nodes used longest ago are kept."
  }
 ]
}