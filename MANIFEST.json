{
 "claims": [
  {
   "property": "C01",
   "status": "proved",
   "theorems": [
    "C01_verifier_exact",
    "C01_verifier_exact_any_hash",
    "C01_verifier_never_panics"
   ],
   "note": "Verifier succeeds iff count and RFC 6962 tree hash match."
  },
  {
   "property": "C02",
   "status": "proved",
   "theorems": [
    "C02_binding"
   ],
   "note": "Two verified downloads are equal or contain a SHA-256 collision among the hashed strings."
  },
  {
   "property": "C03",
   "status": "proved",
   "theorems": [
    "C03_job_covered_exactly_once",
    "C03_every_index_in_exactly_one_verifier",
    "C03_no_straddle"
   ],
   "note": "Verified ranges of a job tile [first,last]."
  },
  {
   "property": "C04",
   "status": "proved",
   "theorems": [
    "C04_honest_log_accepted",
    "C04_proof_exists",
    "C04_wrong_length_rejected"
   ],
   "note": "Honest RFC 6962 proofs and entries always verify."
  },
  {
   "property": "C05",
   "status": "proved",
   "theorems": [
    "C05_job_range",
    "C05_sleep_means_nothing_to_do",
    "C05_job_never_panics"
   ],
   "note": "For Backfill the tree must not have shrunk below MinEntry."
  },
  {
   "property": "C06",
   "status": "proved",
   "theorems": [
    "C06_one_job",
    "C06_saved_range_verified",
    "C06_saved_range_verified_but_zero",
    "C06_single_entry_log_refuted",
    "C06_entries_are_the_logs_own"
   ],
   "note": "RFC 6962 logs. Holds under the condition named in the statement (no first contact with a one-entry tree); the unconditional version excludes index 0 only; refuted without it."
  },
  {
   "property": "C07",
   "status": "proved",
   "theorems": [
    "C07_state_saved_only_after_stores",
    "C07_batches"
   ],
   "note": "For any jobs whatsoever."
  },
  {
   "property": "C08",
   "status": "proved",
   "theorems": [
    "C08_saved_range_stored",
    "C08_entry_zero_stored",
    "C11_entry_zero_refuted",
    "C06_single_entry_log_refuted"
   ],
   "note": "RFC 6962 and tiled logs. The job that handled the entry is one recorded in the history of the execution. Index 0 exactly as the statement says; the exceptions are refuted."
  },
  {
   "property": "C09",
   "status": "proved",
   "theorems": [
    "C09_timestamps_bound",
    "C09_max_timestamp_bounds",
    "C09_max_timestamp_source",
    "C09_max_timestamp_source_tiled",
    "C09_min_timestamp_source",
    "C09_min_timestamp_refuted",
    "C09_zero_timestamp_refuted"
   ],
   "note": "Bounds on both sides and where the two values come from; that MinTimestamp is the exact minimum is refuted, as the statement says."
  },
  {
   "property": "C10",
   "status": "proved",
   "theorems": [
    "C10_backfill_completes",
    "C10_resumed_backfill_completes",
    "C10_honest_jobs_exist",
    "C10_growing_log_catches_up",
    "C10_growing_log_backfill_completes",
    "C10_unlucky_size_refuted",
    "C10_small_range_never_completes_refuted",
    "C10_fast_log_starves_backfill_refuted"
   ],
   "note": "Exact number of jobs, from nothing and from a saved range; honest jobs exist from every state; bounds for a log that grows meanwhile; the sizes and growth rates for which the claim fails are refuted for all environments."
  },
  {
   "property": "C11",
   "status": "proved",
   "theorems": [
    "C11_tiled_range_grows_by_stored_entries",
    "C11_stops_at_failing_entry",
    "C11_entry_zero_refuted"
   ],
   "note": "Includes the refutation for entry 0 named in the statement."
  },
  {
   "property": "C12",
   "status": "proved",
   "theorems": [
    "C12_download_in_order",
    "C12_overlong_response_refuted"
   ],
   "note": "The downloader hands on surplus entries of an overlong response; the claim check then fails."
  },
  {
   "property": "C13",
   "status": "proved",
   "theorems": [
    "C13_entry_decodes",
    "C13_covered_iff",
    "C13_legacy_entries",
    "C13_long_legacy_serial_refuted"
   ],
   "note": "Includes the boundary where legacy serials of 40 or more bytes are misread."
  },
  {
   "property": "C14",
   "status": "proved",
   "theorems": [
    "C14_cutoff",
    "C14_never_later",
    "C14_map",
    "C14_huge_mmd_refuted"
   ],
   "note": "Exact when 1000*MMD fits in 64 bits; the wrap is shown."
  },
  {
   "property": "C15",
   "status": "proved",
   "theorems": [
    "C15_dedup",
    "C15_dedup_canonical",
    "C15_order"
   ],
   "note": ""
  },
  {
   "property": "C16",
   "status": "proved",
   "theorems": [
    "C16_go_roundtrip",
    "C16_wrong_bin_refused",
    "C16_rust_roundtrip",
    "C16_negative_expiry_refuted",
    "C16_reads_exactly",
    "C16_torn",
    "C16_torn_refuted",
    "C16_rust_reads_exactly",
    "C16_rust_torn",
    "C16_rust_torn_refuted"
   ],
   "note": "Go and Rust readers; expiry times before 1970 do not round-trip."
  },
  {
   "property": "C17",
   "status": "proved",
   "theorems": [
    "C17_id_roundtrip",
    "C17_day_id_roundtrip",
    "C17_same_bin_iff_same_hour",
    "C17_valid_cert_bin_not_expired",
    "C17_expired_bin_is_over",
    "C17_expired_iff",
    "C17_parses_only",
    "C17_unparsed_bin_refuted"
   ],
   "note": "Years 0-9999."
  },
  {
   "property": "C18",
   "status": "proved",
   "theorems": [
    "C18_coverage_never_outruns_storage",
    "C18_storage_invents_nothing",
    "C18_cache_loss_refuted"
   ],
   "note": "For every interleaving and crash point; the failure after cache loss and restore named in the statement is shown by a run."
  },
  {
   "property": "C19",
   "status": "proved",
   "theorems": [
    "C19_known_never_lost",
    "C19_last_hour_refuted",
    "C19_repeated_key_refuted"
   ],
   "note": "With the two exceptions named in the statement, each shown by a run."
  },
  {
   "property": "C20",
   "status": "proved",
   "theorems": [
    "C20_retry",
    "C20_commit_result",
    "C20_commit_possible",
    "C20_crash_between_epochs"
   ],
   "note": "Undisturbed commits; distinct log identifiers; all log states read."
  },
  {
   "property": "C21",
   "status": "proved",
   "theorems": [
    "C21_refused_iff",
    "C21_refused_changes_nothing"
   ],
   "note": ""
  },
  {
   "property": "C22",
   "status": "proved",
   "theorems": [
    "C22_epochs",
    "C22_loss_needs_restore",
    "C22_first_commit_refuted"
   ],
   "note": ""
  },
  {
   "property": "C23",
   "status": "proved",
   "theorems": [
    "C23_exclusive",
    "C23_free_lock_granted",
    "C23_interleaved_release",
    "C23_release_race_refuted",
    "C23_commit_holds_lock"
   ],
   "note": "Includes the race named in the statement, shown by a run."
  },
  {
   "property": "C24",
   "status": "proved",
   "theorems": [
    "C24_remove_batches",
    "C24_move_rounds",
    "C24_insert_many"
   ],
   "note": ""
  },
  {
   "property": "C25",
   "status": "proved",
   "theorems": [
    "C25_grouping",
    "C25_malformed_key_fails",
    "C25_bins_listed"
   ],
   "note": ""
  },
  {
   "property": "C26",
   "status": "proved",
   "theorems": [
    "C26_keys_injective",
    "C26_key_parses",
    "C26_key_parts",
    "C26_issuer_names",
    "C26_no_extra_components"
   ],
   "note": ""
  },
  {
   "property": "C27",
   "status": "proved",
   "theorems": [
    "C27_save_load",
    "C27_one_address",
    "C27_migrate",
    "C27_history",
    "C27_new_log",
    "C27_unreadable_state_refuted"
   ],
   "note": "A load that cannot read the stored state starts over, shown by a witness."
  },
  {
   "property": "C52",
   "status": "proved",
   "theorems": [
    "C52_removes_exactly_expired",
    "C52_removed_by_name",
    "C52_bin_file",
    "C52_listing"
   ],
   "note": ""
  },
  {
   "property": "C28",
   "status": "proved",
   "theorems": [
    "C28_final_file_safe",
    "C28_history",
    "C28_honest_download",
    "C28_recovery"
   ],
   "note": ""
  },
  {
   "property": "C29",
   "status": "proved",
   "theorems": [
    "C29_written_is_complete",
    "C29_otherwise_untouched",
    "C29_fatal_is_prefix",
    "C29_honest_run",
    "C29_dropped_url_refuted"
   ],
   "note": "Workers on different issuers are run one after the other."
  },
  {
   "property": "C30",
   "status": "proved",
   "theorems": [
    "C30_entries_exact",
    "C30_path_holds_signed_crl",
    "C30_older_crl_refuted"
   ],
   "note": ""
  },
  {
   "property": "C53",
   "status": "proved",
   "theorems": [
    "C53_local_names"
   ],
   "note": ""
  },
  {
   "property": "C55",
   "status": "proved",
   "theorems": [
    "C55_incomplete_issuer_is_audited",
    "C55_local_fault_refuted"
   ],
   "note": ""
  },
  {
   "property": "C56",
   "status": "proved",
   "theorems": [
    "C56_idp_exact",
    "C56_only_audited_refuted"
   ],
   "note": ""
  },
  {
   "property": "C31",
   "status": "proved",
   "theorems": [
    "C31_queue_never_overflows",
    "C31_known_files",
    "C31_at_any_moment",
    "C31_can_succeed",
    "C31_read_by_the_builder",
    "C31_workers_finish",
    "C31_no_threads_refuted",
    "C31_lost_flush_refuted"
   ],
   "note": ""
  },
  {
   "property": "C32",
   "status": "proved",
   "theorems": [
    "C32_table_exact",
    "C32_save_load",
    "C32_load",
    "C32_flag_depends_on_order_refuted"
   ],
   "note": "PEM and JSON coding are oracles that preserve the fields used."
  },
  {
   "property": "C33",
   "status": "proved",
   "theorems": [
    "C33_merge_is_union",
    "C33_load_exact",
    "C33_missing_column",
    "C33_repeated_certificate_refuted"
   ],
   "note": "Certificate parsing and chain building are oracles; the text of the CSV is C79."
  },
  {
   "property": "C54",
   "status": "proved",
   "theorems": [
    "C54_reads_the_array",
    "C54_only_web_urls",
    "C54_comma_refuted",
    "C54_silent_drop_refuted"
   ],
   "note": "url.Parse is an oracle; white space outside ASCII is not modelled."
  },
  {
   "property": "C34",
   "status": "proved",
   "theorems": [
    "C34_revoked_set_and_delta",
    "C34_output"
   ],
   "note": "For directories written by aggregate-known and aggregate-crls."
  },
  {
   "property": "C35",
   "status": "proved",
   "theorems": [
    "C35_nothing_is_lost",
    "C35_nothing_is_invented",
    "C35_priority_channel_refuted"
   ],
   "note": "Includes the priority channel failure named in the statement."
  },
  {
   "property": "C36",
   "status": "proved",
   "theorems": [
    "C36_stash_is_readable",
    "C36_stash_of_a_run",
    "C36_stash_output",
    "C36_long_serial_refuted"
   ],
   "note": ""
  },
  {
   "property": "C37",
   "status": "proved",
   "theorems": [
    "C37_cascade_counts",
    "C37_clubcard_counts",
    "C37_keys_given",
    "C37_histogram_refuted"
   ],
   "note": ""
  },
  {
   "property": "C38",
   "status": "proved",
   "theorems": [
    "C38_written_filter_is_checked",
    "C38_checked_line_by_line",
    "C38_filter_is_exact",
    "C38_run_is_exact"
   ],
   "note": "The filter libraries are arbitrary functions, faulty ones included."
  },
  {
   "property": "C39",
   "status": "proved",
   "theorems": [
    "C39_set_selects",
    "C39_sets_by_code",
    "C39_reads_what_was_written",
    "C39_reads_exactly",
    "C39_torn",
    "C39_torn_refuted"
   ],
   "note": ""
  },
  {
   "property": "C40",
   "status": "proved",
   "theorems": [
    "C40_verdict",
    "C40_order_irrelevant",
    "C40_more_filters",
    "C40_intermediates",
    "C40_load"
   ],
   "note": "The filter library, certificate parsing and signature verification are oracles."
  },
  {
   "property": "C41",
   "status": "proved",
   "theorems": [
    "C41_files",
    "C41_hosts",
    "C41_other_commands"
   ],
   "note": ""
  },
  {
   "property": "C42",
   "status": "proved",
   "theorems": [
    "C42_updated",
    "C42_retry",
    "C42_same_name_refuted",
    "C42_failed_update_refuted"
   ],
   "note": "Includes the failures named in the statement."
  },
  {
   "property": "C57",
   "status": "proved",
   "theorems": [
    "C57_newest_run"
   ],
   "note": ""
  },
  {
   "property": "C43",
   "status": "proved",
   "theorems": [
    "C43_accepts",
    "C43_channel",
    "C43_rejects",
    "C43_one_full",
    "C43_names",
    "C43_names_tell"
   ],
   "note": ""
  },
  {
   "property": "C44",
   "status": "proved",
   "theorems": [
    "C44_incremental",
    "C44_full",
    "C44_decided",
    "C44_age",
    "C44_age_refuted"
   ],
   "note": "Run identifiers of the bucket are assumed strictly increasing, which C49 gives for numbers below one million without leading zeros."
  },
  {
   "property": "C49",
   "status": "proved",
   "theorems": [
    "C49_identifiers",
    "C49_sorted",
    "C49_fresh",
    "C49_no_gaps",
    "C49_many_runs_refuted",
    "C49_later_date_refuted"
   ],
   "note": "Includes the failures named in the statement."
  },
  {
   "property": "C45",
   "status": "proved",
   "theorems": [
    "C45_accepted_is_sound",
    "C45_recovers",
    "C45_other_channels",
    "C45_all_channels",
    "C45_dry_run",
    "C45_review_refuted",
    "C45_configured"
   ],
   "note": "Includes the failure named in the statement. Each call to the server is atomic, and only one publisher writes to a channel at a time."
  },
  {
   "property": "C46",
   "status": "proved",
   "theorems": [
    "C46_synchronised",
    "C46_any_faults",
    "C46_enrolment_kept",
    "C46_refused",
    "C46_dry_run",
    "C46_review_refuted"
   ],
   "note": "After a run in which no call fails the collection describes exactly the listed logs with the enrolment they had; under any failures enrolment of listed logs is kept, over any number of runs. C46_review_refuted: failed calls are only logged and the review is requested anyway."
  },
  {
   "property": "C47",
   "status": "proved",
   "theorems": [
    "C47_reviewed_is_exact",
    "C47_stays_published",
    "C47_repairs",
    "C47_stays_over_runs",
    "C47_dry_run",
    "C47_never_updates",
    "C47_empty_hash_refuted",
    "C47_bad_file_refuted"
   ],
   "note": "Certificate parsing is an oracle that gives 32-byte hashes; downloads of attachments are part of a listing. Includes the weaknesses named in the statement."
  },
  {
   "property": "C48",
   "status": "proved",
   "theorems": [
    "C48_options",
    "C48_determined",
    "C48_texts_mean_one_value",
    "C48_malformed_refuted"
   ],
   "note": "The value syntax of the configuration file belongs to the ini library and is an oracle; that of environment variables is modelled and specified. C48_malformed_refuted: a malformed environment value is silently skipped."
  },
  {
   "property": "C50",
   "status": "proved",
   "theorems": [
    "C50_enrolled_set",
    "C50_one_start_per_enrolment",
    "C50_only_enrolled_logs",
    "C50_waits_for_downloads",
    "C50_never_stuck",
    "C50_one_shot_terminates",
    "C50_one_shot_serves_all",
    "C50_forever_keeps_downloading",
    "C50_ended_loop_is_not_restarted",
    "C50_exits_too_early_refuted",
    "C50_panic_refuted",
    "C50_two_loops_refuted",
    "C50_delisted_refuted",
    "C50_error_is_final_refuted"
   ],
   "note": "Small-step model of the goroutines of ct-fetch; a job is one step with an arbitrary outcome. The witnesses are executions of the model."
  },
  {
   "property": "C51",
   "status": "proved",
   "theorems": [
    "C51_filter",
    "C51_verdict",
    "C51_from_storage",
    "C51_from_coverage",
    "C51_all_processes"
   ],
   "note": "Composition of the models of ct-fetch's storage (commit model), aggregate-known, aggregate-crls, rust-create-cascade and rust-query-crlite. The filter library is a parameter: assumed only that inside its range it answers by the membership test the builder checks (libraryAnswers). aggregate-known reads a storage snapshot. C51_all_processes is the same for any number of ct-fetch processes and for any interleaving of the workers of aggregate-crls, started with an empty directory of revocations for the issuer. C51_example and C51_all_processes_example instantiate every hypothesis."
  },
  {
   "property": "C58",
   "status": "proved",
   "theorems": [
    "C58_attempt",
    "C58_attempt_exclusive",
    "C58_request",
    "C58_download",
    "C58_cancelled_refuted",
    "C58_never_continued_refuted"
   ],
   "note": "The server, the connection and local failures are arbitrary. The values of request headers are not modelled, their names are. C58_never_continued_refuted is stated for every file, every cut and every number of retries."
  },
  {
   "property": "C59",
   "status": "proved",
   "theorems": [
    "C59_whole",
    "C59_unchanged",
    "C59_completes",
    "C59_success",
    "C59_priority_refuted",
    "C59_blocked_refuted"
   ],
   "note": "Pipeline runs do not overlap; old runs are deleted oldest first. C59_completes assumes that the builder succeeds on the inputs. The two refutations are stated for a toy filter library."
  },
  {
   "property": "C60",
   "status": "proved",
   "theorems": [
    "C60_delta",
    "C60_stash",
    "C60_difference"
   ],
   "note": "The filter library is arbitrary; that its filters answer correctly is what the builder checks before it writes them (C38). HashSet iteration and directory listing are arbitrary permutations."
  },
  {
   "property": "C61",
   "status": "proved",
   "theorems": [
    "C61_nothing_is_lost",
    "C61_nothing_is_invented",
    "C61_up_to_date"
   ],
   "note": "The channel is one that publishes the all filters. The bucket does not change during one publisher run. C61_up_to_date assumes that every completed run has an update file."
  },
  {
   "property": "C62",
   "status": "proved",
   "theorems": [
    "C62_one_job",
    "C62_catches_up"
   ],
   "note": "What the client library yields when it leaves out a partial tile is a hypothesis (yields); entry 0 of a new log is the exception refuted under C11."
  },
  {
   "property": "C63",
   "status": "proved",
   "theorems": [
    "C63_signed_as_reviewed",
    "C63_once",
    "C63_exit",
    "C63_as_seen",
    "C63_records",
    "C63_signs",
    "C63_nothing_to_do"
   ],
   "note": "What is assumed of the server is the Kinto protocol (If-Match, last_modified grows), said at the head of SignoffModel.v."
  },
  {
   "property": "C64",
   "status": "proved",
   "theorems": [
    "C64_size_guard",
    "C64_unknown_bucket",
    "C64_tool_start",
    "C64_tool_status",
    "C64_no_filter_refuted"
   ],
   "note": "The refutation says that a missing filter passes the guard."
  },
  {
   "property": "C65",
   "status": "proved",
   "theorems": [
    "C65_starts",
    "C65_keeps",
    "C65_fresh",
    "C65_complete",
    "C65_status",
    "C65_refusal_adds_nothing",
    "C65_reasons_refuted",
    "C65_refused_refuted",
    "C65_blocked_refuted"
   ],
   "note": "The contents of the files are the business of C34-C39."
  },
  {
   "property": "C66",
   "status": "proved",
   "theorems": [
    "C66_like_a_set",
    "C66_first_removal",
    "C66_removal_refuted",
    "C66_duplicate_refuted",
    "C66_expired_refuted"
   ],
   "note": "The claim holds up to the first removal and before expiry; the refutations show that it ends there."
  },
  {
   "property": "C67",
   "status": "proved",
   "theorems": [
    "C67_local",
    "C67_success",
    "C67_failure",
    "C67_renews",
    "C67_truncated_refuted",
    "C67_stuck_refuted"
   ],
   "note": "The CSV reader and the certificate parser are arbitrary (C33 says what the table holds)."
  },
  {
   "property": "C68",
   "status": "proved",
   "theorems": [
    "C68_always_safe",
    "C68_one_after_the_other",
    "C68_no_infinite_run",
    "C68_ends",
    "C68_all_written",
    "C68_list_of_issuers",
    "C68_no_threads_refuted",
    "C68_cancelled_refuted",
    "C68_half_written_refuted"
   ],
   "note": "What a download sees is chosen when it begins; nobody else writes to the directories."
  },
  {
   "property": "C69",
   "status": "proved",
   "theorems": [
    "C69_one_at_a_time",
    "C69_known_never_lost",
    "C69_coverage_never_outruns_storage",
    "C69_acts_as_one",
    "C69_storage_invents_nothing",
    "C69_restart_alone",
    "C69_restart_restores",
    "C69_restart_possible",
    "C69_restart_race_refuted",
    "C69_slow_commit_refuted",
    "C69_release_refuted"
   ],
   "note": "The cache is not lost (C22); tokens differ; the clocks of machine and Redis agree."
  },
  {
   "property": "C70",
   "status": "proved",
   "theorems": [
    "C70_complete",
    "C70_nothing_else",
    "C70_one_moment",
    "C70_reads_all",
    "C70_verdict",
    "C70_slow_run_refuted"
   ],
   "note": "The cache is not lost (C22); a serial file is read in one step."
  },
  {
   "property": "C71",
   "status": "proved",
   "theorems": [
    "C71_reason_table",
    "C71_adds_up",
    "C71_columns_refuted"
   ],
   "note": "The columns need not add up to the revoked certificates: four reasons have no column."
  },
  {
   "property": "C72",
   "status": "proved",
   "theorems": [
    "C72_entries_are_true",
    "C72_counts_add_up",
    "C72_written_not_failed",
    "C72_old_is_reported",
    "C72_wrong_point_is_reported",
    "C72_all_workers",
    "C72_failure_means_missing_refuted"
   ],
   "note": "Entries by kind, issuer, URL, number of revocations and the contents the checksum is of; the JSON text and the times are not modelled."
  },
  {
   "property": "C73",
   "status": "proved",
   "theorems": [
    "C73_ok_means",
    "C73_alarm_means",
    "C73_too_early",
    "C73_progress_refuted",
    "C73_storing_refuted",
    "C73_overflow_refuted"
   ],
   "note": "Durations stay below 2^63 ns (refuted beyond); the ticker fires on time."
  },
  {
   "property": "C74",
   "status": "proved",
   "theorems": [
    "C74_decoding",
    "C74_saved_range",
    "C74_logs_own_certificate",
    "C74_issuer_refuted",
    "C74_precertificate_refuted",
    "C74_dropped_refuted"
   ],
   "note": "The parser of certificates is any function; JSON and base64 of the answers are not modelled."
  },
  {
   "property": "C75",
   "status": "proved",
   "theorems": [
    "C75_one_table",
    "C75_honest_log",
    "C75_requests",
    "C75_same_jobs",
    "C75_wrong_issuer_refuted"
   ],
   "note": "The iterator over tiles and its verification belong to the sunlight library."
  },
  {
   "property": "C76",
   "status": "proved",
   "theorems": [
    "C76_certificate",
    "C76_crl",
    "C76_matched",
    "C76_number_refuted"
   ],
   "note": "The decoder is that of Go's encoding/asn1, which is not in the repository and is modelled after its published source; which texts are dates is arbitrary."
  },
  {
   "property": "C77",
   "status": "proved",
   "theorems": [
    "C77_accepts_state",
    "C77_accepts_states",
    "C77_accepts_issuers",
    "C77_reads_state",
    "C77_reads_states",
    "C77_reads_issuers",
    "C77_writes_state",
    "C77_refuses",
    "C77_state",
    "C77_states",
    "C77_issuers",
    "C77_state_utf8",
    "C77_issuer_utf8",
    "C77_round_trip",
    "C77_issuers_file",
    "C77_cut_short",
    "C77_not_utf8_refuted"
   ],
   "note": "encoding/json and the text of times are Go's, modelled after the published source; strings must be UTF-8, and the refutation shows why."
  },
  {
   "property": "C78",
   "status": "proved",
   "theorems": [
    "C78_reads",
    "C78_writes",
    "C78_ascii",
    "C78_round_trip",
    "C78_accepts",
    "C78_refuses",
    "C78_fuel",
    "C78_characters",
    "C78_issuers_file"
   ],
   "note": "encoding/pem and encoding/base64 are Go's, modelled after the published source; the parser of certificates is arbitrary."
  },
  {
   "property": "C79",
   "status": "proved",
   "theorems": [
    "C79_reads",
    "C79_fuel",
    "C79_writes",
    "C79_accepts",
    "C79_report",
    "C79_odd_quotes",
    "C79_cut_short",
    "C79_cut_at_line_refuted",
    "C79_cut_in_cell_refuted"
   ],
   "note": "encoding/csv is Go's, modelled after the published source; certificate parsing and chain building are arbitrary. A report cut at the end of a line, or between two quotes of its last cell, is accepted (refuted)."
  },
  {
   "property": "C80",
   "status": "proved",
   "theorems": [
    "C80_reads_file",
    "C80_reads_cache",
    "C80_file",
    "C80_cut",
    "C80_cache",
    "C80_check",
    "C80_finish",
    "C80_done",
    "C80_error",
    "C80_success",
    "C80_lost_answer_refuted",
    "C80_restart",
    "C80_unreadable",
    "C80_history",
    "C80_loss",
    "C80_counts",
    "C80_flush_refuted"
   ],
   "note": "Redis' INCR is modelled after its source. The log states that belong to the epochs are C22's and C69's. A write error of the epoch file is ignored by the code; with it a later loss of the cache goes unnoticed (refuted)."
  },
  {
   "property": "C81",
   "status": "proved",
   "theorems": [
    "C81_address",
    "C81_attributed",
    "C81_items",
    "C81_bad_id",
    "C81_ids",
    "C81_key",
    "C81_addresses",
    "C81_key_unique_refuted",
    "C81_reused_address_refuted",
    "C81_kind_refuted"
   ],
   "note": "Jobs follow one another here; interleaving is C07's and C08's. Index 0 is excepted as in C05 and C11. The code replaces the id of a saved state by the listed one without discarding the progress; the claim is refuted when an address changes hands or kind."
  },
  {
   "property": "C82",
   "status": "proved",
   "theorems": [
    "C82_dry_run",
    "C82_logs_first",
    "C82_blocked",
    "C82_filters_before_intermediates",
    "C82_success",
    "C82_complete",
    "C82_over_runs",
    "C82_same_run_refuted",
    "C82_reviewed_refuted"
   ],
   "note": "The stages are those of C45-C47. Two expectations that do not hold are refuted: one run for filters and intermediates, and a review of the final state of the filters."
  },
  {
   "property": "C83",
   "status": "proved",
   "theorems": [
    "C83_repeat",
    "C83_unsent",
    "C83_inserted",
    "C83_removed",
    "C83_batch",
    "C83_batch_only",
    "C83_epoch",
    "C83_epoch_commit",
    "C83_epoch_refuted",
    "C83_lock",
    "C83_lock_asked",
    "C83_orphan_refuted",
    "C83_look",
    "C83_release",
    "C83_release_refuted"
   ],
   "note": "The retry policy of go-redis and the commands of Redis are modelled after their published sources. EXPIREAT is treated in batches only. Three expectations about repeated INCR, SETNX and DEL are refuted."
  },
  {
   "property": "C84",
   "status": "proved",
   "theorems": [
    "C84_reported",
    "C84_nothing_is_invented",
    "C84_up_to_date",
    "C84_reported_refuted"
   ],
   "note": "Over the model of C59-C61, for the channel with the priority filters. That every revocation is reported, without the exception, is refuted by a run of pipeline and publisher."
  },
  {
   "property": "C85",
   "status": "proved",
   "theorems": [
    "C85_outcome",
    "C85_ends",
    "C85_gets",
    "C85_leaves",
    "C85_alone_refuted"
   ],
   "note": "On top of the server and client of C83. That a run which is alone gets the lock when one answer is lost is refuted."
  },
  {
   "property": "C86",
   "status": "proved",
   "theorems": [
    "C86_same_answers",
    "C86_time_refuted",
    "C86_slash_refuted",
    "C86_restore_refuted"
   ],
   "note": "One client at a time. The sets of serials are C66's."
  },
  {
   "property": "C87",
   "status": "proved",
   "theorems": [
    "C87_whole_or_nothing",
    "C87_reported_refuted"
   ],
   "note": "With the JSON and PEM texts of C77 and C78; the parser of certificates is arbitrary but reads what a certificate was made from. That reported success means a saved table is refuted."
  },
  {
   "property": "C88",
   "status": "proved",
   "theorems": [
    "C88_cleared",
    "C88_two_runs",
    "C68_all_written",
    "C88_one_run_refuted"
   ],
   "note": "On the concurrent system of C68. C68_all_written is the statement for one run, with the condition on files left behind. Directories can be made and files removed (cleans). That one run suffices without the condition is refuted."
  }
 ]
}