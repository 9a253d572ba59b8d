# Formal model of mozilla/crlite in Rocq (Coq 8.16.1)

The properties are in `properties.jsonl` (C01 and so on). `MANIFEST.json` maps each
property to theorem names. `seeded/LOG.jsonl` records the wrong programs the
theorems were tried against. This file says what is modelled (section 3), how each
property is proved (section 4), where the code fails the property one would expect
(section 5), and what is trusted (section 6).

## 1. Layout

```
rocq/theories/
  Base.v           shared definitions: byte strings, association lists, sorting
  <Area>Model.v    Gallina definitions that follow the code function by function;
                   every definition cites the file and lines it models
  MerkleSpec.v     RFC 6962 tree hash and proofs, written from the RFC
  <Area>Proofs*.v  lemmas, and specifications shared by several property files
  P_<Area>.v       the property theorems, with the specification each of them uses,
                   a concrete Example that meets its hypotheses beside it, and
                   Print Assumptions beneath it
```

Only the Coq standard library is used. Build: `cd rocq && coq_makefile -f
_CoqProject -o Makefile && make -j4` (about two minutes).

A theorem whose name ends in `_refuted` gives a witness: an input or an execution
of the faithful model for which the stronger claim one would expect is false. The
property statement then says what holds instead, and names the exception.

## 2. Modelling conventions

- A byte string (Go `[]byte` and `string`, Rust `&[u8]` and `str`, Python `str`) is
  `bytes`, that is `list Byte.byte`. Texts are taken to be ASCII where the code
  looks at characters.
- `uint64` is `N` with an explicit `mod 2^64` wherever the code could wrap. Signed
  numbers and instants are `Z`. `nat` is used for lengths, indexes and fuel only.
- Go errors and panics, Rust panics and Python exceptions are values (`Err`,
  `Panic`, `Exc e`). Nothing is assumed to succeed.
- What is outside the program (Redis, file system, HTTP, the Kinto server, the
  clock, certificate parsing, signature checks, SHA-256, the filter library) is a
  section variable or an explicit script of outcomes, and the theorems quantify
  over it. No hypothesis is put on such a variable unless the theorem says so;
  then an Example instantiates it.
- Goroutines, other processes and crashes are step relations. A crash is the end
  of a run after any prefix of its effects.
- Loops with a bound are structural. Loops without one take fuel, and running out
  of fuel is a value of its own, which theorems either exclude or speak about.
- Log messages, metrics, tracing and progress bars are modelled nowhere.

## 3. What is modelled, by file

| file in /repo | modelled | not modelled |
|---|---|---|
| go/cmd/ct-fetch/rfc6962.go | verifier, proof to subtrees, task choice, job ranges, download loop, store loop, state update, worker (`MerkleModel`, `CtFetchModel`); decoding of leaf and extra data (`LeafModel`) | JSON and base64 of the answers; signature of the tree head |
| go/cmd/ct-fetch/tiled.go | worker: range, loop over entries, state update (`CtFetchModel`); issuers' cache and requests (`TiledIssuerModel`) | tile fetching and the tile verification done by the sunlight library |
| go/cmd/ct-fetch/ct-fetch.go | insert workers, queue, cancellation, restarts (`CtSystem`); enrolment, download loops, start and stop (`EnrolModel`); health report (`HealthModel`) | flags, the HTTP server itself |
| go/storage/certdatabase.go | the whole commit with its goroutines, epochs, cleaning, listing, log states, migration (`CommitModel`, `StoreModel`); the text of the epochs and failures while they are written (`EpochModel`) | backends other than local disk |
| go/storage/rediscache.go | keys, batches, scans, lock, expiry, restore (`StoreModel`, `CommitModel`, `CommitSystem`), repeated commands (`RetryModel`) | connection handling |
| go/storage/types.go, go/types.go | serials, cache entries, coverage, expiry dates, keys, IDP check, CRL maps (`SerialModel`, `TimeModel`, `StoreModel`, `AggModel`, `IssuersModel`); decoding of serials and CRLs (`DerModel`); JSON of log states (`JsonModel`); log ids (`IdentityModel`) | the text of dates in DER |
| go/storage/localdisk.go | as files with atomic replacement by rename (`CommitModel`, `StoreModel`) | permissions |
| go/downloader/*.go | both downloaders, one attempt and the retry loop, byte by byte (`AggModel`) | TLS and redirects; header values, only their names |
| go/cmd/commit/commit.go | lock, commit, release, death at any moment (`CommitSystem`) | flags |
| go/cmd/aggregate-crls/aggregate-crls.go | download, verification, aggregation, audit entries by kind, URL, number and contents (`AggModel`); workers, signal and death at any moment (`AggSystem`) | audit JSON text, statistics |
| go/cmd/aggregate-known/aggregate-known.go | queue, workers, signal, end (`KnownModel`); log list, listing and reading beside other processes (`KnownSystem`); waiting for the lock (`WaitModel`) | flags |
| go/rootprogram/issuers.go | report loading, table, save, load, URL decoding (`IssuersModel`); the text of the report (`CsvModel`); its JSON (`JsonModel`) and PEM text (`PemModel`); which source is used when (`LoadModel`); failures while it is saved (`SaveModel`) | certificate parsing |
| go/config/config.go | all options and their three sources (`ConfigModel`) | how the file is found; the ini library's own syntax |
| rust-create-cascade/src/*.rs | readers, reason sets, counts, both filter types, revset, delta, stash, check of the result (`FilterModel`, `SerialModel`); the table of reasons (`ReasonCsvModel`); the checks at the start and the output directory (`BuildStartModel`) | argument parsing; floating point statistics; the filter libraries (arbitrary functions) |
| rust-query-crlite/src/main.rs | queries, exit codes, update of the database, intermediates (`QueryModel`) | clap, log output; the filter library's reader |
| workflow/__init__.py, 0-allocate_identifier | run identifiers (`PublishModel`) | |
| workflow/1-, 2-, 3- and containers/scripts/crlite-generate.sh | a whole run: identifier, directory, uploads, builds, marker (`PipelineModel`), how the runs are chained (`FilterModel`) | --noop, statistics, tar, links that are inputs |
| moz_kinto_publisher/main.py | filters, CT logs, intermediates, client and review protocol (`RemoteModel`, `PublishModel`, `CtlogsModel`, `IntermediatesModel`), the whole run (`PublishMainModel`) | Sentry, argument parsing, expiry statistics |
| go/storage/mockcache.go | the sets and their expiry (`MockModel`); log states, lock and epoch (`MetaModel`) | |
| containers/scripts/crlite-signoff.sh, crlite-signoff-tool.py | the tool beside publishers and people, the script's decisions (`SignoffModel`) | statistics |
| everything else (telemetry, engine.go, get-mozilla-issuers, auditors' reports, docker files) | no | wiring and reports |

Details and simplifications are in the comment at the head of each model file and at
each definition.

## 4. The properties

### C01 Merkle subtree verifier accepts exactly the genuine leaves

- Model: `SubtreeVerifier.Consume` and `CheckClaim` as a fold over a stack of partial roots (`MerkleModel`). Specification: RFC 6962 tree hash `MTH` over leaf lists (`MerkleSpec`).
- Proof: Invariant: the stack holds the roots of the binary decomposition of the leaves read so far; by induction on the leaves. The equivalence is proved for every hash function.
- Theorems: `C01_verifier_exact`, `C01_verifier_exact_any_hash`, `C01_verifier_never_panics` (proved)

### C02 Two different downloads that verify against one root give a hash collision

- Model: As C01.
- Proof: A pair of different byte strings with equal hash is extracted by induction on the tree.
- Limits: Collision resistance itself is not a statement of the model; the theorem is the reduction.
- Theorems: `C02_binding` (proved)

### C03 Subtrees obtained from a consistency proof cover a job exactly once

- Model: `consistencyProofToSubtrees` as a fuelled loop with the filter of `Run`.
- Proof: Induction on the loop with a tiling predicate on intervals; fuel is shown sufficient for 64-bit sizes.
- Theorems: `C03_job_covered_exactly_once`, `C03_every_index_in_exactly_one_verifier`, `C03_no_straddle` (proved)

### C04 An honest log always passes verification

- Model: As C03. Specification: `PROOF` and `SUBPROOF` of RFC 6962.
- Proof: The loop and `SUBPROOF` follow the same path; compared term by term.
- Theorems: `C04_honest_log_accepted`, `C04_proof_exists`, `C04_wrong_length_rejected` (proved)

### C05 Job selection: range bounds and no wrap-around

- Model: Task choice and job bounds with explicit `mod 2^64`.
- Proof: Case analysis and linear arithmetic.
- Limits: For Backfill the tree must not have shrunk below MinEntry.
- Theorems: `C05_job_range`, `C05_sleep_means_nothing_to_do`, `C05_job_never_panics` (proved)

### C06 Saved log range never claims an entry that was not downloaded and verified

- Model: The worker as a function to a trace of events; jobs and restarts as a transition system (`CtSystem`).
- Proof: Invariant over all histories.
- Limits: Fails when the first tree head has one entry (`C06_single_entry_log_refuted`).
- Theorems: `C06_one_job`, `C06_saved_range_verified`, `C06_saved_range_verified_but_zero`, `C06_single_entry_log_refuted`, `C06_entries_are_the_logs_own` (proved)

### C07 A log state is saved only after every entry queued before it was stored

- Model: Insert worker as a state machine whose store calls may fail at any time.
- Proof: Invariant: a state event is saved only after the events before it.
- Theorems: `C07_state_saved_only_after_stores`, `C07_batches` (proved)

### C08 End to end: every entry in a saved range is in the cache or was legitimately skipped

- Model: C06 and C07 in one system.
- Proof: Product invariant. The job that handled an entry is an element of the recorded history.
- Limits: Index 0 as the statement says.
- Theorems: `C08_saved_range_stored`, `C08_entry_zero_stored`, `C11_entry_zero_refuted`, `C06_single_entry_log_refuted` (proved)

### C09 Saved timestamps bound the timestamps of the covered entries

- Model: The four fields of the saved state.
- Proof: Invariant over histories.
- Limits: That MinTimestamp is the exact minimum is refuted.
- Theorems: `C09_timestamps_bound`, `C09_max_timestamp_bounds`, `C09_max_timestamp_source`, `C09_max_timestamp_source_tiled`, `C09_min_timestamp_source`, `C09_min_timestamp_refuted`, `C09_zero_timestamp_refuted` (proved)

### C10 Backfill makes progress until the whole log is covered

- Model: Jobs one after the other against an honest log (`CtFetchLive`).
- Proof: Exact count of the jobs by a measure; for growing logs the measure still falls by one with each job, or a potential by JobSize minus the growth; refutations for all environments where the side conditions fail.
- Limits: The exact counts are for a log that does not grow; for a growing one they are upper bounds, from a saved range on.
- Theorems: `C10_backfill_completes`, `C10_resumed_backfill_completes`, `C10_honest_jobs_exist`, `C10_growing_log_catches_up`, `C10_growing_log_backfill_completes`, `C10_unlucky_size_refuted`, `C10_small_range_never_completes_refuted`, `C10_fast_log_starves_backfill_refuted` (proved)

### C11 Tiled log worker: saved range grows only by stored entries

- Model: `tiled.go` worker.
- Proof: Invariant over histories.
- Limits: Entry 0 (refuted).
- Theorems: `C11_tiled_range_grows_by_stored_entries`, `C11_stops_at_failing_entry`, `C11_entry_zero_refuted` (proved)

### C12 The range downloader emits exactly the requested entries in order

- Model: Download loop against arbitrary answers.
- Proof: Induction on the list of answers.
- Limits: Surplus entries of an overlong answer are handed on (refuted), then caught by C01.
- Theorems: `C12_download_in_order`, `C12_overlong_response_refuted` (proved)

### C13 Cached certificate entries decode to what was stored, and the coverage decision is exact

- Model: Cache entry codec and `covered` on byte lists.
- Proof: Computation on `firstn` and `skipn`; little-endian lemmas.
- Limits: Legacy serials of 40 bytes or more are misread (refuted).
- Theorems: `C13_entry_decodes`, `C13_covered_iff`, `C13_legacy_entries`, `C13_long_legacy_serial_refuted` (proved)

### C14 Coverage cutoff is the last timestamp minus the maximum merge delay

- Model: Cutoff arithmetic with wrap, map as association list.
- Proof: Linear arithmetic.
- Limits: Exact if 1000 times the delay fits in 64 bits; the wrap is refuted.
- Theorems: `C14_cutoff`, `C14_never_later`, `C14_map`, `C14_huge_mmd_refuted` (proved)

### C15 Serial lists are deduplicated without losing a serial

- Model: In-place `Dedup` after a sort.
- Proof: Induction on sorted lists.
- Theorems: `C15_dedup`, `C15_dedup_canonical`, `C15_order` (proved)

### C16 Serial list files round-trip between the Go writers and the Go and Rust readers

- Model: The writer, the Go reader and the Rust reader on byte lists. The two readers split lines differently: Go drops a carriage return at the end of every line, Rust only before a newline. Specification in P_SerialFile.v: `linesOf`, `hexNumber`, `dated`, `tornOff`.
- Proof: Line splitting lemmas, hexadecimal round trip. Exact readers: `C16_reads_exactly`, `C16_rust_reads_exactly` by induction over the data. Torn files: induction over the written lists.
- Limits: Expiry before 1970 (refuted). That the Rust reader stops at bytes that are not UTF-8 is not modelled.
- Theorems: `C16_go_roundtrip`, `C16_wrong_bin_refused`, `C16_rust_roundtrip`, `C16_negative_expiry_refuted`, `C16_reads_exactly`, `C16_torn`, `C16_torn_refuted`, `C16_rust_reads_exactly`, `C16_rust_torn`, `C16_rust_torn_refuted` (proved)

### C17 Expiry bins round-trip and never expire a valid certificate

- Model: Civil calendar, truncation, the two layouts of package time.
- Proof: Calendar round trip by arithmetic over 400-year cycles.
- Limits: Years 0 to 9999.
- Theorems: `C17_id_roundtrip`, `C17_day_id_roundtrip`, `C17_same_bin_iff_same_hour`, `C17_valid_cert_bin_not_expired`, `C17_expired_bin_is_over`, `C17_expired_iff`, `C17_parses_only`, `C17_unparsed_bin_refuted` (proved)

### C18 Commit is crash safe: coverage never outruns stored serials

- Model: Commit as small steps, one goroutine per bin, interleaved with other processes; crash anywhere (`CommitModel`).
- Proof: Invariant preserved by every step.
- Limits: Cache loss followed by a restore (refuted).
- Theorems: `C18_coverage_never_outruns_storage`, `C18_storage_invents_nothing`, `C18_cache_loss_refuted` (proved)

### C19 No known serial is ever lost

- Model: As C18.
- Proof: Invariant over histories.
- Limits: The expiry hour; repeated keys in a listing (both refuted).
- Theorems: `C19_known_never_lost`, `C19_last_hour_refuted`, `C19_repeated_key_refuted` (proved)

### C20 A commit interrupted anywhere can be retried

- Model: As C18, a second commit after any prefix.
- Proof: Both ends are shown equal to a specified state; existence of the run by construction.
- Limits: Nothing else runs during the retry.
- Theorems: `C20_retry`, `C20_commit_result`, `C20_commit_possible`, `C20_crash_between_epochs` (proved)

### C21 A refused commit changes nothing

- Model: The guards of a commit.
- Proof: Case analysis, for all states.
- Theorems: `C21_refused_iff`, `C21_refused_changes_nothing` (proved)

### C22 Epoch protocol: stale caches are detected

- Model: Epoch counters over histories with losses and restores.
- Proof: Invariant.
- Limits: The very first commit (refuted). The check of ct-fetch and the restoration are one step here; a check that overlaps a commit is in C69.
- Theorems: `C22_epochs`, `C22_loss_needs_restore`, `C22_first_commit_refuted` (proved)

### C23 Commit lock: at most one holder, only the holder can release

- Model: Lock with expiry; release as two commands.
- Proof: Invariant; refuting trace for the split release.
- Theorems: `C23_exclusive`, `C23_free_lock_granted`, `C23_interleaved_release`, `C23_release_race_refuted`, `C23_commit_holds_lock` (proved)

### C24 Batched cache operations process each element exactly once

- Model: Batch loops with failures.
- Proof: Induction on the length, any batch size.
- Theorems: `C24_remove_batches`, `C24_move_rounds`, `C24_insert_many` (proved)

### C25 Grouping of keys by issuer loses and invents nothing

- Model: Grouping of a key stream.
- Proof: Induction on the stream.
- Theorems: `C25_grouping`, `C25_malformed_key_fails`, `C25_bins_listed` (proved)

### C26 Different (issuer, expiry) pairs never share a key, file or accessor

- Model: Key, file and accessor construction.
- Proof: Injectivity by unique parsing. P_Names.v gives the parts of a name (`parts`) and base64url texts as relations and shows that the splitter and encoder of the model follow them.
- Limits: Issuer identifiers are base64url texts (as the code makes them).
- Theorems: `C26_keys_injective`, `C26_key_parses`, `C26_key_parts`, `C26_issuer_names`, `C26_no_extra_components` (proved)

### C27 Log state save/load and migration

- Model: Log states under two key formats.
- Proof: Induction over the keys. New logs: invariant over the history that neither key of the log is set (`C27_new_log`). `C27_one_address` (P_Names.v) says which addresses share a state without the trimming function.
- Limits: An unreadable state counts as new (refuted).
- Theorems: `C27_save_load`, `C27_one_address`, `C27_migrate`, `C27_history`, `C27_new_log`, `C27_unreadable_state_refuted` (proved)

### C28 A verified download replaces the good file only by a file that verifies

- Model: Verifying downloader over all outcomes of its file and network operations.
- Proof: Case analysis on all branches, then induction over histories of downloads.
- Theorems: `C28_final_file_safe`, `C28_history`, `C28_honest_download`, `C28_recovery` (proved)

### C29 A revocation list is written only from the complete set of CRLs of the issuer

- Model: `aggregateCRLWorker` and the download stage. Specification: `hasCrl`, `readsAs` (P_Agg.v); the lines of a list are hexadecimal texts (`spells`, P_SerialFile.v).
- Proof: Induction over the URLs and issuers.
- Limits: A URL that does not parse (refuted). Workers on different issuers run one after the other.
- Theorems: `C29_written_is_complete`, `C29_otherwise_untouched`, `C29_fatal_is_prefix`, `C29_honest_run`, `C29_dropped_url_refuted` (proved)

### C30 CRL acceptance

- Model: Loading and verification of a CRL; CRL entries with any list of reason extensions.
- Proof: Case analysis and induction.
- Limits: Signature check is an oracle. An older CRL is accepted (refuted).
- Theorems: `C30_entries_exact`, `C30_path_holds_signed_crl`, `C30_older_crl_refuted` (proved)

### C31 aggregate-known writes exactly the unexpired known serials of in-program issuers

- Model: Workers of aggregate-known as a transition system with signal and clock.
- Proof: Invariant over all interleavings, one for runs without error and one for every moment of every run; a run that succeeds is constructed for every queue; termination by a measure.
- Limits: No thread; lost flush (both refuted).
- Theorems: `C31_queue_never_overflows`, `C31_known_files`, `C31_at_any_moment`, `C31_can_succeed`, `C31_read_by_the_builder`, `C31_workers_finish`, `C31_no_threads_refuted`, `C31_lost_flush_refuted` (proved)

### C32 Issuer list save and load round trip

- Model: Issuer table as association list, map orders arbitrary.
- Proof: Induction; permutation lemmas.
- Limits: Flag depends on the order (refuted).
- Theorems: `C32_table_exact`, `C32_save_load`, `C32_load`, `C32_flag_depends_on_order_refuted` (proved)

### C33 The CRL URLs of an issuer are the union over its certificates

- Model: CSV rows to scan maps to table.
- Proof: Induction on rows, order of the map arbitrary.
- Limits: Repeated certificate (refuted).
- Theorems: `C33_merge_is_union`, `C33_load_exact`, `C33_missing_column`, `C33_repeated_certificate_refuted` (proved)

### C34 Filter inputs: revoked set and delta

- Model: Readers, revset and delta writers on directories of files.
- Proof: Set extensionality through the two aggregation models.
- Theorems: `C34_revoked_set_and_delta`, `C34_output` (proved)

### C35 A full filter followed by its deltas reports every revocation of the last run

- Model: List of runs linked by the previous revoked set.
- Proof: Induction over runs, from C38.
- Limits: Priority channel (refuted).
- Theorems: `C35_nothing_is_lost`, `C35_nothing_is_invented`, `C35_priority_channel_refuted` (proved)

### C36 Stash files can be read back

- Model: Stash writer. Specification: a grammar of the file, as an inductive relation.
- Proof: Unique readability and completeness by induction.
- Limits: Serials of 256 bytes or more (refuted).
- Theorems: `C36_stash_is_readable`, `C36_stash_of_a_run`, `C36_stash_output`, `C36_long_serial_refuted` (proved)

### C37 Known/revoked counts are exact

- Model: Counting passes and insertion passes of both filter types.
- Proof: Induction on files.
- Limits: Histogram (refuted).
- Theorems: `C37_cascade_counts`, `C37_clubcard_counts`, `C37_keys_given`, `C37_histogram_refuted` (proved)

### C38 A filter is written only after it classified every known serial correctly

- Model: Build, serialise, read back, check; filter library arbitrary.
- Proof: The check implies the claim. `C38_checked_line_by_line` (P_RevokedFile.v) says so of arbitrary directories, with file names, lines and numbers given as relations (`names`, `linesOf`, `dated`, `chosen`, `spells`) instead of the readers of the model.
- Theorems: `C38_written_filter_is_checked`, `C38_checked_line_by_line`, `C38_filter_is_exact`, `C38_run_is_exact` (proved)

### C39 Reason sets are nested and exhaustive

- Model: Reason decoding and the line reader. Specification of readable files in P_RevokedFile.v: `linesOf`, `chosen`, `reasonFor`.
- Proof: Case analysis over bytes, induction over files; torn files by induction over the entries.
- Limits: That the Rust reader stops at bytes that are not UTF-8 is not modelled.
- Theorems: `C39_set_selects`, `C39_sets_by_code`, `C39_reads_what_was_written`, `C39_reads_exactly`, `C39_torn`, `C39_torn_refuted` (proved)

### C40 Query verdicts

- Model: Query loop and verdict type.
- Proof: Induction on the filters.
- Limits: Filter library and X.509 are oracles.
- Theorems: `C40_verdict`, `C40_order_irrelevant`, `C40_more_filters`, `C40_intermediates`, `C40_load` (proved)

### C41 Exit codes reflect the worst verdict

- Model: Exit codes of the commands.
- Proof: Induction on the list of queries.
- Theorems: `C41_files`, `C41_hosts`, `C41_other_commands` (proved)

### C42 Database updates verify digests

- Model: `update_db` over all states of the directory and failures.
- Proof: Induction on records; the retry from any directory.
- Limits: A failed update; one name twice (refuted).
- Theorems: `C42_updated`, `C42_retry`, `C42_same_name_refuted`, `C42_failed_update_refuted` (proved)

### C43 Accepted channel records form one chain

- Model: Height computation and the checks of `verify_records`.
- Proof: Pigeonhole on heights; order of the list irrelevant.
- Theorems: `C43_accepts`, `C43_channel`, `C43_rejects`, `C43_one_full`, `C43_names`, `C43_names_tell` (proved)

### C44 Publication decision keeps channels gap-free

- Model: `determine_publish` and `verify_runs`.
- Proof: Case analysis against an independent description of the decision.
- Limits: Age by text order (refuted).
- Theorems: `C44_incremental`, `C44_full`, `C44_decided`, `C44_age`, `C44_age_refuted` (proved)

### C45 Publisher recovers from a crash at any point

- Model: Publisher as an interaction tree run against a server with failing calls (`RemoteModel`).
- Proof: A weakest-precondition calculus over programs; invariant `recoverable` over histories, which remember the deleted runs.
- Limits: Each call is atomic; one publisher at a time; review after a crash (refuted).
- Theorems: `C45_accepted_is_sound`, `C45_recovers`, `C45_other_channels`, `C45_all_channels`, `C45_dry_run`, `C45_review_refuted`, `C45_configured` (proved)

### C46 CT log list synchronisation keeps every enrolment decision

- Model: `publish_ctlogs` as an interaction tree.
- Proof: As C45.
- Limits: Review despite failures (refuted).
- Theorems: `C46_synchronised`, `C46_any_faults`, `C46_enrolment_kept`, `C46_refused`, `C46_dry_run`, `C46_review_refuted` (proved)

### C47 Published intermediates are checked before a review is requested

- Model: `publish_intermediates` as an interaction tree.
- Proof: As C45.
- Limits: Empty hash, file without a marker (refuted).
- Theorems: `C47_reviewed_is_exact`, `C47_stays_published`, `C47_repairs`, `C47_stays_over_runs`, `C47_dry_run`, `C47_never_updates`, `C47_empty_hash_refuted`, `C47_bad_file_refuted` (proved)

### C48 Configuration precedence

- Model: Every option of `config.go`, its three sources and number syntax.
- Proof: Case analysis against a relation that says what a text means.
- Limits: The file's value syntax is an oracle.
- Theorems: `C48_options`, `C48_determined`, `C48_texts_mean_one_value`, `C48_malformed_refuted` (proved)

### C49 Run identifiers are fresh and ordered

- Model: Identifier texts, regular expression, sorting, allocation.
- Proof: Order lemmas on decimal texts.
- Limits: Seven-digit numbers; later dates (refuted).
- Theorems: `C49_identifiers`, `C49_sorted`, `C49_fresh`, `C49_no_gaps`, `C49_many_runs_refuted`, `C49_later_date_refuted` (proved)

### C50 Enrolled logs are downloaded, and only these

- Model: Goroutines of ct-fetch as small steps.
- Proof: Invariants; termination measure; refuting traces.
- Theorems: `C50_enrolled_set`, `C50_one_start_per_enrolment`, `C50_only_enrolled_logs`, `C50_waits_for_downloads`, `C50_never_stuck`, `C50_one_shot_terminates`, `C50_one_shot_serves_all`, `C50_forever_keeps_downloading`, `C50_ended_loop_is_not_restarted`, `C50_exits_too_early_refuted`, `C50_panic_refuted`, `C50_two_loops_refuted`, `C50_delisted_refuted`, `C50_error_is_final_refuted` (proved)

### C51 End to end: a covered certificate on its issuer CRL is reported revoked, one on none is reported good

- Model: Composition of `CommitModel`, `KnownModel`, `AggModel`, `FilterModel`, `QueryModel`; with `CommitSystem` and `AggSystem` for any number of processes and any interleaving of the CRL workers (`P_Whole.v`).
- Proof: From C18, C31, C29, C38, C40; `C51_all_processes` from C70 and C68.
- Limits: The library must answer inside its range by the membership test the builder checked.
- Theorems: `C51_filter`, `C51_verdict`, `C51_from_storage`, `C51_from_coverage`, `C51_all_processes` (proved)

### C52 Cleaning storage deletes exactly the expired bin files

- Model: Listing and cleaning of a directory tree.
- Proof: Induction on trees. `C52_removed_by_name` states the parts of a file name by the relation `parts` (P_Names.v).
- Theorems: `C52_removes_exactly_expired`, `C52_removed_by_name`, `C52_bin_file`, `C52_listing` (proved)

### C53 Local names of downloaded CRLs are safe and distinct

- Model: Local file name of a CRL URL.
- Proof: Character class lemmas; injectivity up to a truncated hash.
- Theorems: `C53_local_names` (proved)

### C54 CRL columns of the issuer report are decoded exactly

- Model: `decodeCrls`.
- Proof: Splitting lemmas against a grammar of the column.
- Limits: Commas; silently dropped URLs (refuted).
- Theorems: `C54_reads_the_array`, `C54_only_web_urls`, `C54_comma_refuted`, `C54_silent_drop_refuted` (proved)

### C55 A missing revocation list is explained in the audit

- Model: Audit entries of a run.
- Proof: Induction over the stages.
- Limits: Local faults (refuted).
- Theorems: `C55_incomplete_issuer_is_audited`, `C55_local_fault_refuted` (proved)

### C56 The check of the issuing distribution point is exact

- Model: IDP check.
- Proof: Set reasoning on lists.
- Limits: Only audited (refuted).
- Theorems: `C56_idp_exact`, `C56_only_audited_refuted` (proved)

### C57 The intermediates are those of the newest run on disk

- Model: Run of a file name, newest of a directory.
- Proof: Order lemmas.
- Theorems: `C57_newest_run` (proved)

### C58 What a download leaves behind

- Model: Download attempt with every HTTP outcome and cut.
- Proof: Case analysis; induction on the retries.
- Limits: Cancelled; never continued (refuted).
- Theorems: `C58_attempt`, `C58_attempt_exclusive`, `C58_request`, `C58_download`, `C58_cancelled_refuted`, `C58_never_continued_refuted` (proved)

### C59 A completed run in the bucket is whole

- Model: A run of crlite-generate.sh as a program of calls (`PipelineModel`), the bucket and the directory of runs as state; `reach` (`PipelineSystem`) interleaves runs, crashes and deletions.
- Proof: Invariant: every completed run has exactly the objects of one run, all identifiers are ordered (`PipelineProofs`, `PipelineSystem`).
- Limits: No overlapping runs. No priority filter; blocked day (refuted).
- Theorems: `C59_whole`, `C59_unchanged`, `C59_completes`, `C59_success`, `C59_priority_refuted`, `C59_blocked_refuted` (proved)

### C60 An update leads from the run before to its own run

- Model: As C59; `revset.bin` as bincode bytes.
- Proof: The invariant says whose revoked set the shared object holds; then C35.
- Theorems: `C60_delta`, `C60_stash`, `C60_difference` (proved)

### C61 What clients get over pipeline and publisher together

- Model: `reach` joined with publisher runs (`joint`).
- Proof: C45 for the records, C59 and C60 for their contents; induction on the chain.
- Limits: All channel; bucket fixed during a publisher run.
- Theorems: `C61_nothing_is_lost`, `C61_nothing_is_invented`, `C61_up_to_date` (proved)

### C62 The tiled log worker keeps up with a well-behaved log

- Model: [runTiled] of CtFetchModel.v. The log that behaves is described in P_TiledLive.v: the entries parse, issuers can be fetched, and the library yields all entries of full tiles, and those of the last partial tile if reading starts there.
- Proof: Induction over the entries of one read; case analysis on the task; two jobs compose.
- Limits: The client library (filippo.io/sunlight) is trusted to behave as [yields] says; [C11] treats the faults.
- Theorems: `C62_one_job`, `C62_catches_up` (proved)

### C63 Only what a review was asked for gets signed

- Model: SignoffModel.v: one collection of the server, any number of processes, people and publishers; an execution is a list of actions in any order, with faults at each request.
- Proof: Invariant over executions: a process that has read the collection at the current version has seen it up for review; a collection up for review has the review of its records at the head of its history; a process that has signed holds an old version. The history of each process by induction from the end.
- Limits: The server is assumed to follow the Kinto protocol; kinto_http's retry repeats the request on server errors only.
- Theorems: `C63_signed_as_reviewed`, `C63_once`, `C63_exit`, `C63_as_seen`, `C63_records`, `C63_signs`, `C63_nothing_to_do` (proved)

### C64 The size guard of the automatic sign-off

- Model: [toolStart] and [signoffScript] of SignoffModel.v.
- Proof: Case analysis; a witness for the missing file.
- Limits: The limit is a number and numbers fit in 64 bits.
- Theorems: `C64_size_guard`, `C64_unknown_bucket`, `C64_tool_start`, `C64_tool_status`, `C64_no_filter_refuted` (proved)

### C65 When the filter builder starts, and what becomes of earlier outputs

- Model: BuildStartModel.v: the checks of main and the writes in their order, with a panic after any of them.
- Proof: Case analysis over the checks; lookup after a list of writes by induction.
- Limits: The contents are arbitrary here.
- Theorems: `C65_starts`, `C65_keeps`, `C65_fresh`, `C65_complete`, `C65_status`, `C65_refusal_adds_nothing`, `C65_reasons_refuted`, `C65_refused_refuted`, `C65_blocked_refuted` (proved)

### C66 The in-memory cache behaves like a set while nothing is removed

- Model: MockModel.v: the sets of strings with sort.Search as in CtFetchModel.v.
- Proof: Invariant over histories: each set is a strictly increasing list of what was stored; binary search is exact in such a list.
- Limits: Log states, lock and epoch of the stand-in are C86's.
- Theorems: `C66_like_a_set`, `C66_first_removal`, `C66_removal_refuted`, `C66_duplicate_refuted`, `C66_expired_refuted` (proved)

### C67 Where the list of issuers of a run comes from

- Model: LoadModel.v: [load] on top of [downloadFileSync] of AggModel.v; the witnesses use [loadFromDisk] of IssuersModel.v with a toy CSV.
- Proof: From C58 by case analysis.
- Limits: A file dated at Go's zero time is left out.
- Theorems: `C67_local`, `C67_success`, `C67_failure`, `C67_renews`, `C67_truncated_refuted`, `C67_stuck_refuted` (proved)

### C68 The workers of the CRL aggregation do not disturb each other

- Model: AggSystem.v: a transition system over the queue, any number of fetch and aggregation workers, the disk, the revocation directory and a signal. Each change of a file is a step.
- Proof: Inductive invariant (AggSysInv.v): every issuer is at one place (queue, worker, results, given up, done); what it has done so far is what the sequential functions of AggModel.v do on its own files; the files of different issuers are disjoint. The end of a run is then the sequential run in the order of the queue (AggSysEnd.v). Termination by a lexicographic measure.
- Limits: Workers of different issuers only; the queue is filled before they start, as in the code.
- Theorems: `C68_always_safe`, `C68_one_after_the_other`, `C68_no_infinite_run`, `C68_ends`, `C68_all_written`, `C68_list_of_issuers`, `C68_no_threads_refuted`, `C68_cancelled_refuted`, `C68_half_written_refuted` (proved)

### C69 Any number of committing processes and ct-fetch starts share one installation safely

- Model: CommitSystem.v: any number of processes over one cache and storage; taking and releasing the lock, the guards of Commit, the check at the start of ct-fetch and its restoration are split into single accesses, the steps inside a commit are those of CommitModel.v; the lock expires, processes die.
- Proof: Mutual exclusion as an inductive invariant; then a forward simulation into the system of CommitModel.v (CommitSystemProofs.v), through which its invariants hold for any number of processes. Separate invariants for the start of ct-fetch (CommitSystemProofs2.v). Witnesses are runs of an executable version of the steps (CommitSystemExec.v).
- Limits: Mutual exclusion needs that a holder is done or dead within four hours (refuted without). A start that overlaps a commit (refuted).
- Theorems: `C69_one_at_a_time`, `C69_known_never_lost`, `C69_coverage_never_outruns_storage`, `C69_acts_as_one`, `C69_storage_invents_nothing`, `C69_restart_alone`, `C69_restart_restores`, `C69_restart_possible`, `C69_restart_race_refuted`, `C69_slow_commit_refuted`, `C69_release_refuted` (proved)

### C70 aggregate-known reads a consistent state while other processes commit

- Model: KnownSystem.v: the run of aggregate-known after its commit, as moves that read the state of CommitSystem.v between any two steps of any processes.
- Proof: Completeness: the coverage invariant carried through the simulation of C69, and the fact that the serials of an unexpired bin only grow; invariant over the moves. One moment: while the lock is held and has not expired no other process is past its guard. The verdict from C69 and C51_from_storage.
- Limits: Each serial file is read in one step; a listing contains at least the files that were there from its start to its end.
- Theorems: `C70_complete`, `C70_nothing_else`, `C70_one_moment`, `C70_reads_all`, `C70_verdict`, `C70_slow_run_refuted` (proved)

### C71 The table of revocation reasons tells the truth about each issuer

- Model: ReasonCsvModel.v: the lines of the table from the counts of FilterModel.v, as text.
- Proof: The counting loop gives for each line the last entry of its serial; reading the text back by splitting at newlines and commas; the totals by counting disjoint predicates.
- Limits: Numbers do not overflow.
- Theorems: `C71_reason_table`, `C71_adds_up`, `C71_columns_refuted` (proved)

### C72 The report of aggregate-crls tells the truth

- Model: The report as list of (issuer, URL, kind) of `AggModel`, in the order of the calls. Specification: `truth` (P_Audit.v), what each kind says of the directory before and after the run.
- Proof: Every fetch of the run is located between two states that agree on the files of its URL with the directory before and after the run; then induction over URLs and issuers. `C72_all_workers` (P_AuditSystem.v) carries the truth of entries and the sum of the numbers over to any number of workers, through the serial run of `C68_one_after_the_other`.
- Limits: JSON text, times, DNS results and error texts. Two kinds (Expired, Older Than Previous) are never reported: the only caller of these functions is not called.
- Theorems: `C72_entries_are_true`, `C72_counts_add_up`, `C72_written_not_failed`, `C72_old_is_reported`, `C72_wrong_point_is_reported`, `C72_all_workers`, `C72_failure_means_missing_refuted` (proved)

### C73 What the health report of ct-fetch tells

- Model: HealthModel.v: the time of the last update, the ticker of the insert worker, the handler. A history is a list of timed events: job ends, messages taken, failed attempts to store.
- Proof: Induction over histories from the end: the last update is a sign of life and no older than any job without an error; a message taken after a whole period without a failed store finds a tick waiting.
- Limits: One monotonic clock; the text of the answer and the Retry-After header.
- Theorems: `C73_ok_means`, `C73_alarm_means`, `C73_too_early`, `C73_progress_refuted`, `C73_storing_refuted`, `C73_overflow_refuted` (proved)

### C74 Certificates and issuers are read off the answers of a log as RFC 6962 says, and the proof covers the leaf only

- Model: LeafModel.v: the bytes of `leaf_input` and `extra_data` to a raw log entry (the TLS layouts of RFC 6962 that the certificate-transparency library decodes), then to what the worker of CtFetchModel.v receives. Specification: P_Leaf.v gives the layouts as an encoder.
- Proof: Decoder and encoder are inverse in both directions (`C74_decoding`). The rest composes this with the invariants of C08 and C09 about verified ranges. Witnesses: two answers with the same proof and leaves.
- Limits: Position 0 (see C09). JSON and base64 of the answers; the ASN.1 parser is an arbitrary function.
- Theorems: `C74_decoding`, `C74_saved_range`, `C74_logs_own_certificate`, `C74_issuer_refuted`, `C74_precertificate_refuted`, `C74_dropped_refuted` (proved)

### C75 Entries of a tiled log are stored under the issuer that the log gave for their fingerprint

- Model: TiledIssuerModel.v: the worker with the map of issuers, the requests and their answers; the map lives through the jobs of one log. Any answers, in any order.
- Proof: Invariant over reads, jobs and sequences of jobs: the map is a part of the answers given, and grows only. Refinement to `runTiled` (`C75_same_jobs`), so that C05 to C12 and C62 hold of it.
- Limits: The sunlight library's client; which network errors occur is arbitrary.
- Theorems: `C75_one_table`, `C75_honest_log`, `C75_requests`, `C75_same_jobs`, `C75_wrong_issuer_refuted` (proved)

### C76 A serial number is the contents octets of its DER encoding, in certificates and CRLs alike

- Model: DerModel.v: Go's `encoding/asn1` for the struct types of types.go: tags, lengths, optional and explicit fields, integers, object identifiers, sequences; then `processCRL` of AggModel.v. Specification: the encoding after X.690 as relations between values and bytes (P_Der.v).
- Proof: Each decoding function accepts exactly the bytes of the relation and leaves the rest (equivalences, by induction over digits, lengths and elements). Numbers in the shortest form have one encoding, of any length. Witness: serial 5 with and without a leading zero octet.
- Limits: encoding/asn1 is a library, modelled from its source. The text of dates is an oracle. That the x509 parser found the same signed part before is trusted.
- Theorems: `C76_certificate`, `C76_crl`, `C76_matched`, `C76_number_refuted` (proved)

### C77 Log states and issuers survive their JSON text

- Model: JsonModel.v: Go's `encoding/json` for the struct types CTLogState and EnrolledIssuer (strings with escapes and repair of bad UTF-8, numbers, skipping of unknown members, matching of names without case) and the RFC 3339 text of times. Specification: JsonSpec.v, JSON text and UTF-8 as relations between values and bytes after RFC 8259 and RFC 3339, with its own day count.
- Proof: Every text of the relation is read as its value (induction over the text), what is written is in the relation, and the round trip follows; a time without such a text is refused by the writer. What the parser reads does not depend on what follows (JsonCut.v), so a proper beginning of a written text is refused. JsonSound.v shows the converse: what the parser accepts is text of the same grammar, with U+FFFD for bad UTF-8 and half surrogate pairs (`loose`), and the time reader accepts only RFC 3339; so `C77_accepts_*` say exactly which texts are read and as what (`makes`: last non-null member, kinds checked). Witness for the refutation: the address ct.example/\xff.
- Limits: encoding/json and package time are libraries, modelled from their source. Years outside 0-9999 are refused by the encoder, as in Go.
- Theorems: `C77_accepts_state`, `C77_accepts_states`, `C77_accepts_issuers`, `C77_reads_state`, `C77_reads_states`, `C77_reads_issuers`, `C77_writes_state`, `C77_refuses`, `C77_state`, `C77_states`, `C77_issuers`, `C77_state_utf8`, `C77_issuer_utf8`, `C77_round_trip`, `C77_issuers_file`, `C77_cut_short`, `C77_not_utf8_refuted` (proved)

### C78 Certificates survive their PEM text

- Model: PemModel.v: `CertificateToPEM` and `PEMToCertificate` over Go's `encoding/pem` (search for the begin line, headers, end line, trailing blanks) and base64. Specification: `pemText`, `noBlock` (P_Pem.v) and `b64Text` (Base64Spec.v, RFC 4648), relations between contents and text.
- Proof: Reading is by locating the first begin line, the first line and the first end line in a text of the relation; the text written is in the relation; acceptance is by induction over the rounds of the search. The fuel of the search is never used up (`C78_fuel`). With C77 the hypotheses on PEM and JSON of C32 are discharged.
- Limits: encoding/pem is a library, modelled from its source. The parser of certificates is arbitrary.
- Theorems: `C78_reads`, `C78_writes`, `C78_ascii`, `C78_round_trip`, `C78_accepts`, `C78_refuses`, `C78_fuel`, `C78_characters`, `C78_issuers_file` (proved)

### C79 The CCADB report is read as the table it says, or refused

- Model: CsvModel.v: `LoadFromDisk` from the bytes of the file, over Go's `encoding/csv` (lines, quoted and plain cells, field count). Specification: CsvSpec.v, a grammar of tables (`tableText`) over the text with Unix line ends, a writer (`tableOut`) and what cutting a table means (`cutTable`).
- Proof: Induction over the steps of the reader, both ways: what it reads is in the grammar, and a text of the grammar is read as its table, so the grammar is unambiguous. The writer stays in the grammar. Cutting is by comparing the grammar on a text and a prefix of it. C33 gives the issuers of the table.
- Limits: encoding/csv is a library, modelled from its source. Two kinds of cuts go unnoticed (refuted). Errors of the disk while reading are left out.
- Theorems: `C79_reads`, `C79_fuel`, `C79_writes`, `C79_accepts`, `C79_report`, `C79_odd_quotes`, `C79_cut_short`, `C79_cut_at_line_refuted`, `C79_cut_in_cell_refuted` (proved)

### C80 Epochs in step mean a cache that continues the storage

- Model: EpochModel.v: `getStorageEpoch`, `GetEpoch`, `NextEpoch` (Redis' INCR on text), the check of `Commit`, its end with every failure (`faults`), `EnsureCacheIsConsistent` with `Restore`. Specification in P_Epoch.v: `fileSays` and `cacheSays` say which number a text stands for, `inStep` what belongs together.
- Proof: Readers are characterised by iff. A cut of the line is a cut of its digits, so a smaller number. The end of a commit is a case analysis over failures; histories are by induction with the invariant that both can be read and the cache holds a canonical number below 2^63. `C80_check` ties the check to CommitModel's.
- Limits: Only the epochs; files and log states are in C18-C23 and C69. The lock of `Restore` is taken as granted; failing reads of disk and Redis are errors at once and left out.
- Theorems: `C80_reads_file`, `C80_reads_cache`, `C80_file`, `C80_cut`, `C80_cache`, `C80_check`, `C80_finish`, `C80_done`, `C80_error`, `C80_success`, `C80_lost_answer_refuted`, `C80_restart`, `C80_unreadable`, `C80_history`, `C80_loss`, `C80_counts`, `C80_flush_refuted` (proved)

### C81 Recorded progress belongs to the log it names

- Model: IdentityModel.v: `KeyID`, `GetLogState`, the constructors of both workers (`adopt`: id and merge delay from the log list), delivery of entries and states, on top of the jobs of CtFetchModel.v. A history is a list of jobs with the messages they got out, cut off anywhere. Specification: the history itself, `sameKind`, `sameLog`, base64 texts (`b64Text`, Base64Spec.v).
- Proof: Invariant of all histories: each saved state is well formed for its kind, kept under its own address, carries id and merge delay of a job there, and its claims are backed by messages in the history. `run_sound` and `runTiled_sound` give the step. The refutations run two concrete jobs.
- Limits: net/url is not modelled (a log has a host and a path). Jobs are atomic up to being cut off. The JSON text of states is C77's.
- Theorems: `C81_address`, `C81_attributed`, `C81_items`, `C81_bad_id`, `C81_ids`, `C81_key`, `C81_addresses`, `C81_key_unique_refuted`, `C81_reused_address_refuted`, `C81_kind_refuted` (proved)

### C82 One publisher run keeps three collections in order

- Model: PublishMainModel.v: `main`, the choice of the source of the intermediates, and the order of the three stages, over `publishCtlogs`, `publishAll` and `publishIntermediates`. Each collection is a server of its own; each stage meets its own list of failures. Specification: `goodList`, `goodRecs`, `exact`, `serves`, `listed` of C45-C47 and `source` (P_PublishMain.v).
- Proof: Case analysis over how each stage ends, with the theorems of C45-C47 for what a stage does; dry runs and the request for review at the end of a stage by weakest preconditions over the program; histories by induction. Witnesses for the refutations are computed.
- Limits: Settings and arguments are not modelled. Publication over many runs for the filters is C45's.
- Theorems: `C82_dry_run`, `C82_logs_first`, `C82_blocked`, `C82_filters_before_intermediates`, `C82_success`, `C82_complete`, `C82_over_runs`, `C82_same_run_refuted`, `C82_reviewed_refuted` (proved)

### C83 Cache commands sent more than once

- Model: RetryModel.v: a Redis server with keys that expire and the commands the cache uses; the client library, which sends a command again when no answer came (each attempt may or may not be carried out, others may act in between); batches cut anywhere; acquire, look, release and epoch on top. Specification in P_Retry.v: `alike`, equal answers to every later history; membership and ownership as asked of the server.
- Proof: Executing a command twice is the same for every later moment as executing it the second time (`twice`, by cases on the state and its expiry), lifted by induction over the attempts. Batches: the invariant that the key is a set ending at the batch's date. Epoch and lock: induction over attempts; with C80 for what the next commit sees. Refutations run concrete attempts.
- Limits: go-redis and Redis are not in the repository; their behaviour is from the published sources. How long the client waits is left out, and so is the bound of ten repetitions.
- Theorems: `C83_repeat`, `C83_unsent`, `C83_inserted`, `C83_removed`, `C83_batch`, `C83_batch_only`, `C83_epoch`, `C83_epoch_commit`, `C83_epoch_refuted`, `C83_lock`, `C83_lock_asked`, `C83_orphan_refuted`, `C83_look`, `C83_release`, `C83_release_refuted` (proved)

### C84 What clients of the priority channel get

- Model: The pipeline, bucket and publisher of C59-C61 (PipelineModel.v, PublishModel.v), now for a channel whose directory is clubcard-priority. P_Priority.v states what each run made for that channel (`madeFrom`) from the inputs, in the words of P_Filter.v.
- Proof: The invariant of the pipeline says that the previous set of a run is missing or the all-reasons set of the run just before. Induction along the chain: a certificate left out of an update is in that set; either that run had it for a priority reason, and the chain before reports it, or it is the exception. `C84_reported_refuted` computes two runs and two publications in which a certificate first revoked without a reason, then for key compromise, is in no record of the channel.
- Limits: As for C61. That the priority files exist in every completed run is a hypothesis of `C84_up_to_date` because `C59_priority_refuted` shows that they may be missing.
- Theorems: `C84_reported`, `C84_nothing_is_invented`, `C84_up_to_date`, `C84_reported_refuted` (proved)

### C85 Waiting for the commit lock

- Model: WaitModel.v: the loop of `waitForCommitLock`, a list of tries, each with the time of its look at the clock, its new token, the attempts of the client library (RetryModel.v) and whether the last answer came. Specification in P_Wait.v: `paced` (times and the pause between tries), `smooth` (a try sent once and answered), `byOthers` (what other clients did); ownership as in C83.
- Proof: Induction over the tries; what a successful try means is C83's analysis of the last attempt. The bound of 900 follows from the times. The refutation runs 901 tries on an empty server, the first of which loses its answer.
- Limits: That the random token cannot be made is left out; nothing is sent then.
- Theorems: `C85_outcome`, `C85_ends`, `C85_gets`, `C85_leaves`, `C85_alone_refuted` (proved)

### C86 Tests with the in-memory cache speak for Redis, within limits

- Model: MetaModel.v: the operations on log states, lock and epoch of both caches as two machines; the Redis one is put together from StoreModel.v (log states), RetryModel.v (lock and epoch as commands to a server with expiring keys) and EpochModel.v. Specification in P_Meta.v: `ordinary`, conditions on the history alone, and equality of all answers.
- Proof: Simulation: same log states under the same keys, none ending in a slash; the lock's key is there exactly if the stand-in has a lock and lasts beyond the window; the epoch's text is the number. Induction over the history.
- Limits: Operations are not interleaved and each command is carried out once; C69 and C83 are about the rest. Lists of log states come in any order from both; the model keeps one. An empty list is nil in one and empty in the other.
- Theorems: `C86_same_answers`, `C86_time_refuted`, `C86_slash_refuted`, `C86_restore_refuted` (proved)

### C87 A file of enrolled issuers is used as a whole or not at all

- Model: SaveModel.v: the end of `SaveIssuersList` with failing open, write (any first part of the text) and close; IssuersModel.v, JsonModel.v and PemModel.v for the text and the loading.
- Proof: Cut at the end of the line the text is still read (`issuers_newline`), cut earlier it is no JSON text (`C77_cut_short`), uncut it is C78's round trip. The refutation cuts a concrete file.
- Limits: That data reaches the disk after a successful close is the operating system's business.
- Theorems: `C87_whole_or_nothing`, `C87_reported_refuted` (proved)

### C88 What a killed run of aggregate-crls left is repaired

- Model: AggSystem.v (C68), started from any disk and any revocation directory, which covers every state in which a run can be killed.
- Proof: A download ends by removing its temporary file (C28); later downloads touch it only if they own it, and then remove it too (induction over URLs and issuers, on the sequential run that C68 gives). Without temporary files, or with ones that differ from what the server announces (`replaces`), the run is C29's honest run. The refutation runs a killed run and an honest one.
- Limits: Removing a file and making a directory must not fail. Loss of written data by the operating system is left out.
- Theorems: `C88_cleared`, `C88_two_runs`, `C68_all_written`, `C88_one_run_refuted` (proved)

## 5. Findings

What the proofs turned up in the code, with the theorem that shows it where there is
one.

1. An idle RFC 6962 worker stores the number MinEntry as MinTimestamp (`C09_min_timestamp_refuted`); an entry with timestamp 0 resets the running minimum (`C09_zero_timestamp_refuted`); the tiled worker leaves MinTimestamp at 0.
2. A log first seen with tree size 1 has entry 0 recorded as done without a download (`C06_single_entry_log_refuted`). A tiled log starts at entry 1 (`C11_entry_zero_refuted`).
3. Backfill never finishes once MinEntry is 1, 2 or 3, or with a JobSize below 4 (`C10_small_range_never_completes_refuted`, `C10_unlucky_size_refuted`); a log that grows by JobSize between jobs is never backfilled (`C10_fast_log_starves_backfill_refuted`). BatchSize 0 panics.
4. An overlong get-entries answer is not refused by the downloader (`C12_overlong_response_refuted`); empty successful answers make it ask forever.
5. A merge delay whose milliseconds exceed 64 bits wraps (`C14_huge_mmd_refuted`). Legacy cache entries of 40 bytes or more are taken for entries with log data (`C13_long_legacy_serial_refuted`). Expiry before 1970 does not round-trip (`C16_negative_expiry_refuted`).
6. The loss of the cache right after the first commit goes unnoticed (`C22_first_commit_refuted`). Loss and restore lose entries not yet covered (`C18_cache_loss_refuted`).
7. A key repeated by SCAN leads to a lost update (`C19_repeated_key_refuted`). Redis expires a bin at the beginning of its hour (`C19_last_hour_refuted`, `C17_unparsed_bin_refuted`).
8. Releasing the commit lock is not atomic (`C23_release_race_refuted`); the lock may expire during a commit, which is checked at its start only: two commits then interleave, and a serial can be lost (`C69_slow_commit_refuted`, `C69_release_refuted`), and a run of aggregate-known that outlasts its lock reads files of two commits (`C70_slow_run_refuted`). A start of ct-fetch reads the epochs before it takes the lock; if it overlaps the end of a commit it sets the cache epoch from the old storage epoch, and commits are refused until the next start (`C69_restart_race_refuted`).
9. Any error in reading a log state counts as a new log (`C27_unreadable_state_refuted`).
10. A download cancelled between attempts reports success (`C58_cancelled_refuted`). Continuation is asked for with the header Content-Range, which servers ignore in requests (`C58_never_continued_refuted`).
11. CRL URLs that do not parse or have another scheme are dropped without an error (`C29_dropped_url_refuted`, `C54_silent_drop_refuted`); commas split URLs (`C54_comma_refuted`).
12. An older, validly signed CRL replaces a newer one (`C30_older_crl_refuted`). A wrong distribution point is audited only (`C56_only_audited_refuted`). Local faults are not audited (`C55_local_fault_refuted`).
13. A failed Flush of a known, revoked or serial file is not noticed (`C31_lost_flush_refuted`). aggregate-known with no threads succeeds without output (`C31_no_threads_refuted`). aggregate-crls with no threads, or cancelled during the aggregation, still saves the issuer list and exits with 0 (`C68_no_threads_refuted`, `C68_cancelled_refuted`); a fatal error of one of its workers leaves the half-written list of another issuer in place of the old one (`C68_half_written_refuted`).
14. The partitioned-CRL flag of an issuer with several certificates depends on a map order (`C32_flag_depends_on_order_refuted`); of a certificate listed twice only the first row counts (`C33_repeated_certificate_refuted`).
15. Stash lengths are cut to 8 bits (`C36_long_serial_refuted`). The reason histogram counts duplicates (`C37_histogram_refuted`).
16. Deltas of the priority channel are computed against the revoked set of the all channel (`C35_priority_channel_refuted`). Over whole runs of pipeline and publisher: a certificate whose reason changes to key compromise is told to no client of the compat channel until the next full filter (`C84_reported_refuted`).
17. rust-create-cascade ends with status 0 when an input is missing, after it has cleared the output directory (`C65_refused_refuted`); without --clobber such a refusal blocks later runs (`C65_blocked_refuted`), and reason_codes.csv is overwritten all the same (`C65_reasons_refuted`).
18. `update_db` is not atomic (`C42_failed_update_refuted`); two records of one file name (`C42_same_name_refuted`); file names are joined to the directory unchecked.
19. The publisher compares run identifiers as texts for the age (`C44_age_refuted`); it asks for no review after a crash between upload and review (`C45_review_refuted`); it asks for a review of CT logs after failed calls (`C46_review_refuted`); an intermediate with an empty hash passes (`C47_empty_hash_refuted`), one without a PEM marker stops every later run (`C47_bad_file_refuted`). `is_expired` uses an attribute that does not exist; the exception is swallowed.
20. Run identifiers are reused after one million runs of a day or after a run with a later date (`C49_many_runs_refuted`, `C49_later_date_refuted`).
21. Malformed environment values are skipped silently (`C48_malformed_refuted`).
22. ct-fetch: two loops on one log (`C50_two_loops_refuted`), delisted logs stay enrolled (`C50_delisted_refuted`), an error ends a loop for good (`C50_error_is_final_refuted`), the process may exit before a started loop has run (`C50_exits_too_early_refuted`) or panic (`C50_panic_refuted`).
23. crlite-signoff.sh does not run with `-e`; the size of a missing filter is an empty text, which passes the size check (`C64_no_filter_refuted`), and no program of the repository writes the file it looks at.
24. A pipeline run that ends between making its directory and its first upload blocks every further run of that day: the identifier is still free in the bucket, and the directory, which is on a volume, exists (`C59_blocked_refuted`).
25. A run is marked completed without a filter for the priority channel if the output directory of that build cannot be made (`C59_priority_refuted`).
26. The shared revoked set is overwritten before the run is marked completed, so the base of the next update is a run that may never be published; the publisher then has to start a new chain (C61 shows that nothing is lost).
27. The in-memory cache that the tests run on loses the order of a set on a removal, so that removals and queries miss values (`C66_removal_refuted`, `C66_duplicate_refuted`), and treats expired keys unlike Redis (`C66_expired_refuted`).
28. The CCADB report is downloaded over itself: a broken download leaves a part that the next run may take for a recent report (`C67_truncated_refuted`). An unusable report of the announced length and date is never replaced (`C67_stuck_refuted`).
29. The table of reasons that every build writes has no column for CA compromise, hold, removal from the CRL and AA compromise, so its columns need not add up to the revoked certificates (`C71_columns_refuted`).
30. The health endpoint of ct-fetch counts a job that could not reach its log as useful work: with all logs unreachable, or with a database that stores nothing, it answers ok for ever (`C73_progress_refuted`, `C73_storing_refuted`). A polling delay above 146 years overflows and raises an alarm at once (`C73_overflow_refuted`).
31. The Merkle proof covers the leaf only. For an RFC 6962 log the issuer of every entry, and for a precertificate the certificate itself, are taken from the extra data of the answer, which nothing authenticates; they are not compared with the issuer key hash or the TBS certificate of the leaf (`C74_issuer_refuted`, `C74_precertificate_refuted`). An empty chain makes the entry be dropped without a word, and the position counts as done (`C74_dropped_refuted`).
32. For a tiled log the certificate that is fetched for a fingerprint is not hashed and compared with it; the first answer is used for all entries until the process ends (`C75_wrong_issuer_refuted`).
33. Serials are compared as octets, not as numbers: a serial number encoded with a superfluous octet, which the decoder accepts in certificates and CRLs, is another serial (`C76_number_refuted`).
34. A log address with a byte that is not UTF-8, which an escape such as %ff in the log list gives, is changed by its JSON text, so the state of that log is saved under an address that does not match (`C77_not_utf8_refuted`).
35. A CCADB report cut at the end of a line is loaded with issuers missing (`C79_cut_at_line_refuted`); one cut between the two quotes of a pair in the last cell is loaded with CRLs of an issuer missing (`C79_cut_in_cell_refuted`). With `C67_truncated_refuted` this needs one broken download.
36. `Commit` ignores the error of flushing the epoch file. On a full disk an empty file replaces it; it counts as epoch 0, so a later loss of the cache passes for a fresh start, as in 6 (`C80_flush_refuted`, for any number of commits before).
37. Progress is kept by address, not by log id. A job takes over whatever state is saved for the address and puts its own id on it. If the list gives an address to another log, or turns a log from RFC 6962 to tiled, the filters' coverage names entries never downloaded (`C81_reused_address_refuted`, `C81_kind_refuted`).
38. In a publisher run the log list comes first and an exception ends the run. One upstream log whose id is not the hash of its key, or one log record without a log id, stops the publication of filters and intermediates (`C82_blocked`). Records of a disabled channel are deleted after the last request for a review, so that the collection is marked as changed again and the review just asked for no longer matches it (`C82_reviewed_refuted`). The intermediates are taken from the latest run of the bucket whether or not its filters are ready (`C82_same_run_refuted`).
39. The Redis client is told to repeat commands ten times, also those that are not safe to repeat. A repeated INCR raises the epoch by two: the commit succeeds and every later one is refused until ct-fetch starts again (`C83_epoch_refuted`). A repeated SETNX finds the client's own token: the client is refused and the lock is stuck for four hours (`C83_orphan_refuted`). A repeated DEL can remove the lock of the next holder, so that two commit at once (`C83_release_refuted`).
40. Files of known or revoked serials whose writing was broken off are read by the filter builder without an error. The entries after the break are missing. An entry cut between two bytes counts as the serial of another certificate: as known (`C16_rust_torn`) or even as revoked (`C39_torn_refuted`). An entry of a known file that is cut within a byte is read too (`C16_rust_torn_refuted`); only its decoding panics later.
41. aggregate-known makes a new token for each try for the commit lock. If the answer to one try is lost, the lock stands under a token that nobody knows; all later tries are refused because of it, the run gives up after fifteen minutes, and nobody gets the lock for four hours (`C85_alone_refuted`).
42. The in-memory cache used in the tests differs from Redis: its lock never ends (`C86_time_refuted`), a log stored with a slash at the end of its address is not found without (`C86_slash_refuted`), and it can be restored while somebody has the lock (`C86_restore_refuted`).
43. `SaveIssuersList` reports success when the writing of enrolled.json fails, because the error goes into a variable of an inner block (`C87_reported_refuted`). The pipeline is stopped by the next program all the same, since a cut file is no JSON (`C87_whole_or_nothing`).
44. A download that a killed run left behind complete but unchecked is taken for the CRL that the server has now if the lengths agree and the file is not older than the server's date. The next run then uses the older CRL and reports nothing (`C88_one_run_refuted`); the run after it is right (`C88_two_runs`).

## 6. Trusted base

- Coq's kernel (the development is also checked by coqchk).
- `Print Assumptions` prints "Closed under the global context" for every theorem of
  the manifest: no axiom is used, neither of the standard library nor of our own.
  The command stands beneath each theorem and is run by the build.
- No `Admitted`, no open obligation, no kernel check switched off, no plugin, no
  functor or module type.
- The hand translation of the code, documented by the citations, with the
  simplifications said there. /repo was read as text; nothing was compiled or run.
- Go's encoding/asn1 (`DerModel.v`), encoding/json and RFC 3339 times
  (`JsonModel.v`), encoding/pem (`PemModel.v`) and encoding/csv (`CsvModel.v`) are
  modelled from their published source, not from /repo.
- The specifications: RFC 6962 in `MerkleSpec.v`, and the definitions under the
  heading "Specification" in each property file.
- The facts taken from outside, each a hypothesis of the theorems that use it and
  met by an Example: base64url texts have no separator, SHA-256 gives 32 bytes, the
  server hands out fresh record ids and lists all records, the parser of
  certificates reads what a certificate was made from, and the library condition
  of C51.
