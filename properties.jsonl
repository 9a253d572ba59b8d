{"id": "C01", "title": "Merkle subtree verifier accepts exactly the genuine leaves", "statement": "When ct-fetch feeds downloaded leaf inputs one at a time to a subtree verifier created for the range [first,last] with a claimed root, the verifier reports success if and only if exactly last-first+1 leaves were fed and the RFC 6962 Merkle tree hash of those leaves, in that order, equals the claimed root. Too few, too many, reordered (up to hash equality) or altered leaves are reported as an error.", "quantifier": "every hash function, every range [first,last], every list of leaf byte strings of any length, every claimed root", "why_tests_cant": "the property ranges over all subtree sizes and all leaf sequences; the incremental stack of partial roots depends on the binary shape of the count, and only finitely many sizes can be tested", "anchors": ["go/cmd/ct-fetch/rfc6962.go: SubtreeVerifier.Consume, SubtreeVerifier.CheckClaim, Subtree.Size, Subtree.Midpoint, consumeLeaf/pair hash"]}
{"id": "C02", "title": "Two different downloads that verify against one root give a hash collision", "statement": "If two downloads both pass verification against the same claimed root of the same subtree then either the two leaf sequences are identical, or two distinct byte strings with the same SHA-256 value can be read off them.", "quantifier": "every hash function with fixed output length, every pair of leaf sequences, every subtree and root", "why_tests_cant": "collision resistance arguments are reductions over all adversarial inputs; no test enumerates adversaries", "anchors": ["go/cmd/ct-fetch/rfc6962.go: SubtreeVerifier.Consume, SubtreeVerifier.CheckClaim"]}
{"id": "C03", "title": "Subtrees obtained from a consistency proof cover a job exactly once", "statement": "For a job that downloads entries [first,last], the subtrees built from the consistency proof between the old and the new tree size that lie in the job range are disjoint and cover every index in [first,last] exactly once, so every downloaded entry is fed to exactly one verifier; and no subtree straddles the boundary of the job.", "quantifier": "every pair of tree sizes 0 < old < new below 2^63, every job range of an Init, Update or Backfill task", "why_tests_cant": "it is a number-theoretic fact about the recursion for all pairs of 63-bit sizes", "anchors": ["go/cmd/ct-fetch/rfc6962.go: consistencyProofToSubtrees, LogWorker.Run"]}
{"id": "C04", "title": "An honest log always passes verification", "statement": "If the log answers with the RFC 6962 consistency proof PROOF(m, D[n]) and the entries D, then the i-th proof hash is the Merkle tree hash of exactly the range the program assigned to it, so every verifier of the job accepts: no honest log is ever reported as inconsistent. A proof with more or fewer hashes than PROOF(m, D[n]) is rejected.", "quantifier": "every list of entries D, every 0 < m < n = |D|, every hash function", "why_tests_cant": "completeness must hold for every tree shape; tests cover a handful of tree sizes", "anchors": ["go/cmd/ct-fetch/rfc6962.go: consistencyProofToSubtrees, SubtreeVerifier.Consume, LogWorker.Run"]}
{"id": "C05", "title": "Job selection: range bounds and no wrap-around", "statement": "For every saved log state and tree head, the selected task (Sleep, Init, Update, Backfill) has a well defined range: it lies inside the current tree, has at most JobSize entries, and is adjacent to the saved range (Update starts at MaxEntry+1, Backfill ends at MinEntry-1, Init ends at the tree head). uint64 arithmetic never wraps when computing it for a nonempty tree.", "quantifier": "every 64-bit MinEntry <= MaxEntry, tree size, batch size, every saved state", "why_tests_cant": "wrap-around shows only at particular combinations of 64-bit sizes, batch sizes and saved states, which no table of cases can list; ct-fetch has no unit tests", "anchors": ["go/cmd/ct-fetch/rfc6962.go: NewLogWorker, LogWorker.Run", "go/cmd/ct-fetch/tiled.go: NewTiledLogWorker, TiledLogWorker.Run"]}
{"id": "C06", "title": "Saved log range never claims an entry that was not downloaded and verified", "statement": "At every moment, in every history of jobs (successful, failing at any point, cancelled, restarted), the range [MinEntry,MaxEntry] saved for a log contains only indexes whose entries were downloaded, verified and handed to the store queue. The statement holds from first contact on unless the first tree head contacted had exactly one entry (see refutation).", "quantifier": "every sequence of jobs, tree heads, failures after any subtree, cancellations and process restarts", "why_tests_cant": "the claim is an invariant of an unbounded history with failures at every point", "anchors": ["go/cmd/ct-fetch/rfc6962.go: NewLogWorker, LogWorker.Run, LogWorker.updateState", "go/cmd/ct-fetch/ct-fetch.go: LogSyncEngine.SyncLog"]}
{"id": "C07", "title": "A log state is saved only after every entry queued before it was stored", "statement": "The insert workers store entries in batches with retries. Whatever store calls fail, however long, and whenever the program is cancelled, a log state is written to the cache only after every certificate that was queued before it (on the same worker) was inserted in the cache. The store is called with a full batch (BatchSize - 1 entries) or with a log state to save, and at no other time, so the queue is bounded.", "quantifier": "every interleaving of queue contents, every pattern of store failures, every cancellation point, every batch size", "why_tests_cant": "the order matters only if a store fails or the process stops between two particular messages of an unbounded queue shared by all logs", "anchors": ["go/cmd/ct-fetch/ct-fetch.go: LogSyncEngine.insertCTWorker", "go/storage/certdatabase.go: CertDatabase.Store, CertDatabase.SaveLogState"]}
{"id": "C08", "title": "End to end: every entry in a saved range is in the cache or was legitimately skipped", "statement": "Composition of C06 and C07: whenever a log state with range [MinEntry,MaxEntry] is found in the cache, every entry of the log in that range was processed by a job that ran, and was either stored as a known serial under its issuer and expiry hour, or skipped because it was expired at download time or came without an issuer; an entry that cannot be parsed is never part of a saved range. The one exception is index 0 of a tiled log and index 0 of an RFC 6962 log first contacted when its tree had a single entry: there the range claims an entry nobody fetched (refutations).", "quantifier": "every history of jobs of both kinds of logs, store failures, cancellations and restarts", "why_tests_cant": "the claim relates what is in the cache to what jobs arbitrarily far in the past received, across restarts and retries; a test fixes one schedule and one store behaviour", "anchors": ["go/cmd/ct-fetch/rfc6962.go: LogWorker.Run, LogWorker.storeLogEntry", "go/cmd/ct-fetch/ct-fetch.go: LogSyncEngine.insertCTWorker", "go/cmd/ct-fetch/tiled.go: TiledLogWorker.Run"]}
{"id": "C09", "title": "Saved timestamps bound the timestamps of the covered entries", "statement": "Every entry in a saved range (index 0 as in C08) has a timestamp between the MinTimestamp and the MaxTimestamp of that saved state, provided no log serves an entry with timestamp 0. They decide which certificates a filter claims to cover. MaxTimestamp is the one the job started with, the timestamp of a processed entry, or (only when the range reaches the tree head) that of the tree head; MinTimestamp is the one the job started with, the timestamp of a processed entry, or the number MinEntry. That MinTimestamp is exactly the least timestamp is false (an idle RFC 6962 worker stores MinEntry as a timestamp), and an entry with timestamp 0 makes the worker forget the minimum seen before it (refutations).", "quantifier": "every history of jobs, of store failures and of restarts; every sequence of entry timestamps", "why_tests_cant": "an invariant over unbounded histories and orders of timestamps; the two refuted refinements are exactly the orders a test author does not think of", "anchors": ["go/cmd/ct-fetch/rfc6962.go: LogWorker.updateState, LogWorker.Run, LogWorker.downloadCTRangeToChannel", "go/cmd/ct-fetch/tiled.go: TiledLogWorker.updateState"]}
{"id": "C10", "title": "Backfill makes progress until the whole log is covered", "statement": "Against an honest RFC 6962 log, with JobSize J of at least 4 and n entries (n at least 4, and n at most J or at least J+4), jobs run one after the other from an empty cache all succeed, and the saved range is [0,n-1] exactly when 1+ceil((n-J)/J) jobs have been run, if the log does not grow meanwhile; from a saved range [a,b] with a=0 or a at least 4, exactly when ceil((n-1-b)/J)+ceil(a/J) have. If the log grows between the jobs, an entry that was there at the first of them is covered after as many jobs as that count gives for a log ending with it; and if it grows by at most g < J entries between jobs, entry 0 is reached after k jobs once k*(J-g) is at least the number of entries missing in front plus J*ceil(a/J). The side conditions are necessary (refutations): with J below 4, or once MinEntry is 1, 2 or 3 (as it is when the first tree head has J+1, J+2 or J+3 entries), entry 0 is never reached, whatever the log does afterwards; and a log that always grows by J entries between jobs is never backfilled at all.", "quantifier": "every honest log, every tree size, job size and start state, every way the server splits and rate-limits its answers, every number of jobs", "why_tests_cant": "termination for all sizes, and an exact count; the three exceptional sizes out of thousands are not hit by tests, and the failure is silent apart from a log line", "anchors": ["go/cmd/ct-fetch/rfc6962.go: NewLogWorker, LogWorker.Run, consistencyProofToSubtrees, LogWorker.updateState"]}
{"id": "C11", "title": "Tiled log worker: saved range grows only by stored entries", "statement": "In every history of tiled jobs the saved MaxEntry grows by exactly the entries handed to the store queue, in order; an entry that cannot be fetched stops the job at the preceding entry. Entry 0 of a log is claimed although it is never fetched when the log is first contacted (refutation).", "quantifier": "every history of tiled jobs with failures at any index", "why_tests_cant": "the claim is about every history of jobs, each of which may stop at any entry; a test follows one history", "anchors": ["go/cmd/ct-fetch/tiled.go: TiledLogWorker.Run, TiledLogWorker.updateState, NewTiledLogWorker"]}
{"id": "C12", "title": "The range downloader emits exactly the requested entries in order", "statement": "Whatever chunk sizes the log server answers with, entries are handed on in index order starting at the first requested one, none skipped and none twice; a download that ends without error and passes the claim check handed on exactly the entries first..last. (A response longer than requested is not refused by the downloader: the surplus entries are handed on and the claim check then fails.)", "quantifier": "every range, every sequence of server responses (lengths, errors, cancellations)", "why_tests_cant": "a server may answer with any number of entries, errors and delays in any order; a test scripts one such server", "anchors": ["go/cmd/ct-fetch/rfc6962.go: LogWorker.downloadCTRangeToChannel"]}
{"id": "C13", "title": "Cached certificate entries decode to what was stored, and the coverage decision is exact", "statement": "A certificate stored with a log identifier, timestamp and serial number is decoded to the same serial; it is judged covered exactly when the coverage map has that log with entry cutoff at or after its timestamp (or, legacy entries without log data, always).", "quantifier": "every serial up to the X.509 length limit, every 32-byte log id, every 64-bit timestamp, every coverage map", "why_tests_cant": "byte-level codecs over unbounded inputs; confusions only happen for particular lengths", "anchors": ["go/storage/types.go: NewMember, SerialCacheEntry.AsSerial, IsCovered", "go/types.go: Serial"]}
{"id": "C14", "title": "Coverage cutoff is the last timestamp minus the maximum merge delay", "statement": "A coverage file maps each log to MaxTimestamp minus its merge delay, never later than MaxTimestamp and zero rather than wrapping when the log is younger than its delay; the map has one entry per log.", "quantifier": "every 64-bit MaxTimestamp and MMD, every list of log states", "why_tests_cant": "the subtraction is of unsigned 64-bit numbers in milliseconds and seconds; only boundary values that a log controls show a difference", "anchors": ["go/types.go: CTLogState.CoverageCutoff, NewCoverageCutoffMap"]}
{"id": "C15", "title": "Serial lists are deduplicated without losing a serial", "statement": "Deduplicating a serial list returns a sorted list without duplicates holding exactly the same set of serials.", "quantifier": "every list of byte strings", "why_tests_cant": "an in-place algorithm on sorted slices can go wrong for one arrangement of equal and shortened serials among all lists", "anchors": ["go/types.go: SerialList.Less, SerialList.Dedup"]}
{"id": "C16", "title": "Serial list files round-trip between the Go writers and the Go and Rust readers", "statement": "A file written for a list of serials and an expiry bin is read back by the storage reader, and its serial lines by the filter builder, as the same serials in the same order; the expiry line of a bin is recognised and never confused with a serial. The storage reader accepts exactly the empty file and the files with the line of the bin and one serial in hexadecimal, of either case, on every further line. Of a file whose writing was broken off it accepts at most the first serials and the beginning of one more; a witness shows that it can so take a serial for another one without an error. The filter builder reads exactly the files of lines with nonempty text, of which a marker with a hexadecimal number sets the date of the lines after it; of a broken off file it takes the first lines and the beginning of one more, also half a byte of it.", "quantifier": "every list of serials with nonempty hex form, every expiry", "why_tests_cant": "writer and readers are in two languages and never run in one test; the inputs are unbounded lists of byte strings", "anchors": ["go/storage/certdatabase.go: WriteSerialList, ReadSerialsFromStorage", "rust-create-cascade/src/main.rs: KnownSerialIterator, RevokedSerialAndReasonIterator"]}
{"id": "C17", "title": "Expiry bins round-trip and never expire a valid certificate", "statement": "The identifier of an expiry bin parses back to a bin with the same identifier; two times share a bin exactly when they lie in the same hour; a certificate whose NotAfter is at or after now is never in a bin considered expired at now once the bin is read back from its identifier. Only identifiers of dates of the calendar are taken for a bin, but for a missing zero before a one-digit hour.", "quantifier": "every date, every time", "why_tests_cant": "the claim is about every instant, with calendar arithmetic and truncation; tests check a handful of dates", "anchors": ["go/types.go: ExpDate, NewExpDateFromTime, NewExpDate, IsExpiredAt"]}
{"id": "C18", "title": "Commit is crash safe: coverage never outruns stored serials", "statement": "If the process dies between any two external effects of a commit (per-bin file writes, cache removals, coverage file write, epoch writes), with other processes inserting certificates and saving log states concurrently, then every serial covered by the coverage file in storage is in the stored serial files, until its expiry hour begins. The cache must not lose data and its key listing must not repeat keys; the claim fails after a cache loss followed by a restore.", "quantifier": "every database state, every interleaving with insertions, every crash point, every number of bins and logs", "why_tests_cant": "a crash can fall between any two accesses to cache and storage, and insertions go on meanwhile; tests do not crash", "anchors": ["go/storage/certdatabase.go: CertDatabase.Commit, moveCachedSerialsToStorage, moveOneBinOfCachedSerialsToStorage"]}
{"id": "C19", "title": "No known serial is ever lost", "statement": "Over every history of insertions, commits, crashes and restarts without loss of the cache, a serial stored is in the cache or in the storage file of its issuer and expiry bin until its expiry hour begins. The claim fails within the expiry hour and when the key listing repeats a key.", "quantifier": "every history", "why_tests_cant": "losing a serial needs a history of insertions, commits, crashes and clean-ups; a test checks one commit", "anchors": ["go/storage/certdatabase.go: Store, Commit, moveOneBinOfCachedSerialsToStorage, removeExpiredSerialsFromStorage"]}
{"id": "C20", "title": "A commit interrupted anywhere can be retried", "statement": "After a commit crashed at any point before the cache epoch was incremented, a new commit is allowed, can complete, and ends in the state (set of stored serials, coverage, epochs) an uninterrupted commit would have produced. After a crash between the two epoch writes a new commit is refused.", "quantifier": "every state and crash point", "why_tests_cant": "every crash point leaves another half-finished state from which the retry has to succeed", "anchors": ["go/storage/certdatabase.go: CertDatabase.Commit"]}
{"id": "C21", "title": "A refused commit changes nothing", "statement": "If the commit lock is not held, or the cache is inconsistent with storage (epochs differ by other than the one-step allowance), then commit returns an error and neither cache nor storage is changed.", "quantifier": "every state", "why_tests_cant": "there are several reasons to refuse, each of which must be found before the first write, in every state of the database", "anchors": ["go/storage/certdatabase.go: CertDatabase.Commit, EnsureCacheIsConsistent"]}
{"id": "C22", "title": "Epoch protocol: stale caches are detected", "statement": "In every history of commits, crashes, cache losses and restores, no commit starts unless the cache epoch is the successor of the storage epoch (or both are zero); after the cache is lost, no commit starts and storage does not change before a restore has reset the cache epoch. A loss right after the very first commit goes undetected.", "quantifier": "every history", "why_tests_cant": "a stale cache comes from restarts and restored backups in any order over any number of epochs", "anchors": ["go/storage/certdatabase.go: EnsureCacheIsConsistent, Commit", "go/storage/rediscache.go: GetEpoch, NextEpoch, Restore"]}
{"id": "C23", "title": "Commit lock: at most one holder, only the holder can release", "statement": "While a lock acquired with one token is live, no other acquisition succeeds, and releasing with another token leaves it in place; when executed as separate Redis commands the release can delete a lock acquired by another process after expiry (refutation).", "quantifier": "every sequence and interleaving of acquire, release and expiry operations", "why_tests_cant": "two processes race for the lock; the schedules are unbounded and tests have one process and one clock", "anchors": ["go/storage/rediscache.go: AcquireCommitLock, ReleaseCommitLock, HasCommitLock"]}
{"id": "C24", "title": "Batched cache operations process each element exactly once", "statement": "Inserting or removing many members in batches touches each member exactly once with no index out of range, for every list length and batch size; if a batch fails, the members of all earlier batches have been processed.", "quantifier": "every list and positive batch size", "why_tests_cant": "off-by-one errors depend on the remainder of the length by the batch size, for all lengths and batch sizes", "anchors": ["go/storage/rediscache.go: SetInsertMany, SetRemove", "go/storage/certdatabase.go: moveCachedSerialsToStorage"]}
{"id": "C25", "title": "Grouping of keys by issuer loses and invents nothing", "statement": "Listing issuers and expiry dates from a stream of keys returns for each issuer exactly the dates occurring with it, one record per issuer; keys with an unparsable date are skipped, and a key that does not have three parts ends the listing with an error.", "quantifier": "every stream of keys", "why_tests_cant": "keys come in any order, with repetitions and malformed texts; the claim is equality of sets for all streams", "anchors": ["go/storage/certdatabase.go: getIssuerAndDatesFromChannel"]}
{"id": "C26", "title": "Different (issuer, expiry) pairs never share a key, file or accessor", "statement": "Two pairs with the same cache key, the same storage file or the same cached accessor are the same pair.", "quantifier": "every pair of issuers and expiries", "why_tests_cant": "injectivity is a statement about all pairs of strings, including those with separators in them", "anchors": ["go/storage/types.go: NewSerialCacheKey", "go/storage/certdatabase.go: GetSerialCacheKey, getSerialFilePath"]}
{"id": "C27", "title": "Log state save/load and migration", "statement": "A saved log state is what the next load for that log URL returns; migrating legacy keys keeps, for every log, the state already under its current key or else the legacy state, and running migration twice changes nothing. A log of which nothing was saved starts at entry zero with no times, under its address without slashes at the end.", "quantifier": "every cache content", "why_tests_cant": "old and new formats may be mixed in the cache in any way, and reading can fail at any key", "anchors": ["go/storage/rediscache.go: StoreLogState, LoadLogState, LoadAllLogStates, Migrate"]}
{"id": "C28", "title": "A verified download replaces the good file only by a file that verifies", "statement": "After a verified download ends, however it ends, the file at the final path is either the unchanged previous file or a file that passed verification; success is reported only if the final file passed verification (now or as a fallback).", "quantifier": "every sequence of network results, file system errors and verification outcomes", "why_tests_cant": "the file must be the good one after every combination of network, file system and verification failures, over repeated runs", "anchors": ["go/downloader/verifying-downloader.go: DownloadAndVerifyFileSync", "go/downloader/downloader.go: DownloadFileSync, download, determineAction"]}
{"id": "C29", "title": "A revocation list is written only from the complete set of CRLs of the issuer", "statement": "A revocation file is written for an issuer only if for every CRL URL queued for it the file kept locally is a CRL signed by the issuer, and the file then holds exactly the entries of those CRLs in order; if any one fails, the file of the issuer is left as it was and the other issuers are unaffected; if writing it fails, which ends the process, it is a beginning of the complete file; if all servers answer properly, the files of all issuers are written. (A URL that does not parse is dropped before queueing and does not count: shown by a witness.)", "quantifier": "every set of issuers and URLs, every CRL content, every pattern of failures, cancellation and leftover files", "why_tests_cant": "the combinations of failing downloads, bad signatures, leftovers of earlier runs and cancellation are unbounded", "anchors": ["go/cmd/aggregate-crls/aggregate-crls.go: aggregateCRLWorker, processCRL, crlFetchWorker"]}
{"id": "C30", "title": "CRL acceptance", "statement": "A CRL is used only if its signature verifies under the issuer certificate; the path returned for a URL always holds such a CRL and a stored one is never lost; a CRL is taken whole or not at all: every entry has no reason (read as 0) or exactly one reason from 0 to 255, otherwise the CRL fails. A validly signed older CRL does replace a newer one (witness).", "quantifier": "every CRL", "why_tests_cant": "a CRL is an adversarial input; acceptance must be right for all contents, times and signatures", "anchors": ["go/cmd/aggregate-crls/aggregate-crls.go: loadAndCheckSignatureOfCRL, verifyCRL, crlFetchWorkerProcessOne", "go/types.go: Reason"]}
{"id": "C31", "title": "aggregate-known writes exactly the unexpired known serials of in-program issuers", "statement": "If aggregate-known ends without an error, with at least one worker and no failed write, the known file of each in-program issuer holds every serial stored in bins unexpired at the end, and only serials of bins unexpired at the start, as text the filter builder reads back; issuers not in the program get no file; filling the work queue never blocks. At every moment, and however the run ends, each file is the one of before or the beginning of what the first bins of an in-program issuer contribute, and the process does not crash unless a stored bin makes the reader panic; with readable bins a run without faults succeeds. With no worker, or if the final flush of a file fails, it succeeds without that output (witnesses).", "quantifier": "every database content, every interleaving of the workers, every moment of a signal, an error or an expiry", "why_tests_cant": "the test runs the workers to the end on one prepared storage; a signal or an error between two bins and the clock passing an expiry during the run cannot be placed by a test", "anchors": ["go/cmd/aggregate-known/aggregate-known.go: knownWorker.run, AggregateKnown work loop"]}
{"id": "C32", "title": "Issuer list save and load round trip", "statement": "The issuers saved to disk and loaded back are the same issuers with the same certificates in the same order and the same partitioned-CRL flags; an issuer is in the program exactly if a certificate with its key was inserted or loaded. Loading a file succeeds exactly if the file exists, decodes and all its certificates parse; it never removes an issuer and adds none that the file does not list. The flag of an issuer with several certificates depends on the order of insertion (witness).", "quantifier": "every issuer table", "why_tests_cant": "the table may have any certificates, flags and subjects, and is written from a map without an order", "anchors": ["go/rootprogram/issuers.go: SaveIssuersList, LoadEnrolledIssuers, InsertIssuer, Enroll"]}
{"id": "C33", "title": "The CRL URLs of an issuer are the union over its certificates", "statement": "Merging one issuer-to-CRL-URL map into another gives for each issuer the union of both URL sets. Loading the issuer report never panics on rows of the length of the header; an issuer is enrolled exactly if an unrevoked intermediate of the report has its key and chains to an unrevoked root, and its CRL URLs are the union of those of these intermediates, whatever the order of the internal map. A report without a needed column is refused; of a certificate listed twice only the first row counts (witness).", "quantifier": "every pair of maps, every report", "why_tests_cant": "the union has to be right for all maps with shared issuers and shared URLs, whatever the order of the rows", "anchors": ["go/types.go: IssuerCrlMap.Merge", "go/rootprogram/issuers.go: LoadFromDisk, InsertIssuer"]}
{"id": "C34", "title": "Filter inputs: revoked set and delta", "statement": "For the known and revoked files written by the two aggregation programs, the revoked set written for a run is exactly the known certificates that have a revocation entry with a reason in the requested set, and the delta files list exactly those of them that are not in the previous revoked set, each with one of its own reasons from the set.", "quantifier": "every known/revoked file contents, every reason set, every previous set", "why_tests_cant": "each entry of two files of any size must land in the right set; one lost or repeated serial is a wrong answer for one certificate", "anchors": ["rust-create-cascade/src/main.rs: write_revset_and_delta, skip_reason"]}
{"id": "C35", "title": "A full filter followed by its deltas reports every revocation of the last run", "statement": "For any number of runs where each computes its delta against the revoked set of the run before it (or against nothing when that cannot be loaded), every certificate revoked in the last run is reported by the full filter of the first run or by one of the delta filters after it; and whatever these report of a certificate known in all runs was revoked in one of them. Exception, shown by a witness: the priority channel computes its deltas against the revoked set of the all channel, so a certificate whose reason changes to a priority reason is in no priority filter or delta.", "quantifier": "every number of runs and contents", "why_tests_cant": "the answer depends on the whole series of runs since the last full filter", "anchors": ["rust-create-cascade/src/main.rs: write_revset_and_delta", "workflow/2-generate_mlbf", "workflow/3-upload_mlbf_to_storage"]}
{"id": "C36", "title": "Stash files can be read back", "statement": "A stash file has exactly one reading by its documented grammar, and that reading lists exactly the certificates of the delta, each issuer once and each serial once, provided serials are shorter than 256 bytes and there are fewer than 2^32 per issuer. A longer serial is silently cut, and its bytes can then be read as a revocation by another issuer (witness).", "quantifier": "every delta directory, every iteration order of the sets", "why_tests_cant": "the layout has length fields of fixed width; contents and lengths are unbounded and come in the order of a hash map", "anchors": ["rust-create-cascade/src/main.rs: write_stash"]}
{"id": "C37", "title": "Known/revoked counts are exact", "statement": "The counts used to size a filter equal the numbers of keys later inserted (revoked) and excluded (not revoked), for both filter types; the inserted keys are the known revoked certificates, each once, and the others are the known certificates that are not revoked. The reported histogram of reasons can exceed the number of revoked certificates (witness).", "quantifier": "every input", "why_tests_cant": "the counts size the filter; repeated, missing or malformed lines can make them wrong for some input among all", "anchors": ["rust-create-cascade/src/main.rs: count, count_all", "rust-create-cascade/src/clubcard_helper.rs", "rust-create-cascade/src/cascade_helper.rs"]}
{"id": "C38", "title": "A filter is written only after it classified every known serial correctly", "statement": "When the builder ends normally having written a filter, then the filter as it is read back from the written bytes answers revoked for a known certificate exactly when that certificate has a revocation entry with a reason in the set (for the delta filter: and is not in the previous revoked set), however faulty the filter library; otherwise the program aborts. This holds of any directories: then each file name is an issuer in base64url (padding may be missing), and each line of a known file is answered according to the lines of the revoked file of that name.", "quantifier": "every input, every filter construction result (including faulty ones)", "why_tests_cant": "the filter is built by another crate; the check must catch every faulty filter, not only those a test constructs", "anchors": ["rust-create-cascade/src/main.rs: main, CheckableFilter", "rust-create-cascade/src/clubcard_helper.rs: clubcard_check", "rust-create-cascade/src/cascade_helper.rs: cascade_check"]}
{"id": "C39", "title": "Reason sets are nested and exhaustive", "statement": "Reading a revoked file with a reason set gives exactly the entries whose reason is in the set: all entries; all but unspecified and undefined codes; or key compromise, cessation of operation and privilege withdrawn. The sets are nested, and every file that aggregate-crls writes can be read. The readable files are exactly those whose lines begin with two characters that are a hexadecimal number. Of a file whose writing was broken off the first entries are read and at most the beginning of one more, which can be the serial of another certificate.", "quantifier": "every entry", "why_tests_cant": "every byte string may be a line of the file, and every reason code must fall in a set", "anchors": ["rust-create-cascade/src/main.rs: skip_reason, Reason, decode_reason"]}
{"id": "C40", "title": "Query verdicts", "statement": "A query of a certificate within its validity answers Revoked exactly if some loaded filter says so of its issuer key and serial; NotEnrolled exactly if no intermediate of the database verifies its signature or no filter knows that key; NotCovered exactly if some filter knows the key but none covers the certificate; Good otherwise. The order of the filters does not matter, and loading more filters never weakens the verdict. The loaded filters are those of the files named as filters or deltas, all or an error.", "quantifier": "every database of filters and intermediates, every certificate", "why_tests_cant": "the verdict is claimed for every combination of filter answers; tests exercise a few fixed filters", "anchors": ["rust-query-crlite/src/main.rs: Filter::has, Intermediates, CRLiteDB::query, CRLiteDB::load"]}
{"id": "C41", "title": "Exit codes reflect the worst verdict", "statement": "The exit status of a query of several certificate files is 1 exactly if one that can be read is revoked; of several hosts it is 0 exactly if each host gave a certificate (from the first address that gave one) and none is revoked. The same holds of the sign-off list and of certificates fetched from crt.sh.", "quantifier": "every list of files, hosts, addresses and connection results", "why_tests_cant": "exit codes combine the verdicts of any number of files, hosts and addresses, with failures among them", "anchors": ["rust-query-crlite/src/main.rs: query_certs, query_https_hosts, query_crtsh, signoff, main"]}
{"id": "C42", "title": "Database updates verify digests", "statement": "After a successful update exactly one full filter of the channel is published, every published file is on disk with the published digest, every other filter or delta is gone unless it could not be removed, and other files are untouched, provided records of one name have one digest (witness otherwise). From any directory an update with a working network and file system succeeds. A failed update does not keep the previous filters: a certificate reported revoked before may no longer be (witness).", "quantifier": "every record list, network result, file system result and local directory", "why_tests_cant": "the directory may hold anything, and any of the downloads and renames may fail; tests would need a server and a broken disk", "anchors": ["rust-query-crlite/src/main.rs: update_db"]}
{"id": "C43", "title": "Accepted channel records form one chain", "statement": "The consistency check accepts the records of a channel exactly if there are none, or they all have an attachment and can be listed as one chain: a full filter first, and each later record an incremental filter whose parent is the record before it. Every other set of records with the required attributes is reported as inconsistent. The names of the records sort like the times of their runs.", "quantifier": "every list of records", "why_tests_cant": "A property of all parent graphs: forks, cycles, several roots, missing parents and repeated ids, in any order.", "anchors": ["moz_kinto_publisher/main.py: crlite_verify_record_consistency"]}
{"id": "C44", "title": "Publication decision keeps channels gap-free", "statement": "The decision is an incremental update exactly if the records form a chain, every record belongs to a known run not later than the run of the last record, all later runs are completed and valid with nondecreasing timestamps, and the oldest published run is younger than the limit. The runs uploaded are then all runs later than the last published one, in order. Otherwise the channel is replaced by the full filter of the latest run. The age is that of the full filter if the run identifiers have equal length, and need not be otherwise (a witness is given).", "quantifier": "every record list and every state of the bucket of runs", "why_tests_cant": "the decision depends on all combinations of published records, of runs in the bucket and of their files", "anchors": ["moz_kinto_publisher/main.py: crlite_determine_publish, crlite_verify_run_id_consistency"]}
{"id": "C45", "title": "Publisher recovers from a crash at any point", "statement": "Let the publisher be run again and again on a channel, while runs are added to the bucket (their files one after the other, the completed marker last) and old ones deleted, and let each run of the publisher be ended by any call failing (with or without effect on the server) or by the process dying at any call. Then at all times, if the records of the channel form a chain with all files attached, the chain publishes a full filter of one run and updates for exactly the runs that followed it in the bucket, in order, each with its own contents, also when some of these runs have been deleted since. The next run without failures leads to a chain that ends in the latest run, and asks for a review if it changed anything. Other channels are never touched; channels that are switched off are emptied. With the channels as configured, the default channel serves the filters of clubcard-all, the compat channel those of clubcard-priority, and the experimental channel nothing. A dry run changes nothing. If the process dies between the last upload and the request for a review, the next run asks for none (a witness is given).", "quantifier": "every sequence of publisher runs, every change of the bucket between them, every pattern of failing calls and crash points", "why_tests_cant": "a crash may follow any call of any of the runs, while the bucket changes; the tests run the publisher without crashes", "anchors": ["moz_kinto_publisher/main.py: publish_crlite, publish_crlite_record, clear_crlite_filters, clear_crlite_deltas, main"]}
{"id": "C46", "title": "CT log list synchronisation keeps every enrolment decision", "statement": "When no call fails, the collection of CT logs afterwards holds one record per log of the upstream list with the upstream metadata; logs already known keep their enrolment flag, new logs are enrolled, other logs are gone; a review is requested if anything changed. Whatever calls fail, and over any number of runs, a log that stays listed keeps its record and its enrolment flag. A list with repeated ids or an id that is not the hash of the key, or a collection with repeated or missing log ids, is refused without any change. Dry-run mode changes nothing. A witness shows that a review is requested even if some calls failed.", "quantifier": "every upstream list, every collection, every failure pattern, any number of runs", "why_tests_cant": "The upstream list, the state of the collection and the pattern of failing or half-done calls range over unbounded sets; tests mock one exchange.", "anchors": ["moz_kinto_publisher/main.py: publish_ctlogs"]}
{"id": "C47", "title": "Published intermediates are checked before a review is requested", "statement": "Whatever server calls fail, a review of the intermediates collection is requested (and success reported) only if the collection then holds exactly the certificates of the enrolled list, one record each; a certificate that is published and stays in the list stays published, over any number of runs. A run in which nothing fails repairs any collection of readable records: broken records, repeated certificates and records without a file are removed and missing certificates added. Dry-run mode changes nothing. No record is ever changed in place. Witnesses show that a record with an empty hash field passes the check, and that a record whose file has no PEM marker makes every later run fail.", "quantifier": "every enrolled list, every collection, every failure pattern, any number of runs", "why_tests_cant": "The collection and the pattern of failing or half-done calls range over unbounded sets; tests mock single records.", "anchors": ["moz_kinto_publisher/main.py: publish_intermediates, load_local_intermediates, load_remote_intermediates, Intermediate"]}
{"id": "C48", "title": "Configuration precedence", "statement": "Each of the seventeen options takes the value of the environment variable of its name if that is set and, for numbers and booleans, a text of the right form and range; else the value of the configuration file, if there is one of the right form; else its default. Only the batch size can in addition be set on the command line, which comes first. A malformed environment value is skipped without an error, and an empty one overrides the file for text options.", "quantifier": "every environment, file and command line", "why_tests_cant": "Ranges over all texts; the numeric ranges and the fall-through of malformed values have no finite set of cases.", "anchors": ["go/config/config.go: confInt, confUint64, confBool, confString, CTConfig.Init"]}
{"id": "C49", "title": "Run identifiers are fresh and ordered", "statement": "The run identifiers found in a bucket are exactly those that directory names begin with, listed by date and then by number if the numbers have at most six digits. A newly allocated identifier has the date of the day, is not in use, and is later than every run in the bucket, if in addition no run has a later date; its number is 0 or one more than that of a run of the day. Witnesses show that identifiers are reused without these conditions.", "quantifier": "every bucket listing and every day", "why_tests_cant": "Ranges over all listings, in any order and with any number of runs per day.", "anchors": ["workflow/__init__.py: get_run_identifiers", "workflow/0-allocate_identifier: main"]}
{"id": "C50", "title": "Enrolled logs are downloaded, and only these", "statement": "At every moment the enrolled logs are those that the log records gone through so far enrol. Every enrolment starts one download loop, and a job of a log begins only while the log is enrolled. The process is never stuck; a one-shot run takes a bounded number of steps; it waits for all downloads that are under way, and a run without failures in which every started loop gets to run has done a job of every enrolled log; a run without end in which nothing fails has at every moment a download loop for every enrolled log. Witnesses show what does not hold: the process may exit before a started loop has run, or panic; a log enrolled again during a job is downloaded twice at the same time; a log that is no longer listed stays enrolled; a loop that ends by an error is not restarted.", "quantifier": "every sequence of log lists and failed updates, every interleaving of the goroutines, every outcome of every job", "why_tests_cant": "Quantifies over all schedules of an unbounded number of goroutines; a test sees one schedule.", "anchors": ["go/cmd/ct-fetch/ct-fetch.go: EnrolledLogs, LogSyncEngine.SyncLog, LogSyncEngine.Wait, main"]}
{"id": "C51", "title": "End to end: a covered certificate on its issuer CRL is reported revoked, one on none is reported good", "statement": "Take any state an installation can reach (concurrent fetchers, commits that died, no loss of the cache). Suppose its coverage file claims to cover a certificate entry whose expiry hour has not begun; aggregate-known, aggregate-crls and the filter builder then run to success on that storage; the issuer is in the program and its revocation file was written. Then the query tool, with the published filter, reports the certificate Revoked if some CRL of its issuer lists the serial with a reason in the filter's set, and Good if none does and this is the only filter.", "quantifier": "every reachable storage state, every interleaving of the aggregate-known workers, every set of CRLs and server behaviours, every certificate, reason set and filter type; the filter library is arbitrary except that inside its range it answers by its membership test", "why_tests_cant": "Six programs in three languages take part, and a test runs one of them on prepared inputs; the claim is about the composition for every state the earlier stages can leave behind.", "anchors": ["go/cmd/aggregate-known/aggregate-known.go", "go/cmd/aggregate-crls/aggregate-crls.go", "go/storage/certdatabase.go", "rust-create-cascade/src/main.rs", "rust-query-crlite/src/main.rs"]}
{"id": "C52", "title": "Cleaning storage deletes exactly the expired bin files", "statement": "Cleaning storage removes, inside issuer directories, exactly the files with a three-part name whose date parses and lies in the past; the file of a bin stays until the hour of that bin is over; listing storage returns exactly the serial files of the issuer directories.", "quantifier": "every directory tree, every time", "why_tests_cant": "the tree may contain any files and names, and the decision depends on the clock; deleting one file too many loses serials for good", "anchors": ["go/storage/certdatabase.go: removeExpiredSerialsFromStorage, GetIssuerAndDatesFromStorage"]}
{"id": "C53", "title": "Local names of downloaded CRLs are safe and distinct", "statement": "The local name of a CRL is made of its host name, the last part of its path and its query, in lower case, without the characters other than letters, digits and ~ - . and without a final .crl, followed by the first eight bytes of the SHA-256 of the normalised URL in hexadecimal and .crl. It has no path separator, is never the name of a temporary file, lies in the directory of its issuer, and two URLs share a name only if the first eight bytes of the SHA-256 of their normalised forms agree.", "quantifier": "every URL", "why_tests_cant": "the URL is text from certificates; collisions and path separators have to be excluded for all strings", "anchors": ["go/cmd/aggregate-crls/aggregate-crls.go: makeFilenameFromUrl, crlFetchWorkerProcessOne"]}
{"id": "C54", "title": "CRL columns of the issuer report are decoded exactly", "statement": "A well-formed bracketed list of http or https URLs without commas is decoded to exactly these URLs, an empty or missing column to none; whatever the text, only http and https URLs come out; URLs that contain a comma are torn apart (witness), and URLs of another scheme or that do not parse are dropped without an error (witness).", "quantifier": "every column text", "why_tests_cant": "the column is free text written by CAs; the decoding must be right for all of them", "anchors": ["go/rootprogram/issuers.go: decodeCrls"]}
{"id": "C55", "title": "A missing revocation list is explained in the audit", "statement": "If an issuer has no new revocation list because one of its CRLs failed, then the audit has a failure entry with that issuer and one of its URLs, unless a local file operation failed (directory creation, rename, stat), which is not audited (witness).", "quantifier": "every run", "why_tests_cant": "the reasons for a missing list are all patterns of failures in three stages of the program", "anchors": ["go/cmd/aggregate-crls/aggregate-crls.go: crlFetchWorkerProcessOne, aggregateCRLWorker", "go/downloader/verifying-downloader.go: DownloadAndVerifyFileSync"]}
{"id": "C56", "title": "The check of the issuing distribution point is exact", "statement": "For issuers with partitioned CRLs the check accepts a CRL exactly if the URL it was fetched from is among its distribution points and is a URL of the issuer, and no other URL of the issuer is among them. A failed check is audited only: the revocation list is still written (witness).", "quantifier": "every list of distribution points, every list of URLs", "why_tests_cant": "equality of lists of names in any order and number; the lists come from the CRL and from the report", "anchors": ["go/cmd/aggregate-crls/aggregate-crls.go: loadAndCheckIssuingDistributionPointOfCRL, aggregateCRLWorker"]}
{"id": "C57", "title": "The intermediates are those of the newest run on disk", "statement": "An update of the intermediates stores those enrolled in the latest run, by date and then by number, that the name of a file in the database directory belongs to, and fails if there is none.", "quantifier": "every directory", "why_tests_cant": "the directory may contain any file names, and the newest run must be found among all of them, by date and then by number", "anchors": ["rust-query-crlite/src/main.rs: extract_run_id, update_intermediates"]}
{"id": "C58", "title": "What a download leaves behind", "statement": "A download is skipped only if the local file has the length the server announces and is not older than the date it announces. Otherwise success is reported only after an answer arrived completely: a whole file replaces the local one, a part is appended to it, and the date is the one the server gave. Every other attempt fails, leaves the file as it was or with the part that arrived, and is repeated at most as often as allowed; failure is reported only after that many failed attempts. Witnesses show what does not hold: a download cancelled between two attempts reports success; and because a continued download is asked for with a header that servers ignore, a file that does not fit into one connection never arrives.", "quantifier": "every sequence of server answers, connection failures, local failures and cancellations, any number of retries", "why_tests_cant": "A test fixes the answers of one server; the claim is about every sequence of them, including connections that break at any byte.", "anchors": ["go/downloader/downloader.go: determineAction, download, DownloadFileSync"]}
{"id": "C59", "title": "A completed run in the bucket is whole", "statement": "Let the pipeline be run again and again, one run after the other, let any call to the bucket or the disk fail (with or without effect) or the process die at any call, and let old runs be deleted from the bucket in order. Then every run that carries the completed marker has exactly the objects of one run of the pipeline: the aggregated data, the files built from them for the all channel, with a filter among them, the files built for the priority channel, and the marker, each with its own contents and nothing else. It is never changed afterwards; it can only be deleted as a whole. A run without failures whose inputs are there is completed, and is the newest of all. A run that ends with success has completed a run, whatever failed on the way, or has left the bucket alone if it was told not to upload. Witnesses show what does not hold: a completed run may have no files for the priority channel at all, and a run that ends before its first upload leaves a directory that stops every further run of the day.", "quantifier": "every sequence of pipeline runs, all inputs, every pattern of failing calls and crash points, every deletion of old runs", "why_tests_cant": "The bucket after a history depends on every crash point of every earlier run; tests mock single uploads.", "anchors": ["containers/scripts/crlite-generate.sh", "workflow/0-allocate_identifier", "workflow/1-upload_data_to_storage", "workflow/2-generate_mlbf", "workflow/3-upload_mlbf_to_storage"]}
{"id": "C60", "title": "An update leads from the run before to its own run", "statement": "In every reachable state of the bucket, take a completed run and the run directly before it, also completed. The update of the later run answers, for every certificate known to it, either as a full filter of the later run, or revoked exactly for the certificates revoked in the later run that were not both known and revoked in the earlier one. After a run without failures it is always the second. The delta directory of the run lists exactly the same certificates, and so does its stash, which has no other reading. This holds although each run takes its base from a shared object that is overwritten by every run, also by runs that died before they were completed.", "quantifier": "every sequence of pipeline runs, all inputs, every pattern of failing calls and crash points, every pair of neighbouring completed runs", "why_tests_cant": "The base of an update is an object in the bucket written by an earlier process that may have died; a test sees one run.", "anchors": ["workflow/2-generate_mlbf", "workflow/3-upload_mlbf_to_storage", "rust-create-cascade/src/main.rs: main, create_clubcard"]}
{"id": "C61", "title": "What clients get over pipeline and publisher together", "statement": "Let pipeline runs, publisher runs and deletions of old runs follow each other in any order, with any failures and crashes. At all times, if the published records of a channel form a chain with all files attached, then a client that asks every published filter is told revoked for every certificate that is known to and revoked in the newest published run, even if that run and the ones before it have been deleted from the bucket; and no published filter claims a revocation of a known certificate that its own run does not contain. A run of the publisher without failures brings the records up to the newest run of the bucket, if that is completed.", "quantifier": "every interleaving of pipeline runs, publisher runs and deletions, all inputs, every pattern of failures", "why_tests_cant": "The answer a client gets depends on the whole history of two programs that share a bucket and may each die at any call.", "anchors": ["containers/scripts/crlite-generate.sh", "workflow/3-upload_mlbf_to_storage", "moz_kinto_publisher/main.py: publish_crlite, main"]}
{"id": "C62", "title": "The tiled log worker keeps up with a well-behaved log", "statement": "Against a tiled log that behaves, a job started from a saved state inside the tree succeeds, hands on exactly the entries after the saved MaxEntry in order, each with the certificate that issued it (the second of the chain if the first is a precertificate signer; expired entries and roots are not stored), and moves MaxEntry over just these. After every job MaxEntry is less than a batch or less than a tile behind the tree head, also if the log grows. If the state was not saved within the last ten minutes, a job moves whenever there is a new entry and reaches the end if less than a batch is missing; two such jobs cover a log that does not grow, whatever its size, and from the third on the saved time stamp is at least that of the tree head.", "quantifier": "every tree size, batch size, tile width, saved state, every way the client library cuts off partial tiles, every number of jobs", "why_tests_cant": "a test runs one log of one size; that no size leaves a tail unread depends on how the batch size, the tile width and the last partial tile interact, and the failure would only show as coverage that silently stops short", "anchors": ["go/cmd/ct-fetch/tiled.go: NewTiledLogWorker, TiledLogWorker.Run, storeLogEntry, updateState"]}
{"id": "C63", "title": "Only what a review was asked for gets signed", "statement": "Whatever publishers, people and other runs of the sign-off tool do to a collection at the same time: when a run of the tool has the collection signed, the last thing that happened to the collection before is a request for review of exactly the records that get signed, and nothing has changed since the run looked. A run signs at most once, also if answers get lost and the request is sent again; it changes no record; if it ends with status 0 it has signed or has seen the collection in another status than \"to-review\". If nobody interferes, a collection up for review is signed, also if the server fails a few times; one that is not up for review is left alone, which is no error.", "quantifier": "every interleaving of any number of review requests, sign-off runs, changes and status changes by people, every loss of an answer, every number of retries", "why_tests_cant": "the danger is a change that slips in between the look at the collection and the signature; a test cannot place a change at every point between requests of several processes", "anchors": ["containers/scripts/crlite-signoff-tool.py: SignoffClient.sign_collection", "moz_kinto_publisher/main.py: PublisherClient.request_review_of_collection"]}
{"id": "C64", "title": "The size guard of the automatic sign-off", "statement": "With a filter on disk, the sign-off script signs off on the revocations exactly if the bucket is one of the three known ones and the filter is not larger than the limit; with too large a filter it ends with status 1, with another bucket it does nothing and ends with status 1. The tool contacts the server for the two collections only, and never with --noop or with KINTO_NOOP set to anything, when it ends with status 0; for other names it ends with status 1. A witness shows that the guard is void if the filter file is missing - and no program of the repository writes the file that is looked at.", "quantifier": "every bucket name, filter size, limit, argument and environment value", "why_tests_cant": "the script is tied to a server and an environment and has no tests; that a missing file turns into size 0 shows only in the case nobody tries", "anchors": ["containers/scripts/crlite-signoff.sh", "containers/scripts/crlite-signoff-tool.py: __main__"]}
{"id": "C65", "title": "When the filter builder starts, and what becomes of earlier outputs", "statement": "The builder starts exactly if the known and revoked directories (and for clubcards the log list) exist, its output directory can be made, and, without --clobber, none of filter, filter.stash, revset.bin, delta and filter.delta is there. Without --clobber every file that was in the output directory is unchanged afterwards, whether the builder starts, refuses or panics. With --clobber a run that starts leaves nothing of what was there before. A run that finishes leaves all its outputs. The exit status is 101 exactly if the builder starts and panics, and 0 otherwise; a builder that refuses leaves nothing new but an empty directory delta. Witnesses show the exceptions: reason_codes.csv is overwritten without --clobber; a builder that refuses to start ends with status 0, and with --clobber it has removed the filter of the earlier run by then; a refusal leaves the directory delta behind, which makes the builder refuse for good without --clobber.", "quantifier": "every content of the output directory, every combination of options, missing inputs and file system errors, a panic after any file", "why_tests_cant": "the unit tests of the builder call its parts and never its main function; the failures need a combination of options, missing inputs and earlier contents", "anchors": ["rust-create-cascade/src/main.rs: main"]}
{"id": "C66", "title": "The in-memory cache behaves like a set while nothing is removed", "statement": "After any history of insertions, queries and expiry times in the future, the in-memory stand-in for the cache answers like a set: an insertion says whether the value is new, membership is exact, a listing gives every value once in increasing order, the cardinality is the length of the listing, and a key exists exactly if something is stored under it. The first removal of a value takes exactly this value out of this set, but the order is lost. Witnesses show that the likeness to a set ends there: removing everything that is listed leaves something, a value can be listed and denied and inserted twice; and that expiry differs from Redis: an insertion after the expiry is lost, and an emptied key keeps its old expiry.", "quantifier": "every history of operations, keys and values, of any length", "why_tests_cant": "the stand-in is itself what the tests run on; a test cannot tell a fault of the program from one of the stand-in, and the lost order after a removal shows only with four or more values", "anchors": ["go/storage/mockcache.go: SetInsert, SetInsertMany, setRemove, SetRemove, SetContains, SetList, SetCardinality, Exists, ExpireAt"]}
{"id": "C67", "title": "Where the list of issuers of a run comes from", "statement": "Loading the CCADB report asks nothing of the network if the local report is usable and younger than twelve hours. If it succeeds, the issuer table is that of the file now on disk and of it alone, and this file is such a recent one, or a complete answer of the server to one of four attempts, or one that the server calls current by length and date. It fails only if no usable recent report was there and four attempts failed or left an unusable file. A server that answers gets its report in. Witnesses show what does not hold: a download that breaks off at the end of a row leaves a part of the report that the next run takes for a recent report, so issuers are missing without an error; an unusable file that has the announced length and date is never replaced.", "quantifier": "every local file, every sequence of server answers and failures, every clock", "why_tests_cant": "the tests load a fixed file; which of the sources is used depends on dates, on the server and on what an earlier failed run has left, over several runs", "anchors": ["go/rootprogram/issuers.go: Load, LoadFromDisk, DatasetAge", "go/downloader/downloader.go: DownloadFileSync"]}
{"id": "C68", "title": "The workers of the CRL aggregation do not disturb each other", "statement": "While any number of workers fetch and aggregate CRLs for different issuers at the same time, with a signal or a crash at any moment: the file kept for a CRL URL is at every moment the one from before the run or a CRL with a good signature of its issuer; the revocation file of an issuer is the one from before or the beginning of the list of the entries of all its CRLs; files of others are never touched. A run that is not cancelled and ends with code 0 leaves exactly the files and audit entries that processing the issuers one after the other leaves. No run is infinite and each can reach an end. If servers and disks behave, every such run writes the complete revocation list of every issuer. The issuer list is written only after an aggregation that began uncancelled; a run that succeeds without writing it was cancelled while fetching and has touched no revocation list. Witnesses show what does not hold: with no threads, or cancelled during the aggregation, the program succeeds and saves the issuer list without the revocation lists; a fatal error in one worker leaves the half-written list of another issuer where a complete old one was.", "quantifier": "every number of workers, every queue of different issuers, every interleaving, every behaviour of servers and disk, every moment of cancellation or death", "why_tests_cant": "the races show only in particular interleavings of particular failures; a test sees one interleaving and cannot end the process between two writes", "anchors": ["go/cmd/aggregate-crls/aggregate-crls.go: crlFetchWorker, crlFetchWorkerProcessOne, aggregateCRLWorker, downloadCRLs, aggregateCRLs, main", "go/types.go: IssuerCrlUrls, IssuerCrlUrlPaths"]}
{"id": "C69", "title": "Any number of committing processes and ct-fetch starts share one installation safely", "statement": "Any number of processes commit to, and start ct-fetch on, the same cache and storage directory, each access to the cache or to a file being interleaved with those of the others, and each process possibly dying between any two accesses. If whoever holds the commit lock is done or dead within the four hours after which the lock expires, then no two processes change storage or restore the cache at the same time, a serial that was inserted stays in the cache or in storage until it expires, and the coverage file never claims what storage lacks. With or without that assumption storage holds nothing that was not inserted. A ct-fetch start that no other process overlaps leaves cache and storage epochs in step, leaves exactly the log states of the coverage file in the cache when they were not, and is possible whenever the lock is free. Witnesses show what fails: a start that overlaps the end of a commit can leave the epochs out of step so that all commits are refused until the next start; a commit that outlasts its lock can lose a serial; a release that is slower than the expiry takes away the lock of another process.", "quantifier": "every number of processes, every interleaving of their accesses, every moment of death and of expiry, every history before", "why_tests_cant": "the races depend on the order of single accesses of separate processes and on hours passing between them; tests run one process against an in-memory cache", "anchors": ["go/cmd/commit/commit.go: work", "go/storage/certdatabase.go: EnsureCacheIsConsistent, Commit", "go/storage/rediscache.go: AcquireCommitLock, ReleaseCommitLock, HasCommitLock, GetEpoch, NextEpoch, Restore", "go/cmd/ct-fetch/ct-fetch.go: main"]}
{"id": "C70", "title": "aggregate-known reads a consistent state while other processes commit", "statement": "After its own commit aggregate-known writes the log list and then reads the serial files, while ct-fetch stores certificates, other processes commit, die and start, and time passes. Whatever the interleaving, if commits are done within the four hours for which a lock lasts: an entry that the written log list claims to cover, of an issuer in the program and with its expiry hour not begun at the end of the run, is among the serials the run read. It reads only serials that were stored under that issuer and hour, also when commits overrun their locks. While it still has its lock, the log list and all serial lists are the contents of storage at the end of its own commit, and nobody else commits or restores; it reads every in-program bin with a file that is unexpired at the end of the run, and none that had expired at its start; so the verdict of the query tool described in C51 holds for any number of processes. A witness shows that a run that takes longer than its lock mixes two commits.", "quantifier": "every number of other processes, every interleaving, every moment of death, expiry and reading, every set of bins, every order of reading", "why_tests_cant": "the interleavings of several processes over hours cannot be arranged by a test; the tests of aggregate-known have one process and no lock", "anchors": ["go/cmd/aggregate-known/aggregate-known.go: work, knownWorker", "go/storage/certdatabase.go: GetIssuerAndDatesFromStorage, ReadSerialsFromStorage, GetCTLogsFromStorage, Commit", "go/storage/rediscache.go: AcquireCommitLock"]}
{"id": "C71", "title": "The table of revocation reasons tells the truth about each issuer", "statement": "Every build writes a table with one line for each issuer with known certificates, in the order of the directory: the name of the issuer, then for six reasons the number of its known serials whose last selected revocation entry has this reason (codes without a meaning count as unspecified), then the number of different known serials that are revoked for a selected reason, then the number of known serials that are not. If no serial stands twice in the known file of an issuer, revoked and not revoked certificates add up to the known ones, and the reasons to the revoked ones but for CA compromise, hold, removal from the CRL and AA compromise, which have no column.", "quantifier": "all issuers, known and revoked files of the aggregators, of any size, and every set of reasons", "why_tests_cant": "the tests count one fixed set of serials without looking at the table; whether its columns agree depends on repeated entries, on unknown codes and on the reasons without a column", "anchors": ["rust-create-cascade/src/main.rs: count_all, count, ReasonCodeHistogram::add, decode_reason"]}
{"id": "C72", "title": "The report of aggregate-crls tells the truth", "statement": "Every entry of the report is about a URL of the issuer it names and is true of the CRL directory that the run leaves. Valid with a number and a checksum: the kept file has these contents, is a CRL of the issuer with a good signature and has this many entries, at least one. Empty: the same with none. Failed to process: signed, but some entry has no well-defined reason. Failed to verify: the kept file is missing, unsigned or was unreadable. Wrong distribution point: the issuer uses partitioned CRLs and the CRL does not name the URL, or names another one of the issuer. Old: last changed more than fourteen days before it was fetched. Failed download: all four attempts were made, none of them was given a whole file that could be written, and the kept file is the one from before the run. If the list of an issuer is written, each of its URLs has an entry with its number of revocations, these numbers add up to the lines of the list, every old CRL and every wrong distribution point is reported, and nothing is reported as failing to verify locally or to process. A failed download does not mean that the list is missing (witness).", "quantifier": "every set of issuers and URLs with distinct local names, every CRL content, all server answers, local failures, cancellations and leftover files; truth of the entries and the sum of the numbers also for any number of workers in any order (runs not cancelled)", "why_tests_cant": "the tests call the auditor with chosen arguments; whether an entry is true depends on what happened to the file before and after it was written, over all URLs and issuers of the run", "anchors": ["go/cmd/aggregate-crls/aggregate-crls.go: crlFetchWorkerProcessOne, aggregateCRLWorker", "go/cmd/aggregate-crls/crl-auditor.go", "go/downloader/verifying-downloader.go: DownloadAndVerifyFileSync"]}
{"id": "C73", "title": "What the health report of ct-fetch tells", "statement": "If the health endpoint answers ok (200), then within twice the polling delay a download job ended without an error or a message was taken off the queue for the database. If it answers anything else, no job ended without an error within that time, and of the messages taken within it no two lie a period of the health ticker apart unless an attempt to store failed between them. It answers \"no health updates yet\" (503) as long as there has been no sign of life, and not after a job without an error; the alarm (500) is given only if there was a sign of life before. An ok is no sign of progress: with all logs unreachable, or with a database that stores nothing, the answer can be ok for ever.", "quantifier": "every sequence of job ends, messages and failed attempts to store at any times, every period of the ticker, every polling delay whose double fits a duration, every moment of asking", "why_tests_cant": "there is no test of the endpoint; its answer depends on how ticks, messages, failures and jobs follow each other in time, over hours", "anchors": ["go/cmd/ct-fetch/ct-fetch.go: RegisterUpdate, SyncLog, insertCTWorker, main (handler of /health)"]}
{"id": "C74", "title": "Certificates and issuers are read off the answers of a log as RFC 6962 says, and the proof covers the leaf only", "statement": "An entry is accepted only if the two byte strings of the answer are exactly a Merkle leaf and the matching extra data of RFC 6962, and then the time, kind, certificate and chain that are used are those encoded in them. Every position other than 0 that a saved state of the log claims as done was answered with a verified leaf of that position, whose time and, for a certificate, whose certificate is the one that is stored; or the certificate had expired, or the chain was empty. For an honest tree the stored certificate is the one of the log at that position, or a hash collision is in the transcript. The proof does not cover the rest: the issuer, the precertificate, and whether the entry is stored at all are what the server says in the extra data (refuted with witnesses).", "quantifier": "every pair of byte strings, every parser of certificates, every sequence of jobs, answers, failures and restarts, every position", "why_tests_cant": "the layouts of bytes are unbounded, and a test against a real log never sees a wrong chain under a correct leaf; ct-fetch has no unit tests", "anchors": ["go/cmd/ct-fetch/rfc6962.go: downloadCTRangeToChannel, storeLogEntry", "go/types.go: ParseCertificate, IsPreIssuer"]}
{"id": "C75", "title": "Entries of a tiled log are stored under the issuer that the log gave for their fingerprint", "statement": "Throughout all jobs of a tiled log there is one table from fingerprints to certificates, made of answers the log gave to requests for those fingerprints; each stored entry has its own time, leaf and certificate and the issuer the table has for the first fingerprint of its chain, or for the second if the first is a precertificate signer. A fingerprint is not asked for again after a usable answer, and only the first two fingerprints of entries that are not skipped are asked for. If the log answers honestly, the issuer has the fingerprint in the entry. Nothing checks this: a wrong first answer is used for all later entries (refuted with a witness).", "quantifier": "every sequence of jobs, every list of entries, every sequence of answers and network errors, every batch size", "why_tests_cant": "the cache outlives jobs, and which entry makes the request depends on expiry, order and errors, over the life of the process; ct-fetch has no unit tests", "anchors": ["go/cmd/ct-fetch/tiled.go: GetCertificate, storeLogEntry, Run", "go/cmd/ct-fetch/ct-fetch.go: SyncLog"]}
{"id": "C76", "title": "A serial number is the contents octets of its DER encoding, in certificates and CRLs alike", "statement": "The serial recorded for a certificate is exactly the contents octets of the element that follows the optional version in its signed part, and the serials taken from a CRL are exactly the contents octets of the first element of each entry, in order, each with the one reason from 0 to 255 that its extensions give (0 if none); a CRL that is not encoded this way, or with two reasons in an entry, is not used. So a certificate whose serial number is in the shortest form is matched by exactly the entries that name its number, if these are in the shortest form too. Number for number alone this is false: an encoding with a superfluous octet is another serial.", "quantifier": "every byte string as the signed part of a certificate or of a CRL, with elements of every length below 2^31, every number of entries and extensions, every test of dates", "why_tests_cant": "the claim is about all byte strings; the two decoders are written with different struct types and no test compares them; unit tests decode a few certificates made by one encoder", "anchors": ["go/types.go: NewSerial, NewSerialFromTBS, DecodeRawTBSCertList, SerialAndReason, Reason", "go/cmd/aggregate-crls/aggregate-crls.go: processCRL"]}
{"id": "C77", "title": "Log states and issuers survive their JSON text", "statement": "The saved progress of a log and the list of enrolled issuers are read back as they were written: every counter up to 2^64-1, the instant with its zone, every string that is UTF-8. Text of the same values that another writer made (other order, white space, escapes, case of names, additional members) is read as the same values. A time that has no such text (a year outside 0 to 9999) is refused when it is to be written. A text that was not written to its end is refused. Nothing but JSON is accepted: what is read is an object of which, for each field, the last value that is not null counts and every value is of the right kind. With a byte that is not UTF-8 in a log address this is false: it comes back changed.", "quantifier": "every log state with a year from 0 to 9999, every list of states and of issuers, every JSON text of them of any depth and length", "why_tests_cant": "the claim is about all strings, numbers and instants and about texts of unbounded depth; the tests store and load a few states made of ASCII", "anchors": ["go/types.go: CTLogState", "go/storage/rediscache.go: StoreLogState, LoadLogState, LoadAllLogStates", "go/storage/certdatabase.go: SaveLogState, GetLogState, GetCTLogsFromStorage", "go/rootprogram/issuers.go: EnrolledIssuer, SaveIssuersList, LoadEnrolledIssuers"]}
{"id": "C78", "title": "Certificates survive their PEM text", "statement": "The text written for a certificate is read back as the same bytes, and so is any PEM text of it with other line lengths, blanks, carriage returns and text before and after it. A text is accepted only if lines of it begin and end a CERTIFICATE block around the Base64 text of bytes that parse as a certificate. So the table of issuers survives being saved as PEM in JSON and loaded, whatever bytes the certificates and their subjects have.", "quantifier": "all byte strings as certificate, all texts of any length, every table of issuers, every parser of certificates that reads what a certificate was made from", "why_tests_cant": "the claim is about all byte strings and all line layouts; the tests use a handful of real certificates", "anchors": ["go/rootprogram/issuers.go: CertificateToPEM, PEMToCertificate, PEMToZcryptoCertificate, SaveIssuersList, LoadEnrolledIssuers"]}
{"id": "C79", "title": "The CCADB report is read as the table it says, or refused", "statement": "Loading the report from a file with any contents ends with a table of issuers or an error, never a crash. It succeeds exactly if the contents, with CR LF as LF, are the text of a table by the rules of comma-separated values (cells plain or in quotes with quotes doubled, rows of equal length, empty lines ignored) that has the five columns used; and the issuers then are those of that table. A table written with any choice of quoting and line ends is read back. A text with an odd number of quotes is refused. What is read of a report cut short has the rows of the whole up to some point, where only the last cell of the last row can lack its end.", "quantifier": "all file contents of any length, all tables and ways to write them, all places to cut a text", "why_tests_cant": "the tests read a few small well-formed files; the claim is about all texts, line ends inside quoted PEM cells and every truncation", "anchors": ["go/rootprogram/issuers.go: LoadFromDisk"]}
{"id": "C80", "title": "Epochs in step mean a cache that continues the storage", "statement": "The epoch that a commit writes to disk, and the one Redis holds, are read back as the same number. Whatever fails while a commit ends (temporary file, writing, Redis, replacing the file, with or without effect), afterwards either a commit is refused until ct-fetch starts again, or nothing has changed, or the storage is at the epoch of this commit and the cache one ahead. The files left behind can always be read, and a start makes a commit possible again. If the cache is lost after the storage has passed epoch 0, no commit is admitted until the next start. With an ignored write error of the epoch file the last is false.", "quantifier": "every epoch up to 2^64-1, every file and Redis value, every place to cut the line, every combination of failures, every history of commits, losses of the cache and starts", "why_tests_cant": "the tests commit once or twice on a mock without failing writes; the claim is about all numbers, all failures and histories of any length", "anchors": ["go/storage/certdatabase.go: EnsureCacheIsConsistent, getStorageEpoch, Commit", "go/storage/rediscache.go: GetEpoch, NextEpoch, Restore"]}
{"id": "C81", "title": "Recorded progress belongs to the log it names", "statement": "If the log list keeps every address for one log of one kind, then at any moment of any run of ct-fetch the state saved for an address names a log id and merge delay listed for it, and every index but 0 that it claims was handed on by a job for the log with that id; what that job queued is in the cache under the 32-byte key the id stands for. Whatever the list does, each cached entry carries the key of the log it was downloaded from, and no job runs for an id that is not base64 of 32 bytes. If an address passes to another log, or turns from RFC 6962 to tiled, the state claims entries never downloaded.", "quantifier": "every sequence of jobs, cut off anywhere, over every log list, every answer of the logs, every failed read of a saved state", "why_tests_cant": "ct-fetch has no test that runs two jobs; the claim is about all histories, with log lists that change between jobs", "anchors": ["go/cmd/ct-fetch/ct-fetch.go: SyncLog, insertCTWorker", "go/cmd/ct-fetch/rfc6962.go: NewLogWorker, updateState", "go/cmd/ct-fetch/tiled.go: NewTiledLogWorker, updateState", "go/types.go: KeyID", "go/storage/certdatabase.go: GetLogState"]}
{"id": "C82", "title": "One publisher run keeps three collections in order", "statement": "The publisher updates the list of logs, then the filters of every channel, then the intermediates. When nothing fails, one run brings all three up to date. Filters and intermediates are touched only if the log list was fetched and sound and every log record usable, intermediates only if the filter stage ended well; otherwise what comes later is left exactly as it was. A run that reports success has left no unreviewed change of the logs and exactly the intermediates of its source. With --noop nothing changes. Over any runs with any failures, enrolments are kept and wanted intermediates stay published. Two things one may expect fail: filters and intermediates need not be of the same run, and a successful run can leave the filters in a state nobody was asked to review.", "quantifier": "every content of the three collections, every log list, bucket and enrolled.json, every placement of failures and kills among the calls, every sequence of runs", "why_tests_cant": "the test file of the publisher calls single functions with mocks; main() is never run, and order, failures and reviews across collections show only there", "anchors": ["moz_kinto_publisher/main.py: main, publish_ctlogs, publish_crlite, clear_crlite_filters, publish_intermediates"]}
{"id": "C83", "title": "Cache commands sent more than once", "statement": "The Redis client repeats a command or a batch up to ten times when no answer comes, and the server may have carried it out each time. For inserting, removing, asking, storing a log state and deleting, nobody can later tell the repetitions from one command. An insertion or removal that was answered is in force whatever others did in between, a batch whose last attempt was answered is there in full with its expiry and brings nothing else, and a commit lock that was handed out is held by that token and by nobody else for four hours. Three things one may expect fail: the epoch goes up once for every repetition, so that a successful commit can leave all later ones refused until the next start; a client can be refused a lock that nobody else asked for, and the lock is then stuck for four hours; and a repeated release can remove the lock of somebody else.", "quantifier": "every state of the server, every command, every number and times of attempts, each carried out or not, answered or not, every cut of a batch, every sequence of commands of other clients in between (where stated, on other keys), every later history", "why_tests_cant": "repetitions happen when a connection breaks between execution and answer; tests with a healthy local Redis or with the mock cache never see one", "anchors": ["go/storage/rediscache.go: NewRedisCache (MaxRetries), SetInsert, SetInsertMany, SetRemove, AcquireCommitLock, HasCommitLock, ReleaseCommitLock, NextEpoch"]}
{"id": "C84", "title": "What clients of the priority channel get", "statement": "The publisher also maintains a channel with filters of the certificates revoked for key compromise, cessation of operation or privilege withdrawn. Let pipeline runs, publisher runs and deletions of old runs follow each other in any order, with any failures and crashes. At all times, if the published records of that channel form a chain with all files attached, a client that asks every one of them is told revoked for every certificate that is known to the newest published run and revoked there for one of these reasons, unless an earlier run that is part of the chain knew the certificate as revoked for other reasons only. The exception is real: such a certificate stays unreported until the next full filter. No published filter of the channel claims a revocation of a known certificate that its own run does not contain for one of these reasons. If every completed run has both files of the channel, a run of the publisher without failures brings the records up to the newest run, if that is completed.", "quantifier": "every interleaving of pipeline runs, publisher runs and deletions, all inputs with any reasons that change from run to run, every pattern of failures", "why_tests_cant": "the updates of this channel are computed against a revoked set that belongs to another channel; whether a client misses a revocation depends on how the reasons changed over all the runs of the chain", "anchors": ["containers/scripts/crlite-generate.sh", "workflow/2-generate_mlbf", "workflow/3-upload_mlbf_to_storage", "moz_kinto_publisher/main.py: CHANNELS, publish_crlite"]}
{"id": "C85", "title": "Waiting for the commit lock", "statement": "aggregate-known waits for the commit lock of the cache for fifteen minutes and no more. If it gets the lock, then at a try begun within the fifteen minutes, at a moment when nobody had the lock; it then has it for four hours under the token it was given. If it gives up, fifteen minutes have passed. With a second between tries it never makes more than 900. If at some try within the time the lock is free, and the request and its answer get through, the run gets the lock then or earlier. As long as no answer is lost, a run that has not got the lock leaves no trace in the cache. One lost answer is enough to break this: the run then waits for itself, gives up, and everybody is kept out for four hours.", "quantifier": "for every sequence of tries and times, everything that other clients do between them, every number of repetitions of a request, and every loss of requests and answers", "why_tests_cant": "Tests do not wait fifteen minutes, have one client and a server that always answers.", "anchors": ["go/cmd/aggregate-known/aggregate-known.go: waitForCommitLock", "go/storage/rediscache.go: AcquireCommitLock"]}
{"id": "C86", "title": "Tests with the in-memory cache speak for Redis, within limits", "statement": "For log states, commit lock and epoch, every sequence of operations gets the same answers from the in-memory cache of the tests as from the Redis cache, as long as it takes at most four hours, addresses of logs do not end in a slash, epochs stay below what Redis can count to, and Redis does not refuse to be restored because somebody has the lock. None of the first, second and last condition can be left out: after four hours Redis gives the lock away; Redis finds a log with and without the slash; and the in-memory cache lets itself be restored in the middle of a commit.", "quantifier": "for every history of operations, times, addresses, tokens and epochs", "why_tests_cant": "The tests use the in-memory cache; whether they say anything about production depends on all sequences of operations, and Redis is not there to compare.", "anchors": ["go/storage/mockcache.go: StoreLogState, LoadLogState, LoadAllLogStates, Migrate, AcquireCommitLock, ReleaseCommitLock, HasCommitLock, GetEpoch, NextEpoch, Restore", "go/storage/rediscache.go: the same"]}
{"id": "C87", "title": "A file of enrolled issuers is used as a whole or not at all", "statement": "Whatever goes wrong while aggregate-crls writes the file of enrolled issuers, aggregate-known, which loads it, gets the whole table (every issuer, its certificates, its kind of CRLs) or an error and no issuers, never some of them. If the file cannot be opened it stays as it was and an error is reported. Success being reported does not mean that the table was saved: an error while writing is only logged.", "quantifier": "for every table of issuers, order of writing, certificate contents, old file, and failure of opening, writing and closing, the writing broken off after any byte", "why_tests_cant": "A test would have to break off the writing at every byte of every file; the tests have no failing disk.", "anchors": ["go/rootprogram/issuers.go: SaveIssuersList, LoadEnrolledIssuers", "go/cmd/aggregate-crls/aggregate-crls.go: main", "go/cmd/aggregate-known/aggregate-known.go: work"]}
{"id": "C88", "title": "What a killed run of aggregate-crls left is repaired", "statement": "Whatever a run of aggregate-crls left when it was killed - half-written downloads, half-written revocation lists -, a later run in which the servers answer properly writes for every issuer exactly the entries of its CRLs, unless a download left behind has the length that its server now announces and is not older. In every case one run that comes to its end removes what was left, whatever the servers answer, so that the next properly answered run is exact. One run alone is not enough: a complete older CRL left behind can be taken for the one the server has now.", "quantifier": "for every content of the disk and of the revocation directory at the start, number of workers, order of their steps, set of issuers and URLs, and behaviour of the servers during the cleaning run", "why_tests_cant": "A test would have to kill the program between any two writes of any worker and then start it again; the tests of the downloader look at one file and no crash.", "anchors": ["go/cmd/aggregate-crls/aggregate-crls.go: crlFetchWorker, aggregateCRLWorker", "go/downloader/verifying-downloader.go: DownloadAndVerifyFileSync", "go/downloader/downloader.go: determineAction, download"]}
