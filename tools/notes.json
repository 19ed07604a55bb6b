{
 "C07": "The property is false of the code: NaNs with clear sign bit decode to subnormal numbers and collide with them (refuted by witness). NaNs with the sign bit set do round trip.",
 "C09": "False of the code: input 0x01 makes DecodeBytes panic. The panicking inputs are characterised exactly.",
 "C11": "The exact-interval statement is false for prefixes ending in 0xFF (a shorter key slips in) and for all-0xFF prefixes (no upper bound); both refuted by witnesses. Forward direction and same-or-greater-length keys proved for every prefix that is not all 0xFF, exactness and least bound when the last byte is not 0xFF.",
 "C26": "Exact from any offset not below the prefix when no live key without the prefix lies between (in particular an offset having the prefix). False otherwise: a prefix without offset makes the scan start at the prefix itself, so it visits nothing unless the prefix is a key; one foreign key at or below the offset hides all keys with the prefix (both proved for every state, so all cases are characterised).",
 "C27": "Proved for LevelDB, and for Badger when its Seek clamps; refuted for a Badger whose Seek does not clamp (the vendored source is not available, both variants are modelled).",
 "C29": "Order proved. 'Nothing visible before Commit' is refuted for batches exceeding one Badger transaction, proved for smaller ones.",
 "C73": "First half proved; second half false of the code: TTL 0 sets ExpiresAt = now, so a tag-only value expires at once (refuted by witness).",
 "C17": "Proved for non-empty values; refuted for the empty value: HSet of an empty value to a fresh field does not create it (the code treats it as unchanged).",
 "C31": "Proved for operations with a single write (all-or-nothing). For multi-write operations the part done before ErrTxnTooBig is committed and then the operation re-runs; see the theorem statements.",
 "C33": "False of the code: lengths near 2^63 overflow iNdEx+len and the slice panics (ten-byte witness for requests, twelve-byte witness for every decoder). Proved: all decoders terminate, and none panics on payloads without a run of eight bytes >= 0x80.",
 "C36": "False of the code: a Set after the first request is decoded as a response, refused, and the transaction is lost (proved for every state, key and value); the Set-first case is covered by C38.",
 "C37": "False of the code: replies accumulate over the scans of one transaction and omitted options keep earlier values (refuted by two witnesses; accumulation proved in general). The first scan is right (C38).",
 "C41": "Proved for missing keys and for Set in transactions; refuted for Delete in transactions and for Set outside transactions.",
 "C42": "Proved for bandwidths > 0, one live allocator at a time, any crash/failed-commit schedule, any in-lease NextN, put-back of ids in use, until the counter nears 2^63. 'All bandwidths' is refuted: a negative bandwidth is accepted and repeats ids.",
 "C43": "NextN served from the lease is covered by C42. A renewing NextN returns n fresh ids (partial) but later calls return them again (refuted); negative counts move back (refuted).",
 "C44": "Proved for any number of allocators and any schedule without release (partial); Close(true)/ReleaseRemaining by one of two live allocators makes duplicates (refuted).",
 "C46": "String-backed: proved. Hash-backed: Clear deletes the whole hash (proved exactly), so the full claim is refuted.",
 "C47": "Uniqueness proved for any schedule and number of instances; ReleaseRemaining never writes (release claim refuted).",
 "C48": "Proved for all key kinds; refuted: the document-key decoder accepts keys with trailing bytes (characterised exactly).",
 "C63": "False of the code: a check that finds a touched collection returns without releasing its read lock and no Update ever proceeds again (refuted, for every later call sequence). Proved for all other outcomes.",
 "C64": "Cache level and store level proved: after every history of DDL calls, worker iterations, failed commits, crashes, reloads and checks a reload gives the schema of the store, the same as a full load, up to the SchemaState fields. False of the code for those states (a database taken from a diff is Absent where the store says Public) and for index diffs: an add-index diff can never be applied, so mustReload never ends (both refuted).",
 "C66": "Proved for every use of a transaction with one Commit; refuted for a second Commit after a successful one: it runs the cancel functions on a schema conflict.",
 "C50": "Proved for all runs of the modelled process with application-chosen ids not above the stored counter; refuted: inserting into a missing collection returns (0, nil); an insert overwrites a document stored with InsertOneManaged above the counter.",
 "C52": "An id is returned again only after its transaction's Commit failed (any schedule, crash, allocator change); a failed Commit gives back exactly its ids. Refuted for a second Commit call on a committed transaction. Ids of an insert whose implicit transaction fails before Commit (or is discarded) are lost, not reused.",
 "C57": "Every input without indices, any metadata and any history; a rejected request changes nothing; a valid one for a free name is accepted while at most 100 jobs wait.",
 "C58": "False of the code: an index on a requested collection makes CreateSchema write to a nil map and panic, for every such input (refuted).",
 "C59": "Any history of requests, iterations with failing commits and crashes: finished jobs took effect once, in order; answered requests stay answered with their objects public; with different names two committed iterations per job answer all.",
 "C60": "False of the code: a create-schema job whose database exists is stored with an error nobody can decode, and it and every later job wait for ever (refuted, for every continuation). Proved: an add-index job that cannot succeed is removed by the next committed iteration (its requester still waits for ever).",
 "C61": "Proved: one state per committed iteration up to write-reorganization, one version and diff each, under failing commits and crashes. Refuted: it never finishes; and for a collection created through the API the job panics and blocks the queue for ever.",
 "C71": "All Validate functions exactly characterised; refuted: AddIndex never calls Validate, so invalid inputs are enqueued.",
 "C65": "Proved on any metadata and every handle a process can have. Noted in the statement: if the store's version is below the cache's, reloadSchema panics (make with negative capacity) and the handle is unchanged.",
 "C76": "Proved for every schedule, crash and failed commit when the store does not refuse the second Set of a CreateIndex; refuted with it (its error is ignored, collection.go:447).",
 "C77": "Proved up to column order when one object makes the index calls and map updates follow commits; refuted for concurrent calls and for the exact definition.",
 "C68": "Key part proved for distinct field names (refuted for repeated names). Store part proved when no name is re-created while in use; refuted otherwise: an orphan columns key blocks the columns for ever.",
 "C70": "Clone of database, collection and index info, as heap objects with pointers, maps and slice backing arrays: the result is a new object equal to the original (nil maps become empty ones), and after any interleaving of updates of both, an update of one leaves the other's value unchanged. Partial for databases because UpdateCollectionInfo stores the caller's pointer: passing the original's collection to the clone makes them share it (refuted by a concrete run). A nil Indices map is not reproduced exactly (refuted). The methods: AddIndexInfo adds at the end of the order exactly when the name is new, UpdateIndexInfo replaces exactly when it is there, UpdateCollectionInfo likewise with the caller's object, with their boolean answers.",
 "C78": "For one process at a time and Lease 0: proved for every history and crash point. With a lease's periodic reload, or with a second process running the jobs, refuted by concrete histories.",
 "C79": "Init after any history; the worker's after-commit function from any point of it.",
 "C80": "Refuted: a failed Init is final, a second Init or a second store clash with the process-wide table of allocators.",
 "C81": "For one process at a time and Lease 0: proved. Refuted with a second process.",
 "C82": "One process at a time and Lease 0 (C78 and C81 show what fails otherwise).",
 "C83": "The condition that each id is put back at most once is needed: Example C83_put_back_twice.",
 "C84": "Calls and transactions are single steps; one process at a time and Lease 0. The restriction on chosen ids is needed: Example C84_chosen_id_is_overwritten.",
 "C87": "Proved for all histories whose committed writing transactions are scan-free, plus snapshot reads for every transaction (scanning or not), real-time order and the final store. Refuted: DeleteAll concurrent with an insert is not atomic (C87_delete_all_is_not_atomic_refuted). Not covered: size limits inside the transactions, a transaction used again after Commit.",
 "C88": "Strict serializability of concurrent structure transactions, with HClear and HLen unconditional; refuted for update transactions that list fields by a scan (write skew through phantoms).",
 "C51": "Proved for a collection with documents (whatever else is stored, except a key equal to the exclusive upper bound of the collection's key range). Refuted for an empty collection: it reports ids of other collections, or (0,0).",
 "C56": "Proved on every history of metadata calls whose finished jobs carry no error; refuted with one: a job stored with an error cannot be read back, by id or in the list.",
 "C69": "Refuted: without a caller's transaction DeleteAll runs in a read-only one and fails unless the collection is empty (exact answer proved for every store). In a caller's transaction it deletes everything.",
 "C75": "Proved for every interleaving, crash and failed write while applications choose no ids themselves; refuted otherwise: InsertOne overwrites a document stored under a chosen id.",
 "C89": "Proved for every interleaving. The name checks of requests are made on their snapshots (example C89_name_check_is_stale): such a request is accepted as if it had come before the worker's commit. Entries that expire are excluded (the metadata never uses them)."
}