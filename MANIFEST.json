{
 "claims": [
  {
   "property": "C01",
   "status": "proved",
   "theorems": [
    "C01_bytes_roundtrip"
   ],
   "note": ""
  },
  {
   "property": "C02",
   "status": "proved",
   "theorems": [
    "C02_bytes_order"
   ],
   "note": ""
  },
  {
   "property": "C03",
   "status": "proved",
   "theorems": [
    "C03_bytes_composite"
   ],
   "note": ""
  },
  {
   "property": "C04",
   "status": "proved",
   "theorems": [
    "C04_bytes_decoder_canonical"
   ],
   "note": ""
  },
  {
   "property": "C05",
   "status": "proved",
   "theorems": [
    "C05_integers_roundtrip",
    "C05_integers_order",
    "C05_integers_decoders_total"
   ],
   "note": ""
  },
  {
   "property": "C06",
   "status": "proved",
   "theorems": [
    "C06_float_order",
    "C06_float_roundtrip",
    "C06_nan_is_ieee_nan",
    "C06_order_is_ieee_order",
    "C06_float_order_ieee",
    "C06_float_roundtrip_ieee"
   ],
   "note": ""
  },
  {
   "property": "C07",
   "status": "partial",
   "theorems": [
    "C07_float_nan_refuted",
    "C07_float_nan_partial"
   ],
   "note": "The property is false of the code: NaNs with clear sign bit decode to subnormal numbers and collide with them (refuted by witness). NaNs with the sign bit set do round trip."
  },
  {
   "property": "C08",
   "status": "proved",
   "theorems": [
    "C08_varint_roundtrip"
   ],
   "note": ""
  },
  {
   "property": "C09",
   "status": "partial",
   "theorems": [
    "C09_compact_decode_total_refuted",
    "C09_compact_decode_total_partial"
   ],
   "note": "False of the code: input 0x01 makes DecodeBytes panic. The panicking inputs are characterised exactly."
  },
  {
   "property": "C10",
   "status": "proved",
   "theorems": [
    "C10_numeric_roundtrip"
   ],
   "note": ""
  },
  {
   "property": "C11",
   "status": "partial",
   "theorems": [
    "C11_prefix_next_partial",
    "C11_prefix_next_exact_partial",
    "C11_prefix_next_refuted"
   ],
   "note": "The exact-interval statement is false for prefixes ending in 0xFF (a shorter key slips in) and for all-0xFF prefixes (no upper bound); both refuted by witnesses. Forward direction and same-or-greater-length keys proved for every prefix that is not all 0xFF, exactness and least bound when the last byte is not 0xFF."
  },
  {
   "property": "C12",
   "status": "proved",
   "theorems": [
    "C12_next_successor",
    "C12_is_point"
   ],
   "note": ""
  },
  {
   "property": "C13",
   "status": "proved",
   "theorems": [
    "C13_counters",
    "C13_last_set_plus_increments",
    "C13_failing_calls_change_nothing"
   ],
   "note": ""
  },
  {
   "property": "C14",
   "status": "proved",
   "theorems": [
    "C14_keys_disjoint",
    "C14_hash_prefix_covers_exactly_its_fields",
    "C14_list_prefix_covers_exactly_its_elements",
    "C14_fields_in_order"
   ],
   "note": ""
  },
  {
   "property": "C15",
   "status": "proved",
   "theorems": [
    "C15_every_result_is_the_references",
    "C15_strings_are_a_map"
   ],
   "note": ""
  },
  {
   "property": "C16",
   "status": "proved",
   "theorems": [
    "C16_hashes_are_maps"
   ],
   "note": ""
  },
  {
   "property": "C17",
   "status": "partial",
   "theorems": [
    "C17_HSet_then_HGet_partial",
    "C17_HSet_empty_value_refuted"
   ],
   "note": "Proved for non-empty values; refuted for the empty value: HSet of an empty value to a fresh field does not create it (the code treats it as unchanged)."
  },
  {
   "property": "C18",
   "status": "proved",
   "theorems": [
    "C18_HLen_counts_fields",
    "C18_bookkeeping_key_iff_nonempty"
   ],
   "note": ""
  },
  {
   "property": "C19",
   "status": "proved",
   "theorems": [
    "C19_descending_and_ascending"
   ],
   "note": ""
  },
  {
   "property": "C20",
   "status": "proved",
   "theorems": [
    "C20_hash_counters"
   ],
   "note": ""
  },
  {
   "property": "C21",
   "status": "proved",
   "theorems": [
    "C21_lists_are_deques",
    "C21_pops_return_the_ends"
   ],
   "note": ""
  },
  {
   "property": "C22",
   "status": "proved",
   "theorems": [
    "C22_LIndex",
    "C22_LSet"
   ],
   "note": ""
  },
  {
   "property": "C23",
   "status": "proved",
   "theorems": [
    "C23_other_structures_untouched",
    "C23_keys_outside_the_prefix_untouched"
   ],
   "note": ""
  },
  {
   "property": "C24",
   "status": "proved",
   "theorems": [
    "C24_reads_see_snapshot_and_own_writes",
    "C24_commit_publishes_exactly_own_writes",
    "C24_read_only_and_finished_transactions_change_nothing",
    "C24_finished_transactions_fail"
   ],
   "note": ""
  },
  {
   "property": "C25",
   "status": "proved",
   "theorems": [
    "C25_forward_scan_exact",
    "C25_forward_scan_callback"
   ],
   "note": ""
  },
  {
   "property": "C26",
   "status": "partial",
   "theorems": [
    "C26_reverse_scan_at_or_above_the_prefix_partial",
    "C26_reverse_scan_with_offset_partial",
    "C26_foreign_key_hides_the_prefix_refuted",
    "C26_reverse_scan_below_the_prefix",
    "C26_reverse_scan_of_everything_partial",
    "C26_reverse_prefix_scan_refuted",
    "C26_reverse_prefix_scan_misses_refuted"
   ],
   "note": "Exact from any offset not below the prefix when no live key without the prefix lies between (in particular an offset having the prefix). False otherwise: a prefix without offset makes the scan start at the prefix itself, so it visits nothing unless the prefix is a key; one foreign key at or below the offset hides all keys with the prefix (both proved for every state, so all cases are characterised)."
  },
  {
   "property": "C27",
   "status": "partial",
   "theorems": [
    "C27_leveldb_offset_below_prefix",
    "C27_badger_clamping_partial",
    "C27_badger_offset_below_prefix_refuted"
   ],
   "note": "Proved for LevelDB, and for Badger when its Seek clamps; refuted for a Badger whose Seek does not clamp (the vendored source is not available, both variants are modelled)."
  },
  {
   "property": "C28",
   "status": "proved",
   "theorems": [
    "C28_providers_agree",
    "C28_leveldb_rejects"
   ],
   "note": ""
  },
  {
   "property": "C29",
   "status": "partial",
   "theorems": [
    "C29_batch_applies_in_order",
    "C29_small_batch_invisible_before_commit_partial",
    "C29_after_discard_nothing_is_applied",
    "C29_invisible_before_commit_refuted",
    "C29_leveldb_batch_applies_in_order"
   ],
   "note": "Order proved. 'Nothing visible before Commit' is refuted for batches exceeding one Badger transaction, proved for smaller ones."
  },
  {
   "property": "C30",
   "status": "proved",
   "theorems": [
    "C30_success_applies_all_writes",
    "C30_failure_applies_nothing",
    "C30_undisturbed_transactions_commit",
    "C30_body_error_is_reported",
    "C30_callback_iff_committed",
    "C30_cancel_iff_commit_failed",
    "C30_committed_reads_are_current",
    "C30_view_refuses_writes"
   ],
   "note": ""
  },
  {
   "property": "C31",
   "status": "partial",
   "theorems": [
    "C31_single_writes_are_all_or_nothing",
    "C31_retry_loses_and_duplicates_nothing_partial",
    "C31_multi_write_operation_runs_twice_refuted"
   ],
   "note": "Proved for operations with a single write (all-or-nothing). For multi-write operations the part done before ErrTxnTooBig is committed and then the operation re-runs; see the theorem statements."
  },
  {
   "property": "C32",
   "status": "proved",
   "theorems": [
    "C32_wire_round_trip"
   ],
   "note": ""
  },
  {
   "property": "C33",
   "status": "partial",
   "theorems": [
    "C33_decoders_terminate",
    "C33_no_panic_partial",
    "C33_never_panics_refuted"
   ],
   "note": "False of the code: lengths near 2^63 overflow iNdEx+len and the slice panics (ten-byte witness for requests, twelve-byte witness for every decoder). Proved: all decoders terminate, and none panics on payloads without a run of eight bytes >= 0x80."
  },
  {
   "property": "C34",
   "status": "proved",
   "theorems": [
    "C34_unknown_fields_skipped"
   ],
   "note": ""
  },
  {
   "property": "C35",
   "status": "proved",
   "theorems": [
    "C35_remote_equals_local",
    "C35_rendering"
   ],
   "note": ""
  },
  {
   "property": "C36",
   "status": "partial",
   "theorems": [
    "C36_later_set_kills_transaction",
    "C36_set_anywhere_refuted"
   ],
   "note": "False of the code: a Set after the first request is decoded as a response, refused, and the transaction is lost (proved for every state, key and value); the Set-first case is covered by C38."
  },
  {
   "property": "C37",
   "status": "partial",
   "theorems": [
    "C37_scans_accumulate",
    "C37_independent_scans_refuted",
    "C37_stale_options_refuted"
   ],
   "note": "False of the code: replies accumulate over the scans of one transaction and omitted options keep earlier values (refuted by two witnesses; accumulation proved in general). The first scan is right (C38)."
  },
  {
   "property": "C38",
   "status": "proved",
   "theorems": [
    "C38_remote_transaction_equals_local",
    "C38_only_commit_has_effect",
    "C38_dropped_stream"
   ],
   "note": ""
  },
  {
   "property": "C39",
   "status": "proved",
   "theorems": [
    "C39_limits"
   ],
   "note": ""
  },
  {
   "property": "C40",
   "status": "proved",
   "theorems": [
    "C40_mutations_refused_locally",
    "C40_empty_transaction_sends_nothing",
    "C40_read_only_transactions_change_nothing"
   ],
   "note": ""
  },
  {
   "property": "C41",
   "status": "partial",
   "theorems": [
    "C41_missing_key",
    "C41_transaction_rendering",
    "C41_delete_too_big_refuted",
    "C41_plain_set_too_big_refuted",
    "C41_only_code_zero_is_success"
   ],
   "note": "Proved for missing keys and for Set in transactions; refuted for Delete in transactions and for Set outside transactions."
  },
  {
   "property": "C42",
   "status": "partial",
   "theorems": [
    "C42_ids_never_handed_out_twice",
    "C42_no_put_back_all_distinct",
    "C42_negative_bandwidth_repeats_ids_refuted"
   ],
   "note": "Proved for bandwidths > 0, one live allocator at a time, any crash/failed-commit schedule, any in-lease NextN, put-back of ids in use, until the counter nears 2^63. 'All bandwidths' is refuted: a negative bandwidth is accepted and repeats ids."
  },
  {
   "property": "C43",
   "status": "partial",
   "theorems": [
    "C43_renewing_NextN_returns_fresh_ids_partial",
    "C43_NextN_ids_are_returned_again_refuted",
    "C43_negative_count_repeats_ids_refuted"
   ],
   "note": "NextN served from the lease is covered by C42. A renewing NextN returns n fresh ids (partial) but later calls return them again (refuted); negative counts move back (refuted)."
  },
  {
   "property": "C44",
   "status": "partial",
   "theorems": [
    "C44_many_allocators_without_release_partial",
    "C44_close_with_release_makes_duplicates_refuted"
   ],
   "note": "Proved for any number of allocators and any schedule without release (partial); Close(true)/ReleaseRemaining by one of two live allocators makes duplicates (refuted)."
  },
  {
   "property": "C45",
   "status": "proved",
   "theorems": [
    "C45_release_leaves_no_gap",
    "C45_closed_allocator_does_nothing"
   ],
   "note": ""
  },
  {
   "property": "C46",
   "status": "partial",
   "theorems": [
    "C46_string_Clear_removes_only_its_counter",
    "C46_hash_Clear_removes_the_whole_hash_partial",
    "C46_hash_Clear_destroys_other_fields_refuted"
   ],
   "note": "String-backed: proved. Hash-backed: Clear deletes the whole hash (proved exactly), so the full claim is refuted."
  },
  {
   "property": "C47",
   "status": "partial",
   "theorems": [
    "C47_old_allocator_never_repeats_an_id",
    "C47_ReleaseRemaining_returns_nothing_refuted"
   ],
   "note": "Uniqueness proved for any schedule and number of instances; ReleaseRemaining never writes (release claim refuted)."
  },
  {
   "property": "C48",
   "status": "partial",
   "theorems": [
    "C48_keys_never_collide",
    "C48_catalogue_keys_disjoint",
    "C48_document_keys_ordered",
    "C48_document_prefix_exact",
    "C48_decoders",
    "C48_index_name_decoder_exact",
    "C48_document_decoder_accepts",
    "C48_document_decoder_exact_refuted"
   ],
   "note": "Proved for all key kinds; refuted: the document-key decoder accepts keys with trailing bytes (characterised exactly)."
  },
  {
   "property": "C49",
   "status": "proved",
   "theorems": [
    "C49_documents_refine_maps",
    "C49_other_collections_untouched",
    "C49_specification_is_a_map",
    "C49_only_document_keys_written"
   ],
   "note": ""
  },
  {
   "property": "C50",
   "status": "partial",
   "theorems": [
    "C50_inserted_id_is_free_partial",
    "C50_commit_of_inserts_destroys_nothing",
    "C50_missing_collection_is_no_error_refuted",
    "C50_insert_overwrites_a_managed_document_refuted"
   ],
   "note": "Proved for all runs of the modelled process with application-chosen ids not above the stored counter; refuted: inserting into a missing collection returns (0, nil); an insert overwrites a document stored with InsertOneManaged above the counter."
  },
  {
   "property": "C51",
   "status": "partial",
   "theorems": [
    "C51_range_of_a_collection_with_documents_partial",
    "C51_empty_collection_reports_other_collections_refuted"
   ],
   "note": "Proved for a collection with documents (whatever else is stored, except a key equal to the exclusive upper bound of the collection's key range). Refuted for an empty collection: it reports ids of other collections, or (0,0)."
  },
  {
   "property": "C52",
   "status": "partial",
   "theorems": [
    "C52_only_ids_of_failed_commits_are_returned_again",
    "C52_failed_commit_gives_back_exactly_its_ids",
    "C52_returned_id_is_reused_next",
    "C52_second_commit_frees_a_committed_id_refuted"
   ],
   "note": "An id is returned again only after its transaction's Commit failed (any schedule, crash, allocator change); a failed Commit gives back exactly its ids. Refuted for a second Commit call on a committed transaction. Ids of an insert whose implicit transaction fails before Commit (or is discarded) are lost, not reused."
  },
  {
   "property": "C53",
   "status": "proved",
   "theorems": [
    "C53_ids_of_committed_transactions_differ",
    "C53_committed_ranges_are_consecutive"
   ],
   "note": ""
  },
  {
   "property": "C54",
   "status": "proved",
   "theorems": [
    "C54_utf8_is_unicode",
    "C54_every_result_is_the_references",
    "C54_verdicts",
    "C54_databases_and_collections_read_back",
    "C54_listings_are_complete"
   ],
   "note": ""
  },
  {
   "property": "C55",
   "status": "proved",
   "theorems": [
    "C55_queue_is_fifo",
    "C55_schema_version_only_grows"
   ],
   "note": ""
  },
  {
   "property": "C56",
   "status": "partial",
   "theorems": [
    "C56_finished_job_found_by_id",
    "C56_last_n_are_the_newest",
    "C56_failed_job_unreadable_refuted"
   ],
   "note": "Proved on every history of metadata calls whose finished jobs carry no error; refuted with one: a job stored with an error cannot be read back, by id or in the list."
  },
  {
   "property": "C57",
   "status": "proved",
   "theorems": [
    "C57_fresh_ids_any_metadata",
    "C57_fresh_ids",
    "C57_rejected_changes_nothing",
    "C57_accepts"
   ],
   "note": "Every input without indices, any metadata and any history; a rejected request changes nothing; a valid one for a free name is accepted while at most 100 jobs wait."
  },
  {
   "property": "C58",
   "status": "partial",
   "theorems": [
    "C58_create_with_index_panics_refuted"
   ],
   "note": "False of the code: an index on a requested collection makes CreateSchema write to a nil map and panic, for every such input (refuted)."
  },
  {
   "property": "C59",
   "status": "proved",
   "theorems": [
    "C59_exactly_once",
    "C59_version_counts",
    "C59_poll_meaning",
    "C59_answered_is_done",
    "C59_completes"
   ],
   "note": "Any history of requests, iterations with failing commits and crashes: finished jobs took effect once, in order; answered requests stay answered with their objects public; with different names two committed iterations per job answer all."
  },
  {
   "property": "C60",
   "status": "partial",
   "theorems": [
    "C60_failed_job_blocks_refuted",
    "C60_failed_index_job_removed_partial"
   ],
   "note": "False of the code: a create-schema job whose database exists is stored with an error nobody can decode, and it and every later job wait for ever (refuted, for every continuation). Proved: an add-index job that cannot succeed is removed by the next committed iteration (its requester still waits for ever)."
  },
  {
   "property": "C61",
   "status": "partial",
   "theorems": [
    "C61_forward_partial",
    "C61_never_finishes_refuted",
    "C61_api_index_sticks_refuted"
   ],
   "note": "Proved: one state per committed iteration up to write-reorganization, one version and diff each, under failing commits and crashes. Refuted: it never finishes; and for a collection created through the API the job panics and blocks the queue for ever."
  },
  {
   "property": "C62",
   "status": "proved",
   "theorems": [
    "C62_check_accepts_iff_unaffected",
    "C62_check_without_start_cache"
   ],
   "note": ""
  },
  {
   "property": "C63",
   "status": "partial",
   "theorems": [
    "C63_check_releases_lock_refuted",
    "C63_check_releases_lock_partial"
   ],
   "note": "False of the code: a check that finds a touched collection returns without releasing its read lock and no Update ever proceeds again (refuted, for every later call sequence). Proved for all other outcomes."
  },
  {
   "property": "C64",
   "status": "partial",
   "theorems": [
    "C64_reload_matches_store",
    "C64_incremental_equals_full",
    "C64_add_index_breaks_reload_refuted",
    "C64_states_differ_refuted",
    "C64_diffs_equal_full_load_of_their_databases",
    "C64_full_load_holds",
    "C64_diffs_accepted_iff"
   ],
   "note": "Cache level and store level proved: after every history of DDL calls, worker iterations, failed commits, crashes, reloads and checks a reload gives the schema of the store, the same as a full load, up to the SchemaState fields. False of the code for those states (a database taken from a diff is Absent where the store says Public) and for index diffs: an add-index diff can never be applied, so mustReload never ends (both refuted)."
  },
  {
   "property": "C65",
   "status": "proved",
   "theorems": [
    "C65_reload_follows_store",
    "C65_full_load_succeeds"
   ],
   "note": "Proved on any metadata and every handle a process can have. Noted in the statement: if the store's version is below the cache's, reloadSchema panics (make with negative capacity) and the handle is unchanged."
  },
  {
   "property": "C66",
   "status": "partial",
   "theorems": [
    "C66_commits_only_if_check_passes",
    "C66_cancel_functions_of_one_commit",
    "C66_no_cancel_function_runs_twice",
    "C66_read_only_commits_nothing",
    "C66_cancel_after_success_refuted"
   ],
   "note": "Proved for every use of a transaction with one Commit; refuted for a second Commit after a successful one: it runs the cancel functions on a schema conflict."
  },
  {
   "property": "C67",
   "status": "proved",
   "theorems": [
    "C67_collection_ids_stable",
    "C67_reserved_names",
    "C67_closed_opens_nothing"
   ],
   "note": ""
  },
  {
   "property": "C68",
   "status": "partial",
   "theorems": [
    "C68_columns_key_is_the_set_of_columns",
    "C68_columns_key_ignores_order_refuted",
    "C68_create_refuses_exactly_indexed_columns_partial",
    "C68_no_orphan_keys_partial",
    "C68_recreating_a_name_leaves_an_orphan_refuted"
   ],
   "note": "Key part proved for distinct field names (refuted for repeated names). Store part proved when no name is re-created while in use; refuted otherwise: an orphan columns key blocks the columns for ever."
  },
  {
   "property": "C69",
   "status": "partial",
   "theorems": [
    "C69_deleteall_without_transaction_partial",
    "C69_deleteall_refuted",
    "C69_deleteall_in_a_transaction"
   ],
   "note": "Refuted: without a caller's transaction DeleteAll runs in a read-only one and fails unless the collection is empty (exact answer proved for every store). In a caller's transaction it deletes everything."
  },
  {
   "property": "C70",
   "status": "partial",
   "theorems": [
    "C70_clone_db_equal",
    "C70_clone_collection_equal",
    "C70_clone_index_equal",
    "C70_updates_independent_db_partial",
    "C70_updates_independent_collection",
    "C70_updates_independent_index",
    "C70_original_unchanged_partial",
    "C70_value_unique",
    "C70_add_index_info",
    "C70_update_index_info",
    "C70_update_collection_info",
    "C70_stored_pointer_shared_refuted",
    "C70_nil_map_not_equal_refuted"
   ],
   "note": "Clone of database, collection and index info, as heap objects with pointers, maps and slice backing arrays: the result is a new object equal to the original (nil maps become empty ones), and after any interleaving of updates of both, an update of one leaves the other's value unchanged. Partial for databases because UpdateCollectionInfo stores the caller's pointer: passing the original's collection to the clone makes them share it (refuted by a concrete run). A nil Indices map is not reproduced exactly (refuted). The methods: AddIndexInfo adds at the end of the order exactly when the name is new, UpdateIndexInfo replaces exactly when it is there, UpdateCollectionInfo likewise with the caller's object, with their boolean answers."
  },
  {
   "property": "C71",
   "status": "partial",
   "theorems": [
    "C71_create_schema_iff",
    "C71_drop_schema_iff",
    "C71_create_collection_iff",
    "C71_drop_collection_iff",
    "C71_add_index_iff",
    "C71_drop_index_iff",
    "C71_create_schema_checks",
    "C71_add_index_unchecked_refuted"
   ],
   "note": "All Validate functions exactly characterised; refuted: AddIndex never calls Validate, so invalid inputs are enqueued."
  },
  {
   "property": "C72",
   "status": "proved",
   "theorems": [
    "C72_no_lost_updates"
   ],
   "note": ""
  },
  {
   "property": "C73",
   "status": "partial",
   "theorems": [
    "C73_ttl_visible_exactly_until_expiry",
    "C73_tag_without_ttl_persists_refuted"
   ],
   "note": "First half proved; second half false of the code: TTL 0 sets ExpiresAt = now, so a tag-only value expires at once (refuted by witness)."
  },
  {
   "property": "C74",
   "status": "proved",
   "theorems": [
    "C74_documents_refine_maps"
   ],
   "note": ""
  },
  {
   "property": "C75",
   "status": "partial",
   "theorems": [
    "C75_insert_destroys_nothing_partial",
    "C75_ids_never_repeat",
    "C75_insert_overwrites_a_managed_document_refuted"
   ],
   "note": "Proved for every interleaving, crash and failed write while applications choose no ids themselves; refuted otherwise: InsertOne overwrites a document stored under a chosen id."
  },
  {
   "property": "C76",
   "status": "partial",
   "theorems": [
    "C76_stored_indexes_are_the_catalogue_partial",
    "C76_create_and_drop_tell_the_truth_partial",
    "C76_index_ids_never_repeat_partial",
    "C76_ignored_error_loses_the_index_refuted"
   ],
   "note": "Proved for every schedule, crash and failed commit when the store does not refuse the second Set of a CreateIndex; refuted with it (its error is ignored, collection.go:447)."
  },
  {
   "property": "C77",
   "status": "partial",
   "theorems": [
    "C77_get_indexes_is_the_catalogue_partial",
    "C77_concurrent_calls_leave_a_ghost_refuted",
    "C77_definition_changes_on_restart_refuted"
   ],
   "note": "Proved up to column order when one object makes the index calls and map updates follow commits; refuted for concurrent calls and for the exact definition."
  },
  {
   "property": "C78",
   "status": "partial",
   "theorems": [
    "C78_visible_has_allocator",
    "C78_lease_refuted",
    "C78_second_process_refuted"
   ],
   "note": "For one process at a time and Lease 0: proved for every history and crash point. With a lease's periodic reload, or with a second process running the jobs, refuted by concrete histories."
  },
  {
   "property": "C79",
   "status": "proved",
   "theorems": [
    "C79_restart_succeeds",
    "C79_worker_gets_through",
    "C79_attempts_only_fail_on_io"
   ],
   "note": "Init after any history; the worker's after-commit function from any point of it."
  },
  {
   "property": "C80",
   "status": "partial",
   "theorems": [
    "C80_no_second_init_refuted",
    "C80_failed_init_is_final_refuted",
    "C80_worker_waits_refuted"
   ],
   "note": "Refuted: a failed Init is final, a second Init or a second store clash with the process-wide table of allocators."
  },
  {
   "property": "C81",
   "status": "partial",
   "theorems": [
    "C81_answered_is_usable",
    "C81_second_process_refuted"
   ],
   "note": "For one process at a time and Lease 0: proved. Refuted with a second process."
  },
  {
   "property": "C82",
   "status": "proved",
   "theorems": [
    "C82_a_name_keeps_its_id",
    "C82_an_id_has_one_name",
    "C82_visible_stays_visible"
   ],
   "note": "One process at a time and Lease 0 (C78 and C81 show what fails otherwise)."
  },
  {
   "property": "C83",
   "status": "proved",
   "theorems": [
    "C83_ids_in_use_differ",
    "C83_given_id_is_free",
    "C83_all_ids_differ"
   ],
   "note": "The condition that each id is put back at most once is needed: Example C83_put_back_twice."
  },
  {
   "property": "C84",
   "status": "proved",
   "theorems": [
    "C84_answers_are_those_of_maps",
    "C84_insert_destroys_nothing",
    "C84_visible_stays_visible",
    "C84_inserted_document_stays"
   ],
   "note": "Calls and transactions are single steps; one process at a time and Lease 0. The restriction on chosen ids is needed: Example C84_chosen_id_is_overwritten."
  },
  {
   "property": "C85",
   "status": "proved",
   "theorems": [
    "C85_history_is_serial",
    "C85_every_transaction_reads_a_serial_state",
    "C85_scanning_transactions_are_not_serializable"
   ],
   "note": ""
  },
  {
   "property": "C86",
   "status": "proved",
   "theorems": [
    "C86_after_close_nothing_changes",
    "C86_after_close_calls_are_refused",
    "C86_after_close_answer_at_once",
    "C86_reserved_names",
    "C86_close_waits_for_operations",
    "C86_no_operation_inside_during_release",
    "C86_every_collection_is_released",
    "C86_never_stuck",
    "C86_no_endless_run",
    "C86_everything_can_return"
   ],
   "note": ""
  },
  {
   "property": "C87",
   "status": "partial",
   "theorems": [
    "C87_committed_transactions_are_serial",
    "C87_every_transaction_reads_one_moment",
    "C87_order_respects_real_time",
    "C87_store_holds_the_committed_documents",
    "C87_single_operations_are_such_transactions",
    "C87_insert_one_is_such_a_call",
    "C87_delete_all_is_not_atomic_refuted"
   ],
   "note": "Proved for all histories whose committed writing transactions are scan-free, plus snapshot reads for every transaction (scanning or not), real-time order and the final store. Refuted: DeleteAll concurrent with an insert is not atomic (C87_delete_all_is_not_atomic_refuted). Not covered: size limits inside the transactions, a transaction used again after Commit."
  },
  {
   "property": "C88",
   "status": "partial",
   "theorems": [
    "C88_concurrent_transactions_are_strictly_serializable",
    "C88_listing_fields_is_not_serializable_refuted"
   ],
   "note": "Strict serializability of concurrent structure transactions, with HClear and HLen unconditional; refuted for update transactions that list fields by a scan (write skew through phantoms)."
  },
  {
   "property": "C89",
   "status": "proved",
   "theorems": [
    "C89_overlapping_changes_take_effect_once",
    "C89_answered_is_done",
    "C89_version_counts",
    "C89_worker_transactions_are_atomic",
    "C89_requests",
    "C89_completes"
   ],
   "note": "Proved for every interleaving. The name checks of requests are made on their snapshots (example C89_name_check_is_stale): such a request is accepted as if it had come before the worker's commit. Entries that expire are excluded (the metadata never uses them)."
  },
  {
   "property": "C90",
   "status": "proved",
   "theorems": [
    "C90_caches_show_a_past_schema",
    "C90_names_that_open",
    "C90_reload_shows_its_beginning",
    "C90_never_goes_back",
    "C90_answered_requests_are_seen"
   ],
   "note": ""
  },
  {
   "property": "C91",
   "status": "proved",
   "theorems": [
    "C91_check_outcome",
    "C91_reloads_never_block"
   ],
   "note": ""
  },
  {
   "property": "C92",
   "status": "proved",
   "theorems": [
    "C92_remote_history_is_serial",
    "C92_remote_transaction_reads_a_serial_state",
    "C92_single_calls_act_on_the_store"
   ],
   "note": ""
  },
  {
   "property": "C93",
   "status": "proved",
   "theorems": [
    "C93_named_documents_are_serial",
    "C93_every_transaction_reads_one_moment",
    "C93_order_respects_real_time",
    "C93_created_collections_are_shown",
    "C93_a_crash_ends_what_was_under_way",
    "C93_commit_outcome"
   ],
   "note": ""
  },
  {
   "property": "C94",
   "status": "proved",
   "theorems": [
    "C94_leases_of_a_collection_grow",
    "C94_no_id_is_leased_twice"
   ],
   "note": ""
  },
  {
   "property": "C95",
   "status": "proved",
   "theorems": [
    "C95_commit_answer_exact",
    "C95_undisturbed_commit_succeeds",
    "C95_blind_writes_succeed",
    "C95_read_only_commit_succeeds"
   ],
   "note": ""
  },
  {
   "property": "C96",
   "status": "proved",
   "theorems": [
    "C96_all_of_C93_holds",
    "C96_inserts_are_serial",
    "C96_no_id_is_used_twice",
    "C96_ids_are_positive",
    "C96_open_transactions_too",
    "C96_insert_finds_nothing"
   ],
   "note": ""
  },
  {
   "property": "C97",
   "status": "proved",
   "theorems": [
    "C97_named_conflicts_share_a_document",
    "C97_named_commit_succeeds",
    "C97_conflicts_share_a_document",
    "C97_blind_writes_never_conflict",
    "C97_undisturbed_never_conflict"
   ],
   "note": ""
  },
  {
   "property": "C98",
   "status": "partial",
   "theorems": [
    "C98_conflicts_share_a_structure_partial",
    "C98_blind_writes_never_conflict",
    "C98_undisturbed_never_conflict_partial",
    "C98_descending_listing_conflicts_with_others_refuted"
   ],
   "note": ""
  },
  {
   "property": "C99",
   "status": "proved",
   "theorems": [
    "C99_named_first_committer_wins",
    "C99_named_conflict_iff",
    "C99_first_committer_wins",
    "C99_conflict_iff"
   ],
   "note": ""
  }
 ]
}