{
 "claims": [
  {
   "property": "C01",
   "status": "proved",
   "theorems": [
    "C01_int_encode_now",
    "C01_int_roundtrip"
   ],
   "note": "All histories of integer encodings, releases, other writes and segment growth over the modelled word area."
  },
  {
   "property": "C02",
   "status": "proved",
   "theorems": [
    "C02_anonconst",
    "C02_char",
    "C02_date",
    "C02_fixpoint",
    "C02_fixpoint_bits_distinct",
    "C02_fixpoint_distinct",
    "C02_fixpoint_error",
    "C02_fixpoint_half_refuted",
    "C02_fixpoint_range",
    "C02_time",
    "C02_var"
   ],
   "note": "Exact round trips for all scalar types. Fixpoint numbers with the IEEE rounding of the multiplication and division: accepted range, error bound, distinct results; the bound without the rounding term is refuted (0.00005)."
  },
  {
   "property": "C03",
   "status": "proved",
   "theorems": [
    "C03_type",
    "C03_types_disjoint"
   ],
   "note": ""
  },
  {
   "property": "C04",
   "status": "proved",
   "theorems": [
    "C04_consecutive",
    "C04_every_day",
    "C04_order",
    "C04_rejects_invalid_refuted",
    "C04_rejects_out_of_range",
    "C04_roundtrip",
    "C04_through_encoding"
   ],
   "note": "Valid dates up to year 5000000. C04_rejects_invalid_refuted records that impossible dates and year 0 are accepted."
  },
  {
   "property": "C05",
   "status": "proved",
   "theorems": [
    "C05_every_time",
    "C05_order",
    "C05_rejects_out_of_range",
    "C05_roundtrip",
    "C05_through_encoding"
   ],
   "note": ""
  },
  {
   "property": "C06",
   "status": "proved",
   "theorems": [
    "C06_compare_preorder",
    "C06_nan_refuted"
   ],
   "note": "Total preorder with symmetric result codes for every recursion depth, over any field-closed set of encoder-made values; NaN shown to break it."
  },
  {
   "property": "C07",
   "status": "partial",
   "theorems": [
    "C07_equal_content_partial",
    "C07_language_refuted",
    "C07_prefix_refuted"
   ],
   "note": "Equality decides decoded content per type. Refuted as stated: the language tag of plain strings and a NULL versus empty prefix are ignored."
  },
  {
   "property": "C08",
   "status": "proved",
   "theorems": [
    "C08_rp_exclusion"
   ],
   "note": "Any number of clients below 2^61, all interleavings of atomic memory steps (sequentially consistent)."
  },
  {
   "property": "C09",
   "status": "proved",
   "theorems": [
    "C09_wp_exclusion"
   ],
   "note": "As C08."
  },
  {
   "property": "C10",
   "status": "partial",
   "theorems": [
    "C10_exclusion_partial",
    "C10_exclusion_refuted",
    "C10_interrupt_refuted",
    "C10_mutex_partial",
    "C10_order_partial"
   ],
   "note": "False as stated: C10_exclusion_refuted shows two writers inside after a late futex wake-up on a reused queue cell, C10_interrupt_refuted after an interrupted wait. Proved for all executions in which no wake-up reaches a client whose turn has not come."
  },
  {
   "property": "C11",
   "status": "partial",
   "theorems": [
    "C11_queue_free_again_partial",
    "C11_rp_free_again",
    "C11_wp_free_again"
   ],
   "note": "Proved for both spin locks; for the queue lock in executions without a stale wake-up."
  },
  {
   "property": "C12",
   "status": "partial",
   "theorems": [
    "C12_queue_progress_partial",
    "C12_queue_timeout_refuted",
    "C12_rp_progress",
    "C12_wp_progress"
   ],
   "note": "Proved for both spin locks. Queue lock: proved without time-outs and stale wake-ups; C12_queue_timeout_refuted shows a lost wake-up when a time-out meets a release."
  },
  {
   "property": "C13",
   "status": "partial",
   "theorems": [
    "C13_sum_mod_partial",
    "C13_sum_partial",
    "C13_sum_refuted"
   ],
   "note": "Exact for starting values that fit 29 bits, modulo 2^32 for all; C13_sum_refuted: a large stored integer is cut to 32 bits by the first addition."
  },
  {
   "property": "C14",
   "status": "proved",
   "theorems": [
    "C14_calls_defined",
    "C14_huge_request_refuted",
    "C14_length_kept_refuted",
    "C14_live_objects",
    "C14_size_wrap_refuted",
    "C14_subarea_array"
   ],
   "note": "All histories of requests below 2^40 bytes, releases, owner writes and growth. Refuted beyond: the header length of an object under 4 words can change from 3 to 4, and requests of 2^61 words wrap to 0 bytes."
  },
  {
   "property": "C15",
   "status": "proved",
   "theorems": [
    "C15_raw_scan",
    "C15_scan"
   ],
   "note": "Raw scan and the scan filtered by the not-data bit, after any allocator history."
  },
  {
   "property": "C16",
   "status": "proved",
   "theorems": [
    "C16_any_region_refuted",
    "C16_regions",
    "C16_reused"
   ],
   "note": "Tiling, no adjacent free regions, every free region listed; a request is served without growth when a region suits. C16_any_region_refuted: a big enough region behind a smaller first element is not tried."
  },
  {
   "property": "C17",
   "status": "proved",
   "theorems": [
    "C17_contents_kept",
    "C17_fresh_cell",
    "C17_live_disjoint",
    "C17_reuse_before_growth",
    "C17_subarea_array"
   ],
   "note": ""
  },
  {
   "property": "C18",
   "status": "proved",
   "theorems": [
    "C18_assign_only",
    "C18_deleted",
    "C18_index_error_refuted",
    "C18_no_dangling",
    "C18_refused",
    "C18_self_overwrite_refuted",
    "C18_self_reference_kept"
   ],
   "note": "For any indexes and any value store; histories stop at the fatal code -3 (C18_index_error_refuted: after an index error the new reference has no link back and its target can be deleted). C18_self_overwrite_refuted: overwriting a self-reference follows a freed list cell. Records of length 0 and failed list-cell allocations are excluded."
  },
  {
   "property": "C19",
   "status": "partial",
   "theorems": [
    "C19_parents_partial",
    "C19_two_fields_refuted"
   ],
   "note": "Exact when no record refers to the given one from two fields; otherwise the iteration never ends (C19_two_fields_refuted)."
  },
  {
   "property": "C20",
   "status": "partial",
   "theorems": [
    "C20_defined",
    "C20_encode_blob",
    "C20_encode_refuted",
    "C20_encode_string",
    "C20_free",
    "C20_kept",
    "C20_released",
    "C20_same_blob_partial",
    "C20_same_handle_partial",
    "C20_same_handle_refuted"
   ],
   "note": "Every history of creating, storing, overwriting, deleting, encoding and freeing, short strings and extra strings included: values are kept while in use, released exactly with the last reference, never twice. The same handle is returned when no string of 2^31 bytes and no long extra string in the bucket of its own string is encoded; C20_same_handle_refuted and C20_encode_refuted show both restrictions are needed."
  },
  {
   "property": "C21",
   "status": "proved",
   "theorems": [
    "C21_compare_is_keyorder",
    "C21_failed_insert_unchanged_refuted",
    "C21_index_contents",
    "C21_insert_succeeds",
    "C21_insert_without_memory",
    "C21_remove_absent",
    "C21_remove_succeeds"
   ],
   "note": "All histories of insertions, removals and key changes of absent rows, any key order (instance: WG_COMPARE). C21_failed_insert_unchanged_refuted: an insertion that runs out of memory replaces another row."
  },
  {
   "property": "C22",
   "status": "proved",
   "theorems": [
    "C22_index_balanced"
   ],
   "note": "Pointer-level: parent links, stored heights, balance, fill, 2^(h/2) <= nodes + 1."
  },
  {
   "property": "C23",
   "status": "proved",
   "theorems": [
    "C23_leftmost_search",
    "C23_rightmost_search"
   ],
   "note": "Both searches and the slot searches inside the node, with any duplicates."
  },
  {
   "property": "C24",
   "status": "partial",
   "theorems": [
    "C24_empty_open_interval_refuted",
    "C24_range_query_partial"
   ],
   "note": "All bound kinds except two exclusive bounds of equal value: C24_empty_open_interval_refuted shows that x > v and x < v can return rows."
  },
  {
   "property": "C25",
   "status": "partial",
   "theorems": [
    "C25_large_database_refuted",
    "C25_make_query_partial",
    "C25_open_interval_refuted",
    "C25_query_partial"
   ],
   "note": "Any set of T-tree indexes with templates, any argument list and match record. C25_open_interval_refuted: x > v and x < v returns a record when an index exists. C25_large_database_refuted: index headers beyond 2^32 bytes are looked up at a wrong address. Excluded: WG_ILLEGAL as a value, negative columns."
  },
  {
   "property": "C26",
   "status": "partial",
   "theorems": [
    "C26_indexes_follow_partial",
    "C26_new_field_parent_refuted",
    "C26_new_index_refuted",
    "C26_plain_values_partial",
    "C26_raw_record_stuck_refuted",
    "C26_self_reference_refuted",
    "C26_template_order_refuted",
    "C26_two_fields_refuted"
   ],
   "note": "Every T-tree index holds exactly the records that belong into it, for all histories in which assigned records have no referring record and raw records are filled in without match records; the other histories break it, shown by concrete runs. Hash indexes are not covered."
  },
  {
   "property": "C27",
   "status": "partial",
   "theorems": [
    "C27_array_twice_refuted",
    "C27_collision_refuted",
    "C27_create_partial",
    "C27_exact_partial",
    "C27_int_refuted",
    "C27_lookup",
    "C27_prefix_refuted",
    "C27_record_refuted",
    "C27_zero_refuted"
   ],
   "note": "Proved for every proper use: a lookup returns exactly the rows that have the searched key (C27_lookup, also JSON indexes), and for values whose hashed bytes stand for their content exactly the rows that compare equal (C27_exact_partial, C27_create_partial). For other values the claim fails and is refuted: ints that differ by 2^32, 0.0 and -0.0, records compared by content but hashed by address, NULL and empty prefix, two-column collision, array with the same element twice."
  },
  {
   "property": "C28",
   "status": "proved",
   "theorems": [
    "C28_prefetch",
    "C28_resultset_pages"
   ],
   "note": "Rows are non-zero offsets; page allocation is a parameter giving fresh pages."
  },
  {
   "property": "C29",
   "status": "proved",
   "theorems": [
    "C29_intersection",
    "C29_succeeds",
    "C29_unique"
   ],
   "note": "Result sets of up to 201326611 rows; larger ones may fail with NULL because of the hash table capacity (see C30)."
  },
  {
   "property": "C30",
   "status": "partial",
   "theorems": [
    "C30_capacity_refuted",
    "C30_membership_partial",
    "C30_refused_only_when_full",
    "C30_zero_key_always_present"
   ],
   "note": "Proved for every capacity up to 201326611; C30_capacity_refuted: larger accepted capacities get a table with fewer slots than asked for."
  },
  {
   "property": "C31",
   "status": "proved",
   "theorems": [
    "C31_complete",
    "C31_map"
   ],
   "note": "Insertions that reported success; an insertion is refused only when eight keys agree in the low 22 hash bits (C31_complete). Memory allocation assumed to succeed."
  },
  {
   "property": "C32",
   "status": "proved",
   "theorems": [
    "C32_area_table",
    "C32_blocks_disjoint",
    "C32_defined",
    "C32_large_request_refuted"
   ],
   "note": "All executions that stay inside the int range, with any malloc meeting its contract. C32_large_request_refuted: requests above about 2^30 bytes overflow the int size."
  },
  {
   "property": "C33",
   "status": "partial",
   "theorems": [
    "C33_atom_parts_partial",
    "C33_empty_string_refuted",
    "C33_pair",
    "C33_short_string_refuted",
    "C33_str1",
    "C33_type",
    "C33_type_sign_refuted",
    "C33_type_zero_refuted"
   ],
   "note": "False as stated: one-byte second strings are lost, type 0 makes the first string appear as the second, types above 127 come back negative, an empty second string makes the reader look past the atom. Proved for the remaining cases, after any later calls."
  },
  {
   "property": "C34",
   "status": "proved",
   "theorems": [
    "C34_dump_checks",
    "C34_failed_import_keeps",
    "C34_import_restores",
    "C34_own_key_kept_refuted"
   ],
   "note": "Image and file as byte lists; journal off; file writes assumed to succeed. C34_own_key_kept_refuted: the shared memory key of the target is overwritten by that of the dumped segment."
  },
  {
   "property": "C35",
   "status": "proved",
   "theorems": [
    "C35_checksum_damage",
    "C35_damage_detected",
    "C35_length_damage"
   ],
   "note": "The signed shift in the checksum loop is modelled; detection of every window of up to four bytes still holds."
  },
  {
   "property": "C36",
   "status": "partial",
   "theorems": [
    "C36_concurrent_dump_partial",
    "C36_concurrent_dump_refuted",
    "C36_without_lock"
   ],
   "note": "False as stated: the used size is read before the lock is taken. Proved that a dump is complete when the used size is unchanged, and that it is always rejected when the database grew in between."
  },
  {
   "property": "C37",
   "status": "proved",
   "theorems": [
    "C37_roundtrip",
    "C37_sequence",
    "C37_size",
    "C37_truncated"
   ],
   "note": ""
  },
  {
   "property": "C38",
   "status": "partial",
   "theorems": [
    "C38_blob_refuted",
    "C38_language_refuted",
    "C38_new_field_refuted",
    "C38_replay_partial",
    "C38_restart_partial",
    "C38_stray_int_refuted",
    "C38_wide_int_refuted"
   ],
   "note": "Every sequence of covered calls on any database behind the journal. Refuted with concrete runs for full integers (stray bytes, 32-bit truncation), blobs, new strings with a language (the entries nest and the replay fails) and refused wg_set_new_field; wg_free_encoded is not journalled."
  },
  {
   "property": "C39",
   "status": "partial",
   "theorems": [
    "C39_cut_magic",
    "C39_cut_partial",
    "C39_exact_refuted"
   ],
   "note": "Any cut of any journal: the complete entries are replayed, -2 exactly when a part of an entry follows. C39_exact_refuted: a value entry cut inside its address is still allocated."
  },
  {
   "property": "C40",
   "status": "partial",
   "theorems": [
    "C40_references",
    "C40_repeated_refuted",
    "C40_replay_succeeds_partial",
    "C40_stale_refuted",
    "C40_translation_partial"
   ],
   "note": "Every placement, when no object is created at an address from which one was moved. C40_stale_refuted: with reused addresses an assignment gets the wrong string, return code 0. C40_repeated_refuted: the same string encoded eight times makes the replay fail."
  },
  {
   "property": "C41",
   "status": "partial",
   "theorems": [
    "C41_char_refuted",
    "C41_injective",
    "C41_last_line_refuted",
    "C41_many_quotes_refuted",
    "C41_null_row_refuted",
    "C41_strings_partial"
   ],
   "note": "All tables of strings, NULL, integers, dates, times and harmless characters whose strings fit with their quotes doubled (4091 bytes). Refuted beyond: 2100 quotes are cut (C41_many_quotes_refuted); rows of one NULL, character fields holding a separator and unfinished last lines are lost or torn."
  },
  {
   "property": "C42",
   "status": "partial",
   "theorems": [
    "C42_errno_refuted",
    "C42_int_refuted",
    "C42_long_refuted",
    "C42_string_refuted",
    "C42_table_partial"
   ],
   "note": "Whole tables of 32-bit integers, strings not looking like numbers, NULL, dates, times. The full claim is refuted: larger integers, numeric strings, the empty string, stale errno, numbers over 79 characters."
  },
  {
   "property": "C43",
   "status": "partial",
   "theorems": [
    "C43_deep_refuted",
    "C43_delete_partial",
    "C43_nesting3",
    "C43_parse_delete_partial",
    "C43_shared_refuted"
   ],
   "note": "For documents of at most seven records on a way from the top: all and only the records of the document are removed, also in later states. Refuted for four nested objects, which the parser accepts (C43_deep_refuted), and for shared parts (C43_shared_refuted)."
  },
  {
   "property": "C44",
   "status": "partial",
   "theorems": [
    "C44_deep_refuted",
    "C44_find_partial",
    "C44_hijack_refuted"
   ],
   "note": "For documents of at most seven records on a way from the top whose parts no other record refers to. Refuted for four nested objects (C44_deep_refuted) and for parts used by another document (C44_hijack_refuted)."
  },
  {
   "property": "C45",
   "status": "partial",
   "theorems": [
    "C45_check",
    "C45_limits",
    "C45_null_refuted",
    "C45_refuted",
    "C45_roundtrip",
    "C45_stored"
   ],
   "note": "Every JSON value the parser accepts is stored as its value without null and boolean values, strings up to a zero byte, keys cut to 79 bytes (C45_stored); values without these come back exactly and print as they were read (C45_roundtrip). Refuted otherwise (C45_refuted, C45_null_refuted). That a value within the limits is accepted when memory suffices is not proved."
  },
  {
   "property": "C46",
   "status": "partial",
   "theorems": [
    "C46_accepted",
    "C46_all_indexes",
    "C46_all_indexes_refuted",
    "C46_create",
    "C46_drop",
    "C46_drop_hash_refuted",
    "C46_drop_unknown",
    "C46_identical_refused",
    "C46_index_type",
    "C46_invalid_type_refuted",
    "C46_lists",
    "C46_no_memory_refuted"
   ],
   "note": "For the usable types and with memory: every history of creations and drops of T-tree indexes leaves the control area listing exactly the existing indexes, refusals change nothing. Refuted otherwise: an invalid type leaves the index in its column list (C46_invalid_type_refuted), dropping a hash index fails half-way (C46_drop_hash_refuted), an index on two columns makes wg_get_all_indexes overflow its array (C46_all_indexes_refuted), lack of list cells empties the list of indexes (C46_no_memory_refuted)."
  },
  {
   "property": "C47",
   "status": "proved",
   "theorems": [
    "C47_chosen_index_covers",
    "C47_match_template",
    "C47_template_made"
   ],
   "note": "Matching, making of a template (trimming, reuse) and the choice of the index."
  },
  {
   "property": "C48",
   "status": "proved",
   "theorems": [
    "C48_find_record",
    "C48_unknown_condition_refuted"
   ],
   "note": "All six conditions, with or without T-tree indexes. C48_unknown_condition_refuted: an unknown condition finds nothing with an index and everything without."
  },
  {
   "property": "C49",
   "status": "proved",
   "theorems": [
    "C49_perms"
   ],
   "note": "All integer modes, segment and journal file."
  },
  {
   "property": "C50",
   "status": "partial",
   "theorems": [
    "C50_array_refuted",
    "C50_deep_refuted",
    "C50_documents_partial",
    "C50_outside_refuted",
    "C50_same_partial"
   ],
   "note": "Proved for all collections of documents whose ways from the top have at most seven records, all argument lists and all combinations of the hash index, the index on values and the index on keys, including memory failures: the query delivers exactly the documents with a matching part for every argument. Assumes that the indexes used are exact for the arguments (C24, C27) and that no record outside documents matches. Refuted without these: arrays of three or more elements match as a pair in the scan only, a matching record outside a document makes the query fail, four nested objects make it fail."
  },
  {
   "property": "C51",
   "status": "partial",
   "theorems": [
    "C51_rp_returns",
    "C51_wp_reader_refuted",
    "C51_wp_writer_returns_partial"
   ],
   "note": "Proved for all calls of the reader-preference lock and writers of the writer-preference lock; refuted for readers of the latter, which never look at the time-out while losing the compare-and-swap."
  },
  {
   "property": "C52",
   "status": "partial",
   "theorems": [
    "C52_queue_timeout_partial",
    "C52_queue_timeout_refuted",
    "C52_spin_timeout_partial",
    "C52_spin_timeout_refuted"
   ],
   "note": "Spin locks: within 47 ms up to 2147 ms, refuted above (cut to 2.139 s). Queue lock: refuted below one second (milliseconds are stored as nanoseconds)."
  },
  {
   "property": "C53",
   "status": "proved",
   "theorems": [
    "C53_linear",
    "C53_no_bypass"
   ],
   "note": ""
  },
  {
   "property": "C54",
   "status": "proved",
   "theorems": [
    "C54_date",
    "C54_nonexistent_refuted",
    "C54_time",
    "C54_year_refuted"
   ],
   "note": "Both directions for the years 1 to 9999 and all times of day. C54_year_refuted: year 10000 is cut; C54_nonexistent_refuted: 31 February is accepted."
  },
  {
   "property": "C55",
   "status": "proved",
   "theorems": [
    "C55_chunks"
   ],
   "note": "The position-based lexer and parser with their carry-over buffer are shown equal to a parser of the whole stream."
  },
  {
   "property": "C56",
   "status": "partial",
   "theorems": [
    "C56_integer",
    "C56_refuted",
    "C56_reload",
    "C56_string",
    "C56_text"
   ],
   "note": "Proved for documents without null and boolean values whose strings are UTF-8, whose integers have 32 bits and whose doubles are read as printed: the printed text parses into the events of the document and stores the same document in any database (C56_reload). Strings of any bytes and integers of 64 bits (without the least) survive their own encoding. Refuted for larger integers (printed as int) and strings that are not UTF-8 (C56_refuted)."
  },
  {
   "property": "C57",
   "status": "partial",
   "theorems": [
    "C57_check",
    "C57_parse_partial",
    "C57_refuted"
   ],
   "note": "Proved for wg_check_json on all texts (C57_check). For the document parser proved for texts without escaped high surrogates and without runs of 19 digits. Refuted otherwise: assertion failure, read outside the string, signed overflow, on texts that wg_check_json accepts (C57_refuted)."
  },
  {
   "property": "C58",
   "status": "partial",
   "theorems": [
    "C58_file_partial",
    "C58_multiple",
    "C58_refuted",
    "C58_zero_refuted"
   ],
   "note": "Proved for contents without zero bytes whose size is not a multiple of 16384. For other sizes nothing is ever stored (C58_multiple), and the result can be 0 for a valid text (C58_refuted). A zero byte in a comment passes the check but cuts the text (C58_zero_refuted)."
  },
  {
   "property": "C59",
   "status": "partial",
   "theorems": [
    "C59_accepted_partial",
    "C59_check",
    "C59_document_partial",
    "C59_parse",
    "C59_refuted"
   ],
   "note": "wg_check_json: proved in both directions for all texts against an inductive grammar (C59_check); the grammar has to allow a comment or string that is not closed after the value, since these are accepted (C59_refuted). Document parser: the value of every text of the grammar is reported (C59_parse); the converse is proved for texts without escaped high surrogates (C59_accepted_partial, C59_document_partial) and false with them."
  },
  {
   "property": "C60",
   "status": "proved",
   "theorems": [
    "C60_existing",
    "C60_handle",
    "C60_kept",
    "C60_new",
    "C60_once"
   ],
   "note": "For all interleavings of any number of clients and all answers of the system calls; the segments are abstract (mark, version, size, journal flag, number of parts set up)."
  },
  {
   "property": "C61",
   "status": "partial",
   "theorems": [
    "C61_default",
    "C61_journal_refuted",
    "C61_names",
    "C61_one_database_partial",
    "C61_race_refuted",
    "C61_trace_refuted",
    "C61_undo_refuted"
   ],
   "note": "One database per key is proved for all interleavings in which nobody runs free_shared_memory (C61_one_database_partial). Refuted otherwise: a failed attempt removes the database that has the key by then, a database is handed out before its journal is open, failed attempts stay mapped or leave a segment without header, a race makes attaching fail although the database exists."
  },
  {
   "property": "C62",
   "status": "partial",
   "theorems": [
    "C62_areas",
    "C62_buckets",
    "C62_calls_defined",
    "C62_contents",
    "C62_creation",
    "C62_disjoint",
    "C62_freesize_usable_refuted",
    "C62_full",
    "C62_hash_clear",
    "C62_header_inside",
    "C62_header_inside_refuted",
    "C62_queue_fits"
   ],
   "note": "Proved for segments up to 2^40 bytes, requests below 2^40 bytes and all histories (the length of the string hash array is any number). Refuted parts: with exactly 8192 bytes left wg_database_freesize answers a size that cannot be used; a local database of less than 48 bytes has its header written outside its block."
  },
  {
   "property": "C63",
   "status": "partial",
   "theorems": [
    "C63_find_int_refuted",
    "C63_longstr",
    "C63_param_block_refuted",
    "C63_param_compare",
    "C63_param_length_refuted",
    "C63_param_number",
    "C63_param_text",
    "C63_shortstr",
    "C63_string"
   ],
   "note": "Proved for stored strings below 2^40 bytes and for parameters whose text and extra string together are below 2^31 - 64 bytes. For longer ones refuted: the block is too small from 2^31 - 10 bytes on, longer texts are cut; wg_find_record_int cuts its number to 32 bits."
  },
  {
   "property": "C64",
   "status": "partial",
   "theorems": [
    "C64_bounded",
    "C64_copy",
    "C64_copy_blob",
    "C64_copy_lang",
    "C64_copy_param_refuted",
    "C64_unchecked_refuted"
   ],
   "note": "Bounds proved for all values and memories; contents for stored values. Refuted for query parameters: the copy of a plain text parameter ends after 31 bytes; without the checks of the public functions a buffer of length 0 is written."
  },
  {
   "property": "C65",
   "status": "partial",
   "theorems": [
    "C65_not_unique_refuted",
    "C65_row",
    "C65_unify"
   ],
   "note": "Proved for the usual settings (unify_samelen 1, unify_maxuseterms 0) and unlimited variable stack. With uniquestrflag 0 two long strings with equal contents are a finding (C65_not_unique_refuted)."
  },
  {
   "property": "C66",
   "status": "partial",
   "theorems": [
    "C66_dropped",
    "C66_equal",
    "C66_equal_defined",
    "C66_equal_defined_refuted",
    "C66_fact_variable_refuted",
    "C66_given",
    "C66_match",
    "C66_match_defined_refuted",
    "C66_subsume"
   ],
   "note": "Proved whenever the functions give an answer, for facts without variables and non-empty first clauses. Refuted: the code reads outside its records for some pairs with long strings (C66_equal_defined_refuted, C66_match_defined_refuted); a fact with a variable is not seen to subsume its instances."
  },
  {
   "property": "C67",
   "status": "partial",
   "theorems": [
    "C67_follow",
    "C67_frame",
    "C67_freed_refuted",
    "C67_proof"
   ],
   "note": "Soundness proved for all runs with use_comp_funs off and memory that is not reused; completeness is not claimed. Refuted: the buffer of the queue is freed while clauses in it are still used (C67_freed_refuted)."
  },
  {
   "property": "C68",
   "status": "partial",
   "theorems": [
    "C68_accepted",
    "C68_copy",
    "C68_copy_refuted",
    "C68_lowercase_refuted",
    "C68_roundtrip",
    "C68_safe",
    "C68_value",
    "C68_value_refuted"
   ],
   "note": "Round trip proved for upper-case percent-encoding of any bytes but 0, memory safety for all queries below 2000 characters. Refuted: lower-case hexadecimal digits are decoded wrongly (C68_lowercase_refuted); a query of exactly 2000 characters is written one byte past its buffer (C68_copy_refuted); an empty value is the number 0 and long numbers overflow (C68_value_refuted)."
  },
  {
   "property": "C69",
   "status": "partial",
   "theorems": [
    "C69_address_refuted",
    "C69_grow",
    "C69_levels",
    "C69_readers_refuted",
    "C69_rule"
   ],
   "note": "The rule, the order of levels and monotony are proved for all configurations. Refuted are two stricter readings, both documented as they are in conf_example.txt: addresses are prefixes, so 127.0.0.1 admits 127.0.0.12 (C69_address_refuted); read tokens keep nobody out when no other token is configured (C69_readers_refuted)."
  },
  {
   "property": "C70",
   "status": "partial",
   "theorems": [
    "C70_depth_refuted",
    "C70_empty_refuted",
    "C70_int_refuted",
    "C70_jsonp_refuted",
    "C70_language_refuted",
    "C70_overflow_refuted",
    "C70_quote_refuted",
    "C70_realloc_refuted",
    "C70_reread_refuted",
    "C70_safe_partial",
    "C70_text"
   ],
   "note": "Proved for values of at most 150 bytes, jsonp names of at most 96 and a realloc that succeeds (C70_safe_partial); the text for values without language, nested records and zero bytes and for ints of 32 bits (C70_text). Refuted beyond: overflow of the buffer (C70_overflow_refuted), strings with a language, quotes in URIs and chars, large ints, long jsonp names, empty csv results, depth of nesting, failing realloc, rereading of percent-encoded text."
  },
  {
   "property": "C71",
   "status": "partial",
   "theorems": [
    "C71_blanks_refuted",
    "C71_large_refuted",
    "C71_load",
    "C71_newline_refuted",
    "C71_safe",
    "C71_start_refuted"
   ],
   "note": "Proved for files below 512000 bytes: the values for files made of the kinds of rows listed, each ended by a newline (C71_load), memory safety for any bytes ending in a newline (C71_safe). Refuted beyond: larger files are parsed in a freed buffer (C71_large_refuted), blanks at the end without newline read or write bytes never read from the file (C71_newline_refuted, C71_blanks_refuted), three lists are not initialised (C71_start_refuted)."
  },
  {
   "property": "C72",
   "status": "partial",
   "theorems": [
    "C72_array",
    "C72_delete_refuted",
    "C72_fields",
    "C72_fld_refuted",
    "C72_ids",
    "C72_params",
    "C72_scan",
    "C72_values",
    "C72_wild_refuted",
    "C72_zero_refuted"
   ],
   "note": "Proved: the records handled by full scans that do not delete (C72_scan), by fields for count of 1 or more (C72_fields), by ids of live records (C72_ids), the array of ids is not left (C72_array), the parameters without fld stay in their arrays (C72_params). Refuted beyond: delete scans ignore from (C72_delete_refuted), count=0 handles one record (C72_zero_refuted), ids are not checked (C72_wild_refuted), fld uses an uninitialised index (C72_fld_refuted)."
  },
  {
   "property": "C73",
   "status": "partial",
   "theorems": [
    "C73_attached_refuted",
    "C73_auth",
    "C73_create_drop",
    "C73_drop_refuted",
    "C73_insert_refuted",
    "C73_keep_refuted",
    "C73_locked",
    "C73_readlock_refuted",
    "C73_release"
   ],
   "note": "Proved: authorization before any access (C73_auth), records only under a lock (C73_locked), locks and attachment given back in the cases stated (C73_release). Refuted beyond: update and delete under the read lock (C73_readlock_refuted), locks kept by insert into a new database and by a failing drop (C73_keep_refuted, C73_drop_refuted), attachment kept (C73_attached_refuted), insert writes nothing (C73_insert_refuted)."
  },
  {
   "property": "C74",
   "status": "partial",
   "theorems": [
    "C74_backup",
    "C74_dump_refuted",
    "C74_import_refuted",
    "C74_journal_partial",
    "C74_key_refuted",
    "C74_missing",
    "C74_replay_refuted",
    "C74_write_refuted"
   ],
   "note": "Proved for all histories in which no write of an entry is cut short and dumps are imported only while no handle has the journal open (C74_journal_partial); the choice of the backup (C74_backup). Refuted beyond: after other imports entries go to a backup (C74_import_refuted) or the journal of another database is replaced (C74_key_refuted), a failing dump moves the entries away (C74_dump_refuted), a replay giving up early leaves logging off (C74_replay_refuted), after a failing write entries go to other files (C74_write_refuted)."
  },
  {
   "property": "C75",
   "status": "partial",
   "theorems": [
    "C75_cut",
    "C75_empty_refuted",
    "C75_get",
    "C75_header",
    "C75_line",
    "C75_method",
    "C75_nolength",
    "C75_noquery_partial",
    "C75_post_partial",
    "C75_post_refuted",
    "C75_short",
    "C75_stale_refuted"
   ],
   "note": "Proved: lines (C75_line), GET with query and other methods for any earlier state of the thread (C75_get, C75_method), header (C75_header); a POST that is short, too long, cut or without length (C75_short, C75_cut, C75_nolength); the data of a POST when the byte behind it happens to be 0 (C75_post_partial); no query on a thread that had none before (C75_noquery_partial). Refuted beyond: old words and queries are used again (C75_stale_refuted), a closed connection is parsed (C75_empty_refuted), the data of a POST is not ended (C75_post_refuted)."
  },
  {
   "property": "C76",
   "status": "partial",
   "theorems": [
    "C76_accept",
    "C76_full_refuted",
    "C76_order",
    "C76_take",
    "C76_wake"
   ],
   "note": "Proved for all histories: order and once each (C76_order, C76_take), in the queue unless full (C76_accept), no lost wake-up (C76_wake). Refuted: a connection that finds the queue full is neither handled nor closed (C76_full_refuted). Shutdown and the build with OpenSSL are not modelled."
  },
  {
   "property": "C77",
   "status": "partial",
   "theorems": [
    "C77_answer_partial",
    "C77_answer_refuted",
    "C77_read",
    "C77_read_short",
    "C77_read_twice",
    "C77_ssl_refuted",
    "C77_write",
    "C77_write_ends"
   ],
   "note": "Proved: reading (C77_read, C77_read_short, C77_read_twice) and writing (C77_write, C77_write_ends) for all pieces; the whole answer when sending never fails (C77_answer_partial). Refuted: after a failing header the answer is still sent (C77_answer_refuted); built with OpenSSL writen never ends on a connection shut down (C77_ssl_refuted). errno left from an earlier call is not modelled."
  },
  {
   "property": "C78",
   "status": "partial",
   "theorems": [
    "C78_call",
    "C78_db_refuted",
    "C78_refuses",
    "C78_serves"
   ],
   "note": "Proved: the call made (C78_call), requests that are served (C78_serves) and refused (C78_refuses). Refuted: a db that only starts with a number is taken (C78_db_refuted)."
  },
  {
   "property": "C79",
   "status": "partial",
   "theorems": [],
   "note": "Proved: sums (C79_plus_int, C79_plus, C79_plus_comm), equalities (C79_equal, C79_decides), other terms (C79_other). The equality of terms is a parameter; C79_equal asks that it is kept by substitution. Refuted: an int and the double of the same number are told unequal (C79_mixed_refuted); further arguments of + are dropped (C79_arity_refuted). An int sum that does not fit gint is undefined in C and has no result in the model."
  },
  {
   "property": "C80",
   "status": "partial",
   "theorems": [
    "C80_empty_refuted",
    "C80_fail",
    "C80_lost_refuted",
    "C80_push",
    "C80_size_refuted",
    "C80_store",
    "C80_string"
   ],
   "note": "Proved for places below 2^27 while memory lasts: storing (C80_store), queues (C80_push); strings below 2^30 (C80_string); when NULL is given (C80_fail). Refuted: a queue that cannot grow is lost, and the next push is outside of memory (C80_lost_refuted); the size is cut to an int, so that storing far behind the end is outside of memory (C80_size_refuted); an empty string grows never and a byte in front of it is written (C80_empty_refuted). Blocks that malloc did not align are not modelled."
  },
  {
   "property": "C81",
   "status": "partial",
   "theorems": [
    "C81_junk_refuted",
    "C81_leak_refuted",
    "C81_negative_refuted",
    "C81_range",
    "C81_search_behind",
    "C81_search_partial",
    "C81_store_partial",
    "C81_zero_refuted"
   ],
   "note": "Proved: the search gives exactly the atoms stored, newest first, when the offsets of nodes are not negative and the table started empty (C81_search_partial, C81_search_behind); hashes are in range (C81_range) and can be stored when not 0 (C81_store_partial). Refuted: a predicate named cu has the hash 0, which is refused (C81_zero_refuted); nodes placed before the database are taken for an error (C81_negative_refuted); the vectors start with any bytes (C81_junk_refuted); first nodes are never freed (C81_leak_refuted)."
  },
  {
   "property": "C82",
   "status": "partial",
   "theorems": [
    "C82_cond_partial",
    "C82_cond_refuted",
    "C82_flag",
    "C82_mode",
    "C82_mode_range",
    "C82_mode_refuted",
    "C82_query_partial",
    "C82_query_refuted",
    "C82_select",
    "C82_select_refuted",
    "C82_size_partial",
    "C82_size_refuted"
   ],
   "note": "Proved: sizes that fit (C82_size_partial), modes (C82_mode, C82_mode_range), flags (C82_flag), select (C82_select), conditions in threes (C82_query_partial), the six operators (C82_cond_partial). Refuted: large sizes overflow, other units are dropped and negative sizes pass (C82_size_refuted); a mode is refused after an earlier error (C82_mode_refuted); unfinished conditions of del are left out (C82_query_refuted); <> is less than (C82_cond_refuted); negative counts print all (C82_select_refuted). The choice of the command in main and the reading of values are not modelled."
  }
 ]
}