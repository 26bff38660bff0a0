{"id": "C01", "title": "Integers survive encode/decode", "statement": "For every 64-bit integer v, the value obtained by wg_decode_int on a successful wg_encode_int(db, v) is v, whether v is stored inside the handle or in a separate cell, and it stays v for as long as the cell is not freed.", "quantifier": "all 64-bit signed integers; all database states", "why_tests_cant": "2^64 inputs with a representation switch at +-2^60; a test can only sample the boundary.", "anchors": ["Db/dbdata.c: wg_encode_int, wg_decode_int", "Db/dbdata.h: fits_smallint, encode_smallint, decode_smallint, encode_fullint_offset"]}
{"id": "C02", "title": "Small scalar types survive encode/decode", "statement": "Characters, dates, times, variables and anonymous-constant handles decode to exactly the value that was encoded, for every value in the documented range of their type; a fixpoint number decodes to the nearest multiple of 1/10000, within half of 1/10000 of the input up to a relative error of 2^-27 from the rounding of doubles.", "quantifier": "all values of each scalar type in its documented range", "why_tests_cant": "The ranges are 2^8 to 2^60 values; sign extension and shift overflow only show at particular bit patterns.", "anchors": ["Db/dbdata.c: wg_encode_char, wg_encode_date, wg_encode_time, wg_encode_fixpoint, wg_encode_var, wg_encode_anonconst and the matching wg_decode_*", "Db/dbdata.h: encode_*/decode_* macros"]}
{"id": "C03", "title": "Reported type always matches the encoder used", "statement": "If a value was produced by the encoder of type T then wg_get_encoded_type reports T, no successful encoder ever returns the reserved error value WG_ILLEGAL, and two values produced by encoders of different types are never equal as handles.", "quantifier": "all values of all types, all 8-byte aligned storage offsets", "why_tests_cant": "Requires that the bit patterns of all 16 types are pairwise disjoint over all payloads and all possible segment offsets.", "anchors": ["Db/dbdata.c: wg_get_encoded_type, wg_encode_*", "Db/dbdata.h: tag bit macros, WG_ILLEGAL"]}
{"id": "C04", "title": "Calendar conversion is a bijection on valid dates", "statement": "For every valid Gregorian date (year 1 to 9999), wg_ymd_to_date succeeds and wg_date_to_ymd returns the same year, month and day; later calendar dates get larger day numbers, consecutive calendar days get consecutive numbers.", "quantifier": "all valid Gregorian dates", "why_tests_cant": "3.6 million dates with leap-year and century rules; tests sample a few.", "anchors": ["Db/dbdata.c: wg_ymd_to_date, wg_date_to_ymd, ymd_to_scalar, scalar_to_ymd, years_to_days, months_to_days"]}
{"id": "C05", "title": "Time-of-day conversion is a bijection", "statement": "For every time hh:mm:ss.cc with hh<24, mm<60, ss<60, cc<100, wg_hms_to_time succeeds, wg_time_to_hms returns the same components, and the encoding is order preserving.", "quantifier": "all 8.64 million times of day", "why_tests_cant": "Carry between the mixed-radix digits has to be right for every combination.", "anchors": ["Db/dbdata.c: wg_hms_to_time, wg_time_to_hms"]}
{"id": "C06", "title": "Value comparison is a total preorder", "statement": "For a fixed database state and depth, WG_COMPARE is reflexive, antisymmetric in its result code (a<b iff b>a) and transitive over all storable values (NaN excluded), including records and strings; hence sorting and tree search by it are well defined.", "quantifier": "all triples of encoded values, all database states, all recursion depths", "why_tests_cant": "Transitivity is a property of triples across 16 types, nested records and depth cut-off.", "anchors": ["Db/dbcompare.c: wg_compare", "Db/dbcompare.h: WG_COMPARE, WG_COMPARE_REC_DEPTH"]}
{"id": "C07", "title": "Equal comparison means equal content", "statement": "WG_COMPARE returns WG_EQUAL for two values of a same non-record scalar type exactly when they have equal decoded content (for strings: bytes and language/xsd tag).", "quantifier": "all pairs of values of one type", "why_tests_cant": "Infinite pairs; the interesting ones (same bytes, different language; signed zeros) are rarely generated by tests.", "anchors": ["Db/dbcompare.c: wg_compare"]}
{"id": "C08", "title": "Reader-preference spinlock: mutual exclusion", "statement": "With the reader-preference spinlock, in every interleaving of any number of clients running start/end read/write, including attempts that time out, a writer never holds the lock together with any other client.", "quantifier": "all numbers of clients, all schedules, all timeout points", "why_tests_cant": "Schedules are unbounded; tests see a few interleavings.", "anchors": ["Db/dblock.c: db_rpspin_wlock, db_rpspin_wulock, db_rpspin_rlock, db_rpspin_rulock"]}
{"id": "C09", "title": "Writer-preference spinlock: mutual exclusion", "statement": "With the writer-preference spinlock, in every interleaving of any number of clients, including attempts that time out, a writer never holds the lock together with any other client.", "quantifier": "all numbers of clients, all schedules, all timeout points", "why_tests_cant": "Schedules are unbounded; the reader CAS loop and the writer count interact only in rare interleavings.", "anchors": ["Db/dblock.c: db_wpspin_wlock, db_wpspin_wulock, db_wpspin_rlock, db_wpspin_rulock"]}
{"id": "C10", "title": "Queue lock: mutual exclusion and granted order", "statement": "With the task-fair queue lock, in every interleaving of any number of clients (no time-outs and no interrupted waits) a writer never holds the lock together with another client, and clients are granted the lock in the order in which they queued.", "quantifier": "all numbers of clients, all schedules", "why_tests_cant": "Schedules and queue shapes are unbounded.", "anchors": ["Db/dblock.c: db_tfqueue_wlock, db_tfqueue_wulock, db_tfqueue_rlock, db_tfqueue_rulock"]}
{"id": "C11", "title": "A timed-out lock attempt leaves no trace", "statement": "If a lock attempt times out, then once every call in progress has returned and every holder has released, the lock is free again and a new attempt by any client succeeds at once (for each of the three lock protocols).", "quantifier": "all histories of lock calls and time-outs, all schedules", "why_tests_cant": "Time-outs racing with grants need exact schedules that tests cannot force.", "anchors": ["Db/dblock.c: db_rpspin_wlock, db_rpspin_rlock, db_wpspin_wlock, db_wpspin_rlock, db_tfqueue_wlock, db_tfqueue_rlock"]}
{"id": "C12", "title": "Locks never deadlock", "statement": "Whenever nobody holds the lock and no release is in progress but some client is waiting, some waiting client can enter by taking finitely many of its own steps.", "quantifier": "all reachable lock states, all numbers of clients", "why_tests_cant": "Absence of a stuck state must be shown for every reachable state.", "anchors": ["Db/dblock.c: all *_wlock, *_rlock, *_wulock, *_rulock functions"]}
{"id": "C13", "title": "Atomic integer increment loses no update", "statement": "If any number of clients concurrently call wg_add_int_atomic_field on a small-integer field and no other writer touches it, the final value is the initial value plus the sum of the increments of the calls that returned success.", "quantifier": "all numbers of clients, all schedules, all increments", "why_tests_cant": "Lost updates and silent truncation depend on schedule and value range.", "anchors": ["Db/dbdata.c: wg_add_int_atomic_field, wg_update_atomic_field, wg_set_atomic_field"]}
{"id": "C14", "title": "Live objects never overlap", "statement": "After any sequence of allocations and frees of variable-length objects, the live objects are aligned, lie inside the database areas, are at least as long as requested, and do not overlap each other; the contents of a live object are not changed by allocating or freeing other objects.", "quantifier": "all histories of allocations and frees of any sizes", "why_tests_cant": "Splitting, coalescing and bucket choice depend on the whole history.", "anchors": ["Db/dballoc.c: wg_alloc_gints, wg_free_object, split_free, wg_freebuckets_index, extend_varlen_area, init_subarea_freespace"]}
{"id": "C15", "title": "Full scan visits every live record exactly once", "statement": "After any sequence of record creations and deletions, iterating with wg_get_first_record/wg_get_next_record returns exactly the live records, each once, in address order.", "quantifier": "all histories of record creations and deletions", "why_tests_cant": "The scan trusts size headers that are rewritten by coalescing; any history may break them.", "anchors": ["Db/dbdata.c: wg_get_first_record, wg_get_next_record, wg_get_first_raw_record, wg_get_next_raw_record", "Db/dballoc.c: wg_alloc_gints, wg_free_object"]}
{"id": "C16", "title": "Freed variable-length memory is reusable", "statement": "Freeing coalesces neighbours: after any history no two free regions are adjacent, every byte of a data area belongs to exactly one live or free region, and every free region is found by a later request small enough to fit the designated victim or its size bucket.", "quantifier": "all histories of allocations and frees", "why_tests_cant": "Leaks accumulate over histories of arbitrary length.", "anchors": ["Db/dballoc.c: wg_free_object, wg_alloc_gints"]}
{"id": "C17", "title": "Fixed-length cells are handed out once", "statement": "For any history of fixed-length cell allocations and frees (big integers, doubles, short strings, list cells), a cell handed out is distinct from every cell still live and a freed cell is handed out again before the area grows.", "quantifier": "all histories of cell allocation and free", "why_tests_cant": "Free-list corruption needs long alternating histories.", "anchors": ["Db/dballoc.c: wg_alloc_fixlen_object, wg_free_fixlen_object, make_subarea_freelist, extend_fixedlen_area"]}
{"id": "C18", "title": "Deleting a referenced record is refused", "statement": "wg_delete_record returns -1 and changes nothing when some record field still refers to the record, and otherwise deletes it; hence no field of any live record ever refers to a deleted record.", "quantifier": "all histories of creating, linking, overwriting and deleting records", "why_tests_cant": "Backlink lists change with every assignment; dangling references need specific histories.", "anchors": ["Db/dbdata.c: wg_delete_record, wg_set_field, remove_backlink_index_entries"]}
{"id": "C19", "title": "Parent iteration enumerates the referring records", "statement": "Starting with wg_get_first_parent and following wg_get_next_parent yields every record that has at least one field referring to the given record and then ends.", "quantifier": "all record graphs", "why_tests_cant": "Shape of the reference graph (several references from one parent) decides termination.", "anchors": ["Db/dbdata.c: wg_get_first_parent, wg_get_next_parent, wg_set_field"]}
{"id": "C20", "title": "Strings live as long as they are referenced", "statement": "A long string stored in a field keeps its content until the last field referring to it is overwritten or its record deleted, and is then released; encoding the same bytes, type and language again while it is live returns the same handle.", "quantifier": "all histories of encoding, storing, overwriting and deleting", "why_tests_cant": "Reference counts and hash chains are history dependent.", "anchors": ["Db/dbdata.c: find_create_longstr, wg_encode_uniblob, wg_set_field, free_field_encoffset", "Db/dbhash.c: wg_remove_from_strhash"]}
{"id": "C21", "title": "Tree index holds exactly the inserted rows", "statement": "After any sequence of row insertions and removals, an in-order walk of a T-tree index yields exactly the rows inserted and not removed, each the right number of times, in non-decreasing key order; inserting never fails for lack of balance and removing a present row always succeeds.", "quantifier": "all insertion/removal histories, all keys, any total preorder on keys", "why_tests_cant": "Rotations, node splits and merges combine in unboundedly many shapes.", "anchors": ["Db/dbindex.c: ttree_add_row, ttree_remove_row, db_rotate_ttree, db_which_branch_causes_overweight"]}
{"id": "C22", "title": "Tree index stays balanced", "statement": "After any history the two subtrees of every T-tree node differ in height by at most one, no node except an empty root is empty or over full, and the stored subtree heights are right; so lookups take logarithmic time.", "quantifier": "all insertion/removal histories", "why_tests_cant": "Balance is an invariant over all histories.", "anchors": ["Db/dbindex.c: ttree_add_row, ttree_remove_row, db_rotate_ttree"]}
{"id": "C23", "title": "Tree index boundary search is exact with duplicates", "statement": "For every key, the left-most and right-most searches of a T-tree index return the first and last position holding the key, or the positions where it would be, for any number of duplicates spread over any number of nodes.", "quantifier": "all trees, all keys", "why_tests_cant": "Duplicates spanning node boundaries in all shapes.", "anchors": ["Db/dbindex.c: wg_search_ttree_leftmost, wg_search_ttree_rightmost, wg_search_tnode_first, wg_search_tnode_last"]}
{"id": "C24", "title": "Range query over a tree index returns exactly the range", "statement": "For every combination of inclusive/exclusive/absent lower and upper bound, a query answered from a T-tree index returns exactly the rows whose column lies within the bounds, each once, in order.", "quantifier": "all index contents, all bounds, all nine bound kinds", "why_tests_cant": "The combination of bound kinds, duplicates and node boundaries is unbounded.", "anchors": ["Db/dbquery.c: find_ttree_bounds, internal_build_query, wg_fetch"]}
{"id": "C25", "title": "Query results do not depend on indexes", "statement": "The multiset of rows returned by wg_make_query/wg_fetch for a conjunctive query equals the set of records satisfying every condition, whichever indexes exist.", "quantifier": "all databases, all argument lists, all sets of consistent indexes", "why_tests_cant": "Query planning picks among all indexes; equality with a scan is a property of all data.", "anchors": ["Db/dbquery.c: internal_build_query, most_restricting_column, check_arglist, wg_fetch, wg_make_query"]}
{"id": "C26", "title": "Indexes follow every change of the data", "statement": "After any sequence of record creations, field assignments and deletions, every index contains exactly the records that have all its columns and match its template, each once, under their current value.", "quantifier": "all histories of record operations, all sets of indexes", "why_tests_cant": "Each assignment must remove the old and add the new entry in the right indexes for every history.", "anchors": ["Db/dbindex.c: wg_index_add_field, wg_index_del_field, wg_index_add_rec, wg_index_del_rec", "Db/dbdata.c: wg_set_field, wg_create_record, wg_delete_record"]}
{"id": "C27", "title": "Hash index lookup finds exactly the equal rows", "statement": "A lookup in a hash index for given column values returns exactly the indexed records whose columns compare equal to those values.", "quantifier": "all index contents, all values of all types", "why_tests_cant": "Key serialisation truncates and concatenates; collisions are needle-in-haystack inputs.", "anchors": ["Db/dbindex.c: hash_add_row, hash_remove_row, hash_recurse, hash_extend_prefix, wg_search_hash", "Db/dbhash.c: wg_idxhash_store, wg_idxhash_remove, wg_idxhash_find, wg_decode_for_hashing"]}
{"id": "C28", "title": "Prefetched result pages return every row once", "statement": "A prefetched query returns through wg_fetch exactly the rows collected when it was made, in order, each once, limited to the requested number of rows, whatever their number relative to the page size.", "quantifier": "all result sizes and row limits", "why_tests_cant": "Page boundaries and zero sentinels matter for every size modulo the page size.", "anchors": ["Db/dbquery.c: append_resultset, fetch_resultset, wg_fetch, wg_make_query_rc, internal_build_query"]}
{"id": "C29", "title": "Result set intersection and de-duplication are exact", "statement": "Intersecting two result sets yields exactly the rows in both, and de-duplicating yields each row once keeping the first occurrence, for small and for large sets alike.", "quantifier": "all pairs of result sets", "why_tests_cant": "Two algorithms are switched by size; agreement must hold for all contents.", "anchors": ["Db/dbquery.c: intersect_resultset, unique_resultset", "Db/dbhash.c: wg_dhash_addkey, wg_dhash_haskey"]}
{"id": "C30", "title": "Double-hashing set is a set", "statement": "After any sequence of insertions of non-zero keys, membership in the double-hashing table is true for exactly the inserted keys, for every initial capacity not smaller than their number, and every probe sequence terminates.", "quantifier": "all key sequences within the capacity of the table", "why_tests_cant": "Depends on primality of sizes and the load bound for every key sequence.", "anchors": ["Db/dbhash.c: wg_dhash_init, wg_dhash_addkey, wg_dhash_haskey, dhash_size, dhash_lookup"]}
{"id": "C31", "title": "Extendible integer hash is a map", "statement": "After any sequence of insertions of distinct keys the extendible hash returns for every inserted key its value and reports absence for every other key, through every bucket split and directory doubling.", "quantifier": "all sequences of distinct keys", "why_tests_cant": "Directory doubling and bucket splits depend on all key bits.", "anchors": ["Db/dbhash.c: wg_ginthash_addkey, wg_ginthash_getkey, grow_ginthash, ginthash_splitbucket, add_to_bucket, remove_from_bucket"]}
{"id": "C32", "title": "Memory-pool blocks are disjoint", "statement": "Blocks handed out by one memory pool are aligned, lie inside one malloc-ed area of the pool and never overlap, for any sequence of request sizes.", "quantifier": "all sequences of requests whose sizes stay below the int range", "why_tests_cant": "Area growth depends on the running history of request sizes.", "anchors": ["Db/dbmpool.c: wg_alloc_mpool, extend_mpool, wg_create_mpool"]}
{"id": "C33", "title": "Memory-pool atoms keep their parts", "statement": "For an atom made by wg_mkatom from a type and two strings, wg_atomtype, wg_atomstr1 and wg_atomstr2 return that type and those strings.", "quantifier": "all types 0..255 and all pairs of strings", "why_tests_cant": "Short strings and zero types are the corner cases; only a proof covers all lengths.", "anchors": ["Db/dbmpool.c: wg_mkatom, wg_atomtype, wg_atomstr1, wg_atomstr2"]}
{"id": "C34", "title": "Dump and import restore the database image", "statement": "A file written by wg_dump passes wg_check_dump, and importing it into a segment at least as large restores the dumped image byte for byte (apart from the fields describing the segment itself); a failed import check leaves the database unchanged.", "quantifier": "all database images, all sizes, all target segment sizes", "why_tests_cant": "Depends on the chunked checksum agreeing with the whole-image checksum for every image length.", "anchors": ["Db/dbdump.c: wg_dump, wg_dump_internal, wg_check_dump, wg_import_dump"]}
{"id": "C35", "title": "Damaged dumps are detected", "statement": "If a dump file is altered within any single window of four consecutive bytes of the image (outside the stored checksum), wg_check_dump reports an error; so does any change of the stored checksum alone or of the file length.", "quantifier": "all images, all positions, all alterations", "why_tests_cant": "2^32 alterations at every position of every image.", "anchors": ["Db/crc1.h: update_crc32", "Db/dbdump.c: wg_check_dump"]}
{"id": "C36", "title": "Dumping while others write yields an importable dump", "statement": "Whatever other clients do before and after the dump takes its read lock, a dump that returns success is a complete image that wg_check_dump accepts.", "quantifier": "all schedules of a dump and writers that may grow the database", "why_tests_cant": "Needs a growth exactly between two instructions of the dump.", "anchors": ["Db/dbdump.c: wg_dump, wg_dump_internal"]}
{"id": "C37", "title": "Journal integers are self-delimiting and lossless", "statement": "Every 64-bit integer written to the journal is read back unchanged and the reader consumes exactly the bytes written, whatever follows.", "quantifier": "all 64-bit values, all following bytes", "why_tests_cant": "Nine length classes over 2^64 values.", "anchors": ["Db/dblog.c: enc_varint, fget_varint"]}
{"id": "C38", "title": "Replaying a journal reproduces the database", "statement": "Replaying the journal of any sequence of create, delete, encode, assign and meta operations on a copy of the database state in which logging started yields the same database contents.", "quantifier": "all operation sequences, all starting states", "why_tests_cant": "All histories and value encodings.", "anchors": ["Db/dblog.c: wg_log_create_record, wg_log_delete_record, wg_log_encode, wg_log_encval, wg_log_set_field, wg_log_set_meta, recover_journal, wg_replay_log"]}
{"id": "C39", "title": "A cut-off journal replays its complete entries", "statement": "If the journal is cut at any byte (crash), replay applies exactly the entries written completely before the cut, in order, and reports an error exactly when the cut falls inside an entry.", "quantifier": "all journals, all cut points", "why_tests_cant": "Every byte position of every journal.", "anchors": ["Db/dblog.c: recover_journal, recover_encode, fget_varint, write_log_buffer"]}
{"id": "C40", "title": "Journal replay into a database with different addresses", "statement": "When replay places objects at other addresses than the original run, every later journal entry mentioning an original address acts on the object created for it.", "quantifier": "all journals, all placements chosen by the allocator", "why_tests_cant": "Address reuse patterns depend on both histories.", "anchors": ["Db/dblog.c: add_tran_offset, add_tran_enc, translate_offset, translate_encoded", "Db/dbhash.c: wg_ginthash_addkey, wg_ginthash_getkey"]}
{"id": "C41", "title": "CSV export/import preserves strings", "statement": "A string exported as a quoted CSV field is parsed by the CSV reader back to the same bytes, whatever quotes, separators or line breaks it contains, and never disturbs neighbouring fields or rows.", "quantifier": "all strings shorter than the field buffer, all rows", "why_tests_cant": "Escaping must be right for every string and position.", "anchors": ["Db/dbutil.c: csv_escaped_str, snprint_value_csv, fread_csv, wg_export_db_csv, wg_import_db_csv"]}
{"id": "C42", "title": "CSV export/import preserves integers and types", "statement": "An integer field exported to CSV and imported again is the same integer, and a string field stays a string.", "quantifier": "all 64-bit integers, all strings", "why_tests_cant": "Type guessing on import and 32-bit truncation on export only show for particular values.", "anchors": ["Db/dbutil.c: snprint_value_csv, parse_input_type, wg_parse_and_encode, wg_snprint_value"]}
{"id": "C43", "title": "Every parsed JSON document can be deleted completely", "statement": "wg_delete_document on a document created by the JSON parser removes all and only the records of that document.", "quantifier": "all JSON documents the parser accepts", "why_tests_cant": "Nesting depth and sharing decide; all tree shapes.", "anchors": ["Db/dbschema.c: wg_delete_document, delete_record_recursive", "Db/dbjson.c: wg_parse_json_document, push, pop, add_elem, add_key, add_literal"]}
{"id": "C44", "title": "Every part of a document leads back to its document", "statement": "For every record that is part of a parsed document, wg_find_document returns the top record of that document.", "quantifier": "all parsed documents, all parts", "why_tests_cant": "Depth limits only matter for deep nesting; all shapes needed.", "anchors": ["Db/dbschema.c: wg_find_document, find_document_recursive"]}
{"id": "C45", "title": "JSON documents are stored as parsed", "statement": "Reading a stored document back structurally (arrays as their elements in order, objects as their key/value pairs in order) gives the JSON value that was parsed.", "quantifier": "all JSON values within the depth and key-length limits", "why_tests_cant": "All nested structures.", "anchors": ["Db/dbjson.c: push, pop, add_elem, add_key, add_literal, array_end_cb, object_end_cb", "Db/dbschema.c: wg_create_array, wg_create_object, wg_create_triple"]}
{"id": "C46", "title": "Index creation and removal are all-or-nothing", "statement": "If wg_create_multi_index or wg_drop_index reports failure, the set of indexes and the behaviour of later operations is unchanged; if it reports success exactly that index has been added or removed and wg_get_all_indexes lists exactly the existing indexes.", "quantifier": "all sequences of index creations and drops, all column sets and types", "why_tests_cant": "Error paths for every argument combination.", "anchors": ["Db/dbindex.c: wg_create_multi_index, wg_drop_index, wg_get_all_indexes, insert_into_list, delete_from_list, sort_columns"]}
{"id": "C47", "title": "Template matching selects the right partial indexes", "statement": "A record is covered by a template index exactly when it equals the template in every non-variable column, and a template index is used for a query only if every record satisfying the query is covered by it.", "quantifier": "all templates, records and queries", "why_tests_cant": "All combinations of fixed and variable columns.", "anchors": ["Db/dbindex.c: wg_match_template, add_index_template, find_index_template", "Db/dbquery.c: most_restricting_column, wg_multi_column_to_index_id usage in internal_build_query"]}
{"id": "C48", "title": "Iterated single-condition search enumerates all matches", "statement": "Calling wg_find_record repeatedly, each time passing the last result, returns exactly the records satisfying the condition, each once.", "quantifier": "all databases, columns, conditions and values", "why_tests_cant": "All databases.", "anchors": ["Db/dbquery.c: wg_find_record"]}
{"id": "C49", "title": "Segment permissions are never widened", "statement": "The permission bits used for a new shared segment never include group or other access beyond what the caller requested and always give the owner read and write access; a client that can only read or only write gets nothing.", "quantifier": "all 512 permission values", "why_tests_cant": "Small enough to enumerate but only as a whole; tests check a few values.", "anchors": ["Db/dbmem.c: normalize_perms"]}
{"id": "C50", "title": "JSON query results do not depend on the hash index", "statement": "wg_make_json_query returns the documents containing all the given key/value pairs, whether or not a hash index on keys and values exists.", "quantifier": "all document collections and argument lists", "why_tests_cant": "Hash key truncation and depth limits make the paths differ on rare data.", "anchors": ["Db/dbquery.c: wg_make_json_query, prepare_json_arglist, check_and_merge_by_kv, check_and_merge_recursively"]}
{"id": "C51", "title": "Spin lock calls return", "statement": "With the spin locks, a call that asks for the lock with a time-out returns (with or without the lock) after a number of steps of its own client that is bounded independently of what the other clients do.", "quantifier": "all numbers of clients, all schedules, all time-outs", "why_tests_cant": "Lost races can repeat without end only under particular schedules.", "anchors": ["Db/dblock.c: db_rpspin_wlock, db_rpspin_rlock, db_wpspin_wlock, db_wpspin_rlock"]}
{"id": "C52", "title": "Lock time-outs have the length asked for", "statement": "A lock attempt that finds the lock busy keeps trying for about the number of milliseconds given as time-out before it reports failure (for each of the three lock protocols).", "quantifier": "all time-out values", "why_tests_cant": "Long waits and all values cannot be tried; small values hide unit errors.", "anchors": ["Db/dblock.c: INIT_SPIN_TIMEOUT, UPDATE_SPIN_TIMEOUT, INIT_QLOCK_TIMEOUT, futex_trywait"]}
{"id": "C53", "title": "Atomic field updates take effect one at a time", "statement": "Concurrent wg_set_atomic_field and wg_add_int_atomic_field calls on one field behave as if the successful ones had been executed one after the other; they never change a field of a record that carries an index or while the journal is on.", "quantifier": "all numbers of clients, all interleavings of atomic memory steps", "why_tests_cant": "Requires all interleavings.", "anchors": ["Db/dbdata.c: wg_set_atomic_field, wg_add_int_atomic_field, wg_update_atomic_field"]}
{"id": "C54", "title": "Dates and times survive their ISO text", "statement": "The ISO text of a date or of a time of day reads back as the same date or time, also when the value goes through a CSV file.", "quantifier": "all dates of the years 1 to 9999, all times of day", "why_tests_cant": "Padding, cutting to the buffer and scanning must agree for every value.", "anchors": ["Db/dbdata.c: wg_strf_iso_datetime, wg_strp_iso_date, wg_strp_iso_time", "Db/dbutil.c: snprint_value_csv, parse_input_type"]}
{"id": "C55", "title": "JSON parsing does not depend on how the input is cut", "statement": "Feeding a JSON text to the parser in chunks, cut anywhere (inside a string, an escape, a number, a comment), gives the same callbacks and the same result as the text in one piece.", "quantifier": "all byte sequences, all ways to cut them, all callbacks", "why_tests_cant": "Every token kind has its own continuation path at every position; texts longer than 16384 bytes are needed to reach them through the API.", "anchors": ["json/yajl_all.c: yajl_lex_lex, yajl_do_parse, yajl_do_finish, readChar, unreadChar", "Db/dbjson.c: wg_check_json, run_json_parser"]}
{"id": "C56", "title": "A printed document can be read back", "statement": "The text wg_print_json_document prints for a stored document is valid JSON, and parsing it stores a document with the same content.", "quantifier": "all documents without null, with strings in UTF-8 and numbers that fit the printed format; all databases", "why_tests_cant": "Escaping, separators, number formats and the lexer must agree for every value and every nesting.", "anchors": ["json/yajl_all.c: yajl_string_encode, yajl_string_decode, yajl_parse_integer, yajl_gen_string, yajl_gen_map_open, yajl_gen_array_open, yajl_do_parse", "Db/dbjson.c: wg_print_json_document, run_json_parser"]}
{"id": "C57", "title": "No JSON text makes the parser crash", "statement": "wg_check_json and the document parser end with a result on every text: no assertion fails, nothing is read outside the text, no integer overflows.", "quantifier": "all byte sequences", "why_tests_cant": "Crashes need rare combinations of escapes and digits.", "anchors": ["json/yajl_all.c: yajl_string_decode, yajl_parse_integer, yajl_do_parse, yajl_lex_lex", "Db/dbjson.c: wg_check_json"]}
{"id": "C58", "title": "Reading a JSON file is reading its text", "statement": "wg_parse_json_file checks the content of the file and, if it is valid, stores the document that wg_parse_json_document stores for that text; otherwise it reports an error and stores nothing.", "quantifier": "all file contents", "why_tests_cant": "Depends on the file size relative to the read buffer.", "anchors": ["Db/dbjson.c: wg_parse_json_file, wg_check_json"]}
{"id": "C59", "title": "The accepted JSON texts are those of the grammar", "statement": "wg_check_json accepts exactly the texts that consist of one JSON array or object of less than seven levels, with white space and C style comments between tokens; the document parser reports for such a text the value the grammar gives it, with escapes decoded, and stores no document for a text outside the grammar.", "quantifier": "all byte sequences", "why_tests_cant": "The accepted and the rejected texts are infinitely many; samples show neither that nothing else is accepted nor that every value is right.", "anchors": ["json/yajl_all.c: yajl_lex_lex, yajl_lex_string, yajl_lex_number, yajl_lex_comment, yajl_string_decode, yajl_do_parse, yajl_do_finish", "Db/dbjson.c: wg_check_json, run_json_parser"]}
{"id": "C60", "title": "A handle stands for a complete database", "statement": "Whoever gets a handle from wg_attach_database and its variants uses a segment that is completely set up, by a program of the same version, of at least the size asked for and with a journal if asked for; this stays so, no segment is set up twice or by two clients, and undisturbed calls attach to the existing database or make a new one.", "quantifier": "all interleavings of the steps of any number of clients, all results of system calls", "why_tests_cant": "The windows between creating, setting up and marking a segment are microseconds long; failing system calls cannot be produced at will.", "anchors": ["Db/dbmem.c: wg_attach_memsegment, wg_detach_database, wg_delete_database, wg_check_header_compat, link_shared_memory, create_shared_memory, free_shared_memory", "Db/dballoc.c: wg_init_db_memsegment"]}
{"id": "C61", "title": "Attaching by key gives one database and failures leave no trace", "statement": "Clients that attach with the same key use the same database unless somebody deleted it; an attempt that fails leaves the databases of others and its own process as they were.", "quantifier": "all interleavings of the steps of any number of clients, all results of system calls", "why_tests_cant": "Needs failures at chosen points of one process between chosen steps of others.", "anchors": ["Db/dbmem.c: wg_attach_memsegment, free_shared_memory, link_shared_memory, create_shared_memory"]}
{"id": "C62", "title": "The areas of a segment do not get in each other's way", "statement": "In a database with its ten areas, hash arrays and lock words, all live objects and arrays are disjoint, inside the segment and behind the header, and each holds what its client last wrote, whatever is requested, freed and written in the other areas; creation succeeds exactly when everything fits; no call has an undefined outcome.", "quantifier": "all sizes up to 2^40, all histories of requests, releases and writes in all areas and creations of hash arrays", "why_tests_cant": "An overlap shows only when two particular areas have grown in a particular order.", "anchors": ["Db/dballoc.c: wg_init_db_memsegment, init_db_subarea, alloc_db_segmentchunk, init_hash_subarea, wg_create_hash, init_syn_vars, wg_alloc_fixlen_object, wg_alloc_gints, wg_free_object, wg_free_fixlen_object, wg_database_freesize"]}
{"id": "C63", "title": "Strings come back from their bytes and parameters stand for their value", "statement": "A string, URI, XML literal or blob written by find_create_longstr or into a short string cell reads back with its type, length, bytes and extra string, also after its reference count, backlinks and chain have changed; a query parameter made from a value decodes to that value, compares by its contents, writes only into the block taken for it and is released by freeing exactly this block.", "quantifier": "all byte strings, extra strings, types, memories and positions", "why_tests_cant": "Lengths at the boundaries of words, cells and C ints matter, and a byte written next to a block is not seen in its value.", "anchors": ["Db/dbdata.c: find_create_longstr, wg_encode_unistr, wg_decode_unistr, wg_decode_unistr_lang, wg_decode_unistr_len", "Db/dbquery.c: encode_query_param_unistr, wg_encode_query_param_str, wg_encode_query_param_int, wg_encode_query_param_double, wg_free_query_param, wg_find_record_int"]}
{"id": "C64", "title": "Copies of strings stay in their buffer", "statement": "The copying decoders write no byte outside the buffer of the length given, whatever value they are given; with room for the text and its final 0 they copy exactly the text and return its length, without they return -1; blobs are copied whole or not at all; a missing extra string is copied as the empty one.", "quantifier": "all memories, values, types, buffers and buffer lengths", "why_tests_cant": "A byte too much does harm only with a text of exactly the length of the buffer.", "anchors": ["Db/dbdata.c: wg_decode_str_copy, wg_decode_xmlliteral_copy, wg_decode_uri_copy, wg_decode_blob_copy, wg_decode_unistr_copy, wg_decode_unistr_lang_copy"]}
{"id": "C65", "title": "Unification gives a most general unifier", "statement": "wr_unify_term ends on every pair of terms in memory; when it succeeds the variable banks hold a most general unifier, when it fails there is none, and clearing the variable stack takes back every binding; the same holds for a row of pairs unified one after the other.", "quantifier": "all terms, all memories that hold them, with no bindings before", "why_tests_cant": "Wrong bindings show only for particular sharing of variables and subterms.", "anchors": ["Reasoner/unify.c: wr_unify_term, wr_unify_term_aux, wr_occurs_in, wr_varval, wr_equal_ptr_primitives, wr_clear_varstack"]}
{"id": "C66", "title": "Equality, matching and subsumption answer exactly", "statement": "wr_equal_term says yes exactly for equal terms, wr_match_term_aux exactly when the second term is an instance of the first, wr_subsume_cl exactly when an instance of the first clause, its literals taken at different places, is a part of the second; wr_given_cl_subsumed drops a clause exactly when an active clause subsumes it; the variable banks are clear afterwards.", "quantifier": "all terms, clauses and memories", "why_tests_cant": "The search goes back over combinations of literals, of which there are exponentially many.", "anchors": ["Reasoner/unify.c: wr_equal_term, wr_equal_term_macroaux, wr_match_term_aux, wr_clear_varstack_topslice", "Reasoner/subsume.c: wr_subsume_cl, wr_subsume_cl_aux, wr_given_cl_subsumed"]}
{"id": "C67", "title": "What the reasoner derives follows from the input", "statement": "Every clause that wr_genloop puts into the queue or the active list is true in every structure in which the given clauses are true, and the result 'proof found' means that no structure makes all of them true; buffers are freed only when nothing in them is used any more.", "quantifier": "all finite sets of clauses, all settings of the strategies modelled, all runs of any length", "why_tests_cant": "A wrong renaming of variables or a wrong literal dropped gives false proofs only for particular sets of clauses.", "anchors": ["Reasoner/rgenloop.c: wr_genloop, wr_resolve_binary_all_active", "Reasoner/derive.c: wr_process_resolve_result, wr_process_resolve_result_aux, wr_process_resolve_result_isrulecl, wr_hyperres_satellite_cl", "Reasoner/build.c: wr_build_calc_cl, wr_build_calc_term", "Reasoner/clstore.c: wr_push_clactive_cl, wr_cl_store_res_terms"]}
{"id": "C68", "title": "A request sent as a query comes back as its parameters", "statement": "A query made from names and values by percent-encoding is read by parse_query as exactly these names and values, in order; for any query of fewer than 2000 characters no byte outside the buffer is read or written; a value of digits is taken for the number it denotes and other texts for themselves.", "quantifier": "all lists of at most 100 parameters, all query texts", "why_tests_cant": "Decoding shortens the text in place; which bytes are then read depends on every earlier escape.", "anchors": ["Server/dserve_util.c: parse_query, urldecode, encode_invalue, isint, isdbl", "Server/dserve.c: process_query"]}
{"id": "C69", "title": "Access is given exactly as configured", "statement": "authorize accepts a request exactly when database, address and token are admitted by the lists of the level asked for; what is admitted for a higher level is admitted for a lower one; adding entries to non-empty lists never takes access away.", "quantifier": "all configurations, databases, addresses, tokens and levels", "why_tests_cant": "The lists interact: empty lists mean everything, and levels fall back on each other.", "anchors": ["Server/dserve_util.c: authorize, authorize_aux"]}
{"id": "C70", "title": "The answer of dserve shows the records and stays in its buffer", "statement": "Printing a search result writes only inside the growing output buffer; the answer is the text of the records found, in order, each value in the notation of the format chosen (json or csv) with the escapes chosen, and it fails only for lack of memory.", "quantifier": "all records, nestings, settings, names for jsonp and sizes of results", "why_tests_cant": "The buffer grows by doubling; an overflow needs a long value of many escapes at a particular fill.", "anchors": ["Server/dserve_util.c: str_guarantee_space, sprint_record, sprint_value, sprint_string, sprint_blob, str_new", "Server/dserve.c: op_print_record, op_print_data_start, op_print_data_end"]}
{"id": "C71", "title": "The configuration file of dserve is read as written", "statement": "load_configuration gives every key exactly the values written for it, in order; comments, empty rows and blanks have no effect; no byte outside the buffer is read or written for any file; before reading all lists are empty.", "quantifier": "all files, all contents of uninitialised memory, all failures of malloc for the lists", "why_tests_cant": "Errors show only for particular lengths of the file or particular bytes left in memory by earlier use.", "anchors": ["Server/dserve_util.c: load_configuration, empty_str, add_conf_key_val, add_slval", "Server/dserve.c: setup_globals"]}
{"id": "C72", "title": "A request of dserve handles the records asked for", "statement": "A request handles exactly the records numbered from, from+1, ..., count of them at most, of the scan, of the records found by its fields, or of the ids given; ids that are no records are passed over; no parameter of a request leaves the arrays for parameters and ids.", "quantifier": "all databases, requests, operations (print, count, update, delete), bounds and uninitialised memory", "why_tests_cant": "The three loops count in different ways, and differ only for particular operations and bounds; wrong ids and uninitialised indices hit other memory only sometimes.", "anchors": ["Server/dserve.c: search, handle_fld_param, op_update_record", "Server/dserve_util.c: isint"]}
{"id": "C73", "title": "A request of dserve is authorized first and gives back what it takes", "statement": "Nothing of a database is touched before an authorization for a level that allows it; records are read and written only under a lock that allows it; whatever call fails on the way, locks are released and databases detached; an answer that tells of success means that the work was done.", "quantifier": "all requests (search, count, update, delete, insert, create, drop) and all outcomes of the calls made", "why_tests_cant": "The error paths need failing locks, queries or allocations at a particular place.", "anchors": ["Server/dserve.c: search, insert, create, drop, op_attach_database, op_create_database, op_detach_database", "Server/dserve_util.c: err_clear_detach_halt"]}
{"id": "C74", "title": "The journal file holds what was logged", "statement": "While logging is active, or when entries are not yet in a dump, the journal file of the database holds the magic bytes and exactly the entries logged since the last dump, import or replay, in order; a file that is replaced is kept as a backup while a number is free; a failing call leaves the logging of the database as it was and touches no other file.", "quantifier": "all histories of starting, stopping, logging, dumping, importing and replaying by any number of handles, all outcomes of the system calls, all files there before", "why_tests_cant": "Which file a handle writes to depends on serial numbers, dumps taken long before and failures of earlier writes.", "anchors": ["Db/dblog.c: wg_start_logging, wg_stop_logging, open_journal, backup_journal, check_journal, write_log_buffer, wg_replay_log", "Db/dbdump.c: wg_dump_internal, wg_import_dump"]}
{"id": "C75", "title": "Each connection to dserve gets the answer to its own request", "statement": "The request line is read whole into the buffer; the query handed to process_query is the text behind the question mark of a GET, or the data of a POST, of this very connection, whatever requests the thread handled before; other methods, and requests without query, get an error; the header says the length of the answer.", "quantifier": "all request lines, headers and data, all states left in a thread by earlier requests, all bytes in fresh memory", "why_tests_cant": "What is left in a thread depends on the requests before, and the bytes behind the data of a POST on the heap.", "anchors": ["Server/dserve_net.c: handle_http, readlineb, readn, get_post_data, write_header, write_header_clen"]}
{"id": "C76", "title": "The connections to dserve are handled once each, in their order", "statement": "In every interleaving of the accepting thread and the threads of the pool, connections are taken from the queue in the order they were put in, each exactly once; while one waits, a thread is about to look or all are busy; no connection accepted is lost.", "quantifier": "all histories of accepting, looking, waking (also without signal) and finishing, any number of threads", "why_tests_cant": "A lost wake-up or a slot used twice needs a particular interleaving of threads.", "anchors": ["Server/dserve_net.c: run_server, handle_http"]}
{"id": "C77", "title": "Data passes whole through a connection of dserve", "statement": "readn gives the next n bytes of a connection and leaves the rest, in whatever pieces they come; with less data it tells the end or an error. writen that ends well has sent all data, once and in order; otherwise a part from its start. The client gets the header and the answer, or a part from their start.", "quantifier": "all data, all splittings into pieces by recv and send, all interruptions and failures", "why_tests_cant": "Short reads and writes depend on the network and on signals.", "anchors": ["Server/dserve_net.c: readn, writen, handle_http"]}
{"id": "C78", "title": "A request of dserve runs the operation it names, on the database it names", "statement": "process_query makes at most one call per request: the one named by the first parameter op, on the database of the first non-empty parameter db (a number), else the configured one, else 1000; requests without op, with an unknown op or a db that is no number make none.", "quantifier": "all lists of parameters, all configurations", "why_tests_cant": "Repeated, empty and misspelt parameters combine in too many ways.", "anchors": ["Server/dserve.c: process_query"]}
{"id": "C79", "title": "Sums and equalities are computed rightly while terms are built", "statement": "A term + of two numbers is replaced by their sum (an int for ints, else a double) and = of two terms by true or false; such an answer stays right under every substitution of variables made later; all other terms stay as they are.", "quantifier": "all terms, all substitutions, all outcomes of allocating the result", "why_tests_cant": "An equality decided too early shows only in proofs where a variable is bound later.", "anchors": ["Reasoner/build.c: wr_computable_termptr, wr_compute_from_termptr, wr_compute_fun_plus, wr_compute_fun_equal"]}
{"id": "C80", "title": "The growing vectors and strings of the reasoner keep what is in them", "statement": "Storing at any place of a vector, also behind its end, gives a vector with that element and all others as before, inside of its memory; a queue holds the clauses pushed in their order however often it grew; a string is given the space needed and keeps its text; running out of memory loses nothing.", "quantifier": "all vectors, places, elements and lengths, any bytes in fresh memory, all outcomes of allocating", "why_tests_cant": "Wrong growth shows only at particular lengths, and failing allocations or sizes above 2 GB are not tested.", "anchors": ["Reasoner/mem.c: wr_cvec_new, wr_vec_realloc, wr_vec_store, wr_cvec_store, wr_cvec_push, wr_str_guarantee_space", "Reasoner/clstore.c: wr_push_clqueue_cl"]}
{"id": "C81", "title": "Active atoms are found by their predicate", "statement": "Every atom has a hash at which it can be stored; the search of a hash gives the atoms stored for it, each once and no others, and their number; freeing a table frees all its nodes.", "quantifier": "all atoms, all sequences of storing, all offsets given by malloc", "why_tests_cant": "An unlucky name, or memory placed elsewhere, is not met by the examples tried.", "anchors": ["Reasoner/clstore.c: wr_term_basehash, int_hash, str_hash, str_dual_hash, wr_clterm_add_hashlist, wr_clterm_hashlist_len, wr_clterm_hashlist_start, wr_clterm_hashlist_next, wr_clterm_hashlist_free", "Reasoner/mem.c: wr_vec_new"]}
{"id": "C82", "title": "The command line of wgdb is understood as it is written", "statement": "A size with a unit is that many bytes and a text that is no size is refused; an octal mode from 1 to 777 is that mode; select prints the records asked for; each three arguments of query and del are one condition, all conditions are used, and conditions that are not known are refused.", "quantifier": "all texts of arguments, all numbers, all databases", "why_tests_cant": "Misspelt and unfinished arguments combine in too many ways.", "anchors": ["Main/wgdb.c: parse_shmsize, parse_flag, parse_memmode, make_arglist, selectdata, query, del"]}
