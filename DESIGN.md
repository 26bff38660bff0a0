# WhiteDB: formal model and proofs

Source: `/repo` (priitj/whitedb, C), read as text only. Prover: Coq 8.16.1.

Build model of the code: 64-bit `gint` (`ptrdiff_t`, 8 bytes), little endian,
`config-gcc.h` switches: `CHECK`, `USE_BACKLINKING`, `USE_INDEX_TEMPLATE`,
`TTREE_CHAINED_NODES`, `TTREE_SINGLE_COMPARE` on, `USE_CHILD_DB` off.
`LOCK_PROTO` 1, 2 and 3 and `USE_DBLOG` are modelled separately.

## Trusted base

* The Coq kernel (`coqc`) and its standard library. No axioms are added. Every
  final theorem is followed by `Print Assumptions`; the expected answer is
  "Closed under the global context" for all of them. If a theorem ever lists a
  standard-library axiom it is named in the section of that property below.
* The correspondence between the C text and the Gallina definitions. Each
  definition in a model file carries a comment with file and lines in `/repo`.
  Simplifications are listed in the comment and summarised per property below.
* Not modelled: the C compiler, memory ordering weaker than sequential
  consistency, the operating system (shared memory, files are byte lists,
  futexes are abstract), libc number parsing and printing
  beyond what is stated, the Parser and Server directories, computable functions
  and printing of the Reasoner directory, language bindings, child databases, Windows code paths.

## Conventions

* `theories/<Area>Model.v` holds executable definitions copied from the code,
  `theories/<Area>Spec.v` (or the head of the proof file) the independent
  specification, `theories/<Area>Proofs.v` the proofs and
  `theories/<Area>Props.v` only the final theorems, an `Example` meeting the
  hypotheses of each and `Print Assumptions`.
* A theorem `..._refuted` shows with a concrete witness that the property as
  users would read it is false of the faithful model (a defect in the code).
  `..._partial` proves the part that does hold.
* Machine integers are `Z`; wrap-around is explicit where it can happen.
* Undefined behaviour and exhausted fuel are distinct outcomes.

## Status per property

`MANIFEST.json` lists the theorems per property. Here: what is modelled, how it
is proved, what is missing. "Refuted" means a theorem `..._refuted` with a
concrete run of the model.

### Values (C01-C07, C20, C54, C63, C64)

| id | files | how |
|---|---|---|
| C01 | EncodingModel, FixAllocModel, IntModel | immediate ints by bit algebra; large ints through the word cell area, for all histories of encodings, releases, other writes and growth |
| C02 | EncodingModel, FixpModel | round trips by bit algebra; fixpoint numbers with IEEE rounding of the multiplication and division (`SpecFloat`), error bound and distinctness |
| C03 | EncodingModel | the tag tests of `wg_get_encoded_type` in code order |
| C04 C05 | CalendarModel | against an independent next-day calendar; mixed radix arithmetic |
| C06 C07 | CompareModel | total preorder by induction on the depth; per type `WG_EQUAL` is equality of the decoded content |
| C20 | StringModel | invariant over all histories of creating, storing, overwriting, deleting, encoding and freeing |
| C54 | CsvModel | printing and reading of the ISO texts |
| C63 | UnistrModel | bytes written by `memcpy` into the word memory, read back by the decoders of CompareModel; frame lemmas per byte and word |
| C64 | UnistrModel | the copy loops write only below the buffer length; contents by induction on the text |

Simplifications: `printf`/`strtol` on dates and ints are digit functions; the
memory manager behind strings is an oracle "0 or fresh offset" (its own
properties are C14-C17); reference counts are unbounded.

Findings:
* C02: 0.00005 comes back with an error just above half of 1/10000.
* C04: impossible dates (31 February) and year 0 are accepted.
* C06: NaN breaks the order. C07: the language of plain strings is ignored; a
  NULL and an empty prefix are equal; blob types are ignored.
* C20: a long extra string in the same hash bucket is dropped from the chain when
  the string is removed, so the next encoding makes a second copy; strings of
  2^31 bytes are never found again; a blob over 4 GB matches a shorter one. Short
  strings, doubles and large ints are not counted. A failing extra string leaks
  the object.
* C54: years from 10000 are cut.
* C63: the block of a text parameter is too small from 2^31 - 10 bytes on (the C int
  `dlen` wraps below 0 and 32 bytes are taken); longer texts are cut modulo 2^32;
  `wg_find_record_int` takes an `int`.
* C64: the copy of a plain text parameter (kept as a short string of any length)
  ends after 31 bytes. `wg_decode_unistr_copy` itself writes into a buffer of
  length 0; the public functions check for that when `CHECK` is defined.

### Memory (C14-C17, C32, C33, C62)

| id | files | how |
|---|---|---|
| C14 C15 C16 | VarAllocModel | word-addressed area with headers, buckets and designated victim; refinement to a list of tiled blocks, over all histories |
| C17 | FixAllocModel | free list through memory, invariant over histories |
| C62 | SegmentModel | all ten areas over one memory and one border, with the hash arrays and the chunk of the lock queue; each area is shown to have a history in the sense of C14 or C17 in which the others only write elsewhere and take chunks; the bucket arrays of the variable-length areas lie apart in the header (C62_buckets) |
| C32 C33 | MpoolModel | bump allocator over an abstract `malloc`; byte layout of atoms |

Simplifications: C14-C17 look at one area; the others write anywhere outside its
subareas and take segment space. C62 puts the areas together. The area headers
and the segment header are kept apart from the memory; the length of the string
hash array is a parameter (the code computes it from the size with doubles); the
child database register takes no chunk. Requests and segments are below 2^40 bytes.

Findings:
* Requests of 2^60 words and more wrap; from 2^40 the bucket index is -1; the
  array of 64 subareas limits growth (C14_subarea_array).
* Only the first element of a bucket is tried, so a fitting region behind it is
  not used (C16_any_region_refuted).
* The header length of a small object may change from 3 to 4 words.
* wg_database_freesize answers 8192 when exactly 8192 bytes are left, but no area
  can grow then (C62_freesize_usable_refuted). wg_attach_local_database has no
  lower limit on the size and writes the header before checking
  (C62_header_inside_refuted).
* Memory pools: int overflow on requests over about 2^30 bytes; atoms lose
  one-byte second strings, type 0 and types above 127 do not come back.

### Records (C18, C19, C26, C46)

| id | files | how |
|---|---|---|
| C18 C19 | RecordModel | records, fields, lists of referring records; indexes and values are parameters; invariant over histories |
| C26 | IndexMaintModel | T-tree indexes over the records of RecordModel, with templates and recursion to referring records |
| C46 | IndexCtlModel | lists of the control area, creation and removal |

Findings:
* Overwriting a self-reference follows a freed list cell. After an index error
  (-3) the new reference has no link back. A record that refers twice to another
  makes `wg_get_first_parent`/`next` loop for ever. A failed list cell allocation
  writes at offset 0. Records of length 0 are not handled.
* `wg_set_field` ignores index errors unless below -1.
* C26 fails for: two fields referring to the same record, self references, new
  fields of a record that has parents, an index created over records with
  parents, template order, raw records changed before they are complete.
* C46: an invalid type leaves the index in its column list; dropping a hash index
  fails half-way; an index on two columns makes `wg_get_all_indexes` overflow;
  without list cells the list of indexes becomes empty; `create_ttree_index`
  does not check the node allocation and ignores failed insertions; the refcount
  of a new template is not initialised.

Hash indexes are not part of C26 (C27 covers the table itself).

### Indexes and queries (C21-C25, C27-C31, C47, C48, C50)

| id | files | how |
|---|---|---|
| C21 C22 C23 | TtreeModel | pointer-level maps per node field; representation by an inductive tree; multiset refinement, balance, searches |
| C24 | RangeModel | bounds and cursor refine a filter of the ordered rows |
| C25 C47 | QueryModel | choice of the index, templates, checks; refinement to a filter of all records |
| C27 | HashIdxModel | values as bytes, buckets as memory objects; lookup returns the rows with the key, over every history of additions and removals |
| C28 C29 | ResultModel | pages refine lists; set operations by either algorithm |
| C30 C31 | DhashModel, GinthashModel | invariants over histories, primality of the table sizes |
| C48 | FindModel | the scan is the first match after the given record |
| C50 | JsonQueryModel | trees of records as documents, all paths of `wg_make_json_query`; refinement to "documents with a matching part for every argument" |

Simplifications: the hash index assumes that `malloc` in
`wg_decode_for_hashing` and `hash_extend_prefix` succeeds. `create_resultset`
succeeds. In C50 the hash index and the index on keys are parameters required to
be exact for the arguments (the subject of C24 and C27).

Findings:
* T-tree: an insertion that overflows a full node and cannot allocate loses
  another row (C21_failed_insert_unchanged_refuted).
* `x > v and x < v` returns rows when an index is used (C24, C25).
* `WG_ILLEGAL` as a value is no bound; negative columns are undefined;
  an empty query leaves `res_count` unset; index ids are cut to int
  (C25_large_database_refuted).
* Hash index: ints are cut to 32 bits; 0.0 and -0.0, NULL and empty prefix are
  equal but hash differently; records hash by address; two columns can collide;
  an array with the same element twice gives its row twice; list cell allocation
  is unchecked; failed additions at creation are ignored; blobs cannot be hashed.
* C30: tables for more than 201326611 elements are too small. C31: a failing
  bucket allocation corrupts the table (excluded).
* C48: an unknown condition finds nothing with an index, everything without.
* C50: arrays of three or more elements match as a pair in the scan but not
  through the hash index; a matching record outside a document, or four nested
  objects, make the query fail; the existence of an index on values switches the
  index on keys off without being used; a failed `create_resultset` leaks the
  sorted arguments.

### Locks and atomic updates (C08-C13, C51-C53)

| id | files | how |
|---|---|---|
| C08 C09 C11 C12 C51 C52 | SpinLockModel, RpLockModel, WpLockModel | program counters of any number of clients; inductive invariants over all reachable states; own-step progress |
| C10 C11 C12 C52 | QLockModel | queue, mutex, futex; one step is a mutex access, a protected section, a read of the own word or a futex call (that protected sections exclude each other is proved) |
| C13 C53 | AtomicModel | compare-and-swap loops; ghost sum; linearisation |

Simplifications: sequential consistency; a futex wake picks the first blocked
client; `nanosleep` is a step.

Findings (queue lock): a late wake-up reaching a reused cell lets two writers in;
an interrupted wait counts as acquired; a time-out that meets a release loses
the wake-up; `tv_nsec` gets milliseconds; a negative time-out gives EINVAL, taken
as acquired; a reader granted before its futex call does not wake the next
readers. Spin locks: time-outs over 2147 ms are cut; readers of the
writer-preference lock never look at the time-out while losing the swap.
C13: a large stored integer is cut to 32 bits by the first addition.

### Dump and journal (C34-C40, C49, C74)

| id | files | how |
|---|---|---|
| C34 C35 C36 | CrcModel, DumpModel | images and files as byte lists; CRC as a linear map; schedule of the concurrent dump |
| C37 | VarintModel | algebra |
| C38 C39 C40 | JournalModel | bytes written by the operations, replay; the database is a parameter |
| C49 | PermsModel | enumeration |

Simplifications: file writes and `malloc` succeed; journal and dump separately.

Findings:
* Dump: the size is read before the lock is taken (C36); a lock time-out
  truncates the old file and leaks the handle; `fseek`/`fflush`/`fclose` errors
  are ignored; the shared memory key of the target is overwritten.
* Journal: large ints are written with stray bytes or cut to 32 bits; blobs and
  `wg_free_encoded` are not written; a new string with a language nests entries
  and the replay fails; a refused `wg_set_new_field` is replayed; stale address
  translations give a wrong string with return code 0; the same string encoded
  eight times at a moved address makes the replay fail; a value entry cut in its
  address is still allocated; a failed replay leaves logging off; entries are
  written in two calls of `write`; a length of -1 overruns the buffer; `malloc`
  in `wg_log_encode` is unchecked.

C74: JfileModel has the files of the journal: a directory of names, the contents of files
(kept while a descriptor is open), the logging area of the header, and per handle its
descriptor and serial number. Every system call may fail as the history says. The invariant:
a handle whose serial number is the current one has the current file open. The calls run one
at a time; stat fails only for names that do not exist; the serial number does not overflow.
Disagreements found:

* `wg_import_dump` takes the logging area from the dump. The old serial number makes a descriptor
  of a renamed journal look current, and entries are lost (C74_import_refuted). The key of
  the dump makes the journal of another database be renamed (C74_key_refuted).
* `wg_dump` cleans the log also when the dump could not be written (C74_dump_refuted).
* `wg_replay_log` leaves logging off on every error (C74_replay_refuted).
* `write_log_buffer` keeps the descriptor it closed (C74_write_refuted).

### CSV (C41, C42, C54)

CsvModel: exporter and reader as state machines over bytes, values given decoded.
Findings: fields with many quotes are cut; a row of one NULL disappears; a
character field holding a separator is not quoted; a last line without newline is
lost; ints over 32 bits, numeric strings, stale `errno` and numbers over 79
characters change the value.

### JSON documents (C43-C45)

SchemaModel, JsonModel: records of `dbschema.c` over RecordModel, callbacks of
the parser, printing as calls of the generator. Documents are proved to be trees
of records (SchemaTree), stored, printed, found and deleted by induction.
Simplifications: yajl is represented by its callbacks and generator calls, which
succeed; indexes report no error in C43.
Findings: documents with four nested objects are accepted but cannot be deleted
(rc -1, left damaged) nor found from the innermost pair; a shared part stops a
deletion; a part also used by another document leads there; null and boolean
values disappear (a top-level null gives rc 0 and no document); keys are cut to
79 bytes; strings end at a zero byte; ints are printed as 32 bits; a parse error
behind the document leaves it stored; `wg_check_json` rejects nesting 7, which
parsing accepts; the meta word of objects is set after the record is indexed.

### JSON texts (C55-C59)

YajlModel: lexer (with its carry-over buffer), parser, string and integer
conversion and generator of `json/yajl_all.c`; the functions of `dbjson.c` that
feed them. YajlProofs shows the lexer on chunks equal to a lexer of a byte
stream, YajlParse the same for the parser, YajlPrint that printed text parses
into the events of the value, YajlSafe that undefined behaviour needs an escaped
high surrogate or a run of 19 digits. YajlGrammar, YajlValue and YajlAccept define
the grammar of JSON texts as inductive relations without use of the parser, and
compare: accepted texts are those of the grammar, with their values.
Simplifications: `malloc` succeeds; `strtod` and the text of a double are
parameters; `yajl_free` and error messages are left out; files are read without
errors.
Findings:
* `yajl_string_decode`: a high surrogate escape that is not followed by another
  escape swallows characters; `"\ud800\\x"` reaches an assertion and
  `"\ud800\\u"` reads outside the string. `wg_check_json` accepts both.
* After the value, a comment or string that is not closed is accepted
  (`[]"a`, `[]/*`), since `yajl_do_parse` only looks for a complete token there.
* `yajl_parse_integer`: signed overflow for 9223372036854775810 to ...819; the
  least 64-bit integer is refused. `wg_check_json` accepts integers the document
  parser refuses, after part of the document is stored.
* `wg_parse_json_file`: a file of a multiple of 16384 bytes (also an empty one)
  is not stored, with result 0; text after a zero byte in a comment is lost.
* Integers are printed as int, doubles with `%f`; strings are not checked for
  UTF-8, so a printed document may be refused.

### Attaching (C60, C61)

AttachModel: `wg_attach_memsegment`, `wg_delete_database` and `wg_detach_database`
of `dbmem.c` as programs of any number of clients, one step per system call or
access to the header, with any result of each system call. A segment is its mark,
version, size, journal flag and the number of parts that `wg_init_db_memsegment`
has set up. AttachProofs: an invariant over all interleavings (who sets up a
segment owns it; handles are for marked segments only).

Simplifications: memory is sequentially consistent; `wg_stop_logging`, dump
import and the numbers of processes are left out; a removed segment stays in the
list but loses its key, as with IPC_RMID.

Numbers below 1 and INT_MAX stand for the default database, in attaching and in
deleting; other numbers stand for themselves (C61_default, C61_names).

Disagreements found:

* `wg_attach_memsegment` calls `free_shared_memory(key)` when setting up fails. It
  removes whatever has the key by then, also the database of another client
  (C61_undo_refuted).
* The mark is set before `wg_start_logging`. Another client can get a handle; if
  the journal cannot be opened the database is removed under it
  (C61_journal_refuted).
* Failed attempts never call `shmdt` and an incompatible header also loses the
  handle; if `shmat` fails after `shmget` the key is unusable until deleted
  (C61_trace_refuted).
* Two clients that create at the same time: one gets NULL (C61_race_refuted).
* `wg_memmode` and the like look for the segment by the key in the header, which
  another segment may have by now.

### Reasoner (C65 to C67, C79 to C81)

UnifyModel: `unify.c` function by function (unification, matching, equality,
variable banks and stack). ResolveModel: `build.c`, `subsume.c`, `derive.c`, the
parts of `clstore.c` and `rgenloop.c` that are used with the settings of `glb.c`.
UnifySpec gives terms and what it means that an encoded value stands for a term;
ResolveSpec gives clauses, structures and truth.

* C65: UnifyProofs (the bindings always have the same solutions as the equations
  seen so far, and are without cycles), UnifyTotal (the recursion ends).
* C66: MatchProofs (equality and matching), SubsumeProofs (the search over places
  for literals; not going back after a match without new bindings loses nothing).
* C67: BuildProofs (copying with renaming gives a variant; no variable is lost),
  ResolveProofs (an invariant of the whole loop: all stored clauses hold in every
  structure in which the input holds, banks are clear between steps).

Simplifications: `use_comp_funs_strat` is 0 (the default is 1); printing and
counters are left out; the buffers are one space in which no place is given out
twice, so what a freed buffer held stays readable in the model; the variable
stack is unlimited; `clpickstack` is empty (nothing pushes on it); atoms are
records; the variables of the input are those of the banks 0 to 3; a clause
record has an odd number of fields; the hash of an atom is any function, so the
index is only known to lose nothing that is needed for soundness.

Missing: completeness of the search; the length of `varstack`.

Disagreements found:

* `wr_process_resolve_result` frees `g->build_buffer` after a partial clause has been
  resolved further. By then it is `queue_termbuf` when a clause was derived, and
  that clause is used afterwards (C67_freed_refuted).
* With `negpref_strat` and `pospref_strat` 0 a derived fact is taken for partial
  though no buffer was made; an uninitialised pointer is then stored. The model
  has no result there.
* `wr_equal_term_macroaux` takes a long string for a record, `wr_match_term_aux`
  takes a constant for one (C66_equal_defined_refuted, C66_match_defined_refuted).
* `wr_equal_ptr_primitives` compares a length with 11 in place of `l1`
  (C65_not_unique_refuted).
* A fact clause with a variable subsumes only copies of itself
  (C66_fact_variable_refuted).

C79: CompFunModel is the computing of `+` and `=` while a term is built. The sum of doubles
and `wr_equal_term` are parameters; that the latter is kept by substitution is a hypothesis of
C79_equal, shown to hold for equality of texts. Values of type string, char, date, time, fixpoint,
XML literal, blob and null are one constructor. Findings: `1 = 1.0` is computed to be false although
`1 + 0.0` gives `1.0` (C79_mixed_refuted), `+(1,2,3)` becomes 3 (C79_arity_refuted), and the int sum
may overflow (undefined; no result in the model).

C80: RvecModel is the growing of vectors, queues and strings (Reasoner/mem.c). A block of memory is
its size and a function from places to contents; fresh memory has any contents; a place outside is
`Bad`. Blocks are taken to be aligned by malloc. Findings: a failing growth replaces the queue by
NULL (C80_lost_refuted); sizes are passed as int (C80_size_refuted); a string of length 0 is never
long enough (C80_empty_refuted). Missing: places from 2^27 on, where the size in bytes may not fit.

C81: RhashModel is the hash of a predicate and the chains of atoms (Reasoner/clstore.c). Nodes are at
the offsets malloc gives, any that are not in use and not 0. Doubles enter by whether they are zero and
by a thousand times them as an int. Findings: the hash 0 is possible and refused, so that a clause
with the predicate `cu` ends the program (C81_zero_refuted); a negative offset is taken for an error
(C81_negative_refuted); the vectors are not set to 0 when made (C81_junk_refuted); first nodes are not
freed (C81_leak_refuted). C65 to C67 take the search by predicate as it is proved here.

### Server tool dserve (C68 on)

DserveModel: the request side of `dserve_util.c` (parse_query, urldecode, isint, isdbl,
encode_invalue, authorize) and the copy of the query in `dserve.c`. A buffer is the list
of its bytes; reads and writes outside of it have no result.

* C68: DserveProofs. Decoding in place is related to a plain reading of the text; the
  percent-encoding of the round trip is a relation of its own.
* C69: the rule is stated by list membership only; levels and growth follow from it.
* C70: DservePrintModel is the output buffer (bytes never written are -1, a freed buffer
  is marked) and the printing of values, records and answers. DservePrintProofs has one
  invariant: bufptr is inside a buffer of at least 1000 bytes, and what lies before
  bufptr is the text printed so far.
* C71: DserveConfModel reads the configuration file. A file of rows is a list of a type of
  its own; one lemma per kind of row shows that only this row is changed and the values
  found so far stay. Memory safety needs no form of the rows: the last newline is the
  stop of every loop.
* C72: DserveOpsModel has the loop over the parameters, the reading of ids and the three
  loops over records of `search`. Lists of records stand for the scan and for the query;
  the ids are looked up in a memory that is undefined outside of the segment.
* C73: the same file gives `search`, `insert`, `create` and `drop` as lists of events, for
  any outcome of the calls they make. The claims are about the order and number of events.
* C75: DserveNetModel handles one connection in a thread with any earlier state. The buffer
  holds only bytes written before; a freed query has no text. One lemma each for the words
  of the line, the question mark and the header lines.
* C76: the queue and the threads are a step machine; each step holds the mutex. The invariant
  says which slots wait, and that waiting threads leave enough awake ones for the queue.
* C78: DserveDispModel is the choice of database and operation in `process_query`. The values
  given for a name are a filter of the list of parameters; parse_query is C68.
* C77: DserveIoModel has readn and writen over a list of what recv and send do. The claims
  are about the concatenated data.

Simplifications: `malloc` of the file buffer and opening the file succeed; `isspace` is
taken for bytes as unsigned; the texts of doubles, dates and times are parameters; the heap of
records is any function from encodings to fields; doubles in queries are opaque. For C75 and
C76 there is no OpenSSL and no shutdown, `accept` works, and one signal wakes one thread
(others may wake on their own).

Disagreements found:

* `urldecode` adds 32 to a lower-case digit in place of taking 32 away, so `%2f` is
  decoded as `v` (C68_lowercase_refuted).
* A query of exactly 2000 characters is copied with its final 0 behind `querybuf`
  (C68_copy_refuted).
* An empty value is the number 0, numbers above 2^31 - 1 overflow (C68_value_refuted).
* An address in the configuration admits all addresses that start with it. This is
  documented in `conf_example.txt`; still no single address can be configured, as
  127.0.0.1 admits 127.0.0.12 (C69_address_refuted).
* Tokens for readers alone keep nobody out; `conf_example.txt` says so too
  (C69_readers_refuted).
* `str_guarantee_space` does not count the bytes in use when it computes the new size; a long
  string of escapes overflows the buffer (C70_overflow_refuted).
* The language of a string is written over the escaped text (C70_language_refuted); quotes in
  URIs and chars are not escaped (C70_quote_refuted); ints are cut to 32 bits (C70_int_refuted).
* A long name for jsonp cuts the answer (C70_jsonp_refuted); an empty csv result sends bytes
  never written (C70_empty_refuted).
* `depth` is never counted up, so a cyclic record is followed without end when the limit is
  above the start value (C70_depth_refuted).
* A failing `realloc` leads to a double free (C70_realloc_refuted).
* Percent-encoded output has lower-case digits, which `urldecode` reads wrongly
  (C70_reread_refuted).

* A configuration file of 512000 bytes or more is parsed in a freed buffer, since the loop
  ends after ten rounds (C71_large_refuted).
* Blanks at the end of the file without a newline make the next byte of the buffer, never
  written, a value of the last key, for example an admin token (C71_newline_refuted); with
  999 bytes a 0 is written behind the buffer (C71_blanks_refuted).
* `setup_globals` sets max_dbase_size.size twice and .used never, and neither field of
  key_file and cert_file (C71_start_refuted).
* A full scan that deletes counts records before `from` as well and deletes them
  (C72_delete_refuted); count=0 with fields handles one record (C72_zero_refuted); `from`
  has no effect on ids.
* An id from a request is not checked to be in the segment (C72_wild_refuted).
* The index for the parameter fld is not initialised (C72_fld_refuted).
* Update and delete take the read lock only (C73_readlock_refuted). Update ignores the
  request and sets field 0 to 0.
* An insertion that created its database, and a drop that fails, keep the write lock
  (C73_keep_refuted, C73_drop_refuted); a shutdown or a failing allocation leaves the database
  attached (C73_attached_refuted).
* Insert answers success but writes no record; its parser is commented out
  (C73_insert_refuted).
* `handle_http` keeps `uri`, `version` and `query` from one connection of a thread to the next:
  a request without query runs an old place of the buffer, or freed memory, as its query
  (C75_stale_refuted). The result of reading the line is ignored (C75_empty_refuted).
* The data of a POST is not ended with 0 (C75_post_refuted). `setup_globals` leaves
  `tdata->inbuf` of the threads unset, and it is freed when it is not NULL.
* A connection that finds the queue full is forgotten without being closed
  (C76_full_refuted).
* The result of sending the header is ignored (C77_answer_refuted); with OpenSSL a count of 0
  from SSL_write is retried without end (C77_ssl_refuted).
* `db=7;x` passes for a numeric name (C78_db_refuted).
* `incomp=='\0'` compares a pointer, so `compare=` with an empty value is an error.

Missing for C70: values above 150 bytes that do fit; the text of nested records.

### Command line tool wgdb (C82)

C82: WgdbArgModel is the reading of sizes, modes, flags and conditions, and `selectdata`
(Main/wgdb.c), with strtol modelled for bases up to ten. Reading one column, condition and value is
a parameter of the model of `make_arglist`. Findings: see C82_size_refuted, C82_mode_refuted,
C82_query_refuted, C82_cond_refuted and C82_select_refuted. `parse_memmode` tests errno without
setting it to 0 first. Built without CHECK, `wgdb del 1 =` deletes all records. Missing: the choice
of the command in `main`.

## Mutation tests

`seeded/LOG.jsonl` has one line per wrong program tried: the definition edited,
the edit, the claim it breaks, the theorems that failed to build, and theorems
tightened because of it.
