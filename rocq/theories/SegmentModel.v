(** One database segment with all its areas (Db/dballoc.c l.99-454): creation,
    allocation and release in any area, hash arrays. The areas share the memory
    and the border [dbh->free]; each keeps its own header. Configuration: 64-bit
    words, USE_INDEX_TEMPLATE, no USE_RECPTR_BITMAP, no USE_REASONER. *)
From Coq Require Import ZArith List Bool.
From Verif Require Import Base FixAllocModel VarAllocModel.
Import ListNotations.
Open Scope Z_scope.

(** Db/dballoc.h l.316-323 [db_area_header]: a fixed-length area (objlength,
    freelist, subareas) or a variable-length area (offset of its buckets in the
    header of the segment, buckets, subareas). *)
Inductive area :=
| AFix (len freelist : Z) (subs : list subarea)
| AVar (hdr : Z) (b : Z -> Z) (subs : list subarea).
(** Db/dballoc.h l.350-356 [db_hash_area_header]: size, offset, arraystart, arraylength. *)
Record htab := HT { ht_size : Z; ht_offset : Z; ht_start : Z; ht_len : Z }.
(** Db/dballoc.h l.464-505 [db_memsegment_header]: the memory, free, size, the ten
    areas in the order of creation, the hash arrays (that of the strings is the
    last of the list, those of hash indexes come before it), and the chunk of the
    lock queue (0 if there is none). *)
Record seg := SG { g_mem : mem; g_free : Z; g_size : Z; g_areas : list area; g_hash : list htab; g_locks : Z }.

(** The areas as created by Db/dballoc.c l.129-211. *)
Definition DATAREC := 0%nat.
(** Db/dballoc.c l.129-211. *)
Definition LONGSTR := 1%nat.
(** Db/dballoc.c l.129-211. *)
Definition LISTCELL := 2%nat.
(** Db/dballoc.c l.129-211. *)
Definition SHORTSTR := 3%nat.
(** Db/dballoc.c l.129-211. *)
Definition WORD := 4%nat.
(** Db/dballoc.c l.129-211. *)
Definition DOUBLEWORD := 5%nat.
(** Db/dballoc.c l.129-211. *)
Definition TNODE := 6%nat.
(** Db/dballoc.c l.129-211. *)
Definition INDEXHDR := 7%nat.
(** Db/dballoc.c l.129-211. *)
Definition INDEXTMPL := 8%nat.
(** Db/dballoc.c l.129-211. *)
Definition INDEXHASH := 9%nat.

(** Replacing one area of the header (Db/dballoc.h l.479-484). *)
Fixpoint put {A} (k : nat) (a : A) (l : list A) : list A :=
  match l, k with
  | [], _ => []
  | _ :: r, O => a :: r
  | x :: r, S k' => x :: put k' a r
  end.

(** wg_alloc_fixlen_object (Db/dballoc.c l.725-748) or wg_alloc_gints (l.873-1000)
    on the header of area [k]; [None]: undefined behaviour or no such area. *)
Definition seg_alloc (s : seg) (k : nat) (nr : Z) : option (seg * Z) :=
  match nth_error (g_areas s) k with
  | None => None
  | Some (AFix len fl subs) =>
      let '(t, r) := wg_alloc_fixlen_object (FS (g_mem s) (g_free s) (g_size s) len fl subs) in
      Some (SG (fs_mem t) (fs_free t) (fs_size t) (put k (AFix (fs_objlen t) (fs_freelist t) (fs_subs t)) (g_areas s)) (g_hash s) (g_locks s), r)
  | Some (AVar hdr b subs) =>
      match wg_alloc_gints (VS (g_mem s) b hdr (g_free s) (g_size s) subs) nr with
      | VUndef => None
      | VOk t r => Some (SG (vm t) (vfree t) (vsize t) (put k (AVar (vhdr t) (vb t) (vsubs t)) (g_areas s)) (g_hash s) (g_locks s), r)
      end
  end.
(** wg_free_fixlen_object (Db/dballoc.c l.858-861) or wg_free_object (l.1174-1374). *)
Definition seg_free (s : seg) (k : nat) (o : Z) : option seg :=
  match nth_error (g_areas s) k with
  | None => None
  | Some (AFix len fl subs) =>
      let t := wg_free_fixlen_object (FS (g_mem s) (g_free s) (g_size s) len fl subs) o in
      Some (SG (fs_mem t) (fs_free t) (fs_size t) (put k (AFix (fs_objlen t) (fs_freelist t) (fs_subs t)) (g_areas s)) (g_hash s) (g_locks s))
  | Some (AVar hdr b subs) =>
      match wg_free_object (VS (g_mem s) b hdr (g_free s) (g_size s) subs) o with
      | VUndef => None
      | VOk t _ => Some (SG (vm t) (vfree t) (vsize t) (put k (AVar (vhdr t) (vb t) (vsubs t)) (g_areas s)) (g_hash s) (g_locks s))
      end
  end.

(** Db/dballoc.c l.451: the loop that clears a hash array. *)
Fixpoint clear (n : nat) (m : mem) (i : Z) : mem :=
  match n with O => m | S n' => clear n' (upd m i 0) (i + 8) end.
(** Db/dballoc.c l.430-454 [init_hash_subarea]; [None] is the return -2. *)
Definition init_hash_subarea (s : seg) (arraylength : Z) : option seg :=
  let asize := (arraylength + 1) * 8 + 2 * SUBAREA_ALIGNMENT_BYTES in
  let '(chunk, free') := alloc_db_segmentchunk (g_free s) (g_size s) asize in
  if chunk =? 0 then None
  else
    let start := chunk + align_fill chunk in
    Some (SG (clear (Z.to_nat arraylength) (g_mem s) start) free' (g_size s) (g_areas s) (HT asize chunk start arraylength :: g_hash s) (g_locks s)).
(** Db/dballoc.h l.169 and Db/dballoc.c l.1438-1445 [wg_create_hash]. *)
Definition DEFAULT_IDXHASH_LENGTH := 10000.
(** Db/dballoc.h l.169, Db/dballoc.c l.1438-1445. *)
Definition wg_create_hash (s : seg) (size : Z) : option seg :=
  init_hash_subarea s (if size <=? 0 then DEFAULT_IDXHASH_LENGTH else size).

(** One fixed-length area of Db/dballoc.c l.145-202, e.g. l.146-151. *)
Definition add_fix (len : Z) (s : seg) : option seg :=
  match init_fix_area (g_mem s) (g_free s) (g_size s) len with
  | None => None
  | Some t => Some (SG (fs_mem t) (fs_free t) (fs_size t) (g_areas s ++ [AFix (fs_objlen t) (fs_freelist t) (fs_subs t)]) (g_hash s) (g_locks s))
  end.
(** One variable-length area, e.g. Db/dballoc.c l.130-136. *)
Definition add_var (hdr : Z) (s : seg) : option seg :=
  match init_var_area (g_mem s) hdr (g_free s) (g_size s) with
  | None => None
  | Some t => Some (SG (vm t) (vfree t) (vsize t) (g_areas s ++ [AVar (vhdr t) (vb t) (vsubs t)]) (g_hash s) (g_locks s))
  end.
(** Db/dballoc.h l.153-156 and Db/dballoc.c l.338-362 [init_syn_vars]: with
    LOCK_PROTO 3 the queue gets a chunk, otherwise the lock words are in the header. *)
Definition SYN_VAR_PADDING := 128.
(** Db/dballoc.h l.153-156, Db/dballoc.c l.338-362. *)
Definition MAX_LOCKS := 64.
(** Db/dballoc.h l.153-156, Db/dballoc.c l.338-362. *)
Definition init_syn_vars (proto3 : bool) (s : seg) : option seg :=
  if proto3 then
    let '(i, free') := alloc_db_segmentchunk (g_free s) (g_size s) (SYN_VAR_PADDING * (MAX_LOCKS + 2)) in
    if i =? 0 then None else Some (SG (g_mem s) free' (g_size s) (g_areas s) (g_hash s) i)
  else Some s.

(** Db/dballoc.h l.464-505: sizeof(db_memsegment_header). 48 bytes, six areas of
    4400 bytes (l.316-323), 40 (strhash), 2072 (index control), four areas, 24
    (logging), 16 (bitmap), 400 or 40 (locks), 328 (external databases). *)
Definition AREA_HEADER := 4400.
(** Db/dballoc.h l.464-505, l.316-323. *)
Definition HEADER (proto3 : bool) : Z :=
  48 + 6 * AREA_HEADER + 40 + 2072 + 4 * AREA_HEADER + 24 + 16 + (if proto3 then 40 else 400) + 328.
(** Offset of freebuckets in an area header: 32 bytes and 64 subarea headers (Db/dballoc.h l.316-323). *)
Definition BUCKETS := 32 + 64 * 32.
(** The chain of [if (tmp) return -1] of Db/dballoc.c l.131-217. *)
Definition obind {A B} (o : option A) (f : A -> option B) : option B := match o with None => None | Some a => f a end.
(** Db/dballoc.c l.99-256 [wg_init_db_memsegment]; [slen] is the number of
    elements of the string hash array that l.415-424 computes from the size. *)
Definition wg_init_db_memsegment (proto3 : bool) (m : mem) (size slen : Z) : option seg :=
  let free := HEADER proto3 + align_fill (HEADER proto3) in
  obind (add_var (48 + BUCKETS) (SG m free size [] [] 0)) (fun s =>
  obind (add_var (48 + AREA_HEADER + BUCKETS) s) (fun s =>
  obind (add_fix 16 s) (fun s =>
  obind (add_fix 32 s) (fun s =>
  obind (add_fix 8 s) (fun s =>
  obind (add_fix 16 s) (fun s =>
  obind (add_fix 128 s) (fun s =>
  obind (add_fix 144 s) (fun s =>
  obind (add_fix 24 s) (fun s =>
  obind (add_var (48 + 9 * AREA_HEADER + 40 + 2072 + BUCKETS) s) (fun s =>
  obind (init_hash_subarea s slen) (init_syn_vars proto3))))))))))).

(** Db/dballoc.c l.1454-1458 [wg_database_freesize]. *)
Definition wg_database_freesize (s : seg) : Z :=
  let freesize := g_size s - g_free s in
  if freesize <? MINIMAL_SUBAREA_SIZE then 0 else freesize.

(** Db/dballoc.c l.106-113 and l.125: offset and length of the header fields that
    wg_init_db_memsegment stores before anything is checked (Db/dballoc.h l.469-477). *)
Definition header_writes : list (Z * Z) := [(0, 4); (4, 4); (8, 4); (12, 4); (16, 8); (32, 8); (40, 8); (24, 8)].
(** Db/dballoc.c l.352-354: the lock of the queue and its nodes in the chunk [i]. *)
Definition queue_lock (i : Z) : Z := Z.land (i + SYN_VAR_PADDING - 1) (- SYN_VAR_PADDING).
(** Db/dballoc.c l.352-354. *)
Definition queue_storage (i : Z) : Z := queue_lock i + SYN_VAR_PADDING.
