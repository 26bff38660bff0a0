(** Fixed-length cell areas (Db/dballoc.c): segment chunks, subareas, free
    lists. One area is modelled together with the segment it lives in; what
    the other areas do to the segment is covered by the environment steps of
    FixAllocSpec. *)
From Coq Require Import ZArith List Bool.
From Verif Require Import Base.
Import ListNotations.
Open Scope Z_scope.

(** Db/dballoc.h l.149-152, l.163. *)
Definition SUBAREA_ARRAY_SIZE := 64.
(** Db/dballoc.h l.149-152, l.163. *)
Definition INITIAL_SUBAREA_SIZE := 8192.
(** Db/dballoc.h l.149-152, l.163. *)
Definition MINIMAL_SUBAREA_SIZE := 8192.
(** Db/dballoc.h l.149-152, l.163. *)
Definition SUBAREA_ALIGNMENT_BYTES := 8.
(** Db/dballoc.h l.149-152, l.163. *)
Definition MIN_VARLENOBJ_SIZE := 32.

(** Db/dballoc.h l.304-309: subarea header. *)
Record subarea := Sub { sa_size : Z; sa_offset : Z; sa_asize : Z; sa_aoffset : Z }.

(** The parts of Db/dballoc.h l.316-323 (area header; [subarea_array] is kept
    as a list with the last used subarea first) and of the segment header
    (Db/dballoc.h, [db_memsegment_header]: size, free) that matter, plus the
    memory of the segment. *)
Record fstate := FS {
  fs_mem : mem;
  fs_free : Z;          (* dbh->free *)
  fs_size : Z;          (* dbh->size *)
  fs_objlen : Z;        (* areah->objlength *)
  fs_freelist : Z;      (* areah->freelist *)
  fs_subs : list subarea }.

(** Alignment filler used in several places, e.g. Db/dballoc.c l.320-321. *)
Definition align_fill (x : Z) : Z :=
  let i := SUBAREA_ALIGNMENT_BYTES - Z.rem x SUBAREA_ALIGNMENT_BYTES in
  if i =? SUBAREA_ALIGNMENT_BYTES then 0 else i.

(** Db/dballoc.c l.305-329 [alloc_db_segmentchunk]: (offset or 0, new free).
    Simplified: adding the filler (at most 7) is not wrapped. *)
Definition alloc_db_segmentchunk (free size req : Z) : Z * Z :=
  let lastfree := free in
  let nextfree := wrap64 (lastfree + req) in
  if nextfree <? 0 then (0, free)
  else
    let nextfree := nextfree + align_fill nextfree in
    if nextfree >=? size then (0, free) else (lastfree, nextfree).

(** Db/dballoc.c l.269-295 [init_db_subarea]; [None] is a non-zero return. *)
Definition init_db_subarea (s : fstate) (size : Z) : option fstate :=
  if size <? MINIMAL_SUBAREA_SIZE then None
  else
    let '(chunk, free') := alloc_db_segmentchunk (fs_free s) (fs_size s) size in
    if chunk =? 0 then None
    else
      let i := align_fill chunk in
      let asize := size - i in
      let asz := asize - Z.rem asize MIN_VARLENOBJ_SIZE in
      Some (FS (fs_mem s) free' (fs_size s) (fs_objlen s) 0
               (Sub size chunk asz (chunk + i) :: fs_subs s)).

(** The loop of Db/dballoc.c l.583-588; [n] bounds the number of rounds. *)
Fixpoint fill_freelist (n : nat) (m : mem) (i max len : Z) : mem :=
  match n with
  | O => m
  | S n' =>
      if i <=? max then fill_freelist n' (upd m i (i + len)) (i + len) max len
      else upd m i 0
  end.

(** Db/dballoc.c l.569-592 [make_subarea_freelist] for the newest subarea.
    The round bound is the subarea size, more than the loop can use. *)
Definition make_subarea_freelist (s : fstate) : fstate :=
  match fs_subs s with
  | [] => s
  | sub :: _ =>
      let size := sa_asize sub in
      let offset := sa_aoffset sub in
      let max := (offset + size) - 2 * fs_objlen s in
      FS (fill_freelist (S (Z.to_nat size)) (fs_mem s) offset max (fs_objlen s))
         (fs_free s) (fs_size s) (fs_objlen s) offset (fs_subs s)
  end.

(** The retry loop of Db/dballoc.c l.776-783; [newsize] is halved, so 64
    rounds are more than a 64-bit value allows. *)
Fixpoint extend_try (n : nat) (s : fstate) (newsize : Z) : option fstate :=
  match n with
  | O => None
  | S n' =>
      if newsize >=? MINIMAL_SUBAREA_SIZE then
        match init_db_subarea s newsize with
        | Some s' => Some s'
        | None => extend_try n' s (Z.shiftr newsize 1)
        end
      else None
  end.

(** Db/dballoc.c l.757-791 [extend_fixedlen_area]; [None] is a 0 return. *)
Definition extend_fixedlen_area (s : fstate) : option fstate :=
  match fs_subs s with
  | [] => None
  | last :: _ =>
      let i := Z.of_nat (length (fs_subs s)) - 1 in
      if i + 1 >=? SUBAREA_ARRAY_SIZE then None
      else
        match extend_try 64 s (wrap64 (Z.shiftl (sa_size last) 1)) with
        | Some s' => Some (make_subarea_freelist s')
        | None => None
        end
  end.

(** Db/dballoc.c l.725-748 [wg_alloc_fixlen_object]: (new state, offset or 0). *)
Definition wg_alloc_fixlen_object (s : fstate) : fstate * Z :=
  let take s :=
    (FS (fs_mem s) (fs_free s) (fs_size s) (fs_objlen s)
        (fs_mem s (fs_freelist s)) (fs_subs s), fs_freelist s) in
  if fs_freelist s =? 0 then
    match extend_fixedlen_area s with
    | None => (s, 0)
    | Some s' => if fs_freelist s' =? 0 then (s', 0) else take s'
    end
  else take s.

(** Db/dballoc.c l.858-861 [wg_free_fixlen_object]; [wg_free_word],
    [wg_free_doubleword], [wg_free_shortstr], [wg_free_listcell] and
    [wg_free_tnode] (l.800-850) do the same on their areas. *)
Definition wg_free_fixlen_object (s : fstate) (o : Z) : fstate :=
  FS (upd (fs_mem s) o (fs_freelist s)) (fs_free s) (fs_size s) (fs_objlen s) o (fs_subs s).

(** Start of a database segment of [size] bytes with [free] bytes already taken
    by the header and earlier areas, then creation of the area
    (Db/dballoc.c l.147-152 and the same lines for the other areas). *)
Definition init_fix_area (m : mem) (free size objlen : Z) : option fstate :=
  match init_db_subarea (FS m free size objlen 0 []) INITIAL_SUBAREA_SIZE with
  | None => None
  | Some s => Some (make_subarea_freelist s)
  end.
