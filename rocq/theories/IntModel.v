(** Integers as field values, over the word cell area. *)
From Coq Require Import ZArith List Bool.
From Verif Require Import Base EncodingModel FixAllocModel FixAllocSpec.
Import ListNotations.
Open Scope Z_scope.

(** Db/dbdata.c l.1465-1504 [wg_encode_int] without journal logging: the
    segment and the word area are [fstate] with 8-byte cells. *)
Definition wg_encode_int (s : fstate) (data : Z) : fstate * Z :=
  if fits_smallint data then (s, encode_smallint data)
  else
    let '(s', offset) := wg_alloc_fixlen_object s in
    if offset =? 0 then (s', WG_ILLEGAL)
    else (FS (upd (fs_mem s') offset data) (fs_free s') (fs_size s') (fs_objlen s')
             (fs_freelist s') (fs_subs s'), encode_fullint_offset offset).

(** Db/dbdata.c l.1506-1517 [wg_decode_int]. *)
Definition wg_decode_int (m : mem) (data : Z) : Z :=
  if issmallint data then decode_smallint data
  else if isfullint data then m (decode_fullint_offset data)
  else 0.

(** Db/dbdata.c l.1186-1214 [wg_free_encoded] and l.1228-1336
    [free_field_encoffset], integer cases only. *)
Definition wg_free_encoded_int (s : fstate) (data : Z) : fstate :=
  if isptr data then
    if (Z.land data 7 =? 1) || (Z.land data 7 =? 5)
    then wg_free_fixlen_object s (decode_fullint_offset data) else s
  else s.

(** Histories of integer encodings: [hs] lists the handles obtained and not
    freed, with the integer that was encoded. Other activity writes outside
    the word area and takes segment chunks (Db/dbdata.c l.1186-1517). *)
Inductive istep : fstate * list (Z * Z) -> fstate * list (Z * Z) -> Prop :=
| IEnc s hs v s' e :
    is64 v -> wg_encode_int s v = (s', e) ->
    istep (s, hs) (s', if e =? WG_ILLEGAL then hs else (e, v) :: hs)
| IFree s h1 e v h2 :
    istep (s, h1 ++ (e, v) :: h2) (wg_free_encoded_int s e, h1 ++ h2)
| IWrite s hs a v :
    ~ in_area s a ->
    istep (s, hs) (FS (upd (fs_mem s) a v) (fs_free s) (fs_size s) (fs_objlen s)
                      (fs_freelist s) (fs_subs s), hs)
| IChunk s hs req c free' :
    0 <= req < 2 ^ 63 ->
    alloc_db_segmentchunk (fs_free s) (fs_size s) req = (c, free') ->
    istep (s, hs) (FS (fs_mem s) free' (fs_size s) (fs_objlen s) (fs_freelist s) (fs_subs s), hs).

(** Histories from wg_init on (Db/dballoc.c l.107-246, Db/dbdata.c l.1186-1517). *)
Inductive ireach (hdr size : Z) : fstate * list (Z * Z) -> Prop :=
| IInit m s : init_fix_area m hdr size 8 = Some s -> ireach hdr size (s, [])
| IStep c c' : ireach hdr size c -> istep c c' -> ireach hdr size c'.
