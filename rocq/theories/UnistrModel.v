(** Bytes of strings: creation, query parameters, decoding, copies (Db/dbdata.c,
    Db/dbquery.c). Memory is the word memory of the segment; offsets of query
    parameters lie outside the segment. *)
From Coq Require Import ZArith List Bool.
From Verif Require Import Base EncodingModel CompareModel.
Import ListNotations.
Open Scope Z_scope.

(** A byte of the memory (little endian, Db/dballoc.h l.195-198). *)
Definition byte (m : mem) (a : Z) : Z := byte_at (CSt m 0) a.
(** Storing one char: [*dptr = c] (Db/dbdata.c l.2494, Db/dbquery.c l.1233). *)
Definition setbyte (m : mem) (a c : Z) : mem :=
  let w := 8 * (a / 8) in
  upd m w (wrap64 (u64 (m w) + (c mod 256 - byte m a) * 2 ^ (8 * (a mod 8)))).
(** memcpy of [l] to [a] (Db/dbdata.c l.2631, Db/dbquery.c l.1233, l.1268, l.1279). *)
Fixpoint memcpy (m : mem) (a : Z) (l : list Z) : mem :=
  match l with [] => m | c :: r => memcpy (setbyte m a c) (a + 1) r end.

(** Db/dballoc.h l.165; Db/dbdata.h l.614-629. *)
Definition SHORTSTR_SIZE := 32.
(** Db/dballoc.h l.165, Db/dbdata.h l.614-629. *)
Definition LONGSTR_REFCOUNT_POS := 2.
(** Db/dballoc.h l.165, Db/dbdata.h l.614-629. *)
Definition LONGSTR_BACKLINKS_POS := 3.
(** Db/dballoc.h l.165, Db/dbdata.h l.614-629. *)
Definition LONGSTR_HASHCHAIN_POS := 4.
(** Db/dballoc.h l.165, Db/dbdata.h l.614-629. *)
Definition LONGSTR_META_LENDIFMASK := 0xFF00.
(** Db/dballoc.h l.165, Db/dbdata.h l.614-629. *)
Definition LONGSTR_META_LENDIFSHFT := 8.

(** Db/dbdata.c l.2533-2540: a short string into its cell of 32 bytes. *)
Definition store_shortstr (m : mem) (off : Z) (str : list Z) : mem :=
  let m := memcpy m off (str ++ [0]) in
  memcpy m (off + Z.of_nat (length str) + 1) (repeat 0 (Z.to_nat (SHORTSTR_SIZE - Z.of_nat (length str) - 1))).

(** Db/dbdata.c l.2619-2622: words asked for to store [length] bytes. *)
Definition longstr_gints (length : Z) : Z :=
  length / 8 + (if length mod 8 =? 0 then 0 else 1) + LONGSTR_HEADER_GINTS.
(** Db/dbdata.c l.2629-2636: the contents and zeroes up to the next word. *)
Definition fill_longstr (m : mem) (off : Z) (data : list Z) : mem :=
  let n := Z.of_nat (length data) in
  let lenrest := n mod 8 in
  let m := memcpy m (off + LONGSTR_HEADER_GINTS * 8) data in
  memcpy m (off + n + LONGSTR_HEADER_GINTS * 8) (repeat 0 (Z.to_nat (if lenrest =? 0 then 0 else 8 - lenrest))).
(** Db/dbdata.c l.2629-2670: [find_create_longstr] once the object at [off] is
    allocated; [ext] encodes the extra string (wg_encode_str), [harr] is the element
    of the string hash array with content [hasharrel]. *)
Definition create_longstr (m : mem) (off : Z) (data : list Z) (type : Z) (ext : option (mem -> mem * Z)) (harr : Z) : mem * Z :=
  let hasharrel := m harr in
  let m := fill_longstr m off data in
  let '(m, tmp) := match ext with Some f => f m | None => (m, 0) end in
  let m := upd m (off + LONGSTR_EXTRASTR_POS * 8) tmp in
  let m := if islongstr tmp then let r := decode_longstr_offset tmp + LONGSTR_REFCOUNT_POS * 8 in upd m r (m r + 1) else m in
  let meta := Z.lor (shl64 (getusedobjectsize (m off) - Z.of_nat (length data)) LONGSTR_META_LENDIFSHFT) type in
  let m := upd m (off + LONGSTR_META_POS * 8) meta in
  let m := upd m (off + LONGSTR_REFCOUNT_POS * 8) 0 in
  let m := upd m (off + LONGSTR_BACKLINKS_POS * 8) 0 in
  let res := encode_longstr_offset off in
  let m := upd m harr res in
  (upd m (off + LONGSTR_HASHCHAIN_POS * 8) hasharrel, res).

(** ** Query parameters *)
(** A parameter: memory afterwards, encoded value, block taken with malloc (address
    relative to the database and size), if any (Db/dbquery.c l.1161-1290). *)
Record param := Param { pr_mem : mem; pr_enc : Z; pr_block : option (Z * Z) }.

(** Db/dbquery.c l.1161-1175 [wg_encode_query_param_int]; [dptr] is the block. *)
Definition wg_encode_query_param_int (m : mem) (dptr data : Z) : param :=
  if fits_smallint data then Param m (encode_smallint data) None
  else Param (upd m dptr data) (encode_fullint_offset dptr) (Some (dptr, 8)).
(** Db/dbquery.c l.1177-1187 [wg_encode_query_param_double], [bits] of the double. *)
Definition wg_encode_query_param_double (m : mem) (dptr bits : Z) : param :=
  Param (upd m dptr (wrap64 bits)) (encode_fulldouble_offset dptr) (Some (dptr, 16)).

(** Db/dbquery.c l.1223-1298 [encode_query_param_unistr]; [data] is a C string
    without its 0, [length] the C int; [None] when the number of bytes to copy is
    negative (malloc fails or the copy is undefined). C ints wrap. *)
Definition encode_query_param_unistr (m : mem) (dptr : Z) (data : list Z) (type : Z) (extdata : option (list Z)) (length : Z) : option param :=
  let plain := match extdata with None => type =? WG_STRTYPE | Some _ => false end in
  if plain then
    if length <? 0 then None
    else
      let m := memcpy m dptr (firstn (Z.to_nat length) (data ++ [0])) in
      Some (Param (setbyte m (dptr + length) 0) (encode_shortstr_offset dptr) (Some (dptr, wrap32 (length + 1))))
  else
    let length := if type =? WG_BLOBTYPE then length else wrap32 (length + 1) in
    if length <? 0 then None
    else
      let lenrest := length mod 8 in
      let lengints := length / 8 + (if lenrest =? 0 then 0 else 1) in
      let dlen := wrap32 (8 * (LONGSTR_HEADER_GINTS + lengints)) in
      let dlen := if dlen <? MIN_VARLENOBJ_SIZE then MIN_VARLENOBJ_SIZE else dlen in
      let dlen := if dlen mod 8 =? 0 then dlen else dlen + 4 in
      let extlen := match extdata with Some e => wrap32 (Z.of_nat (List.length e)) | None => 0 end in
      let size := wrap32 (dlen + match extdata with Some _ => extlen + 1 | None => 0 end) in
      let offset := dptr in
      let m := memcpy m (dptr + LONGSTR_HEADER_GINTS * 8) (firstn (Z.to_nat length) (data ++ [0])) in
      let m := memcpy m (dptr + length + LONGSTR_HEADER_GINTS * 8) (repeat 0 (Z.to_nat (if lenrest =? 0 then 0 else 8 - lenrest))) in
      let m :=
        match extdata with
        | Some e =>
            let extptr := dptr + dlen in
            let m := memcpy m extptr (firstn (Z.to_nat extlen) e) in
            let m := setbyte m (extptr + extlen) 0 in
            upd m (offset + LONGSTR_EXTRASTR_POS * 8) (encode_shortstr_offset extptr)
        | None => upd m (offset + LONGSTR_EXTRASTR_POS * 8) 0
        end in
      let m := upd m offset dlen in
      let meta := Z.lor (wrap32 (Z.shiftl (dlen - length) LONGSTR_META_LENDIFSHFT)) type in
      let m := upd m (offset + LONGSTR_META_POS * 8) meta in
      let m := upd m (offset + LONGSTR_REFCOUNT_POS * 8) 0 in
      let m := upd m (offset + LONGSTR_BACKLINKS_POS * 8) 0 in
      let m := upd m (offset + LONGSTR_HASHCHAIN_POS * 8) 0 in
      Some (Param m (encode_longstr_offset offset) (Some (dptr, size))).
(** Db/dbquery.c l.1189-1214: [wg_encode_query_param_str], [..._xmlliteral] and
    [..._uri]: strlen becomes an int. *)
Definition wg_encode_query_param_text (m : mem) (dptr : Z) (data : list Z) (type : Z) (extdata : option (list Z)) : option param :=
  encode_query_param_unistr m dptr data type extdata (wrap32 (Z.of_nat (length data))).

(** Db/dbquery.c l.1302-1338 [wg_free_query_param]: the address given to free, if any. *)
Definition wg_free_query_param (data : Z) : option Z :=
  if isptr data then
    let b := Z.land data 7 in
    if b =? 0 then None
    else if b =? 6 then Some (decode_shortstr_offset data)
    else if b =? 4 then Some (decode_longstr_offset data)
    else if b =? 2 then Some (decode_fulldouble_offset data)
    else if (b =? 1) || (b =? 5) then Some (decode_fullint_offset data)
    else None
  else None.
(** Db/dbquery.c l.2227-2233 [wg_find_record_int]: what is searched for; [data] is an int. *)
Definition find_record_int_param (m : mem) (dptr data : Z) : param := wg_encode_query_param_int m dptr (wrap32 data).

(** ** Lengths and copies *)
(** Db/dbdata.c l.2705-2729 [wg_decode_unistr_lang], all types; [None] is NULL. *)
Definition unistr_lang (s : cstate) (data type : Z) : option Z :=
  if (type =? WG_STRTYPE) && isshortstr data then None else wg_decode_unistr_lang s data.
(** Db/dbdata.c l.2737-2772 [wg_decode_unistr_len]. *)
Definition wg_decode_unistr_len (s : cstate) (data : Z) : Z :=
  if isshortstr data then Z.of_nat (length (cstring s (decode_shortstr_offset data)))
  else if islongstr data then wg_decode_blob_len s data - 1
  else 0.
(** Db/dbdata.c l.2807-2816: the loop over a short string; [i] counts from 1, [k] is
    SHORTSTR_SIZE minus [i]. *)
Fixpoint short_copy (k : nat) (m : mem) (src : Z) (buf : Z -> Z) (dst i buflen : Z) : (Z -> Z) * Z :=
  match k with
  | O => (upd buf dst 0, i - 1)
  | S k' =>
      if byte m src =? 0 then (upd buf dst 0, i - 1)
      else if buflen <=? i then (buf, -1)
      else short_copy k' m (src + 1) (upd buf dst (byte m src)) (dst + 1) (i + 1) buflen
  end.
(** memcpy of [n] bytes of the segment to the start of a buffer (Db/dbdata.c l.2831, l.2882). *)
Definition copy_out (m : mem) (src : Z) (buf : Z -> Z) (n : Z) : Z -> Z :=
  fun x => if (0 <=? x) && (x <? n) then byte m (src + x) else buf x.
(** Db/dbdata.c l.2778-2838 [wg_decode_unistr_copy]: buffer afterwards and result. *)
Definition wg_decode_unistr_copy (s : cstate) (data : Z) (buf : Z -> Z) (buflen type : Z) : (Z -> Z) * Z :=
  if (type =? WG_STRTYPE) && isshortstr data then short_copy 31 (words s) (decode_shortstr_offset data) buf 0 1 buflen
  else if islongstr data then
    let strsize := wg_decode_blob_len s data in
    if buflen <? strsize then (buf, -1)
    else (copy_out (words s) (decode_longstr_offset data + LONGSTR_HEADER_GINTS * 8) buf strsize, if type =? WG_BLOBTYPE then strsize else strsize - 1)
  else (buf, -1).
(** Db/dbdata.c l.2868-2884 [wg_decode_unistr_lang_copy]. *)
Definition wg_decode_unistr_lang_copy (s : cstate) (data : Z) (buf : Z -> Z) (buflen type : Z) : (Z -> Z) * Z :=
  match unistr_lang s data type with
  | None => (upd buf 0 0, 0)
  | Some p =>
      let len := Z.of_nat (length (cstring s p)) in
      if buflen <=? len then (buf, -1) else (copy_out (words s) p buf (len + 1), len)
  end.
(** Db/dbdata.c l.1937-1957 [wg_decode_str_copy] and the like for other types: the
    checks before the copy. *)
Definition checked_copy (copy : cstate -> Z -> (Z -> Z) -> Z -> Z -> (Z -> Z) * Z) (s : cstate) (data : Z) (buf : Z -> Z) (buflen type : Z) : (Z -> Z) * Z :=
  if data =? 0 then (buf, -1) else if buflen <? 1 then (buf, -1) else copy s data buf buflen type.
