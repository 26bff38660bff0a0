(** Model of the journal: what the operations write to it (Db/dblog.c l.1012-1174, called
    from Db/dbdata.c and Db/dbschema.c) and how it is replayed (Db/dblog.c l.400-681,
    l.870-935).

    The journal is the list of the bytes of the file. The database behind the journal is
    a parameter [prims]: the parts of the operations which change shared memory, in the
    order in which the code calls them between the writes to the journal. Writes to the
    file and memory allocation with malloc succeed. [None] is undefined behaviour. *)
From Coq Require Import ZArith List Bool.
From Verif Require Import Base EncodingModel VarintModel DhashModel GinthashModel.
Import ListNotations.
Open Scope Z_scope.

(** Db/dblog.h l.39, l.42-48. *)
Definition MAGIC : list Z := [119; 103; 100; 98].
(** Db/dblog.h l.39, l.42-48. *)
Definition ENTRY_ENC := 0.
(** Db/dblog.h l.39, l.42-48. *)
Definition ENTRY_CRE := 0x40.
(** Db/dblog.h l.39, l.42-48. *)
Definition ENTRY_DEL := 0x80.
(** Db/dblog.h l.39, l.42-48. *)
Definition ENTRY_SET := 0xc0.
(** Db/dblog.h l.39, l.42-48. *)
Definition ENTRY_META := 0x20.
(** Db/dblog.h l.39, l.42-48. *)
Definition CMDMASK := 0xe0.
(** Db/dblog.h l.39, l.42-48. *)
Definition TYPEMASK := 0x1f.
(** Db/dballoc.h l.165. *)
Definition SHORTSTR_SIZE := 32.
(** Db/dbdata.h l.264-268. *)
Definition META_NOTDATA := 0x1.
(** Db/dbdata.h l.264-268. *)
Definition META_MATCH := 0x2.
(** Db/dbdata.h l.264-268. *)
Definition META_DOC := 0x10.
(** Db/dbdata.h l.264-268. *)
Definition META_OBJECT := 0x20.
(** Db/dbdata.h l.264-268. *)
Definition META_ARRAY := 0x40.

(** The bytes of an object of [n] bytes in memory, little endian (the stores at
    Db/dblog.c l.1089, l.1097), and reading them back (l.540, l.546). *)
Fixpoint le (n : nat) (v : Z) : list Z :=
  match n with O => [] | S n => v mod 256 :: le n (v / 256) end.
(** Db/dblog.c l.1089, l.1097, l.540, l.546. *)
Fixpoint unle (l : list Z) : Z :=
  match l with [] => 0 | b :: l => b + 256 * unle l end.

(** Length of a string of bytes as a gint (Db/dblog.c l.570, l.585). *)
Definition zlen (s : list Z) : Z := Z.of_nat (length s).
(** The C string starting at a buffer ends before the first 0 byte (Db/dblog.c l.570,
    l.585; Db/dbdata.c l.2494). *)
Fixpoint cstr (s : list Z) : list Z :=
  match s with [] => [] | b :: s => if b =? 0 then [] else b :: cstr s end.

(** Db/dbdata.h l.311: fits_smallint applied to an [int]. *)
Definition fits_smallint_int (i : Z) : bool := Z.shiftr (shl32 i 3) 3 =? i.

(** Db/dblog.c l.1012-1023, l.1028-1039, l.1046-1055. *)
Definition wg_log_create_record (length : Z) : list Z := ENTRY_CRE :: log_gint length.
(** Db/dblog.c l.1012-1023, l.1028-1039, l.1046-1055. *)
Definition wg_log_delete_record (enc : Z) : list Z := ENTRY_DEL :: log_gint enc.
(** Db/dblog.c l.1012-1023, l.1028-1039, l.1046-1055. *)
Definition wg_log_encval (enc : Z) : list Z := log_gint enc.
(** Db/dblog.c l.1062-1137: wg_log_encode, the three kinds of data written. The integer is
    read through a pointer to [int] (l.1083, l.1089). *)
Definition wg_log_encode_int (data : Z) : list Z :=
  if fits_smallint_int (wrap32 data) then []
  else Z.lor ENTRY_ENC WG_INTTYPE :: le 4 (u32 data).
(** Db/dblog.c l.1062-1137, l.1083, l.1089. *)
Definition wg_log_encode_double (data : Z) : list Z :=
  Z.lor ENTRY_ENC WG_DOUBLETYPE :: le 8 (u64 data).
(** Db/dblog.c l.1062-1137, l.1083, l.1089. *)
Definition wg_log_encode_str (type : Z) (data extdata : list Z) : list Z :=
  Z.lor ENTRY_ENC type :: log_gint (zlen data) ++ log_gint (zlen extdata) ++ data ++ extdata.
(** Db/dblog.c l.1143-1156, l.1162-1174. *)
Definition wg_log_set_field (rec col data : Z) : list Z :=
  ENTRY_SET :: log_gint rec ++ log_gint col ++ log_gint data.
(** Db/dblog.c l.1143-1156, l.1162-1174. *)
Definition wg_log_set_meta (rec meta : Z) : list Z :=
  ENTRY_META :: log_gint rec ++ log_gint meta.

(** Db/dblog.c l.449-452: add_tran_offset; the result is the return code. *)
Definition add_tran_offset (t : gtable) (old new : Z) : option (gtable * Z) :=
  match wg_ginthash_addkey t old new with
  | GOk _ t => Some (t, 0)
  | GFail t => Some (t, -1)
  | GUb => None
  end.
(** Db/dblog.c l.457-484: add_tran_enc. *)
Definition add_tran_enc (t : gtable) (old new : Z) : option (gtable * Z) :=
  if isptr old then
    let b := Z.land old 7 in
    if b =? 4 then add_tran_offset t (decode_longstr_offset old) (decode_longstr_offset new)
    else if b =? 6 then add_tran_offset t (decode_shortstr_offset old) (decode_shortstr_offset new)
    else if b =? 2 then add_tran_offset t (decode_fulldouble_offset old) (decode_fulldouble_offset new)
    else if (b =? 1) || (b =? 5) then add_tran_offset t (decode_fullint_offset old) (decode_fullint_offset new)
    else Some (t, 0)
  else Some (t, 0).
(** Db/dblog.c l.489-496: translate_offset. *)
Definition translate_offset (t : gtable) (offset : Z) : Z :=
  match wg_ginthash_getkey t offset with None => offset | Some n => n end.
(** Db/dblog.c l.501-526: translate_encoded. *)
Definition translate_encoded (t : gtable) (enc : Z) : Z :=
  if isptr enc then
    let b := Z.land enc 7 in
    if b =? 0 then translate_offset t enc
    else if b =? 4 then encode_longstr_offset (translate_offset t (decode_longstr_offset enc))
    else if b =? 6 then encode_shortstr_offset (translate_offset t (decode_shortstr_offset enc))
    else if b =? 2 then encode_fulldouble_offset (translate_offset t (decode_fulldouble_offset enc))
    else if (b =? 1) || (b =? 5) then encode_fullint_offset (translate_offset t (decode_fullint_offset enc))
    else enc
  else enc.

(** Db/dblog.c l.566, l.580: fread of [n] bytes; [None] when there are fewer. *)
Definition read_bytes (n : Z) (f : list Z) : option (list Z * list Z) :=
  if n <=? zlen f then Some (firstn (Z.to_nat n) f, skipn (Z.to_nat n) f) else None.

(** The parts of the operations which use shared memory:
    - [p_alloc d length]: the new record with fields set to 0, or 0 (Db/dbdata.c l.165-183);
    - [p_add_rec d rec]: wg_index_add_rec (l.122, Db/dbschema.c l.117, l.152);
    - [p_parents d rec]: has the record referring records (Db/dbdata.c l.217-220);
    - [p_delete d rec]: the rest of wg_delete_record (l.230-288);
    - [p_check d rec field]: recordcheck passes (l.626-628, l.833-835);
    - [p_set d rec field data]: the rest of wg_set_field (l.638-800);
    - [p_set_new d rec field data]: the rest of wg_set_new_field (l.856-935);
    - [p_meta d rec meta]: writing the meta word (Db/dbschema.c l.115, l.150; Db/dblog.c l.674);
    - [p_int], [p_double]: allocating and filling a word or doubleword, or 0
      (Db/dbdata.c l.1485-1495, l.1570-1580);
    - [p_short d str]: a new short string (l.2520-2541), or 0;
    - [p_find d str lang type length]: the equal long string found in the hash table or 0,
      and the head of its chain (l.2604-2613);
    - [p_long d str length]: a new long string with its contents, or 0 (l.2619-2636);
    - [p_link d offset extra str lang type length chain]: storing the encoded extra string
      and counting the reference to it (l.2644-2651), the header and the hash chain
      (l.2653-2669);
    - [p_free d data]: wg_free_encoded of a pointer (l.1193-1213). *)
Record prims (D : Type) := {
  p_alloc : D -> Z -> option (D * Z);
  p_add_rec : D -> Z -> option (D * Z);
  p_parents : D -> Z -> option bool;
  p_delete : D -> Z -> option (D * Z);
  p_check : D -> Z -> Z -> option bool;
  p_set : D -> Z -> Z -> Z -> option (D * Z);
  p_set_new : D -> Z -> Z -> Z -> option (D * Z);
  p_meta : D -> Z -> Z -> option D;
  p_int : D -> Z -> option (D * Z);
  p_double : D -> Z -> option (D * Z);
  p_short : D -> list Z -> option (D * Z);
  p_find : D -> list Z -> option (list Z) -> Z -> Z -> option (Z * Z);
  p_long : D -> list Z -> Z -> option (D * Z);
  p_link : D -> Z -> Z -> list Z -> option (list Z) -> Z -> Z -> Z -> option D;
  p_free : D -> Z -> option (D * Z) }.
Arguments p_alloc {D}. Arguments p_add_rec {D}. Arguments p_parents {D}. Arguments p_delete {D}.
Arguments p_check {D}. Arguments p_set {D}. Arguments p_set_new {D}. Arguments p_meta {D}.
Arguments p_int {D}. Arguments p_double {D}. Arguments p_short {D}. Arguments p_find {D}. Arguments p_long {D}. Arguments p_link {D}. Arguments p_free {D}.

Section Journal.
Context {D : Type}.
Variable P : prims D.

(** The database and the journal file: [None] when logging is not active
    (Db/dballoc.h l.433, logging.active, tested before every call of the log functions). *)
Record st := ST { s_db : D; s_log : option (list Z) }.
(** Db/dballoc.h l.433. *)
Definition with_db (s : st) (d : D) : st := ST d (s_log s).
(** Db/dblog.c l.941-990: write_log_buffer when logging is active. *)
Definition logw (s : st) (b : list Z) : st :=
  ST (s_db s) (match s_log s with None => None | Some f => Some (f ++ b) end).

(** Db/dbdata.c l.141-193: wg_create_raw_record; returns the offset or 0. *)
Definition wg_create_raw_record (s : st) (length : Z) : option (st * Z) :=
  if length <? 0 then Some (s, 0)
  else
    let s := logw s (wg_log_create_record length) in
    match p_alloc P (s_db s) length with
    | None => None
    | Some (d, offset) =>
        let s := with_db s d in
        if offset =? 0 then Some (logw s (wg_log_encval 0), 0)
        else Some (logw s (wg_log_encval offset), offset)
    end.
(** Db/dbdata.c l.118-127: the call of wg_index_add_rec and its result (also
    Db/dbschema.c l.117, l.152). *)
Definition add_rec (s : st) (rec : Z) : option (st * Z) :=
  match p_add_rec P (s_db s) rec with
  | None => None
  | Some (d, c) => Some (with_db s d, if c <? -1 then 0 else rec)
  end.
(** Db/dbdata.c l.118-127: wg_create_record. *)
Definition wg_create_record (s : st) (length : Z) : option (st * Z) :=
  match wg_create_raw_record s length with
  | None => None
  | Some (s, rec) => if rec =? 0 then Some (s, 0) else add_rec s rec
  end.
(** Db/dbdata.c l.204-289: wg_delete_record. *)
Definition wg_delete_record (s : st) (rec : Z) : option (st * Z) :=
  match p_parents P (s_db s) rec with
  | None => None
  | Some true => Some (s, -1)
  | Some false =>
      let s := logw s (wg_log_delete_record rec) in
      match p_delete P (s_db s) rec with
      | None => None
      | Some (d, c) => Some (with_db s d, c)
      end
  end.
(** Db/dbdata.c l.613-801: wg_set_field. *)
Definition wg_set_field (s : st) (rec fieldnr data : Z) : option (st * Z) :=
  match p_check P (s_db s) rec fieldnr with
  | None => None
  | Some false => Some (s, -2)
  | Some true =>
      let s := logw s (wg_log_set_field rec fieldnr data) in
      match p_set P (s_db s) rec fieldnr data with
      | None => None
      | Some (d, c) => Some (with_db s d, c)
      end
  end.
(** Db/dbdata.c l.822-936: wg_set_new_field. *)
Definition wg_set_new_field (s : st) (rec fieldnr data : Z) : option (st * Z) :=
  match p_check P (s_db s) rec fieldnr with
  | None => None
  | Some false => Some (s, -2)
  | Some true =>
      let s := logw s (wg_log_set_field rec fieldnr data) in
      match p_set_new P (s_db s) rec fieldnr data with
      | None => None
      | Some (d, c) => Some (with_db s d, c)
      end
  end.
(** Db/dbschema.c l.97-123, l.132-158: wg_create_array and wg_create_object, which differ
    in the [kind] bit; the meta word of a new record is 0. *)
Definition create_document (kind : Z) (s : st) (size : Z) (isdocument isparam : bool) : option (st * Z) :=
  match wg_create_raw_record s size with
  | None => None
  | Some (s, rec) =>
      if rec =? 0 then Some (s, 0)
      else
        let meta := Z.lor kind (Z.lor (if isdocument then META_DOC else 0)
                                      (if isparam then Z.lor META_NOTDATA META_MATCH else 0)) in
        let s := logw s (wg_log_set_meta rec meta) in
        match p_meta P (s_db s) rec meta with
        | None => None
        | Some d => let s := with_db s d in if isparam then Some (s, rec) else add_rec s rec
        end
  end.
(** Db/dbschema.c l.97-123, l.132-158. *)
Definition wg_create_array := create_document META_ARRAY.
(** Db/dbschema.c l.97-123, l.132-158. *)
Definition wg_create_object := create_document META_OBJECT.

(** Running one of the [prims] on the database (Db/dbdata.c l.118-936, l.1186-2585). *)
Definition lift (s : st) (r : option (D * Z)) : option (st * Z) :=
  match r with None => None | Some (d, x) => Some (with_db s d, x) end.
(** Db/dbdata.c l.1485-1502, l.1570-1587, l.2519-2546, l.2550-2567: the end of the encoding
    functions: the result is logged, or WG_ILLEGAL when there was no memory. *)
Definition encoded (r : option (st * Z)) (enc : Z -> Z) : option (st * Z) :=
  match r with
  | None => None
  | Some (s, offset) =>
      if offset =? 0 then Some (logw s (wg_log_encval WG_ILLEGAL), WG_ILLEGAL)
      else Some (logw s (wg_log_encval (enc offset)), enc offset)
  end.
(** Db/dbdata.c l.1465-1505: wg_encode_int. *)
Definition wg_encode_int (s : st) (data : Z) : option (st * Z) :=
  if fits_smallint data then Some (s, encode_smallint data)
  else
    let s := logw s (wg_log_encode_int data) in
    encoded (lift s (p_int P (s_db s) data)) encode_fullint_offset.
(** Db/dbdata.c l.1551-1589: wg_encode_double; the argument is the 64 bits of the number. *)
Definition wg_encode_double (s : st) (data : Z) : option (st * Z) :=
  let s := logw s (wg_log_encode_double data) in
  encoded (lift s (p_double P (s_db s) data)) encode_fulldouble_offset.
(** Db/dbdata.c l.2587-2674: find_create_longstr; the extra string is encoded by [extra]
    (l.2639: wg_encode_str). Returns an offset or encoded value, or 0. *)
Definition find_create_longstr (extra : st -> list Z -> option (st * Z))
  (s : st) (data : list Z) (extrastr : option (list Z)) (type length : Z) : option (st * Z) :=
  match p_find P (s_db s) data extrastr type length with
  | None => None
  | Some (old, chain) =>
      if negb (old =? 0) then Some (s, old)
      else
      match lift s (p_long P (s_db s) data length) with
      | None => None
      | Some (s, offset) =>
          if offset =? 0 then Some (s, 0)
          else
          let link s tmp :=
            match p_link P (s_db s) offset tmp data extrastr type length chain with
            | None => None
            | Some d => Some (with_db s d, encode_longstr_offset offset)
            end in
          match extrastr with
          | None => link s 0
          | Some x =>
              match extra s x with
              | None => None
              | Some (s, tmp) => if tmp =? WG_ILLEGAL then Some (s, 0) else link s tmp
              end
          end
      end
  end.
(** Db/dbdata.c l.2484-2569: wg_encode_unistr. *)
Definition encode_unistr (extra : st -> list Z -> option (st * Z))
  (s : st) (str : list Z) (lang : option (list Z)) (type : Z) : option (st * Z) :=
  let len := zlen str in
  let s := logw s (wg_log_encode_str type str (match lang with None => [] | Some l => l end)) in
  if (match lang with None => true | Some _ => false end) && (type =? WG_STRTYPE) && (len <? SHORTSTR_SIZE)
  then encoded (lift s (p_short P (s_db s) str)) encode_shortstr_offset
  else encoded (find_create_longstr extra s str lang type (len + 1)) encode_longstr_offset.
(** The extra string is encoded without extra string of its own (l.2639), with its own
    entry in the journal. *)
Definition encode_extra (s : st) (x : list Z) : option (st * Z) :=
  encode_unistr (fun _ _ => None) s x None WG_STRTYPE.
(** Db/dbdata.c l.2639. *)
Definition wg_encode_unistr := encode_unistr encode_extra.
(** Db/dbdata.c l.2572-2585: wg_encode_uniblob, which writes no entry for the blob. *)
Definition wg_encode_uniblob (s : st) (str : list Z) (lang : option (list Z)) (type len : Z) : option (st * Z) :=
  match find_create_longstr encode_extra s str lang type len with
  | None => None
  | Some (s, offset) => Some (s, if offset =? 0 then WG_ILLEGAL else encode_longstr_offset offset)
  end.

(** Db/dbdata.c l.1186-1215: wg_free_encoded, without any logging. *)
Definition wg_free_encoded (s : st) (data : Z) : option (st * Z) :=
  if isptr data then
    match p_free P (s_db s) data with None => None | Some (d, c) => Some (with_db s d, c) end
  else Some (s, 0).

(** Db/dblog.c l.531-600: recover_encode on the rest [f] of the file; a failed read
    consumes the rest of the file. A length of -1 overruns the buffer of 0 bytes
    (l.561, l.566), other negative lengths make malloc fail. *)
Definition recover_encode (s : st) (f : list Z) (type : Z) : option (st * list Z * Z) :=
  let done f (r : option (st * Z)) :=
    match r with None => None | Some (s, enc) => Some (s, f, enc) end in
  if type =? WG_INTTYPE then
    match read_bytes 4 f with
    | None => Some (s, [], WG_ILLEGAL)
    | Some (b, f) => done f (wg_encode_int s (wrap32 (unle b)))
    end
  else if type =? WG_DOUBLETYPE then
    match read_bytes 8 f with
    | None => Some (s, [], WG_ILLEGAL)
    | Some (b, f) => done f (wg_encode_double s (unle b))
    end
  else if (type =? WG_STRTYPE) || (type =? WG_URITYPE) || (type =? WG_XMLLITERALTYPE)
          || (type =? WG_ANONCONSTTYPE) || (type =? WG_BLOBTYPE) then
    match read_gint f with
    | None => Some (s, [], WG_ILLEGAL)
    | Some (length, f) =>
    match read_gint f with
    | None => Some (s, [], WG_ILLEGAL)
    | Some (extlength, f) =>
        if length =? -1 then None
        else if length <? 0 then Some (s, f, WG_ILLEGAL)
        else
        match read_bytes length f with
        | None => Some (s, [], WG_ILLEGAL)
        | Some (strbuf, f) =>
            if extlength =? 0 then done f (wg_encode_unistr s (cstr strbuf) None type)
            else if extlength =? -1 then None
            else if extlength <? 0 then Some (s, f, WG_ILLEGAL)
            else
            match read_bytes extlength f with
            | None => Some (s, [], WG_ILLEGAL)
            | Some (extbuf, f) => done f (wg_encode_unistr s (cstr strbuf) (Some (cstr extbuf)) type)
            end
        end
    end
    end
  else Some (s, f, -1).

(** Db/dblog.c l.605-681: recover_journal; the result carries the return code. Each turn
    reads at least one byte, so [fuel] is the length of the file. *)
Fixpoint recover_journal (fuel : nat) (s : st) (t : gtable) (f : list Z) : option (st * gtable * Z) :=
  match f with
  | [] => Some (s, t, 0)
  | c :: f =>
  match fuel with
  | O => None
  | S fuel =>
    let cmd := Z.land c CMDMASK in
    if cmd =? ENTRY_CRE then
      match read_gint f with
      | None => Some (s, t, -1)
      | Some (length, f) =>
      match read_gint f with
      | None => Some (s, t, -1)
      | Some (offset, f) =>
      match wg_create_record s length with
      | None => None
      | Some (s, rec) =>
          if offset =? 0 then recover_journal fuel s t f
          else if rec =? 0 then Some (s, t, -1)
          else if rec =? offset then recover_journal fuel s t f
          else match add_tran_offset t offset rec with
               | None => None
               | Some (t, e) => if e =? 0 then recover_journal fuel s t f else Some (s, t, -1)
               end
      end
      end
      end
    else if cmd =? ENTRY_DEL then
      match read_gint f with
      | None => Some (s, t, -1)
      | Some (offset, f) =>
          match wg_delete_record s (translate_offset t offset) with
          | None => None
          | Some (s, e) => if e <? -1 then Some (s, t, -1) else recover_journal fuel s t f
          end
      end
    else if cmd =? ENTRY_ENC then
      match recover_encode s f (Z.land c TYPEMASK) with
      | None => None
      | Some (s, f, newenc) =>
          match read_gint f with
          | None => Some (s, t, -1)
          | Some (enc, f) =>
              if enc =? WG_ILLEGAL then recover_journal fuel s t f
              else if newenc =? WG_ILLEGAL then Some (s, t, -1)
              else if newenc =? enc then recover_journal fuel s t f
              else match add_tran_enc t enc newenc with
                   | None => None
                   | Some (t, e) => if e =? 0 then recover_journal fuel s t f else Some (s, t, -1)
                   end
          end
      end
    else if cmd =? ENTRY_SET then
      match read_gint f with
      | None => Some (s, t, -1)
      | Some (offset, f) =>
      match read_gint f with
      | None => Some (s, t, -1)
      | Some (col, f) =>
      match read_gint f with
      | None => Some (s, t, -1)
      | Some (enc, f) =>
          match wg_set_field s (translate_offset t offset) col (translate_encoded t enc) with
          | None => None
          | Some (s, e) => if e =? 0 then recover_journal fuel s t f else Some (s, t, -1)
          end
      end
      end
      end
    else if cmd =? ENTRY_META then
      match read_gint f with
      | None => Some (s, t, -1)
      | Some (offset, f) =>
      match read_gint f with
      | None => Some (s, t, -1)
      | Some (meta, f) =>
          match p_meta P (s_db s) (translate_offset t offset) meta with
          | None => None
          | Some d => recover_journal fuel (with_db s d) t f
          end
      end
      end
    else Some (s, t, -1)
  end
  end.

(** Db/dblog.c l.138-152: check_journal on the contents of the file. *)
Definition check_journal (f : list Z) : bool :=
  match read_bytes 4 f with
  | None => false
  | Some (b, _) => if list_eq_dec Z.eq_dec b MAGIC then true else false
  end.

(** The logging part of the segment header (Db/dballoc.h l.429-436) and the
    journal file of the database, [None] when there is no such file. *)
Record logstate := LG { l_active : bool; l_dirty : bool; l_file : option (list Z) }.

(** Db/dblog.c l.780-836: wg_start_logging; the file operations succeed. When the log is
    clean the existing file is renamed (l.235-243) and a new one is started (l.802). *)
Definition wg_start_logging (l : logstate) : logstate * Z :=
  if l_active l then (l, -1)
  else
    let f := match l_file l with None => [] | Some f => f end in
    if negb (l_dirty l) then (LG true false (Some MAGIC), 0)
    else if check_journal f then (LG true true (Some f), 0)
    else (LG false true (Some f), -2).

(** Db/dblog.c l.870-935: wg_replay_log on the contents of the file named by the caller,
    [None] when it cannot be opened. The file position after check_journal is 4. *)
Definition wg_replay_log (d : D) (l : logstate) (filename : option (list Z)) : option (D * logstate * Z) :=
  match filename with
  | None => Some (d, l, -1)
  | Some f =>
      if negb (check_journal f) then Some (d, l, -1)
      else
      match wg_ginthash_init with
      | None => Some (d, LG false (l_dirty l) (l_file l), -1)
      | Some t =>
          match recover_journal (length f) (ST d None) t (skipn 4 f) with
          | None => None
          | Some (s, _, e) =>
              if negb (e =? 0) then Some (s_db s, LG false (l_dirty l) (l_file l), -2)
              else
                let l1 := LG false false (l_file l) in
                if l_active l then
                  let '(l2, e) := wg_start_logging l1 in
                  Some (s_db s, l2, if e =? 0 then 0 else -2)
                else Some (s_db s, l1, 0)
          end
      end
  end.

(** The calls of a client (the functions above), with the value they return (Db/dbdata.c l.118-936, l.1186-2585, Db/dbschema.c l.97-158). *)
Inductive op :=
| OpCreate (length : Z) | OpRaw (length : Z) | OpDelete (rec : Z)
| OpSet (rec fieldnr data : Z) | OpNew (rec fieldnr data : Z)
| OpArray (size : Z) (isdocument isparam : bool) | OpObject (size : Z) (isdocument isparam : bool)
| OpInt (data : Z) | OpDouble (data : Z)
| OpStr (str : list Z) (lang : option (list Z)) (type : Z)
| OpBlob (str : list Z) (lang : option (list Z)) (len : Z)
| OpFree (data : Z).
(** Db/dbdata.c l.118-936, l.1186-2585, Db/dbschema.c l.97-158. *)
Definition call (s : st) (o : op) : option (st * Z) :=
  match o with
  | OpCreate n => wg_create_record s n
  | OpRaw n => wg_create_raw_record s n
  | OpDelete r => wg_delete_record s r
  | OpSet r i v => wg_set_field s r i v
  | OpNew r i v => wg_set_new_field s r i v
  | OpArray n a b => wg_create_array s n a b
  | OpObject n a b => wg_create_object s n a b
  | OpInt v => wg_encode_int s v
  | OpDouble v => wg_encode_double s v
  | OpStr x l ty => wg_encode_unistr s x l ty
  | OpBlob x l n => wg_encode_uniblob s x l WG_BLOBTYPE n
  | OpFree v => wg_free_encoded s v
  end.
(** A sequence of calls and the values returned (Db/dbdata.c l.118-936, l.1186-2585, Db/dbschema.c l.97-158). *)
Fixpoint calls (s : st) (l : list op) : option (st * list Z) :=
  match l with
  | [] => Some (s, [])
  | o :: l =>
      match call s o with
      | None => None
      | Some (s, r) => match calls s l with None => None | Some (s, rs) => Some (s, r :: rs) end
      end
  end.
End Journal.
Arguments st : clear implicits.
