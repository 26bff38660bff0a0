(** Immediate and pointer encodings of field values (Db/dbdata.h, Db/dbdata.c).
    64-bit [gint]. Signed left shifts wrap (gcc behaviour). *)
From Coq Require Import ZArith List Bool.
From Verif Require Import Base.
Open Scope Z_scope.

(** Db/dbdata.h l.59-72: data type numbers. *)
Definition WG_NULLTYPE := 1.
(** Db/dbdata.h l.59-72. *)
Definition WG_RECORDTYPE := 2.
(** Db/dbdata.h l.59-72. *)
Definition WG_INTTYPE := 3.
(** Db/dbdata.h l.59-72. *)
Definition WG_DOUBLETYPE := 4.
(** Db/dbdata.h l.59-72. *)
Definition WG_STRTYPE := 5.
(** Db/dbdata.h l.59-72. *)
Definition WG_XMLLITERALTYPE := 6.
(** Db/dbdata.h l.59-72. *)
Definition WG_URITYPE := 7.
(** Db/dbdata.h l.59-72. *)
Definition WG_BLOBTYPE := 8.
(** Db/dbdata.h l.59-72. *)
Definition WG_CHARTYPE := 9.
(** Db/dbdata.h l.59-72. *)
Definition WG_FIXPOINTTYPE := 10.
(** Db/dbdata.h l.59-72. *)
Definition WG_DATETYPE := 11.
(** Db/dbdata.h l.59-72. *)
Definition WG_TIMETYPE := 12.
(** Db/dbdata.h l.59-72. *)
Definition WG_ANONCONSTTYPE := 13.
(** Db/dbdata.h l.59-72. *)
Definition WG_VARTYPE := 14.
(** Db/dbdata.h l.75. *)
Definition WG_ILLEGAL := 0xff.

(** [(i)<<n] on a gint, and on an int (Db/dbdata.h l.311-312). *)
Definition shl64 (i n : Z) : Z := wrap64 (Z.shiftl i n).
(** On an int (Db/dbdata.h l.311-312). *)
Definition shl32 (i n : Z) : Z := wrap32 (Z.shiftl i n).

(** Db/dbdata.h l.307-313: small integers. *)
Definition fits_smallint (i : Z) : bool := Z.shiftr (shl64 i 3) 3 =? i.
(** Db/dbdata.h l.307-313. *)
Definition encode_smallint (i : Z) : Z := Z.lor (shl64 i 3) 3.
(** Db/dbdata.h l.307-313. *)
Definition decode_smallint (i : Z) : Z := Z.shiftr i 3.

(** Db/dbdata.h l.315-321: integers stored in a separate cell. *)
Definition encode_fullint_offset (o : Z) : Z := Z.lor o 1.
(** Db/dbdata.h l.315-321. *)
Definition decode_fullint_offset (i : Z) : Z := Z.land i (Z.lnot 3).
(** Db/dbdata.h l.326-327: records. *)
Definition encode_datarec_offset (o : Z) : Z := o.
(** Db/dbdata.h l.326-327. *)
Definition decode_datarec_offset (i : Z) : Z := i.
(** Db/dbdata.h l.329-333: long strings. *)
Definition encode_longstr_offset (o : Z) : Z := Z.lor o 4.
(** Db/dbdata.h l.329-333. *)
Definition decode_longstr_offset (i : Z) : Z := Z.land i (Z.lnot 7).
(** Db/dbdata.h l.335-339: doubles. *)
Definition encode_fulldouble_offset (o : Z) : Z := Z.lor o 2.
(** Db/dbdata.h l.335-339. *)
Definition decode_fulldouble_offset (i : Z) : Z := Z.land i (Z.lnot 7).
(** Db/dbdata.h l.341-345: short strings. *)
Definition encode_shortstr_offset (o : Z) : Z := Z.lor o 6.
(** Db/dbdata.h l.341-345. *)
Definition decode_shortstr_offset (i : Z) : Z := Z.land i (Z.lnot 7).

(** Db/dbdata.h l.349-355: variables. *)
Definition fits_var (i : Z) : bool := Z.shiftr (shl64 i 4) 4 =? i.
(** Db/dbdata.h l.349-355. *)
Definition encode_var (i : Z) : Z := Z.lor (shl64 i 4) 7.
(** Db/dbdata.h l.349-355. *)
Definition decode_var (i : Z) : Z := Z.shiftr i 4.

(** Db/dbdata.h l.357-362 with the casts of Db/dbdata.c l.1521-1548:
    the argument is a signed [char] widened to gint, the result is cast back
    to [char]. *)
Definition wrap8 (z : Z) : Z := (z + 2 ^ 7) mod 2 ^ 8 - 2 ^ 7.
(** Db/dbdata.h l.357-362, Db/dbdata.c l.1521-1548. *)
Definition encode_char (i : Z) : Z := Z.lor (shl64 i 8) 0x1f.
(** Db/dbdata.h l.357-362, Db/dbdata.c l.1521-1548. *)
Definition decode_char (i : Z) : Z := wrap8 (Z.shiftr i 8).

(** Db/dbdata.h l.364-373: dates; the argument is an [int], so the shift is a
    32-bit shift whose result is widened to gint. *)
Definition MAXDATE := 128 * 255 * 255.
(** Db/dbdata.h l.364-373. *)
Definition MINDATE := - 128 * 255 * 255.
(** Db/dbdata.h l.364-373. *)
Definition fits_date (i : Z) : bool := (i <=? MAXDATE) && (i >=? MINDATE).
(** Db/dbdata.h l.364-373. *)
Definition encode_date (i : Z) : Z := Z.lor (shl32 i 8) 0x2f.
(** Db/dbdata.h l.364-373. *)
Definition decode_date (i : Z) : Z := wrap32 (Z.shiftr i 8).

(** Db/dbdata.h l.375-384: times; the decoder goes through [unsigned int]. *)
Definition MAXTIME := 24 * 60 * 60 * 100.
(** Db/dbdata.h l.375-384. *)
Definition MINTIME := 0.
(** Db/dbdata.h l.375-384. *)
Definition fits_time (i : Z) : bool := (i <=? MAXTIME) && (i >=? MINTIME).
(** Db/dbdata.h l.375-384. *)
Definition encode_time (i : Z) : Z := Z.lor (shl32 i 8) 0x3f.
(** Db/dbdata.h l.375-384. *)
Definition decode_time (i : Z) : Z := wrap32 (Z.shiftr (u32 i) 8).

(** Db/dbdata.h l.386-396: fixpoint numbers. [p] stands for the result of
    [(int)round(x*10000.0)]; the decoder returns the numerator over 10000.
    The double product and [round] are applied by the caller (see
    [round_half_away] in EncodingSpec). *)
Definition encode_fixpoint (p : Z) : Z := Z.lor (shl32 p 8) 0xf.
(** Db/dbdata.h l.386-396. *)
Definition decode_fixpoint (i : Z) : Z := Z.shiftr i 8.

(** Db/dbdata.h l.402-407: anonymous constants (table index). *)
Definition encode_anonconst (i : Z) : Z := Z.lor (shl64 i 8) 0x5f.
(** Db/dbdata.h l.402-407. *)
Definition decode_anonconst (i : Z) : Z := Z.shiftr i 8.

(** Db/dbdata.h l.417-433: recognisers. *)
Definition isptr (i : Z) : bool := negb (i =? 0) && negb (Z.land i 3 =? 3).
(** Db/dbdata.h l.417-433. *)
Definition isfullint (i : Z) : bool := Z.land i 3 =? 1.
(** Db/dbdata.h l.417-433. *)
Definition issmallint (i : Z) : bool := Z.land i 7 =? 3.
(** Db/dbdata.h l.417-433. *)
Definition isfulldouble (i : Z) : bool := Z.land i 7 =? 2.
(** Db/dbdata.h l.417-433. *)
Definition isvar (i : Z) : bool := Z.land i 15 =? 7.
(** Db/dbdata.h l.417-433. *)
Definition isfixpoint (i : Z) : bool := Z.land i 255 =? 0xf.
(** Db/dbdata.h l.417-433. *)
Definition isdate (i : Z) : bool := Z.land i 255 =? 0x2f.
(** Db/dbdata.h l.417-433. *)
Definition istime (i : Z) : bool := Z.land i 255 =? 0x3f.

(** Db/dbdata.h l.614-629: long string header positions and masks. *)
Definition LONGSTR_META_POS := 1.
(** Db/dbdata.h l.614-629. *)
Definition LONGSTR_META_TYPEMASK := 0xff.

(** Db/dbdata.c l.1358-1407: [wg_get_encoded_type], reading the string
    subtype from the header of the string object. *)
Definition encoded_type (m : mem) (data : Z) : Z :=
  if data =? 0 then WG_NULLTYPE
  else if Z.land data 3 =? 3 then
    if isvar data then WG_VARTYPE
    else if issmallint data then WG_INTTYPE
    else
      let b := Z.land data 0xff in
      if b =? 0x1f then WG_CHARTYPE
      else if b =? 0x0f then WG_FIXPOINTTYPE
      else if b =? 0x2f then WG_DATETYPE
      else if b =? 0x3f then WG_TIMETYPE
      else if b =? 0x4f then WG_STRTYPE
      else if b =? 0x7 then WG_VARTYPE
      else if b =? 0x5f then WG_ANONCONSTTYPE
      else -1
  else
    let b := Z.land data 7 in
    if b =? 0 then WG_RECORDTYPE
    else if b =? 4 then
      Z.land (m (decode_longstr_offset data + LONGSTR_META_POS * 8)) LONGSTR_META_TYPEMASK
    else if b =? 6 then WG_STRTYPE
    else if b =? 2 then WG_DOUBLETYPE
    else if b =? 1 then WG_INTTYPE
    else if b =? 5 then WG_INTTYPE
    else -1.

(** Outcome of an API encoder: [WG_ILLEGAL] on a failed check. *)

(** Db/dbdata.c l.1521-1534 [wg_encode_char], l.1538-1548 [wg_decode_char]. *)
Definition wg_encode_char (c : Z) : Z := encode_char c.
(** Db/dbdata.c l.1521-1534, l.1538-1548. *)
Definition wg_decode_char (e : Z) : Z := decode_char e.
(** Db/dbdata.c l.1642-1676 [wg_encode_date], [wg_decode_date]. *)
Definition wg_encode_date (d : Z) : Z :=
  if fits_date d then encode_date d else WG_ILLEGAL.
(** Db/dbdata.c l.1642-1676. *)
Definition wg_decode_date (e : Z) : Z := if isdate e then decode_date e else 0.
(** Db/dbdata.c l.1678-1712 [wg_encode_time], [wg_decode_time]. *)
Definition wg_encode_time (t : Z) : Z :=
  if fits_time t then encode_time t else WG_ILLEGAL.
(** Db/dbdata.c l.1678-1712. *)
Definition wg_decode_time (e : Z) : Z := if istime e then decode_time e else 0.
(** Db/dbdata.c l.2437-2475 [wg_encode_var], [wg_decode_var]. *)
Definition wg_encode_var (v : Z) : Z :=
  if fits_var v then encode_var v else WG_ILLEGAL.
(** Db/dbdata.c l.2437-2475. *)
Definition wg_decode_var (e : Z) : Z := if e =? 0 then -1 else decode_var e.
(** Db/dbdata.c l.1605-1640 [wg_encode_fixpoint], [wg_decode_fixpoint], after
    rounding; the range check |x| <= 800 is |p| <= 8000000 here. *)
Definition wg_encode_fixpoint (p : Z) : Z :=
  if (p <=? 800 * 10000) && (p >=? - 800 * 10000) then encode_fixpoint p else WG_ILLEGAL.
(** Db/dbdata.c l.1605-1640. *)
Definition wg_decode_fixpoint (e : Z) : Z := if isfixpoint e then decode_fixpoint e else 0.
(** Db/dbdata.c l.1848-1875 [wg_encode_record], [wg_decode_record] on offsets. *)
Definition wg_encode_record (o : Z) : Z := encode_datarec_offset o.
(** Db/dbdata.c l.1848-1875. *)
Definition wg_decode_record (e : Z) : Z := decode_datarec_offset e.
