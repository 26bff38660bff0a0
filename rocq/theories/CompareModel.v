(** Comparison of encoded values (Db/dbcompare.c). *)
From Coq Require Import ZArith List Bool Floats.SpecFloat.
From Verif Require Import Base EncodingModel.
Import ListNotations.
Open Scope Z_scope.

(** Db/dbcompare.h l.41-43: results. *)
Definition WG_EQUAL := 0.
(** Db/dbcompare.h l.41-43. *)
Definition WG_GREATER := 1.
(** Db/dbcompare.h l.41-43. *)
Definition WG_LESSTHAN := -1.
(** Db/dbcompare.h l.51 (USE_BACKLINKING). *)
Definition WG_COMPARE_REC_DEPTH : nat := 7%nat.

(** Database state: the words of the segment and its size
    (Db/dballoc.h l.195-198; little endian bytes). *)
Record cstate := CSt { words : mem; segsize : Z }.

(** Byte at an offset of the segment (Db/dballoc.h l.198: offsettoptr). *)
Definition byte_at (s : cstate) (a : Z) : Z :=
  Z.shiftr (u64 (words s (8 * (a / 8)))) (8 * (a mod 8)) mod 256.

(** The bytes of the 0-terminated string starting at an offset, not beyond
    [fuel] bytes (argument of strcmp, Db/dbcompare.c l.235, l.261). *)
Fixpoint cstr (fuel : nat) (s : cstate) (a : Z) : list Z :=
  match fuel with
  | O => []
  | S f => let b := byte_at s a in if b =? 0 then [] else b :: cstr f s (a + 1)
  end.
(** Db/dbcompare.c l.235, l.261. *)
Definition cstring (s : cstate) (a : Z) : list Z := cstr (Z.to_nat (segsize s)) s a.
(** [n] bytes from an offset (memcmp, Db/dbcompare.c l.258). *)
Definition bytes_at (s : cstate) (a n : Z) : list Z :=
  map (fun i => byte_at s (a + Z.of_nat i)) (seq 0 (Z.to_nat n)).

(** strcmp of two strings without 0 bytes, by unsigned bytes: sign of the result
    (Db/dbcompare.c l.235, l.261). *)
Fixpoint strcmp (x y : list Z) : Z :=
  match x, y with
  | [], [] => 0
  | [], _ => -1
  | _, [] => 1
  | a :: x', b :: y' => if a <? b then -1 else if b <? a then 1 else strcmp x' y'
  end.
(** memcmp of two areas of the same length (Db/dbcompare.c l.258). *)
Definition memcmp (x y : list Z) : Z := strcmp x y.

(** Db/dballoc.h l.222-225: size of a used object from its header; the minimal
    object is 4 gints (Db/dballoc.h l.163). *)
Definition MIN_VARLENOBJ_SIZE := 32.
(** Db/dballoc.h l.222-225, Db/dballoc.h l.163. *)
Definition getusedobjectsize (i : Z) : Z :=
  let z := Z.land i (Z.lnot 3) in
  if z <=? MIN_VARLENOBJ_SIZE then MIN_VARLENOBJ_SIZE
  else if z mod 8 =? 0 then z else z + 4.
(** Db/dballoc.h l.229. *)
Definition getusedobjectwantedgintsnr (i : Z) : Z := Z.shiftr (Z.land i (Z.lnot 3)) 3.

(** Db/dbdata.h l.256, l.612-629. *)
Definition RECORD_HEADER_GINTS := 3.
(** Db/dbdata.h l.256, l.612-629. *)
Definition LONGSTR_HEADER_GINTS := 6.
(** Db/dbdata.h l.256, l.612-629. *)
Definition LONGSTR_EXTRASTR_POS := 5.

(** Db/dbdata.h l.422-423: isshortstr, islongstr. *)
Definition islongstr (i : Z) : bool := Z.land i 7 =? 4.
(** Db/dbdata.h l.422-423. *)
Definition isshortstr (i : Z) : bool := Z.land i 7 =? 6.

(** Db/dbdata.c l.582-591: wg_get_record_len. *)
Definition wg_get_record_len (s : cstate) (rec : Z) : Z :=
  getusedobjectwantedgintsnr (words s rec) - RECORD_HEADER_GINTS.
(** Db/dbdata.c l.1149-1165: wg_get_field. *)
Definition wg_get_field (s : cstate) (rec i : Z) : Z :=
  if (i <? 0) || (getusedobjectwantedgintsnr (words s rec) <=? i + RECORD_HEADER_GINTS) then WG_ILLEGAL
  else words s (rec + 8 * (RECORD_HEADER_GINTS + i)).

(** Db/dbdata.c l.1506-1517: wg_decode_int. *)
Definition wg_decode_int (s : cstate) (e : Z) : Z :=
  if issmallint e then decode_smallint e
  else if isfullint e then words s (decode_fullint_offset e) else 0.

(** Db/dbdata.c l.1591-1602: wg_decode_double, the 64 bits of the double. *)
Definition wg_decode_double (s : cstate) (e : Z) : Z :=
  if isfulldouble e then u64 (words s (decode_fulldouble_offset e)) else 0.

(** IEEE binary64 value of 64 bits (C type double, Db/dbcompare.c l.175-179). *)
Definition double_of_bits (w : Z) : spec_float :=
  let sg := 2 ^ 63 <=? w in
  let mag := w mod 2 ^ 63 in
  let E := mag / 2 ^ 52 in
  let fr := mag mod 2 ^ 52 in
  if E =? 2047 then (if fr =? 0 then S754_infinity sg else S754_nan)
  else if E =? 0 then
    match fr with Z.pos p => S754_finite sg p (-1074) | _ => S754_zero sg end
  else match 2 ^ 52 + fr with Z.pos p => S754_finite sg p (E - 1075) | _ => S754_nan end.

(** Db/dbdata.c l.2678-2702: wg_decode_unistr, offset of the first byte; [None] is NULL. *)
Definition wg_decode_unistr (e : Z) : option Z :=
  if isshortstr e then Some (decode_shortstr_offset e)
  else if islongstr e then Some (decode_longstr_offset e + LONGSTR_HEADER_GINTS * 8)
  else None.
(** Db/dbdata.c l.2705-2729: wg_decode_unistr_lang for types other than plain strings. *)
Definition wg_decode_unistr_lang (s : cstate) (e : Z) : option Z :=
  if islongstr e then
    let f := words s (decode_longstr_offset e + LONGSTR_EXTRASTR_POS * 8) in
    if f =? 0 then None else wg_decode_unistr f
  else None.
(** Db/dbdata.c l.2305-2317 and l.2737-2772: wg_decode_blob_len for a long string object. *)
Definition wg_decode_blob_len (s : cstate) (e : Z) : Z :=
  let o := decode_longstr_offset e in
  getusedobjectsize (words s o) - Z.shiftr (Z.land (words s (o + LONGSTR_META_POS * 8)) 0xFF00) 8.

(** C string of a possibly NULL pointer; a NULL main string does not occur for
    encoded strings (Db/dbcompare.c l.241-252 is compiled out). *)
Definition ostring (s : cstate) (p : option Z) : list Z :=
  match p with Some a => cstring s a | None => [] end.

(** Db/dbcompare.c l.196-206, l.221-239: the prefix or xsd type; the comparison
    code when it decides. *)
Definition extra_cmp (s : cstate) (exa exb : option Z) : Z :=
  match exa, exb with
  | None, None => 0
  | Some a, None => match cstring s a with [] => 0 | _ => WG_GREATER end
  | None, Some b => match cstring s b with [] => 0 | _ => WG_LESSTHAN end
  | Some a, Some b => strcmp (cstring s a) (cstring s b)
  end.

(** One-character strings made of decoded characters (Db/dbcompare.c l.208-215):
    the char is seen by strcmp as unsigned. *)
Definition charstr (c : Z) : list Z := let u := c mod 256 in if u =? 0 then [] else [u].

(** [x > y ? WG_GREATER : WG_LESSTHAN] (Db/dbcompare.c l.96). *)
Definition gt_or_less (x y : Z) : Z := if y <? x then WG_GREATER else WG_LESSTHAN.

(** Db/dbcompare.c l.145-163: the fields [i .. i+n-1] of two records. *)
Fixpoint fields_cmp (s : cstate) (cmp : Z -> Z -> Z) (deca decb : Z) (i : Z) (n : nat) : Z :=
  match n with
  | O => WG_EQUAL
  | S m =>
      let ea := wg_get_field s deca i in
      let eb := wg_get_field s decb i in
      if ea =? eb then fields_cmp s cmp deca decb (i + 1) m
      else let cr := cmp ea eb in
           if cr =? WG_EQUAL then fields_cmp s cmp deca decb (i + 1) m else cr
  end.

(** Db/dbcompare.c l.52-270: wg_compare. Record addresses are offsets; the fixpoint
    decoder is taken as its count of 1/10000 parts (same order, see DESIGN). *)
Fixpoint wg_compare (s : cstate) (depth : nat) (a b : Z) : Z :=
  let typea := encoded_type (words s) a in
  let typeb := encoded_type (words s) b in
  if typeb =? typea then
    if WG_CHARTYPE <? typea then
      if WG_FIXPOINTTYPE <? typea then
        if typea =? WG_DATETYPE then gt_or_less (wg_decode_date a) (wg_decode_date b)
        else if typea =? WG_TIMETYPE then gt_or_less (wg_decode_time a) (wg_decode_time b)
        else if typea =? WG_VARTYPE then gt_or_less (wg_decode_var a) (wg_decode_var b)
        else gt_or_less a b
      else gt_or_less (wg_decode_fixpoint a) (wg_decode_fixpoint b)
    else if typea <? WG_STRTYPE then
      if typea =? WG_RECORDTYPE then
        let deca := wg_decode_record a in
        let decb := wg_decode_record b in
        match depth with
        | O => gt_or_less deca decb
        | S d =>
            let lena := wrap32 (wg_get_record_len s deca) in
            let lenb := wrap32 (wg_get_record_len s decb) in
            if negb (lena =? lenb) then gt_or_less lena lenb
            else fields_cmp s (wg_compare s d) deca decb 0 (Z.to_nat lena)
        end
      else if typea =? WG_INTTYPE then
        let deca := wg_decode_int s a in
        let decb := wg_decode_int s b in
        if deca =? decb then WG_EQUAL else gt_or_less deca decb
      else
        match SFcompare (double_of_bits (wg_decode_double s a)) (double_of_bits (wg_decode_double s b)) with
        | Some Eq => WG_EQUAL
        | Some Gt => WG_GREATER
        | _ => WG_LESSTHAN
        end
    else
      if (typea =? WG_URITYPE) || (typea =? WG_XMLLITERALTYPE) then
        let ex := extra_cmp s (wg_decode_unistr_lang s a) (wg_decode_unistr_lang s b) in
        if ex =? 0 then strcmp (ostring s (wg_decode_unistr a)) (ostring s (wg_decode_unistr b)) else ex
      else if typea =? WG_STRTYPE then
        strcmp (ostring s (wg_decode_unistr a)) (ostring s (wg_decode_unistr b))
      else if typea =? WG_CHARTYPE then
        strcmp (charstr (wg_decode_char a)) (charstr (wg_decode_char b))
      else
        let lena := wrap32 (wg_decode_blob_len s a) in
        let lenb := wrap32 (wg_decode_blob_len s b) in
        let n := Z.min lena lenb in
        match wg_decode_unistr a, wg_decode_unistr b with
        | Some pa, Some pb =>
            let res := memcmp (bytes_at s pa n) (bytes_at s pb n) in
            let res := if res =? 0 then wrap32 (lena - lenb) else res in
            if 0 <? res then WG_GREATER else if res <? 0 then WG_LESSTHAN else WG_EQUAL
        | _, _ => WG_EQUAL
        end
  else gt_or_less typea typeb.

(** Db/dbcompare.h l.60-61: WG_COMPARE with a given recursion depth. *)
Definition WG_COMPARE_at (s : cstate) (depth : nat) (a b : Z) : Z :=
  if a =? b then WG_EQUAL else wg_compare s depth a b.
(** Db/dbcompare.h l.60-61. *)
Definition WG_COMPARE (s : cstate) (a b : Z) : Z := WG_COMPARE_at s WG_COMPARE_REC_DEPTH a b.
