(** Model of the store of strings: short strings in cells of 32 bytes, long strings with
    reference counts and a hash table (Db/dbdata.c l.726-741, l.1186-1335, l.2484-2790;
    Db/dbhash.c l.138-268).

    The memory manager is the subject of VarAllocModel and FixAllocModel. Here the offset it
    gives is an argument of the call (0: no memory) and an object is either unallocated,
    allocated but not filled in, or a long string. [None] is undefined behaviour: reading
    an object that is not allocated or not filled in, or releasing it again. Reference
    counts are unbounded. *)
From Coq Require Import ZArith List Bool.
From Verif Require Import Base EncodingModel RecordModel.
Import ListNotations.
Open Scope Z_scope.

(** Db/dballoc.h l.165. *)
Definition SHORTSTR_SIZE := 32.
(** Db/dbdata.h l.614-626. *)
Definition LONGSTR_HEADER_GINTS := 6.
(** Db/dbdata.h l.614-626. *)
Definition LONGSTR_META_LENDIFMASK := 0xff00.
(** Db/dbdata.h l.614-626. *)
Definition LONGSTR_META_LENDIFSHFT := 8.
(** Db/dbdata.h l.614-626. *)
Definition LONGSTR_META_TYPEMASK := 0xff.

(** Db/dbdata.h l.600-629: a long string: size of the object, meta word, reference count,
    next string of the hash bucket, encoded extra string, the bytes after the header. *)
Record lstr := LS { l_size : Z; l_meta : Z; l_ref : Z; l_chain : Z; l_extra : Z; l_data : list Z }.
(** The areas of long and of short strings by offset and the hash table
    (Db/dballoc.h l.479-486); [s_made] counts the long strings made so far and bounds the walks
    along the hash chains. *)
Record sst := SST { s_long : Z -> option (option lstr); s_short : Z -> option (list Z); s_hash : Z -> Z; s_made : nat }.
(** Db/dballoc.h l.479-486. *)
Definition set_long (s : sst) (o : Z) (x : option (option lstr)) : sst :=
  SST (fun a => if a =? o then x else s_long s a) (s_short s) (s_hash s) (s_made s).
(** Db/dballoc.h l.479-486. *)
Definition set_short (s : sst) (o : Z) (x : option (list Z)) : sst :=
  SST (s_long s) (fun a => if a =? o then x else s_short s a) (s_hash s) (s_made s).
(** Db/dballoc.h l.479-486. *)
Definition set_bucket (s : sst) (b v : Z) : sst :=
  SST (s_long s) (s_short s) (fun a => if a =? b then v else s_hash s a) (s_made s).
(** Db/dballoc.h l.479-486. *)
Definition set_made (s : sst) : sst := SST (s_long s) (s_short s) (s_hash s) (S (s_made s)).
(** Db/dballoc.h l.479-486. *)
Definition with_ref (x : lstr) (n : Z) : lstr := LS (l_size x) (l_meta x) n (l_chain x) (l_extra x) (l_data x).
(** Db/dballoc.h l.479-486. *)
Definition with_chain (x : lstr) (c : Z) : lstr := LS (l_size x) (l_meta x) (l_ref x) c (l_extra x) (l_data x).
(** The long string at an offset, if there is one (Db/dbdata.h l.282-296). *)
Definition long_at (s : sst) (o : Z) : option lstr :=
  match s_long s o with Some (Some x) => Some x | _ => None end.

(** A C string ends before the first 0 byte (Db/dbdata.c l.2494). *)
Fixpoint cstr (l : list Z) : list Z :=
  match l with [] => [] | b :: l => if b =? 0 then [] else b :: cstr l end.
(** Its length (Db/dbdata.c l.2494). *)
Definition zlen (l : list Z) : Z := Z.of_nat (length l).

(** Db/dbhash.c l.138-157: wg_hash_typedstr; [data] is given with its terminating 0, bytes
    are converted from char to int. *)
Definition schar (b : Z) : Z := if b <? 128 then b else b - 256.
(** Db/dbhash.c l.138-157. *)
Definition hash_step (h b : Z) : Z := u64 (schar b + h * 2 ^ 6 + h * 2 ^ 16 - h).
(** Db/dbhash.c l.138-157. *)
Definition wg_hash_typedstr (alen : Z) (data : list Z) (extra : option (list Z)) : Z :=
  fold_left hash_step (data ++ match extra with None => [] | Some e => e end) 0 mod alen.

(** ** Decoding *)
(** Db/dbdata.c l.1358-1394: wg_get_encoded_type of a long string. *)
Definition l_type (x : lstr) : Z := Z.land (l_meta x) LONGSTR_META_TYPEMASK.
(** Db/dbdata.c l.2752-2758, Db/dbhash.c l.248-250: number of bytes including the terminating 0. *)
Definition l_strsize (x : lstr) : Z :=
  l_size x - Z.shiftr (Z.land (l_meta x) LONGSTR_META_LENDIFMASK) LONGSTR_META_LENDIFSHFT.
(** Db/dbdata.c l.2678-2702: wg_decode_unistr, the bytes from the pointer on. *)
Definition wg_decode_unistr (s : sst) (h : Z) : option (list Z) :=
  if Z.land h 7 =? 6 then s_short s (decode_shortstr_offset h)
  else if Z.land h 7 =? 4 then match long_at s (decode_longstr_offset h) with None => None | Some x => Some (l_data x) end
  else None.
(** Db/dbdata.c l.2705-2730: wg_decode_unistr_lang of a long string; the inner [None] is NULL. *)
Definition l_lang (s : sst) (x : lstr) : option (option (list Z)) :=
  if l_extra x =? 0 then Some None
  else match wg_decode_unistr s (l_extra x) with None => None | Some l => Some (Some (cstr l)) end.

(** ** The hash chains *)
(** Comparison of the extra strings (Db/dbhash.c l.186-208). *)
Definition opt_eqb (a b : option (list Z)) : bool :=
  match a, b with
  | None, None => true
  | Some a, Some b => if list_eq_dec Z.eq_dec a b then true else false
  | _, _ => false
  end.
(** Db/dbhash.c l.186-208: wg_right_strhash_bucket; the length is kept in an [int] (l.190, l.196). *)
Definition wg_right_strhash_bucket (s : sst) (x : lstr) (data : list Z) (extra : option (list Z)) (type size : Z) : option bool :=
  if negb (l_type x =? type) then Some false
  else if negb (wrap32 (l_strsize x) =? size) then Some false
  else if list_eq_dec Z.eq_dec (firstn (Z.to_nat size) (l_data x)) data then
    match l_lang s x with None => None | Some e => Some (opt_eqb extra e) end
  else Some false.
(** Db/dbhash.c l.168-179: wg_find_strhash_bucket. *)
Fixpoint wg_find_strhash_bucket (n : nat) (s : sst) (data : list Z) (extra : option (list Z)) (type size chain : Z) : option Z :=
  if chain =? 0 then Some 0
  else match n with
  | O => None
  | S n =>
      match long_at s (decode_longstr_offset chain) with
      | None => None
      | Some x =>
          match wg_right_strhash_bucket s x data extra type size with
          | None => None
          | Some true => Some chain
          | Some false => wg_find_strhash_bucket n s data extra type size (l_chain x)
          end
      end
  end.
(** The two places a link of a chain is stored in: the bucket or the string before
    (Db/dbhash.c l.257, l.264). *)
Definition set_link (s : sst) (b : Z) (prev : option Z) (v : Z) : option sst :=
  match prev with
  | None => Some (set_bucket s b v)
  | Some o => match long_at s o with None => None | Some y => Some (set_long s o (Some (Some (with_chain y v)))) end
  end.
(** Db/dbhash.c l.258-266: the walk of wg_remove_from_strhash. *)
Fixpoint remove_walk (n : nat) (s : sst) (b : Z) (prev : option Z) (chain h : Z) : option sst :=
  if chain =? 0 then Some s
  else match n with
  | O => None
  | S n =>
      match long_at s (decode_longstr_offset chain) with
      | None => None
      | Some y =>
          if chain =? h then set_link s b prev (l_chain y)
          else remove_walk n s b (Some (decode_longstr_offset chain)) (l_chain y) h
      end
  end.

Section Store.
(** Db/dballoc.c l.415-425: number of buckets. *)
Variable alen : Z.

(** Db/dbhash.c l.216-268: wg_remove_from_strhash; its code is not looked at by the caller. *)
Definition wg_remove_from_strhash (s : sst) (h : Z) : option sst :=
  match long_at s (decode_longstr_offset h) with
  | None => None
  | Some x =>
      match l_lang s x with
      | None => None
      | Some e =>
          let b := wg_hash_typedstr alen (firstn (Z.to_nat (l_strsize x)) (l_data x)) e in
          remove_walk (s_made s) s b None (s_hash s b) h
      end
  end.

(** Db/dbdata.c l.1229-1335: free_field_encoffset; words and doublewords are no concern of this
    file. [n] bounds the nesting of extra strings. *)
Fixpoint free_field_encoffset (n : nat) (s : sst) (h : Z) : option sst :=
  if Z.land h 7 =? 4 then
    let o := decode_longstr_offset h in
    match long_at s o with
    | None => None
    | Some x =>
        let tmp := l_ref x - 1 in
        if 0 <? tmp then Some (set_long s o (Some (Some (with_ref x tmp))))
        else match n with
        | O => None
        | S n =>
            match wg_remove_from_strhash s h with
            | None => None
            | Some s =>
                match (if l_extra x =? 0 then Some s else free_field_encoffset n s (l_extra x)) with
                | None => None
                | Some s => Some (set_long s o None)
                end
            end
        end
    end
  else if Z.land h 7 =? 6 then
    match s_short s (decode_shortstr_offset h) with
    | None => None
    | Some _ => Some (set_short s (decode_shortstr_offset h) None)
    end
  else Some s.
(** An extra string has no extra string of its own (Db/dbdata.c l.2600-2660). *)
Definition NEST : nat := 2%nat.

(** Db/dbdata.c l.726-738, l.856-862, l.1204-1212, l.2646-2650: counting a reference. *)
Definition ref_long (s : sst) (h : Z) : option sst :=
  match long_at s (decode_longstr_offset h) with
  | None => None
  | Some x => Some (set_long s (decode_longstr_offset h) (Some (Some (with_ref x (l_ref x + 1)))))
  end.
(** Db/dbdata.c l.1186-1215: wg_free_encoded. *)
Definition wg_free_encoded (s : sst) (h : Z) : option sst :=
  if isptr h then
    match (if Z.land h 7 =? 4 then ref_long s h else Some s) with
    | None => None
    | Some s => free_field_encoffset NEST s h
    end
  else Some s.

(** Db/dbdata.c l.2521-2541: a new short string at the cell [o]. *)
Definition new_short (s : sst) (str : list Z) (o : Z) : sst * Z :=
  if o =? 0 then (s, WG_ILLEGAL)
  else (set_short s o (Some (str ++ repeat 0 (Z.to_nat (SHORTSTR_SIZE - zlen str)))), encode_shortstr_offset o).

(** Db/dbdata.c l.2618-2622 with l.886 of Db/dballoc.c: size of the object of a string of [length] bytes. *)
Definition obj_size (length : Z) : Z := ((length + 7) / 8 + LONGSTR_HEADER_GINTS) * 8.
(** Db/dbdata.c l.2631-2636: the bytes and the zeros after them. *)
Definition padded (data : list Z) : list Z := data ++ repeat 0 (Z.to_nat (- zlen data mod 8)).

(** Db/dbdata.c l.2587-2674: find_create_longstr; [o] is the offset from wg_alloc_gints and
    [extra_enc] encodes the extra string (l.2639). The result is encoded, or 0. *)
Definition find_create_longstr (extra_enc : sst -> list Z -> option (sst * Z))
  (s : sst) (data : list Z) (extra : option (list Z)) (type o : Z) : option (sst * Z) :=
  let length := zlen data in
  let b := wg_hash_typedstr alen data extra in
  let hasharrel := s_hash s b in
  match wg_find_strhash_bucket (s_made s) s data extra type length hasharrel with
  | None => None
  | Some old =>
  if negb (old =? 0) then Some (s, old)
  else if o =? 0 then Some (s, 0)
  else
  let s := set_long (set_made s) o (Some None) in
  match (match extra with
         | None => Some (s, 0)
         | Some e =>
             match extra_enc s e with
             | None => None
             | Some (s, tmp) =>
                 if tmp =? WG_ILLEGAL then Some (s, tmp)
                 else match (if Z.land tmp 7 =? 4 then ref_long s tmp else Some s) with
                      | None => None
                      | Some s => Some (s, tmp)
                      end
             end
         end) with
  | None => None
  | Some (s, tmp) =>
  if tmp =? WG_ILLEGAL then Some (s, 0)
  else
  let meta := Z.lor (Z.shiftl (obj_size length - length) LONGSTR_META_LENDIFSHFT) type in
  let res := encode_longstr_offset o in
  Some (set_bucket (set_long s o (Some (Some (LS (obj_size length) meta 0 hasharrel tmp (padded data))))) b res, res)
  end
  end.

(** Db/dbdata.c l.2484-2569: wg_encode_unistr; [str] is a C string. *)
Definition encode_unistr (extra_enc : sst -> list Z -> option (sst * Z))
  (s : sst) (str : list Z) (lang : option (list Z)) (type o : Z) : option (sst * Z) :=
  if (match lang with None => true | Some _ => false end) && (type =? WG_STRTYPE) && (zlen str <? SHORTSTR_SIZE)
  then Some (new_short s str o)
  else match find_create_longstr extra_enc s (str ++ [0]) lang type o with
       | None => None
       | Some (s, off) => Some (s, if off =? 0 then WG_ILLEGAL else encode_longstr_offset off)
       end.
(** Db/dbdata.c l.1890-1903, l.2639: wg_encode_str of the extra string, which has none itself;
    [eo] is the offset of the short or long string made for it. *)
Definition encode_extra (eo : Z) (s : sst) (e : list Z) : option (sst * Z) :=
  encode_unistr (fun _ _ => None) s e None WG_STRTYPE eo.
(** Db/dbdata.c l.1890-1903, l.2639. *)
Definition wg_encode_unistr (s : sst) (str : list Z) (lang : option (list Z)) (type o eo : Z) : option (sst * Z) :=
  encode_unistr (encode_extra eo) s str lang type o.
(** Db/dbdata.c l.2572-2585: wg_encode_uniblob. *)
Definition wg_encode_uniblob (s : sst) (data : list Z) (lang : option (list Z)) (type o eo : Z) : option (sst * Z) :=
  match find_create_longstr (encode_extra eo) s data lang type o with
  | None => None
  | Some (s, off) => Some (s, if off =? 0 then WG_ILLEGAL else encode_longstr_offset off)
  end.

(** ** Together with the records
    Db/dbdata.c l.726-741, l.856-862, l.275-276: the calls made by the functions of RecordModel. *)
Definition v_ref (v : option sst) (h : Z) : option sst :=
  match v with None => None | Some s => ref_long s h end.
(** Db/dbdata.c l.726-741, l.856-862, l.275-276. *)
Definition v_free (v : option sst) (h : Z) : option sst :=
  match v with None => None | Some s => free_field_encoffset NEST s h end.
End Store.
(** Db/dballoc.c l.446 and an empty segment: no strings. *)
Definition s_init : sst := SST (fun _ => None) (fun _ => None) (fun _ => 0) 0.
