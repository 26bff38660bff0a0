(** Hash index (Db/dbhash.c l.267-565, Db/dbindex.c l.1467-1709). *)
From Coq Require Import ZArith List Bool Floats.SpecFloat.
From Verif Require Import Base EncodingModel CompareModel FixpModel.
Import ListNotations.
Open Scope Z_scope.

(** ** Values as bytes *)
(** The [n] bytes of a little endian integer (Db/dbhash.c l.304-364: the address of a local
    variable is taken as the data). *)
Fixpoint lebytes (n : nat) (v : Z) : list Z :=
  match n with O => [] | S m => v mod 256 :: lebytes m (v / 256) end.

(** Db/dbdata.c l.2737-2772: wg_decode_unistr_len, the length of the string without the
    terminating 0. *)
Definition wg_decode_unistr_len (s : cstate) (e : Z) : Z :=
  if isshortstr e then Z.of_nat (length (cstring s (decode_shortstr_offset e)))
  else if islongstr e then wg_decode_blob_len s e - 1 else 0.
(** The bytes of the string itself, taken with that length (Db/dbhash.c l.329-344). *)
Definition strbytes (s : cstate) (e : Z) : list Z :=
  match wg_decode_unistr e with Some p => bytes_at s p (wg_decode_unistr_len s e) | None => [] end.
(** Db/dbhash.c l.269-280: CONCAT_FOR_HASHING, the prefix or xsd type in front of the string. *)
Definition concat_for_hashing (s : cstate) (e : Z) (b : list Z) : list Z :=
  match wg_decode_unistr_lang s e with
  | Some x => cstring s x ++ 0 :: b
  | None => b
  end.

(** Db/dbhash.c l.293-385: wg_decode_for_hashing, the bytes with the type in front; [None] is
    the return value 0. *)
Definition wg_decode_for_hashing (s : cstate) (enc : Z) : option (list Z) :=
  let t := encoded_type (words s) enc in
  let out b := Some (t mod 256 :: b) in
  if t =? WG_NULLTYPE then out (lebytes 8 0)
  else if t =? WG_RECORDTYPE then out (lebytes 8 enc)
  else if t =? WG_INTTYPE then out (lebytes 4 (wg_decode_int s enc))
  else if t =? WG_DOUBLETYPE then out (lebytes 8 (wg_decode_double s enc))
  else if t =? WG_FIXPOINTTYPE then out (lebytes 8 (bits_of_double (ddecode_fixpoint enc)))
  else if t =? WG_STRTYPE then out (strbytes s enc)
  else if t =? WG_URITYPE then out (concat_for_hashing s enc (strbytes s enc))
  else if t =? WG_XMLLITERALTYPE then out (concat_for_hashing s enc (strbytes s enc))
  else if t =? WG_CHARTYPE then out (lebytes 4 (wg_decode_char enc))
  else if t =? WG_DATETYPE then out (lebytes 4 (wg_decode_date enc))
  else if t =? WG_TIMETYPE then out (lebytes 4 (wg_decode_time enc))
  else if t =? WG_VARTYPE then out (lebytes 4 (wg_decode_var enc))
  else None.

(** ** The hash table *)
(** A bucket (Db/dbhash.h l.43-46): length of the data, data, list of records, next bucket. *)
Record bucket := Bk { k_len : Z; k_data : list Z; k_rec : Z; k_chain : Z }.
(** The hash array of an index with its buckets and list cells (car, cdr) by offset
    (Db/dballoc.h l.246-250, l.350-356: gcell, db_hash_area_header). [i_made] counts the allocated cells and
    bounds the walks. *)
Record ihash := IH { i_size : Z; i_head : Z -> Z; i_bk : Z -> option bucket; i_cell : Z -> option (Z * Z); i_made : nat }.

(** A function changed at one place (a store into the segment, Db/dballoc.h l.197). *)
Definition fset {A} (f : Z -> A) (x : Z) (v : A) : Z -> A := fun y => if y =? x then v else f y.

(** Db/dballoc.c l.430-454: a new array is filled with 0 (wg_create_hash, l.1438-1445). *)
Definition wg_create_hash (size : Z) : ihash := IH size (fun _ => 0) (fun _ => None) (fun _ => None) 0.

(** Db/dbhash.c l.390-400: hash_bytes; the bytes are of the signed type char. *)
Definition schar (b : Z) : Z := if b <? 128 then b else b - 256.
(** Db/dbhash.c l.390-400. *)
Definition hash_step (h b : Z) : Z := u64 (schar b + h * 2 ^ 6 + h * 2 ^ 16 - h).
(** Db/dbhash.c l.390-400. *)
Definition hash_bytes (data : list Z) (hashsz : Z) : Z := fold_left hash_step data 0 mod hashsz.

(** memcmp of two areas of the same length (Db/dbhash.c l.418). *)
Definition bytes_eqb (a b : list Z) : bool := if list_eq_dec Z.eq_dec a b then true else false.

(** Db/dbhash.c l.408-425: find_idxhash_bucket from the bucket [b] on; the found bucket (0 if
    none) and the bucket whose chain field points to it (0 for the head of the chain).
    [None] reads an offset that is no bucket. *)
Fixpoint find_idxhash_bucket (fuel : nat) (h : ihash) (data : list Z) (b prev : Z) : option (Z * Z) :=
  if b =? 0 then Some (0, prev)
  else match fuel with
  | O => None
  | S f =>
      match i_bk h b with
      | None => None
      | Some k =>
          if (k_len k =? Z.of_nat (length data)) && bytes_eqb (k_data k) data then Some (b, prev)
          else find_idxhash_bucket f h data (k_chain k) b
      end
  end.

(** Walk over the list of records up to the cell with [car] = [offset] (Db/dbhash.c
    l.518-531): the cell (0 if none) and the cell before it (0 for the first). *)
Fixpoint find_cell (fuel : nat) (h : ihash) (c prev offset : Z) : option (Z * Z) :=
  if c =? 0 then Some (0, prev)
  else match fuel with
  | O => None
  | S f =>
      match i_cell h c with
      | None => None
      | Some (car, cdr) => if car =? offset then Some (c, prev) else find_cell f h cdr c offset
      end
  end.

Section Alloc.
(** wg_alloc_gints and wg_alloc_fixlen_object: 0 or the offset of the new object
    (Db/dbhash.c l.460-465, l.487). *)
Variables alloc_bucket alloc_cell : ihash -> Z.

(** Db/dbhash.c l.434-494: wg_idxhash_store. The result of allocating the list cell is not
    checked: writing through it is [None]. *)
Definition wg_idxhash_store (h : ihash) (data : list Z) (offset : Z) : option (ihash * Z) :=
  let hash := hash_bytes data (i_size h) in
  let head := i_head h hash in
  match find_idxhash_bucket (i_made h) h data head 0 with
  | None => None
  | Some (bucket, _) =>
      let new := alloc_bucket h in
      if (bucket =? 0) && (new =? 0) then Some (h, -1)
      else
        let h1 := if bucket =? 0
          then IH (i_size h) (fset (i_head h) hash new)
                  (fset (i_bk h) new (Some (Bk (Z.of_nat (length data)) data 0 head))) (i_cell h) (i_made h)
          else h in
        let b := if bucket =? 0 then new else bucket in
        match i_bk h1 b with
        | None => None
        | Some k =>
            let c := alloc_cell h1 in
            if c =? 0 then None
            else Some (IH (i_size h1) (i_head h1) (fset (i_bk h1) b (Some (Bk (k_len k) (k_data k) c (k_chain k))))
                          (fset (i_cell h1) c (Some (offset, k_rec k))) (S (i_made h1)), 0)
        end
  end.

(** Db/dbhash.c l.502-541: wg_idxhash_remove. *)
Definition wg_idxhash_remove (h : ihash) (data : list Z) (offset : Z) : option (ihash * Z) :=
  let hash := hash_bytes data (i_size h) in
  match find_idxhash_bucket (i_made h) h data (i_head h hash) 0 with
  | None => None
  | Some (bucket, prevb) =>
      if bucket =? 0 then Some (h, -1)
      else
        match i_bk h bucket with
        | None => None
        | Some k =>
            match find_cell (i_made h) h (k_rec k) 0 offset with
            | None => None
            | Some (c, prevc) =>
                if c =? 0 then Some (h, -1)
                else
                  match i_cell h c with
                  | None => None
                  | Some (_, cdr) =>
                      (* remove from the list, free the cell *)
                      let reclist := if prevc =? 0 then cdr else k_rec k in
                      let cells := if prevc =? 0 then i_cell h else
                        match i_cell h prevc with Some (car, _) => fset (i_cell h) prevc (Some (car, cdr)) | None => i_cell h end in
                      let cells := fset cells c None in
                      if reclist =? 0 then
                        (* remove from the chain, free the bucket *)
                        let heads := if prevb =? 0 then fset (i_head h) hash (k_chain k) else i_head h in
                        let bks := if prevb =? 0 then i_bk h else
                          match i_bk h prevb with
                          | Some p => fset (i_bk h) prevb (Some (Bk (k_len p) (k_data p) (k_rec p) (k_chain k)))
                          | None => i_bk h
                          end in
                        Some (IH (i_size h) heads (fset bks bucket None) cells (i_made h), 0)
                      else Some (IH (i_size h) (i_head h) (fset (i_bk h) bucket (Some (Bk (k_len k) (k_data k) reclist (k_chain k)))) cells (i_made h), 0)
                  end
            end
        end
  end.

(** Db/dbhash.c l.549-565: wg_idxhash_find, the first cell of the list or 0. *)
Definition wg_idxhash_find (h : ihash) (data : list Z) : option Z :=
  match find_idxhash_bucket (i_made h) h data (i_head h (hash_bytes data (i_size h))) 0 with
  | None => None
  | Some (bucket, _) => if bucket =? 0 then Some 0 else
      match i_bk h bucket with None => None | Some k => Some (k_rec k) end
  end.

(** ** The index *)
(** Db/dbindex.c l.62-64: HASHIDX_OP_STORE, HASHIDX_OP_REMOVE, HASHIDX_OP_FIND. *)
Inductive hop := HStore | HRemove | HFind.
(** Db/dbdata.h l.257-273: RECORD_META_POS, is_plain_record, is_schema_array. *)
Definition record_meta (s : cstate) (rec : Z) : Z := words s (rec + 8 * 1).
(** Db/dbdata.h l.257-273. *)
Definition is_plain_record (s : cstate) (rec : Z) : bool := record_meta s rec =? 0.
(** Db/dbdata.h l.257-273. *)
Definition is_schema_array (s : cstate) (rec : Z) : bool := negb (Z.land (record_meta s rec) 0x40 =? 0).

(** The loop over the elements of an array (Db/dbindex.c l.1526-1535): stops at the first
    result that is not 0. *)
Fixpoint array_loop (f : ihash -> Z -> option (ihash * Z)) (s : cstate) (rec : Z) (h : ihash) (i : Z) (n : nat) : option (ihash * Z) :=
  match n with
  | O => Some (h, 0)
  | S m =>
      match f h (wg_get_field s rec i) with
      | None => None
      | Some (h', rc) => if rc =? 0 then array_loop f s rec h' (i + 1) m else Some (h', rc)
      end
  end.
(** Db/dbindex.c l.1579-1597: the bytes of the next value after those collected so far. *)
Definition extend (prefix b : list Z) : list Z :=
  match prefix with [] => b | _ => prefix ++ 0 :: b end.
(** Db/dbindex.c l.1515-1563: hash_recurse, with hash_extend_prefix (l.1566-1603) unfolded. *)
Fixpoint hash_recurse (s : cstate) (h : ihash) (prefix : list Z) (values : list Z) (rec : Z) (op : hop) (expand : bool) : option (ihash * Z) :=
  match values with
  | [] =>
      match op with
      | HStore => wg_idxhash_store h prefix rec
      | HRemove => wg_idxhash_remove h prefix rec
      | HFind => match wg_idxhash_find h prefix with Some c => Some (h, c) | None => None end
      end
  | v :: rest =>
      let hash_extend_prefix (h : ihash) (nextval : Z) :=
        match wg_decode_for_hashing s nextval with
        | None => Some (h, -1)
        | Some b => hash_recurse s h (extend prefix b) rest rec op expand
        end in
      if expand && (encoded_type (words s) v =? WG_RECORDTYPE) && is_schema_array s (wg_decode_record v)
      then array_loop hash_extend_prefix s (wg_decode_record v) h 0 (Z.to_nat (wg_get_record_len s (wg_decode_record v)))
      else hash_extend_prefix h v
  end.

(** Values of the indexed columns (Db/dbindex.c l.1479-1481, l.1496-1498). *)
Definition row_values (s : cstate) (columns : list Z) (rec : Z) : list Z := map (wg_get_field s rec) columns.
(** Db/dbindex.c l.1474-1484: hash_add_row; l.1491-1501: hash_remove_row. [json] is the index
    type WG_INDEX_TYPE_HASH_JSON. *)
Definition hash_add_row (s : cstate) (columns : list Z) (json : bool) (h : ihash) (rec : Z) : option (ihash * Z) :=
  hash_recurse s h [] (row_values s columns rec) rec HStore json.
(** Db/dbindex.c l.1474-1484, l.1491-1501. *)
Definition hash_remove_row (s : cstate) (columns : list Z) (json : bool) (h : ihash) (rec : Z) : option (ihash * Z) :=
  hash_recurse s h [] (row_values s columns rec) rec HRemove json.
(** Db/dbindex.c l.1693-1709: wg_search_hash, the first cell of the list of rows, 0 or -1. *)
Definition wg_search_hash (s : cstate) (columns : list Z) (h : ihash) (values : list Z) : option Z :=
  if negb (Nat.eqb (length columns) (length values)) then Some (-1)
  else match hash_recurse s h [] values 0 HFind false with Some (_, c) => Some c | None => None end.

(** The list of rows from a cell on, as the JSON query reads it (Db/dbquery.c l.1898-1907). *)
Fixpoint read_cells (fuel : nat) (h : ihash) (c : Z) : option (list Z) :=
  if c =? 0 then Some []
  else match fuel with
  | O => None
  | S f => match i_cell h c with
           | None => None
           | Some (car, cdr) => match read_cells f h cdr with Some l => Some (car :: l) | None => None end
           end
  end.
(** Db/dbquery.c l.1898-1907. *)
Definition search_rows (s : cstate) (columns : list Z) (h : ihash) (values : list Z) : option (list Z) :=
  match wg_search_hash s columns h values with
  | Some c => if c <=? 0 then Some [] else read_cells (i_made h) h c
  | None => None
  end.

(** Db/dbindex.c l.1609-1646: create_hash_index over the records in the order of the database;
    [matches] is MATCH_TEMPLATE. The result of adding a row is ignored. *)
Fixpoint create_loop (s : cstate) (columns : list Z) (json : bool) (matches : Z -> bool) (recs : list Z) (h : ihash) : option ihash :=
  match recs with
  | [] => Some h
  | rec :: more =>
      if wg_get_record_len s rec <=? hd 0 columns then create_loop s columns json matches more h
      else if matches rec && (negb json || is_plain_record s rec) then
        match hash_add_row s columns json h rec with
        | Some (h', _) => create_loop s columns json matches more h'
        | None => None
        end
      else create_loop s columns json matches more h
  end.
(** DEFAULT_IDXHASH_LENGTH (10000, Db/dballoc.h l.169) is the size for 0 (Db/dbindex.c l.1618). *)
Definition create_hash_index (size : Z) (s : cstate) (columns : list Z) (json : bool) (matches : Z -> bool) (recs : list Z) : option ihash :=
  create_loop s columns json matches recs (wg_create_hash size).
End Alloc.
