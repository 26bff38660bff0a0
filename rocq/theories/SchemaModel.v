(** Model of Db/dbschema.c: triples, arrays, objects and documents made of records.
    Built on the functions of RecordModel.v; journalling (l.109-114, l.144-149) is off.
    [None] is undefined behaviour in the functions called. *)
From Coq Require Import ZArith List Bool.
From Verif Require Import Base EncodingModel RecordModel.
Import ListNotations.
Open Scope Z_scope.

(** Db/dbdata.h l.263-268: meta bits of schema records. *)
Definition META_PARAM := 3. (* RECORD_META_NOTDATA|RECORD_META_MATCH *)
(** Db/dbdata.h l.266. *)
Definition META_DOC := 16.
(** Db/dbdata.h l.267. *)
Definition META_OBJECT := 32.
(** Db/dbdata.h l.268. *)
Definition META_ARRAY := 64.
(** Db/dbdata.h l.273-278. *)
Definition has_meta (bit : Z) (r : rec) : bool := negb (Z.land (r_meta r) bit =? 0).
(** Db/dbdata.h l.273-278. *)
Definition is_schema_array := has_meta META_ARRAY.
(** Db/dbdata.h l.273-278. *)
Definition is_schema_object := has_meta META_OBJECT.
(** Db/dbdata.h l.273-278. *)
Definition is_schema_document := has_meta META_DOC.
(** Db/dbcompare.h l.51. *)
Definition WG_COMPARE_REC_DEPTH : nat := 7%nat.
(** Db/dbschema.h l.33-36. *)
Definition WG_SCHEMA_TRIPLE_SIZE := 3.
(** Db/dbschema.h l.33-36. *)
Definition WG_SCHEMA_TRIPLE_OFFSET := 0.
(** Db/dbschema.h l.33-36. *)
Definition WG_SCHEMA_KEY_OFFSET := WG_SCHEMA_TRIPLE_OFFSET + 1.
(** Db/dbschema.h l.33-36. *)
Definition WG_SCHEMA_VALUE_OFFSET := WG_SCHEMA_TRIPLE_OFFSET + 2.

(** Db/dbschema.c l.186-208: find_document_recursive; 0 is NULL. *)
Fixpoint find_document_recursive (m : rmap) (depth : nat) (rec : Z) : option Z :=
  match m rec with
  | None => None
  | Some r =>
      if is_schema_document r then Some rec
      else match depth with
           | O => Some 0
           | S depth =>
               (fix parents (l : list Z) : option Z :=
                  match l with
                  | [] => Some 0
                  | car :: l =>
                      match find_document_recursive m depth car with
                      | None => None
                      | Some res => if negb (res =? 0) then Some res else parents l
                      end
                  end) (r_back r)
           end
  end.
(** Db/dbschema.c l.165-172: wg_find_document. *)
Definition wg_find_document (m : rmap) (rec : Z) : option Z := find_document_recursive m (WG_COMPARE_REC_DEPTH - 1) rec.

Section Schema.
Context {I V : Type}.
(** The indexes and values as in RecordModel.v. *)
Variable ix_any ix_tab : I -> Z -> bool.
Variable ix_add_rec ix_del_rec : rmap -> V -> I -> Z -> option (I * Z).
Variable ix_add_field ix_del_field : rmap -> V -> I -> Z -> Z -> option (I * Z).
Variable v_ref v_free : V -> Z -> V.
(** Offset found by the allocator for a record of the given length (0: none), a list cell
    can be allocated, wg_free_object succeeds (Db/dbdata.c l.164, l.769, l.282). *)
Variable alloc_rec : @rdb I V -> Z -> Z.
Variable cell_ok : @rdb I V -> bool.
Variable free_ok : @rdb I V -> Z -> bool.

(** The functions of Db/dbdata.c with these (l.613-801). *)
Definition set_field (d : @rdb I V) (o i data : Z) : option (@rdb I V * Z) :=
  wg_set_field ix_any ix_tab ix_add_field ix_del_field v_ref v_free d o i data (cell_ok d).
(** wg_delete_record with these (Db/dbdata.c l.204-289). *)
Definition delete_record (d : @rdb I V) (o : Z) : option (@rdb I V * Z) :=
  wg_delete_record ix_del_rec v_free d o (free_ok d o).

(** Writing the meta word (Db/dbschema.c l.75, l.115, l.150). *)
Definition set_meta (d : @rdb I V) (o meta : Z) : @rdb I V :=
  match d_rec d o with
  | Some r => RDB (rput (d_rec d) o (Some (Rec meta (r_fields r) (r_back r)))) (d_ix d) (d_val d)
  | None => d
  end.
(** Db/dbschema.c l.75, l.115, l.150. *)
Definition get_meta (d : @rdb I V) (o : Z) : Z := match d_rec d o with Some r => r_meta r | None => 0 end.
(** wg_index_add_rec (Db/dbschema.c l.76, l.117, l.152): [false] for an index error. *)
Definition index_add (d : @rdb I V) (o : Z) : option (@rdb I V * bool) :=
  match ix_add_rec (d_rec d) (d_val d) (d_ix d) o with
  | None => None
  | Some (ix, c) => Some (RDB (d_rec d) ix (d_val d), negb (c <? -1))
  end.

(** Assignments one after the other, the first failure ends them with [false]: l.80-85; also
    Db/dbjson.c l.492-498. *)
Fixpoint set_fields (d : @rdb I V) (o i : Z) (vs : list Z) : option (@rdb I V * bool) :=
  match vs with
  | [] => Some (d, true)
  | v :: vs =>
      match set_field d o i v with
      | None => None
      | Some (d, c) => if negb (c =? 0) then Some (d, false) else set_fields d o (i + 1) vs
      end
  end.

(** Db/dbschema.c l.69-88: wg_create_triple. *)
Definition wg_create_triple (d : @rdb I V) (subj prop ob : Z) (isparam : bool) : option (@rdb I V * Z) :=
  let '(d, rec) := wg_create_raw_record d WG_SCHEMA_TRIPLE_SIZE (alloc_rec d WG_SCHEMA_TRIPLE_SIZE) in
  if rec =? 0 then Some (d, 0)
  else
    match (if isparam then Some (set_meta d rec (Z.lor (get_meta d rec) META_PARAM), true) else index_add d rec) with
    | None => None
    | Some (d, false) => Some (d, 0)
    | Some (d, true) =>
        match set_fields d rec WG_SCHEMA_TRIPLE_OFFSET [subj; prop; ob] with
        | None => None
        | Some (d, ok) => Some (d, if ok then rec else 0)
        end
    end.
(** Db/dbschema.h l.44-45: wg_create_kvpair. *)
Definition wg_create_kvpair (d : @rdb I V) (key val : Z) (isparam : bool) := wg_create_triple d 0 key val isparam.

(** Db/dbschema.c l.97-123: wg_create_array and l.132-158: wg_create_object, which differ in
    the meta bit set (l.103, l.138). *)
Definition create_schema (bit : Z) (d : @rdb I V) (size : Z) (isdocument isparam : bool) : option (@rdb I V * Z) :=
  let '(d, rec) := wg_create_raw_record d size (alloc_rec d size) in
  if rec =? 0 then Some (d, 0)
  else
    let meta := Z.lor (get_meta d rec) bit in
    let meta := if isdocument then Z.lor meta META_DOC else meta in
    let meta := if isparam then Z.lor meta META_PARAM else meta in
    let d := set_meta d rec meta in
    if isparam then Some (d, rec)
    else match index_add d rec with
         | None => None
         | Some (d, ok) => Some (d, if ok then rec else 0)
         end.
(** Db/dbschema.c l.97-123, l.132-158, l.103, l.138. *)
Definition wg_create_array := create_schema META_ARRAY.
(** Db/dbschema.c l.97-123, l.132-158, l.103, l.138. *)
Definition wg_create_object := create_schema META_OBJECT.

(** Db/dbschema.c l.239-254: the loop over the fields from [i], [k] of them left, and the deletion
    after it. *)
Fixpoint delete_loop (recurse : @rdb I V -> Z -> option (@rdb I V * Z)) (d : @rdb I V) (rec i : Z) (k : nat) : option (@rdb I V * Z) :=
  match k with
  | O =>
      match delete_record d rec with
      | None => None
      | Some (d, c) => Some (d, if c =? 0 then 0 else -1)
      end
  | S k =>
      match d_rec d rec with
      | None => None
      | Some r =>
          let enc := field r i in
          if is_record_ref enc then
            match set_field d rec i 0 with
            | None => None
            | Some (d, c) =>
                if negb (c =? 0) then Some (d, -1)
                else match recurse d (wg_decode_record enc) with
                     | None => None
                     | Some (d, c) => if negb (c =? 0) then Some (d, -1) else delete_loop recurse d rec (i + 1) k
                     end
            end
          else delete_loop recurse d rec (i + 1) k
      end
  end.
(** Db/dbschema.c l.233-255: delete_record_recursive. *)
Fixpoint delete_record_recursive (depth : nat) (d : @rdb I V) (rec : Z) : option (@rdb I V * Z) :=
  match depth with
  | O => Some (d, -1)
  | S depth =>
      match d_rec d rec with
      | None => None
      | Some r => delete_loop (delete_record_recursive depth) d rec 0 (length (r_fields r))
      end
  end.
(** Db/dbschema.c l.216-227: wg_delete_document. *)
Definition wg_delete_document (d : @rdb I V) (document : Z) : option (@rdb I V * Z) :=
  match d_rec d document with
  | None => None
  | Some r => if is_schema_document r then delete_record_recursive WG_COMPARE_REC_DEPTH d document else Some (d, -1)
  end.
End Schema.
