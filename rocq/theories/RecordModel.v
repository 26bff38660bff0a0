(** Model of records: creation, deletion, field assignment and the lists of
    referring records (backlinks). Db/dbdata.c l.118-289, l.417-575, l.613-936.

    A record is its meta word, its fields and its list of referring records (the
    cars of the list cells starting at the word RECORD_BACKLINKS_POS). The indexes
    and the store of values are parameters, so that this file fixes only the order
    in which they are called. [None] is undefined behaviour (following a freed list
    cell, an offset where there is no record, or writing at offset 0 when no list
    cell could be allocated). *)
From Coq Require Import ZArith List Bool.
From Verif Require Import Base EncodingModel.
Import ListNotations.
Open Scope Z_scope.

(** Db/dbdata.h l.257-259: position of meta word and backlinks in the record header. *)
Record rec := Rec { r_meta : Z; r_fields : list Z; r_back : list Z }.

(** Db/dbdata.h l.265, l.271-272: RECORD_META_NOTDATA, is_special_record. *)
Definition is_special_record (r : rec) : bool := negb (Z.land (r_meta r) 1 =? 0).
(** Db/dballoc.h l.258: MAX_INDEXED_FIELDNR. *)
Definition MAX_INDEXED_FIELDNR := 127.

(** Db/dbdata.c l.1149-1170: reading a field. *)
Definition field (r : rec) (i : Z) : Z := nth (Z.to_nat i) (r_fields r) 0.
(** Db/dbdata.c l.582-592: wg_get_record_len. *)
Definition reclen (r : rec) : Z := Z.of_nat (length (r_fields r)).

(** Storing into a field (Db/dbdata.c l.744). *)
Fixpoint set_nth (l : list Z) (n : nat) (v : Z) : list Z :=
  match l, n with
  | [], _ => []
  | _ :: l, O => v :: l
  | x :: l, S n => x :: set_nth l n v
  end.
(** Db/dbdata.c l.744. *)
Definition with_field (r : rec) (i v : Z) : rec :=
  Rec (r_meta r) (set_nth (r_fields r) (Z.to_nat i) v) (r_back r).
(** Storing a list of parents (Db/dbdata.c l.706-725, l.766-780). *)
Definition with_back (r : rec) (b : list Z) : rec := Rec (r_meta r) (r_fields r) b.

(** Db/dbdata.c l.1358-1394: an encoded value is a record reference iff it is not 0
    and its last three bits are DATARECBITS. *)
Definition is_record_ref (d : Z) : bool := negb (d =? 0) && (Z.land d 7 =? 0).

(** The records by offset (Db/dbdata.h l.250-268). *)
Definition rmap := Z -> option rec.
(** A record made, changed or removed (Db/dbdata.c l.141-193, l.282). *)
Definition rput (m : rmap) (o : Z) (r : option rec) : rmap := fun x => if x =? o then r else m x.

(** Db/dbdata.c l.258-273, l.706-725: removing the first list cell naming the parent
    from the chain of the child; [None]: not found ("Corrupt backlink chain"). *)
Fixpoint unlink (p : Z) (l : list Z) : option (list Z) :=
  match l with
  | [] => None
  | x :: l => if x =? p then Some l
              else match unlink p l with Some l' => Some (x :: l') | None => None end
  end.

(** Db/dbdata.c l.417-433: wg_get_first_parent (0 for NULL). *)
Definition wg_get_first_parent (r : rec) : Z := hd 0 (r_back r).
(** Db/dbdata.c l.447-457: the loop of wg_get_next_parent over the chain. *)
Fixpoint next_parent (l : list Z) (parent : Z) : Z :=
  match l with
  | x :: ((y :: _) as l') => if (x =? parent) && negb (y =? 0) then y else next_parent l' parent
  | _ => 0
  end.
(** Db/dbdata.c l.438-460: wg_get_next_parent. *)
Definition wg_get_next_parent (r : rec) (parent : Z) : Z := next_parent (r_back r) parent.
(** The caller's loop, l.417-460: first parent, then next parent of the last one
    returned, until NULL; [None] when not finished after [n] calls. *)
Fixpoint parents_from (n : nat) (r : rec) (p : Z) : option (list Z) :=
  match n with
  | O => None
  | S n => if p =? 0 then Some []
           else match parents_from n r (wg_get_next_parent r p) with
                | Some l => Some (p :: l)
                | None => None
                end
  end.
(** Db/dbdata.c l.417-460. *)
Definition parents (n : nat) (r : rec) : option (list Z) := parents_from n r (wg_get_first_parent r).

Section Ops.
(** The indexes (Db/dbindex.c): state, "column has an index" (l.648-651,
    index_table or index_template_table), "index_table has an entry" (l.494), and
    the maintenance functions l.2677-2990 with their return code. *)
Context {I V : Type}.
Variable ix_any : I -> Z -> bool.
Variable ix_tab : I -> Z -> bool.
Variable ix_add_rec ix_del_rec : rmap -> V -> I -> Z -> option (I * Z).
Variable ix_add_field ix_del_field : rmap -> V -> I -> Z -> Z -> option (I * Z).
(** Raising the count of a long string (l.730-738) and free_field_encoffset (l.1229-1335). *)
Variable v_ref v_free : V -> Z -> V.

(** The database as seen by this file (Db/dbdata.c l.118-936). *)
Record rdb := RDB { d_rec : rmap; d_ix : I; d_val : V }.

(** Db/dbdata.c l.118-127, l.141-193: wg_create_record and wg_create_raw_record; [o] is
    the offset chosen by the allocator, 0 if there is no memory. Returns the offset
    or 0. *)
Definition wg_create_raw_record (d : rdb) (length o : Z) : rdb * Z :=
  if length <? 0 then (d, 0)
  else if o =? 0 then (d, 0)
  else (RDB (rput (d_rec d) o (Some (Rec 0 (repeat 0 (Z.to_nat length)) []))) (d_ix d) (d_val d), o).
(** Db/dbdata.c l.118-127, l.141-193. *)
Definition wg_create_record (d : rdb) (length o : Z) : option (rdb * Z) :=
  let '(d, rec) := wg_create_raw_record d length o in
  if rec =? 0 then Some (d, 0)
  else match ix_add_rec (d_rec d) (d_val d) (d_ix d) rec with
       | None => None
       | Some (ix, c) => Some (RDB (d_rec d) ix (d_val d), if c <? -1 then 0 else rec)
       end.

(** Db/dbdata.c l.245-279: the loop of wg_delete_record over the fields. *)
Fixpoint delete_fields (m : rmap) (v : V) (o : Z) (fs : list Z) : option (rmap * V * Z) :=
  match fs with
  | [] => Some (m, v, 0)
  | data :: fs =>
      if is_record_ref data then
        match m data with
        | None => None
        | Some c =>
            match unlink o (r_back c) with
            | None => Some (m, v, -3)
            | Some b =>
                delete_fields (rput m data (Some (with_back c b)))
                  (if isptr data then v_free v data else v) o fs
            end
        end
      else delete_fields m (if isptr data then v_free v data else v) o fs
  end.

(** Db/dbdata.c l.204-289: wg_delete_record; [freed]: wg_free_object succeeded. *)
Definition wg_delete_record (d : rdb) (o : Z) (freed : bool) : option (rdb * Z) :=
  match d_rec d o with
  | None => None
  | Some r =>
      match r_back r with
      | _ :: _ => Some (d, -1)
      | [] =>
          match (if is_special_record r then Some (d_ix d, 0)
                 else ix_del_rec (d_rec d) (d_val d) (d_ix d) o) with
          | None => None
          | Some (ix, c) =>
              if c <? -1 then Some (RDB (d_rec d) ix (d_val d), -3)
              else match delete_fields (d_rec d) (d_val d) o (r_fields r) with
                   | None => None
                   | Some (m, v, e) =>
                       if negb (e =? 0) then Some (RDB m ix v, e)
                       else if freed then Some (RDB (rput m o None) ix v, 0)
                       else Some (RDB m ix v, -3)
                   end
          end
      end
  end.

(** Db/dbdata.c l.478-500, l.536-554: the columns of a record (at most the first 128)
    holding the value; [upd] is wg_index_del_field or wg_index_add_field. *)
Fixpoint entry_cols (upd : I -> Z -> option (I * Z)) (ix : I) (value : Z) (fs : list Z) (col : Z) : option (I * Z) :=
  match fs with
  | [] => Some (ix, 0)
  | f :: fs =>
      if MAX_INDEXED_FIELDNR <? col then Some (ix, 0)
      else if (f =? value) && ix_tab ix col then
        match upd ix col with
        | None => None
        | Some (ix, c) => if c <? -1 then Some (ix, -1) else entry_cols upd ix value fs (col + 1)
        end
      else entry_cols upd ix value fs (col + 1)
  end.

(** The walk over a chain of referring records, l.507-519, l.559-571, l.668-683, l.783-798;
    the first error ends it. *)
Fixpoint chain (f : I -> Z -> option (I * Z)) (ix : I) (l : list Z) : option (I * Z) :=
  match l with
  | [] => Some (ix, 0)
  | p :: l => match f ix p with
              | None => None
              | Some (ix, e) => if negb (e =? 0) then Some (ix, e) else chain f ix l
              end
  end.

(** Db/dbdata.c l.474-523 [remove_backlink_index_entries] and l.532-575
    [restore_backlink_index_entries], which differ in the index function called. *)
Fixpoint backlink_entries (upd : I -> Z -> Z -> option (I * Z)) (m : rmap) (depth : nat) (ix : I) (record value : Z)
  : option (I * Z) :=
  match m record with
  | None => None
  | Some r =>
      match (if is_special_record r then Some (ix, 0)
             else entry_cols (fun ix col => upd ix record col) ix value (r_fields r) 0) with
      | None => None
      | Some (ix, e) =>
          if negb (e =? 0) then Some (ix, e)
          else match depth with
               | O => Some (ix, 0)
               | S depth =>
                   chain (fun ix p => backlink_entries upd m depth ix p (wg_encode_record record)) ix (r_back r)
               end
      end
  end.
(** Db/dbdata.c l.675: WG_COMPARE_REC_DEPTH-1, and WG_COMPARE_REC_DEPTH is 7
    (Db/dbcompare.h l.51). *)
Definition CHAIN_DEPTH : nat := 6%nat.

(** Db/dbdata.c l.760-779, l.889-908: appending a list cell naming the parent to the
    chain of the child; [cell]: a list cell could be allocated. *)
Definition add_backlink (m : rmap) (o data : Z) (cell : bool) : option rmap :=
  if is_record_ref data then
    match m data with
    | None => None
    | Some c => if cell then Some (rput m data (Some (with_back c (r_back c ++ [o])))) else None
    end
  else Some m.

(** Db/dbdata.h l.634-643: recordcheck. *)
Definition field_ok (r : rec) (i : Z) : bool := negb ((i <? 0) || (reclen r <=? i)).

(** Db/dbdata.c l.648-655, l.747-754: is the field to be indexed? *)
Definition indexed (ix : I) (r : rec) (i : Z) : bool :=
  negb (is_special_record r) && (i <=? MAX_INDEXED_FIELDNR) && ix_any ix i.

(** Db/dbdata.c l.613-801: wg_set_field. [backlink_list] is read before the change
    (l.667) and followed again after it (l.783), so a chain whose first cell has been
    freed in between is followed from a freed cell. *)
Definition wg_set_field (d : rdb) (o i data : Z) (cell : bool) : option (rdb * Z) :=
  match d_rec d o with
  | None => None
  | Some r =>
    if negb (field_ok r i) then Some (d, -2)
    else
    let old := field r i in
    if old =? data then Some (d, 0)
    else
    match (if indexed (d_ix d) r i then ix_del_field (d_rec d) (d_val d) (d_ix d) o i else Some (d_ix d, 0)) with
    | None => None
    | Some (ix, c) =>
    if c <? -1 then Some (RDB (d_rec d) ix (d_val d), -3)
    else
    match chain (fun ix p => backlink_entries (ix_del_field (d_rec d) (d_val d)) (d_rec d) CHAIN_DEPTH ix p
                               (wg_encode_record o)) ix (r_back r) with
    | None => None
    | Some (ix, e) =>
    if negb (e =? 0) then Some (RDB (d_rec d) ix (d_val d), -4)
    else
    match (if is_record_ref old then
             match d_rec d old with
             | None => None
             | Some ch => match unlink o (r_back ch) with
                          | None => Some None
                          | Some b => Some (Some (rput (d_rec d) old (Some (with_back ch b))))
                          end
             end
           else Some (Some (d_rec d))) with
    | None => None
    | Some None => Some (RDB (d_rec d) ix (d_val d), -4)
    | Some (Some m) =>
    let v := if Z.land data 7 =? 4 then v_ref (d_val d) data else d_val d in
    let v := if isptr old then v_free v old else v in
    match m o with
    | None => None
    | Some r1 =>
    let m := rput m o (Some (with_field r1 i data)) in
    match (if indexed ix r i then ix_add_field m v ix o i else Some (ix, 0)) with
    | None => None
    | Some (ix, c) =>
    if c <? -1 then Some (RDB m ix v, -3)
    else
    match add_backlink m o data cell with
    | None => None
    | Some m =>
    match r_back r with
    | [] => Some (RDB m ix v, 0)
    | p :: _ =>
        if (old =? o) && (p =? o) then None
        else
        match m o with
        | None => None
        | Some r2 =>
        match chain (fun ix p => backlink_entries (ix_add_field m v) m CHAIN_DEPTH ix p (wg_encode_record o))
                ix (r_back r2) with
        | None => None
        | Some (ix, e) => Some (RDB m ix v, if e =? 0 then 0 else -4)
        end
        end
    end
    end
    end
    end
    end
    end
    end
  end.

(** Db/dbdata.c l.822-936: wg_set_new_field. *)
Definition wg_set_new_field (d : rdb) (o i data : Z) (cell : bool) : option (rdb * Z) :=
  match d_rec d o with
  | None => None
  | Some r =>
    if negb (field_ok r i) then Some (d, -2)
    else if negb (field r i =? 0) then Some (d, -2)
    else
    let m := rput (d_rec d) o (Some (with_field r i data)) in
    let v := if Z.land data 7 =? 4 then v_ref (d_val d) data else d_val d in
    match (if indexed (d_ix d) r i then ix_add_field m v (d_ix d) o i else Some (d_ix d, 0)) with
    | None => None
    | Some (ix, c) =>
    if c <? -1 then Some (RDB m ix v, -3)
    else
    match add_backlink m o data cell with
    | None => None
    | Some m =>
    match m o with
    | None => None
    | Some r2 =>
    match chain (fun ix p => backlink_entries (ix_add_field m v) m CHAIN_DEPTH ix p (wg_encode_record o))
            ix (r_back r2) with
    | None => None
    | Some (ix, e) => Some (RDB m ix v, if e =? 0 then 0 else -4)
    end
    end
    end
    end
  end.
End Ops.
