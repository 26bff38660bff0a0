(** Model of the document query of Db/dbquery.c (l.1596-2039) over the records of RecordModel.v
    and the result sets of ResultModel.v. The outer [None] is undefined behaviour (a reference
    to no record), the inner one is NULL. JSON_SCAN_UNWRAP_ARRAY is defined (l.66),
    USE_BACKLINKING too. *)
From Coq Require Import ZArith List Bool.
From Verif Require Import Base EncodingModel RecordModel SchemaModel ResultModel.
Import ListNotations.
Open Scope Z_scope.

(** Db/dbquery.h l.62-65: wg_json_query_arg. *)
Record arg := Arg { a_key : Z; a_value : Z }.

Section Query.
(** The records. *)
Variable m : rmap.
(** WG_COMPARE(db, a, b) == WG_EQUAL (Db/dbcompare.h l.53-58). *)
Variable equal : Z -> Z -> bool.
(** The records in the order of wg_get_first_record and wg_get_next_record (l.1980-1985). *)
Variable all_records : list Z.
(** Results of wg_multi_column_to_index_id for the hash index on both columns, the T-tree
    index on values and the T-tree index on keys (l.1773, l.1821, l.1824); -1: none. *)
Variable hash_id value_id key_id : Z.
(** The list found by wg_search_hash for a key and a value (l.1896). *)
Variable search_hash : Z -> Z -> list Z.
(** The rows between the bounds found by find_ttree_bounds in the index on keys (l.1921-1953). *)
Variable key_rows : Z -> list Z.
(** malloc of the sorted arguments and of the query succeeds (l.1781, l.2020). *)
Variable malloc_sorted malloc_query : bool.

(** A step over one row: the new set and the return code (Db/dbquery.c l.1604-1613). *)
Definition step := rset -> option (rset * Z).

(** Db/dbquery.c l.1604-1613: ADD_DOC_TO_RESULTSET. *)
Definition add_doc (mp : Z -> bool) (rec : Z) : step := fun ns =>
  match wg_find_document m rec with
  | None => None
  | Some doc =>
      if doc =? 0 then Some (ns, -1)
      else let (ns, e) := append_resultset mp ns doc in Some (ns, if e =? 0 then 1 else -1)
  end.
(** Db/dbquery.c l.1629-1640: ADD_DOC_ARRAY_UNWRAP. *)
Definition array_unwrap (mp : Z -> bool) (rec k v : Z) : step := fun ns =>
  match m (wg_decode_record k) with
  | None => None
  | Some arec => if is_schema_array arec && existsb (fun x => equal x v) (r_fields arec) then add_doc mp rec ns else Some (ns, 0)
  end.
(** Db/dbquery.c l.1671-1681, l.1705-1711: comparing the value. *)
Definition check_value (mp : Z -> bool) (rec : Z) (r : RecordModel.rec) (a : arg) : step := fun ns =>
  let k := field r WG_SCHEMA_VALUE_OFFSET in
  if equal k (a_value a) then add_doc mp rec ns
  else if is_record_ref k then array_unwrap mp rec k (a_value a) ns
  else Some (ns, 0).
(** Db/dbquery.c l.1653-1686: check_and_merge_by_kv. *)
Definition check_and_merge_by_kv (mp : Z -> bool) (a : arg) (rec : Z) : step := fun ns =>
  match m rec with
  | None => None
  | Some r =>
      if (WG_SCHEMA_VALUE_OFFSET <? reclen r) && equal (field r WG_SCHEMA_KEY_OFFSET) (a_key a)
      then check_value mp rec r a ns else Some (ns, 0)
  end.
(** Db/dbquery.c l.1692-1715: check_and_merge_by_key. *)
Definition check_and_merge_by_key (mp : Z -> bool) (a : arg) (rec : Z) : step := fun ns =>
  match m rec with
  | None => None
  | Some r => if WG_SCHEMA_VALUE_OFFSET <? reclen r then check_value mp rec r a ns else Some (ns, 0)
  end.
(** Db/dbquery.c l.1726-1749: check_and_merge_recursively. *)
Fixpoint check_and_merge_recursively (mp : Z -> bool) (a : arg) (depth : nat) (rec : Z) (ns : rset) : option (rset * Z) :=
  match check_and_merge_by_kv mp a rec ns with
  | None => None
  | Some (ns, rc) =>
      if negb (rc =? 0) then Some (ns, rc)
      else match depth with
           | O => Some (ns, -1)
           | S depth =>
               match m rec with
               | None => None
               | Some r =>
                   (fix fields (l : list Z) (ns : rset) : option (rset * Z) :=
                      match l with
                      | [] => Some (ns, 0)
                      | enc :: l =>
                          if is_record_ref enc then
                            match check_and_merge_recursively mp a depth (wg_decode_record enc) ns with
                            | None => None
                            | Some (ns, rc) => if negb (rc =? 0) then Some (ns, rc) else fields l ns
                            end
                          else fields l ns
                      end) (r_fields r) ns
               end
           end
  end.

(** A loop over rows, ended by an error (l.1615-1623, IF_ERR_CLEAN_UP): NULL. *)
Fixpoint loop (f : Z -> step) (rows : list Z) (ns : rset) : option (option rset) :=
  match rows with
  | [] => Some (Some ns)
  | rec :: rows =>
      match f rec ns with
      | None => None
      | Some (ns, rc) => if rc <? 0 then Some None else loop f rows ns
      end
  end.
(** Db/dbquery.c l.1959-1971: the loop over the current set; [fuel] is more than its rows. *)
Fixpoint loop_set (f : Z -> step) (fuel : nat) (s ns : rset) : option (option rset) :=
  match fuel with
  | O => None
  | S fuel =>
      let '(s, offset) := fetch_resultset s in
      if offset =? 0 then Some (Some ns)
      else match f offset ns with
           | None => None
           | Some (ns, rc) => if rc <? 0 then Some None else loop_set f fuel s ns
           end
  end.

(** Db/dbquery.c l.1777-1809: sorting; literal values first. *)
Definition sorted (args : list arg) : list arg :=
  if (1 <? Z.of_nat (length args)) && malloc_sorted
  then filter (fun a => negb (is_record_ref (a_value a))) args ++ filter (fun a => is_record_ref (a_value a)) args
  else args.
(** Db/dbquery.c l.1794-1814: need_ttree. *)
Definition need_ttree (args : list arg) : bool := existsb (fun a => is_record_ref (a_value a)) args.
(** Db/dbquery.c l.1816-1827: the index on keys used; -1 also when the sorting fails (l.1775, l.1782-1784). *)
Definition key_index (args : list arg) : Z :=
  if (1 <? Z.of_nat (length args)) && negb malloc_sorted then -1
  else if ((hash_id =? -1) || need_ttree args) && (value_id =? -1) then key_id else -1.

(** Db/dbquery.c l.1878-1986: the rows of one argument and the current set after it. *)
Definition clause (mp : Z -> bool) (kindex : Z) (a : arg) (curr : option rset) : option (option rset) * option rset :=
  let ns := create_resultset in
  if (0 <? hash_id) && negb (is_record_ref (a_value a)) then (loop (add_doc mp) (search_hash (a_key a) (a_value a)) ns, curr)
  else if 0 <? kindex then (loop (check_and_merge_by_key mp a) (key_rows (a_key a)) ns, curr)
  else match curr with
       | Some s => let s := rewind_resultset s in
                   (loop_set (check_and_merge_recursively mp a WG_COMPARE_REC_DEPTH) (slots s) s ns, None)
       | None => (loop (check_and_merge_by_kv mp a) all_records ns, None)
       end.
(** Db/dbquery.c l.1875-2016: the loop over the arguments; [mp i j n]: page [n] of the [j]th
    set of argument [i] can be allocated. *)
Fixpoint clauses (mp : nat -> nat -> Z -> bool) (kindex : Z) (i : nat) (args : list arg) (curr : option rset) : option (option (option rset)) :=
  match args with
  | [] => Some (Some curr)
  | a :: args =>
      match clause (mp i 0%nat) kindex a curr with
      | (None, _) => None
      | (Some None, _) => Some None
      | (Some (Some ns), curr) =>
          match unique_resultset (mp i 1%nat) ns with
          | None => Some None
          | Some ns =>
              match curr with
              | Some c => match intersect_resultset (mp i 2%nat) c ns with
                          | None => Some None
                          | Some r => clauses mp kindex (S i) args (Some r)
                          end
              | None => clauses mp kindex (S i) args (Some ns)
              end
          end
      end
  end.
(** Db/dbquery.c l.1838-2039: wg_make_json_query: the set whose pages the query gets. *)
Definition wg_make_json_query (mp : nat -> nat -> Z -> bool) (args : list arg) : option (option rset) :=
  match args with
  | [] => Some None
  | _ =>
      match clauses mp (key_index args) 0 (sorted args) None with
      | None => None
      | Some None | Some (Some None) => Some None
      | Some (Some (Some r)) => Some (if malloc_query then Some r else None)
      end
  end.
End Query.
