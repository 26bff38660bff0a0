(** Search with a single condition (Db/dbquery.c l.2041-2150: wg_find_record). *)
From Coq Require Import ZArith List Bool.
From Verif Require Import Base EncodingModel CompareModel TtreeModel RangeModel QueryModel.
Import ListNotations.
Open Scope Z_scope.

Section Find.
Variable db : qdb.
Notation cs := (d_cs db).

(** Db/dbindex.c l.2397-2482: wg_multi_column_to_index_id for one column, T-tree, no
    match record: the first such index in the list of the column. Indexes that
    have more columns are hash indexes (l.2071-2074). *)
Definition find_index (col : Z) : option qindex :=
  if MAX_INDEXED_FIELDNR <? col then None
  else find (fun ix => (ix_type ix =? WG_INDEX_TYPE_TTREE) && match ix_tmpl ix with None => true | Some _ => false end) (d_index db col).

(** Db/dbquery.c l.2061-2081: start bound, end bound, inclusive start, inclusive
    end; [None] is an unknown condition. *)
Definition cond_bounds (cond data : Z) : option (Z * Z * bool * bool) :=
  if cond =? WG_COND_EQUAL then Some (data, data, true, true)
  else if cond =? WG_COND_LESSTHAN then Some (WG_ILLEGAL, data, true, false)
  else if cond =? WG_COND_GREATER then Some (data, WG_ILLEGAL, false, true)
  else if cond =? WG_COND_LTEQUAL then Some (WG_ILLEGAL, data, true, true)
  else if cond =? WG_COND_GTEQUAL then Some (data, WG_ILLEGAL, true, true)
  else None.

(** Db/dbquery.c l.2089-2122: walk the range until the row after [last]; 0 is NULL,
    [None] not enough rounds. *)
Fixpoint find_loop (n : nat) (s : tt) (q : tq) (prev last : Z) : option Z :=
  if q_off q =? 0 then Some 0 else
  match n with
  | O => None
  | S n' =>
      let rec := harr s (q_off q) (q_slot q) in
      if prev =? last then Some rec else find_loop n' s (advance s q) rec last
  end.

(** Db/dbdata.c l.306-312 (C15): the records after [a]. *)
Fixpoint after (a : Z) (l : list Z) : list Z :=
  match l with
  | [] => []
  | x :: r => if x =? a then r else after a r
  end.

(** Db/dbquery.c l.2041-2150: wg_find_record; [last] is 0 for NULL, the result 0 is
    NULL; [None] not enough rounds. *)
Definition wg_find_record (n : nat) (col cond data last : Z) : option Z :=
  match (if cond =? WG_COND_NOT_EQUAL then None else find_index col) with
  | Some ix =>
      match cond_bounds cond data with
      | None => Some 0
      | Some (sb, eb, si, ei) =>
          match find_ttree_bounds (WG_COMPARE cs) (fun r => wg_get_field cs r col) n (ix_tree ix) sb eb si ei with
          | None => None
          | Some None => Some 0
          | Some (Some q) => find_loop n (ix_tree ix) q 0 last
          end
      end
  | None =>
      match fetch_scan db (if last =? 0 then d_recs db else after last (d_recs db)) [QA col cond data] with
      | (Some r, _) => Some r
      | (None, _) => Some 0
      end
  end.
End Find.
