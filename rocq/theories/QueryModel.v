(** Conjunctive queries (Db/dbquery.c): choice of an index, bounds, checks. *)
From Coq Require Import ZArith List Bool.
From Verif Require Import Base EncodingModel CompareModel TtreeModel RangeModel.
Import ListNotations.
Open Scope Z_scope.

(** Db/dbapi.h l.70-75: conditions. *)
Definition WG_COND_EQUAL := 1.
(** Db/dbapi.h l.70-75. *)
Definition WG_COND_NOT_EQUAL := 2.
(** Db/dbapi.h l.70-75. *)
Definition WG_COND_LESSTHAN := 4.
(** Db/dbapi.h l.70-75. *)
Definition WG_COND_GREATER := 8.
(** Db/dbapi.h l.70-75. *)
Definition WG_COND_LTEQUAL := 16.
(** Db/dbapi.h l.70-75. *)
Definition WG_COND_GTEQUAL := 32.

(** Db/dbapi.h l.92-97: wg_query_arg. *)
Record qarg := QA { a_col : Z; a_cond : Z; a_val : Z }.

(** Db/dbindex.h l.68-71, Db/dballoc.h l.258. *)
Definition WG_INDEX_TYPE_TTREE := 50.
(** Db/dbindex.h l.68-71, Db/dballoc.h l.258. *)
Definition MAX_INDEXED_FIELDNR := 127.
(** Db/dbquery.c l.48-52. *)
Definition TTREE_SCORE_EQUAL := 5.
(** Db/dbquery.c l.48-52. *)
Definition TTREE_SCORE_BOUND := 2.
(** Db/dbquery.c l.48-52. *)
Definition TTREE_SCORE_NULL := -1.
(** Db/dbquery.c l.48-52. *)
Definition TTREE_SCORE_MASK := 5.

(** An index in the list of a column: offset of its header, type, fields of the
    match record of its template, tree (Db/dballoc.h l.361-400: wg_index_header,
    wg_index_template). *)
Record qindex := QI { ix_id : Z; ix_type : Z; ix_tmpl : option (list Z); ix_tree : tt }.
(** Database as a query sees it: memory, records in the order of
    wg_get_first_record and wg_get_next_record, index_table
    (Db/dballoc.h l.405-415). *)
Record qdb := QDB { d_cs : cstate; d_recs : list Z; d_index : Z -> list qindex }.

Section Query.
Variable db : qdb.
Notation cs := (d_cs db).
Notation cmp := (WG_COMPARE (d_cs db)).

(** Db/dbquery.c l.305-338: one condition on the encoded field value. *)
Definition check_cond (encoded : Z) (a : qarg) : bool :=
  if a_cond a =? WG_COND_EQUAL then cmp encoded (a_val a) =? WG_EQUAL
  else if a_cond a =? WG_COND_LESSTHAN then cmp encoded (a_val a) =? WG_LESSTHAN
  else if a_cond a =? WG_COND_GREATER then cmp encoded (a_val a) =? WG_GREATER
  else if a_cond a =? WG_COND_LTEQUAL then negb (cmp encoded (a_val a) =? WG_GREATER)
  else if a_cond a =? WG_COND_GTEQUAL then negb (cmp encoded (a_val a) =? WG_LESSTHAN)
  else if a_cond a =? WG_COND_NOT_EQUAL then negb (cmp encoded (a_val a) =? WG_EQUAL)
  else true.
(** Db/dbquery.c l.287-343: check_arglist; reclen is an int. *)
Fixpoint check_arglist (rec : Z) (args : list qarg) : bool :=
  match args with
  | [] => true
  | a :: rest =>
      if a_col a <? wrap32 (wg_get_record_len cs rec)
      then if check_cond (wg_get_field cs rec (a_col a)) a then check_arglist rec rest else false
      else false
  end.

(** Db/dbquery.c l.385-391, l.419-427: the conditions made from a match record;
    [i] is the number of the next field. *)
Fixpoint match_args (matchrec : list Z) (i : Z) : list qarg :=
  match matchrec with
  | [] => []
  | e :: rest =>
      if negb (encoded_type (words cs) e =? WG_VARTYPE) then QA i WG_COND_EQUAL e :: match_args rest (i + 1)
      else match_args rest (i + 1)
  end.
(** Db/dbquery.c l.351-437: prepare_params; [None] is an error. A missing match
    record or argument list is NULL; an empty one is an error (CHECK). *)
Definition prepare_params (matchrec : option (list Z)) (arglist : option (list qarg)) : option (list qarg) :=
  match matchrec with
  | Some [] => None
  | _ =>
    match arglist with
    | Some [] => None
    | _ => Some (match arglist with Some l => l | None => [] end ++ match matchrec with Some r => match_args r 0 | None => [] end)
    end
  end.

(** Db/dbquery.c l.173-194: score of one argument. *)
Definition arg_score (a : qarg) : Z :=
  if a_cond a =? WG_COND_EQUAL then TTREE_SCORE_EQUAL + (if a_val a =? 0 then TTREE_SCORE_NULL else 0)
  else if (a_cond a =? WG_COND_LESSTHAN) || (a_cond a =? WG_COND_GREATER) || (a_cond a =? WG_COND_LTEQUAL) || (a_cond a =? WG_COND_GTEQUAL)
  then TTREE_SCORE_BOUND else 0.
(** Db/dbquery.c l.163-171: the slot of a column, a new one at the end if there is
    none; columns are not negative. *)
Fixpoint add_score (sc : list (Z * Z)) (col d : Z) : list (Z * Z) :=
  match sc with
  | [] => [(col, d)]
  | (c, x) :: rest => if c =? col then (c, x + d) :: rest else (c, x) :: add_score rest col d
  end.
(** Db/dbquery.c l.153-195: scores of the columns. *)
Definition column_scores (args : list qarg) : list (Z * Z) :=
  fold_left (fun sc a => add_score sc (a_col a) (arg_score a)) args [].

(** Db/dbquery.c l.231-242: do the arguments on column [j] fix it to [enc]?
    [None] is goto nextindex, otherwise the value of [match]. *)
Fixpoint fixes (args : list qarg) (j enc : Z) (m : bool) : option bool :=
  match args with
  | [] => Some m
  | a :: rest =>
      if a_col a =? j then
        if (a_cond a =? WG_COND_EQUAL) && (cmp enc (a_val a) =? WG_EQUAL) then fixes rest j enc true else None
      else fixes rest j enc m
  end.
(** Db/dbquery.c l.222-253: the template of an index against the arguments; usable
    or not, and the score so far. *)
Fixpoint template_score (args : list qarg) (tmpl : list Z) (j score : Z) : bool * Z :=
  match tmpl with
  | [] => (true, score)
  | enc :: rest =>
      if negb (encoded_type (words cs) enc =? WG_VARTYPE) then
        match fixes args j enc false with
        | Some true => template_score args rest (j + 1) (score + TTREE_SCORE_MASK + (if enc =? 0 then TTREE_SCORE_NULL else 0))
        | _ => (false, score)
        end
      else template_score args rest (j + 1) score
  end.
(** Db/dbquery.c l.203-266: the first usable T-tree index of a column (0 if none;
    stored in an int) and the score. *)
Fixpoint pick_index (args : list qarg) (l : list qindex) (score : Z) : Z * Z :=
  match l with
  | [] => (0, score)
  | ix :: rest =>
      if ix_type ix =? WG_INDEX_TYPE_TTREE then
        match ix_tmpl ix with
        | None => (wrap32 (ix_id ix), score)
        | Some tmpl =>
            let '(ok, score) := template_score args tmpl 0 score in
            if ok then (wrap32 (ix_id ix), score) else pick_index args rest score
        end
      else pick_index args rest score
  end.
(** Db/dbquery.c l.197-275: the best column and its index. *)
Fixpoint best_column (args : list qarg) (sc : list (Z * Z)) (mrc_score mrc index_id : Z) : Z * Z :=
  match sc with
  | [] => (mrc, index_id)
  | (col, score) :: rest =>
      let '(id, score) := if col <=? MAX_INDEXED_FIELDNR then pick_index args (d_index db col) score else (0, score) in
      let score := if id =? 0 then 0 else score in
      if mrc_score <? score then best_column args rest score col id
      else best_column args rest mrc_score mrc index_id
  end.
(** Db/dbquery.c l.135-281: most_restricting_column; column and index_id (-1 if
    not set, l.675). *)
Definition most_restricting_column (args : list qarg) : Z * Z :=
  best_column args (column_scores args) (-1) (-1) (-1).

(** Bounds collected by Db/dbquery.c l.720-722, l.752-813: start and end bound,
    whether inclusive, and whether query->column became -1. *)
Record qbounds := QB { b_start : Z; b_end : Z; b_sincl : bool; b_eincl : bool; b_full : bool }.
(** Db/dbquery.c l.752-813: one argument on the chosen column. *)
Definition bound_step (col : Z) (b : qbounds) (a : qarg) : qbounds :=
  if negb (a_col a =? col) then b else
  let v := a_val a in
  let s_unset := b_start b =? WG_ILLEGAL in
  let e_unset := b_end b =? WG_ILLEGAL in
  let set_start (c incl : bool) (b : qbounds) := if c then QB v (b_end b) incl (b_eincl b) (b_full b) else b in
  let set_end (c incl : bool) (b : qbounds) := if c then QB (b_start b) v (b_sincl b) incl (b_full b) else b in
  if a_cond a =? WG_COND_EQUAL then
    set_end (e_unset || (cmp (b_end b) v =? WG_GREATER)) true
      (set_start (s_unset || (cmp (b_start b) v =? WG_LESSTHAN)) true b)
  else if a_cond a =? WG_COND_LESSTHAN then set_end (e_unset || negb (cmp (b_end b) v =? WG_LESSTHAN)) false b
  else if a_cond a =? WG_COND_GREATER then set_start (s_unset || negb (cmp (b_start b) v =? WG_GREATER)) false b
  else if a_cond a =? WG_COND_LTEQUAL then set_end (e_unset || (cmp (b_end b) v =? WG_GREATER)) true b
  else if a_cond a =? WG_COND_GTEQUAL then set_start (s_unset || (cmp (b_start b) v =? WG_LESSTHAN)) true b
  else if a_cond a =? WG_COND_NOT_EQUAL then QB (b_start b) (b_end b) (b_sincl b) (b_eincl b) true
  else b.
(** Db/dbquery.c l.752-813. *)
Definition bounds (col : Z) (args : list qarg) : qbounds :=
  fold_left (bound_step col) args (QB WG_ILLEGAL WG_ILLEGAL false false false).

(** Db/dbapi.h l.100-120: a query over records or over a T-tree, with the
    remaining conditions. *)
Inductive query :=
| QScan (rest : list Z) (args : list qarg)
| QTree (col : Z) (s : tt) (q : tq) (args : list qarg).

(** Db/dbquery.c l.668-893: internal_build_query without the prefetching of rows
    (see ResultModel). The outer [None] means undefined: the truncated index
    offset names no index, or the fuel is used up; the inner one is NULL. *)
Definition build_query (fuel : nat) (matchrec : option (list Z)) (arglist : option (list qarg)) : option (option query) :=
  match prepare_params matchrec arglist with
  | None => Some None
  | Some args =>
      let '(col, index_id) := match args with [] => (-1, -1) | _ => most_restricting_column args end in
      if 0 <? index_id then
        match find (fun ix => ix_id ix =? index_id) (d_index db col) with
        | None => None
        | Some ix =>
            let b := bounds col args in
            let key r := wg_get_field cs r col in
            if negb (b_start b =? WG_ILLEGAL) && negb (b_end b =? WG_ILLEGAL) && (cmp (b_start b) (b_end b) =? WG_GREATER)
            then Some (Some (QTree col (ix_tree ix) (TQ 0 (-1) 0 (-1)) []))
            else match find_ttree_bounds cmp key fuel (ix_tree ix) (b_start b) (b_end b) (b_sincl b) (b_eincl b) with
                 | None => None
                 | Some None => Some None
                 | Some (Some q) =>
                     Some (Some (QTree col (ix_tree ix) q
                       (if b_full b then args else filter (fun a => negb (a_col a =? col)) args)))
                 end
        end
      else Some (Some (QScan (d_recs db) args))
  end.

(** Db/dbquery.c l.992-1018: wg_fetch of a full scan; the rest of the records. *)
Fixpoint fetch_scan (rest : list Z) (args : list qarg) : option Z * list Z :=
  match rest with
  | [] => (None, [])
  | rec :: rest => if check_arglist rec args then (Some rec, rest) else fetch_scan rest args
  end.
(** Db/dbquery.c l.976-1081: wg_fetch; an inner [None] is NULL. *)
Definition wg_fetch (fuel : nat) (q : query) : option (option Z * query) :=
  match q with
  | QScan rest args => let '(r, rest) := fetch_scan rest args in Some (r, QScan rest args)
  | QTree col s q args =>
      match fetch_ttree fuel (fun rec => check_arglist rec args) s q with
      | None => None
      | Some (r, q) => Some (r, QTree col s q args)
      end
  end.
(** wg_fetch until it returns NULL (Db/dbquery.c l.916-935). *)
Fixpoint fetch_rows (n : nat) (q : query) : option (list Z) :=
  match wg_fetch n q with
  | None => None
  | Some (None, _) => Some []
  | Some (Some rec, q) =>
      match n with
      | O => None
      | S n' => match fetch_rows n' q with None => None | Some l => Some (rec :: l) end
      end
  end.
End Query.

(** Db/dbindex.c l.1958-1992: wg_match_template over the fields of the match
    record; [i] is the number of the next field. *)
Fixpoint match_fields (cs : cstate) (tmpl : list Z) (rec i : Z) : bool :=
  match tmpl with
  | [] => true
  | enc :: rest =>
      if negb (encoded_type (words cs) enc =? WG_VARTYPE) && negb (WG_COMPARE cs enc (wg_get_field cs rec i) =? WG_EQUAL) then false
      else match_fields cs rest rec (i + 1)
  end.
(** Db/dbindex.c l.1958-1992. *)
Definition wg_match_template (cs : cstate) (tmpl : list Z) (rec : Z) : bool :=
  if wg_get_record_len cs rec <? Z.of_nat (length tmpl) then false else match_fields cs tmpl rec 0.
(** Db/dbindex.h l.60-66: MATCH_TEMPLATE. *)
Definition MATCH_TEMPLATE (cs : cstate) (tmpl : option (list Z)) (rec : Z) : bool :=
  match tmpl with None => true | Some t => wg_match_template cs t rec end.

(** *** Templates *)
(** Db/dbindex.c l.1767-1784: position after the last fixed column, 0 if there is
    none; [i] is the number of the next field. *)
Fixpoint fixed_len (cs : cstate) (matchrec : list Z) (i : Z) (acc : Z) : Z :=
  match matchrec with
  | [] => acc
  | e :: rest => fixed_len cs rest (i + 1) (if encoded_type (words cs) e =? WG_VARTYPE then acc else i + 1)
  end.
(** Db/dbindex.c l.1779-1780: number of fixed columns. *)
Definition fixed_columns (cs : cstate) (matchrec : list Z) : Z :=
  Z.of_nat (length (filter (fun e => negb (encoded_type (words cs) e =? WG_VARTYPE)) matchrec)).
(** Db/dbindex.c l.1806-1815: do the fixed columns of the new template equal those
    of an existing match record of the same length? *)
Fixpoint same_template (cs : cstate) (matchrec tmpl : list Z) : bool :=
  match matchrec, tmpl with
  | e :: m, f :: t =>
      if negb (encoded_type (words cs) e =? WG_VARTYPE) && negb (WG_COMPARE cs e f =? WG_EQUAL) then false
      else same_template cs m t
  | _, _ => true
  end.
(** Db/dbindex.c l.1797-1826: search of the list of templates, ordered by falling
    number of fixed columns. *)
Fixpoint find_template (cs : cstate) (l : list (list Z)) (matchrec : list Z) (fixed : Z) : option (list Z) :=
  match l with
  | [] => None
  | t :: rest =>
      if fixed_columns cs t =? fixed then
        if Nat.eqb (length matchrec) (length t) && same_template cs matchrec t then Some t else find_template cs rest matchrec fixed
      else if fixed_columns cs t <? fixed then None
      else find_template cs rest matchrec fixed
  end.
(** Db/dbindex.c l.1758-1853: add_index_template; the fields of the template used,
    an existing or a new one; [None] is return 0. Memory is assumed to be
    available. *)
Definition add_index_template (cs : cstate) (l : list (list Z)) (matchrec : list Z) : option (list Z) :=
  if existsb (fun e => encoded_type (words cs) e =? WG_RECORDTYPE) matchrec then None
  else
    let n := fixed_len cs matchrec 0 0 in
    if n =? 0 then None
    else
      let m := firstn (Z.to_nat n) matchrec in
      match find_template cs l m (fixed_columns cs matchrec) with
      | Some t => Some t
      | None => Some m
      end.
