(** Model of index creation and removal: the lists in the index control area.
    Db/dbindex.c l.1719-1745, l.1758-1847, l.1925-1952, l.2002-2372, l.2491-2514, l.2578-2614;
    Db/dballoc.h l.257-258, l.375-415.

    Lists of cells are Coq lists of their cars. [None] is undefined behaviour. *)
From Coq Require Import ZArith List Bool.
From Verif Require Import Base EncodingModel CompareModel QueryModel.
Import ListNotations.
Open Scope Z_scope.

(** Db/dballoc.h l.257: most columns of an index. *)
Definition MAX_INDEX_FIELDS := 10.
(** Db/dbindex.h l.68-70: index types ([WG_INDEX_TYPE_TTREE] is in QueryModel). *)
Definition WG_INDEX_TYPE_TTREE_JSON := 51.
(** Db/dbindex.h l.68-70. *)
Definition WG_INDEX_TYPE_HASH := 60.
(** Db/dbindex.h l.68-70. *)
Definition WG_INDEX_TYPE_HASH_JSON := 61.

(** Db/dballoc.h l.380-389 (index header) and l.396-400 (template). *)
Record ihdr := IH { h_type : Z; h_cols : list Z; h_tmpl : Z }.
(** Db/dballoc.h l.380-389, l.396-400. *)
Record itmpl := IT { t_rec : list Z; t_fixed : Z; t_ref : Z }.
(** Db/dballoc.h l.405-415: the index control area, with the headers and templates by
    offset and the number of list cells that can still be allocated. *)
Record ictl := IC {
  c_count : Z;               (* number_of_indexes *)
  c_list : list Z;           (* index_list *)
  c_tab : Z -> list Z;       (* index_table *)
  c_ttab : Z -> list Z;      (* index_template_table *)
  c_tlist : list Z;          (* index_template_list *)
  c_hdr : Z -> option ihdr;
  c_tm : Z -> option itmpl;
  c_cells : nat }.

(** Assignments to the fields of the area of Db/dballoc.h l.405-415 and to what hangs on it. *)
Definition putl {A} (f : Z -> A) (k : Z) (l : A) : Z -> A := fun x => if x =? k then l else f x.
(** Db/dballoc.h l.405-415. *)
Definition set_count c v := IC v (c_list c) (c_tab c) (c_ttab c) (c_tlist c) (c_hdr c) (c_tm c) (c_cells c).
(** Db/dballoc.h l.405-415. *)
Definition set_list c v := IC (c_count c) v (c_tab c) (c_ttab c) (c_tlist c) (c_hdr c) (c_tm c) (c_cells c).
(** Db/dballoc.h l.405-415. *)
Definition set_tab c k l := IC (c_count c) (c_list c) (putl (c_tab c) k l) (c_ttab c) (c_tlist c) (c_hdr c) (c_tm c) (c_cells c).
(** Db/dballoc.h l.405-415. *)
Definition set_ttab c k l := IC (c_count c) (c_list c) (c_tab c) (putl (c_ttab c) k l) (c_tlist c) (c_hdr c) (c_tm c) (c_cells c).
(** Db/dballoc.h l.405-415. *)
Definition set_tlist c v := IC (c_count c) (c_list c) (c_tab c) (c_ttab c) v (c_hdr c) (c_tm c) (c_cells c).
(** Db/dballoc.h l.405-415. *)
Definition set_hdr c k h := IC (c_count c) (c_list c) (c_tab c) (c_ttab c) (c_tlist c) (putl (c_hdr c) k h) (c_tm c) (c_cells c).
(** Db/dballoc.h l.405-415. *)
Definition set_tm c k t := IC (c_count c) (c_list c) (c_tab c) (c_ttab c) (c_tlist c) (c_hdr c) (putl (c_tm c) k t) (c_cells c).
(** Db/dballoc.h l.405-415. *)
Definition set_cells c n := IC (c_count c) (c_list c) (c_tab c) (c_ttab c) (c_tlist c) (c_hdr c) (c_tm c) n.

(** Db/dbindex.c l.1719-1730: insert_into_list at position [pos] of the list. When no cell
    can be allocated the link at that position has been overwritten by 0, so the list
    ends there; the second component tells whether it worked. *)
Definition insert_into_list (cells : nat) (l : list Z) (pos : nat) (v : Z) : nat * list Z * bool :=
  match cells with
  | O => (O, firstn pos l, false)
  | S k => (k, firstn pos l ++ v :: skipn pos l, true)
  end.
(** Db/dbindex.c l.1737-1745 with the loops l.2282-2291, l.2303-2311, l.2326-2334: removal of
    the first cell with the given car; tells whether there was one. *)
Fixpoint delete_from_list (l : list Z) (v : Z) : list Z * bool :=
  match l with
  | [] => ([], false)
  | x :: l => if x =? v then (l, true) else let '(l, b) := delete_from_list l v in (x :: l, b)
  end.

(** Db/dbindex.c l.2002-2019: sort_columns. *)
Definition lowest_above (columns : list Z) (prev : Z) : Z :=
  fold_left (fun lowest x => if (x <? lowest) && (prev <? x) then x else lowest) columns (MAX_INDEXED_FIELDNR + 1).
(** Db/dbindex.c l.2002-2019. *)
Fixpoint sort_columns (n : nat) (columns : list Z) (prev : Z) : list Z :=
  match n with
  | O => []
  | S n => let lowest := lowest_above columns prev in
           if lowest =? MAX_INDEXED_FIELDNR + 1 then [] else lowest :: sort_columns n columns lowest
  end.

(** What the environment decides during a creation: the offset of the new index header
    (0: no memory, not checked by the code), the offset of a new template header,
    whether the match record could be made and whether the hash table could be made (Db/dbindex.c l.1770-2250). *)
Record oracle := OR { or_hdr : Z; or_tmpl : Z; or_rec : bool; or_hash : bool }.

Section Ctl.
Variable cs : cstate.
(** Db/dbindex.c l.1778: a column of a match record that is not a wildcard. *)
Definition fixed (e : Z) : bool := negb (encoded_type (words cs) e =? WG_VARTYPE).

(** Db/dbindex.c l.1792-1826: the walk of add_index_template: an existing template or the
    position for the new one; [None]: no template at a listed offset. *)
Fixpoint tmpl_walk (c : ictl) (l : list Z) (m : list Z) (fx : Z) (pos : nat) : option (Z + nat) :=
  match l with
  | [] => Some (inr pos)
  | o :: l =>
      match c_tm c o with
      | None => None
      | Some t =>
          if t_fixed t =? fx then
            if Nat.eqb (length m) (length (t_rec t)) && same_template cs m (t_rec t) then Some (inl o)
            else tmpl_walk c l m fx (S pos)
          else if t_fixed t <? fx then Some (inr pos)
          else tmpl_walk c l m fx (S pos)
      end
  end.
(** Db/dbindex.c l.1758-1847: add_index_template. The count of a new template starts at 0
    (the cell is not initialised; free cells of this area hold 0 there). *)
Definition add_tmpl (c : ictl) (matchrec : list Z) (o : oracle) : option (ictl * Z) :=
  if existsb (fun e => encoded_type (words cs) e =? WG_RECORDTYPE) matchrec then Some (c, 0)
  else
    let n := fixed_len cs matchrec 0 0 in
    if n =? 0 then Some (c, 0)
    else
      let m := firstn (Z.to_nat n) matchrec in
      match tmpl_walk c (c_tlist c) m (fixed_columns cs matchrec) 0 with
      | None => None
      | Some (inl t) => Some (c, t)
      | Some (inr pos) =>
          if negb (or_rec o) then Some (c, 0)
          else if or_tmpl o =? 0 then None
          else
            let c := set_tm c (or_tmpl o) (Some (IT m (fixed_columns cs matchrec) 0)) in
            let '(k, l, b) := insert_into_list (c_cells c) (c_tlist c) pos (or_tmpl o) in
            Some (set_cells (set_tlist c l) k, if b then or_tmpl o else 0)
      end.

(** Db/dbindex.c l.2140-2193: the walk along the list of one column: the position for the
    new index, or [inl tt] for an identical index (checked on the first column only). *)
Fixpoint col_walk (c : ictl) (first : bool) (type toff fx : Z) (cols l : list Z) (pos : nat) : option (unit + nat) :=
  match l with
  | [] => Some (inr pos)
  | o :: l =>
      match c_hdr c o with
      | None => None
      | Some h =>
          if first && (h_type h =? type) && (toff =? h_tmpl h) && Nat.eqb (length (h_cols h)) (length cols)
             && forallb (fun p => fst p =? snd p) (combine (h_cols h) cols) then Some (inl tt)
          else if negb (h_tmpl h =? 0) then
            match c_tm c (h_tmpl h) with
            | None => None
            | Some t => if t_fixed t <? fx then Some (inr pos) else col_walk c first type toff fx cols l (S pos)
            end
          else if negb (fx =? 0) then Some (inr pos)
          else col_walk c first type toff fx cols l (S pos)
      end
  end.
(** Db/dbindex.c l.2140-2193. *)
Fixpoint col_walks (c : ictl) (first : bool) (type toff fx : Z) (all cols : list Z) : option (unit + list nat) :=
  match cols with
  | [] => Some (inr [])
  | col :: cols =>
      match col_walk c first type toff fx all (c_tab c col) 0 with
      | None => None
      | Some (inl tt) => Some (inl tt)
      | Some (inr pos) =>
          match col_walks c false type toff fx all cols with
          | Some (inr l) => Some (inr (pos :: l))
          | r => r
          end
      end
  end.
(** Db/dbindex.c l.2198-2207: entering the header in the lists of its columns. *)
Fixpoint insert_cols (c : ictl) (id : Z) (cols : list Z) (poss : list nat) : ictl * bool :=
  match cols, poss with
  | col :: cols, pos :: poss =>
      let '(k, l, b) := insert_into_list (c_cells c) (c_tab c col) pos id in
      let c := set_cells (set_tab c col l) k in
      if b then insert_cols c id cols poss else (c, false)
  | _, _ => (c, true)
  end.
(** Db/dbindex.c l.2240-2252: entering it in the lists of the fixed columns of its template. *)
Fixpoint insert_tmpl_cols (c : ictl) (id : Z) (matchrec : list Z) (i : Z) : ictl * bool :=
  match matchrec with
  | [] => (c, true)
  | e :: rest =>
      if fixed e then
        let '(k, l, b) := insert_into_list (c_cells c) (c_ttab c i) 0 id in
        let c := set_cells (set_ttab c i l) k in
        if b then insert_tmpl_cols c id rest (i + 1) else (c, false)
      else insert_tmpl_cols c id rest (i + 1)
  end.

(** Db/dbindex.c l.2048-2265: wg_create_multi_index ([matchrec] is [None] for NULL). *)
Definition wg_create_multi_index (c : ictl) (columns : list Z) (type : Z) (matchrec : option (list Z)) (o : oracle)
  : option (ictl * Z) :=
  let col_count := Z.of_nat (length columns) in
  if (col_count <? 1) || (MAX_INDEX_FIELDS <? col_count)
     || ((1 <? col_count) && ((type =? WG_INDEX_TYPE_TTREE) || (type =? WG_INDEX_TYPE_TTREE_JSON))) then Some (c, -1)
  else
  let cols := sort_columns (length columns) columns (-1) in
  if Z.of_nat (length cols) <? col_count then Some (c, -1)
  else if existsb (fun x => MAX_INDEXED_FIELDNR <? x) cols then Some (c, -1)
  else
  match (match matchrec with
         | None => Some (c, Some 0)
         | Some m =>
             let reclen := Z.of_nat (length m) in
             if (reclen =? 0) || (MAX_INDEXED_FIELDNR + 1 <? reclen) then Some (c, None)
             else if existsb (fun x => (x <? reclen) && fixed (nth (Z.to_nat x) m 0)) cols then Some (c, None)
             else match add_tmpl c m o with
                  | None => None
                  | Some (c, t) => Some (c, if t =? 0 then None else Some t)
                  end
         end) with
  | None => None
  | Some (c, None) => Some (c, -1)
  | Some (c, Some toff) =>
  match (if toff =? 0 then Some 0 else match c_tm c toff with Some t => Some (t_fixed t) | None => None end) with
  | None => None
  | Some fx =>
  match col_walks c true type toff fx cols cols with
  | None => None
  | Some (inl tt) => Some (c, -1)
  | Some (inr poss) =>
  let id := or_hdr o in
  if id =? 0 then None
  else
  let '(c, b) := insert_cols c id cols poss in
  if negb b then Some (c, -1)
  else
  let c := set_hdr c id (Some (IH type cols toff)) in
  let made := if type =? WG_INDEX_TYPE_TTREE then true
              else if (type =? WG_INDEX_TYPE_HASH) || (type =? WG_INDEX_TYPE_HASH_JSON) then or_hash o
              else false in
  if negb made then Some (c, -1)
  else
  let '(k, l, b) := insert_into_list (c_cells c) (c_list c) 0 id in
  let c := set_cells (set_list c l) k in
  if negb b then Some (c, -1)
  else
  let '(c, b) := match matchrec with Some m => insert_tmpl_cols c id m 0 | None => (c, true) end in
  if negb b then Some (c, 0)
  else
  let c := set_count c (c_count c + 1) in
  if toff =? 0 then Some (c, 0)
  else match c_tm c toff with
       | None => None
       | Some t => Some (set_tm c toff (Some (IT (t_rec t) (t_fixed t) (t_ref t + 1))), 0)
       end
  end
  end
  end.

(** Db/dbindex.c l.2300-2312, l.2323-2336: removal from the lists of columns. *)
Fixpoint delete_cols (c : ictl) (id : Z) (cols : list Z) : ictl :=
  match cols with
  | [] => c
  | col :: cols =>
      let '(l, b) := delete_from_list (c_tab c col) id in
      delete_cols (set_cells (set_tab c col l) (if b then S (c_cells c) else c_cells c)) id cols
  end.
(** Db/dbindex.c l.2300-2312, l.2323-2336. *)
Fixpoint delete_tmpl_cols (c : ictl) (id : Z) (matchrec : list Z) (i : Z) : ictl :=
  match matchrec with
  | [] => c
  | e :: rest =>
      if fixed e then
        let '(l, b) := delete_from_list (c_ttab c i) id in
        delete_tmpl_cols (set_cells (set_ttab c i l) (if b then S (c_cells c) else c_cells c)) id rest (i + 1)
      else delete_tmpl_cols c id rest (i + 1)
  end.
(** Db/dbindex.c l.1925-1952: remove_index_template. *)
Definition remove_index_template (c : ictl) (toff : Z) : ictl :=
  let '(l, b) := delete_from_list (c_tlist c) toff in
  set_tm (set_cells (set_tlist c l) (if b then S (c_cells c) else c_cells c)) toff None.

(** Db/dbindex.c l.2274-2372: wg_drop_index. Dropping a hash index is not implemented and
    returns -1 at that point (l.1678-1681). *)
Definition wg_drop_index (c : ictl) (id : Z) : option (ictl * Z) :=
  let '(l, b) := delete_from_list (c_list c) id in
  if negb b then Some (c, -1)
  else
  let c := set_cells (set_list c l) (S (c_cells c)) in
  match c_hdr c id with
  | None => None
  | Some h =>
  let c := delete_cols c id (h_cols h) in
  match (if h_tmpl h =? 0 then Some c
         else match c_tm c (h_tmpl h) with
              | None => None
              | Some t => Some (delete_tmpl_cols c id (t_rec t) 0)
              end) with
  | None => None
  | Some c =>
  if negb ((h_type h =? WG_INDEX_TYPE_TTREE) || (h_type h =? WG_INDEX_TYPE_TTREE_JSON)) then Some (c, -1)
  else
  match (if h_tmpl h =? 0 then Some c
         else match c_tm c (h_tmpl h) with
              | None => None
              | Some t =>
                  let c := set_tm c (h_tmpl h) (Some (IT (t_rec t) (t_fixed t) (t_ref t - 1))) in
                  Some (if t_ref t - 1 =? 0 then remove_index_template c (h_tmpl h) else c)
              end) with
  | None => None
  | Some c => let c := set_hdr c id None in Some (set_count c (c_count c - 1), 0)
  end
  end
  end.

(** Db/dbindex.c l.2578-2614: wg_get_all_indexes: NULL because there are none, NULL because the
    number of entries is smaller than the counter, or the array. Writing more entries
    than the array has room for is undefined. *)
Inductive all_indexes := No_indexes | Corrupted | Indexes (l : list Z).
(** Db/dbindex.c l.2578-2614. *)
Definition zrange (n : nat) : list Z := map Z.of_nat (seq 0 n).
(** Db/dbindex.c l.2578-2614. *)
Definition wg_get_all_indexes (c : ictl) : option all_indexes :=
  if c_count c =? 0 then Some No_indexes
  else
    let l := flat_map (c_tab c) (zrange 128) in
    let n := Z.of_nat (length l) in
    if c_count c <? n then None
    else if negb (n =? c_count c) then Some Corrupted
    else Some (Indexes l).

(** Db/dbindex.c l.2491-2514: wg_get_index_type. *)
Definition wg_get_index_type (c : ictl) (id : Z) : option Z :=
  if existsb (fun x => x =? id) (c_list c) then
    match c_hdr c id with Some h => Some (h_type h) | None => None end
  else Some (-1).
End Ctl.
