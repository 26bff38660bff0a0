(** Model of the maintenance of T-tree indexes: Db/dbindex.c l.1371-1425, l.1958-1992,
    l.2616-2990.

    The records are those of RecordModel, the trees those of TtreeModel. Every index has
    its own tree; the indexes of a column (index_table) and the indexes whose template
    fixes a column (index_template_table) are found by filtering the list of all indexes
    (IndexCtlProps shows that the lists hold exactly these). The order of the lists only
    decides the order in which different trees are changed. Hash indexes are not part of
    this file. *)
From Coq Require Import ZArith List Bool.
From Verif Require Import Base EncodingModel CompareModel TtreeModel RecordModel.
Import ListNotations.
Open Scope Z_scope.

(** Db/dballoc.h l.361-400: header of a T-tree index: column, match record, tree. *)
Record idx := IX { x_col : Z; x_tmpl : option (list Z); x_tree : tt }.
(** Db/dballoc.h l.361-400. *)
Definition with_tree (x : idx) (t : tt) : idx := IX (x_col x) (x_tmpl x) t.

(** Db/dbindex.c l.1778, l.1985, l.2244: a field of a match record that is not a wildcard. The type
    WG_VARTYPE is seen from the value itself (Db/dbdata.c l.1369-1381). *)
Definition fixed_value (e : Z) : bool := negb (encoded_type (fun _ => 0) e =? WG_VARTYPE).
(** Db/dbindex.c l.2240-2252: is the index in the list of column [c] of index_template_table? *)
Definition fixes (x : idx) (c : Z) : bool :=
  match x_tmpl x with
  | None => false
  | Some t => (0 <=? c) && (c <? Z.of_nat (length t)) && fixed_value (nth (Z.to_nat c) t 0)
  end.
(** Db/dbindex.c l.2140-2160: is it in the list of column [c] of index_table? *)
Definition on_column (c : Z) (x : idx) : bool := x_col x =? c.
(** Db/dbdata.c l.648-651 and l.494. *)
Definition ix_any (l : list idx) (c : Z) : bool := existsb (fun x => on_column c x || fixes x c) l.
(** Db/dbdata.c l.648-651 and l.494. *)
Definition ix_tab (l : list idx) (c : Z) : bool := existsb (on_column c) l.

(** Db/dbindex.c l.448, l.781: the value of the indexed column of a row. *)
Definition key (m : rmap) (c : Z) (o : Z) : Z := match m o with Some r => field r c | None => 0 end.

Section Maint.
Context {V : Type}.
(** WG_COMPARE (Db/dbcompare.h l.51, l.60-61) in a state of the records and of the store of values. *)
Variable cmp : rmap -> V -> Z -> Z -> Z.
(** Fuel for the loops in the tree, the node the allocator gives next (0: none) and the
    free-list link written into a released node. *)
Variable fuel : nat.
Variable alloc : tt -> Z.
Variable junk : Z.

(** Db/dbindex.c l.1980-1990: the loop over the fields of the match record. *)
Fixpoint match_fields (m : rmap) (v : V) (t fs : list Z) : bool :=
  match t, fs with
  | enc :: t, f :: fs => (negb (fixed_value enc) || (cmp m v enc f =? WG_EQUAL)) && match_fields m v t fs
  | _, _ => true
  end.
(** Db/dbindex.c l.1958-1992: wg_match_template; Db/dbindex.h l.60-66: MATCH_TEMPLATE. *)
Definition MATCH_TEMPLATE (m : rmap) (v : V) (x : idx) (r : rec) : bool :=
  match x_tmpl x with
  | None => true
  | Some t => if reclen r <? Z.of_nat (length t) then false else match_fields m v t (r_fields r)
  end.

(** Db/dbindex.c l.2616-2621: INDEX_ADD_ROW for a T-tree: code -2 if it fails. *)
Definition add_row (m : rmap) (v : V) (x : idx) (o : Z) : option (idx * Z) :=
  match ttree_add_row (cmp m v) (key m (x_col x)) fuel (x_tree x) o (alloc (x_tree x)) with
  | None => None
  | Some (t, rc) => Some (with_tree x t, if rc =? 0 then 0 else -2)
  end.
(** Db/dbindex.c l.2643-2647: INDEX_REMOVE_ROW for a T-tree: code -2 below -2 only. *)
Definition remove_row (m : rmap) (v : V) (x : idx) (o : Z) : option (idx * Z) :=
  match ttree_remove_row (cmp m v) (key m (x_col x)) fuel (x_tree x) o junk with
  | None => None
  | Some (t, rc) => Some (with_tree x t, if rc <? -2 then -2 else 0)
  end.

(** The walk over a list of indexes, l.2697-2710, l.2717-2730, l.2760-2785, l.2861-2874, l.2879-2892,
    l.2922-2940: [sel] tells the indexes in the list, [act] is done for each; an error ends it. *)
Fixpoint walk (sel : idx -> bool) (act : idx -> option (idx * Z)) (l : list idx) : option (list idx * Z) :=
  match l with
  | [] => Some ([], 0)
  | x :: l =>
      if sel x then
        match act x with
        | None => None
        | Some (x', c) =>
            if negb (c =? 0) then Some (x' :: l, c)
            else match walk sel act l with None => None | Some (l', c) => Some (x' :: l', c) end
        end
      else match walk sel act l with None => None | Some (l', c) => Some (x :: l', c) end
  end.

(** Db/dbindex.c l.2703-2707, l.2867-2871: the condition on the record and the change of one index. *)
Definition if_suits (row : rmap -> V -> idx -> Z -> option (idx * Z)) (m : rmap) (v : V) (o : Z) (r : rec) (x : idx) : option (idx * Z) :=
  if (x_col x <? reclen r) && MATCH_TEMPLATE m v x r then row m v x o else Some (x, 0).
(** Db/dbindex.c l.2677-2735: wg_index_add_field, l.2840-2898: wg_index_del_field. *)
Definition index_field (row : rmap -> V -> idx -> Z -> option (idx * Z)) (m : rmap) (v : V) (l : list idx) (o column : Z)
  : option (list idx * Z) :=
  match m o with
  | None => None
  | Some r =>
      if (MAX_INDEXED_FIELDNR <? column) || (reclen r <=? column) then Some (l, -1)
      else if is_special_record r then Some (l, -1)
      else match walk (on_column column) (if_suits row m v o r) l with
           | None => None
           | Some (l, c) => if negb (c =? 0) then Some (l, c)
                            else walk (fun x => fixes x column) (if_suits row m v o r) l
           end
  end.
(** Db/dbindex.c l.2677-2735, l.2840-2898. *)
Definition wg_index_add_field := index_field add_row.
(** Db/dbindex.c l.2677-2735, l.2840-2898. *)
Definition wg_index_del_field := index_field remove_row.

(** Db/dbindex.c l.2755-2787, l.2917-2943: the loop over the columns of a record; an index is
    changed at its last column. *)
Fixpoint columns_loop (n : nat) (i : Z) (act : idx -> option (idx * Z)) (l : list idx) : option (list idx * Z) :=
  match n with
  | O => Some (l, 0)
  | S n =>
      match walk (on_column i) act l with
      | None => None
      | Some (l, c) => if negb (c =? 0) then Some (l, c) else columns_loop n (i + 1) act l
      end
  end.
(** Db/dbindex.c l.2742-2830: wg_index_add_rec, l.2904-2988: wg_index_del_rec. *)
Definition index_rec (row : rmap -> V -> idx -> Z -> option (idx * Z)) (m : rmap) (v : V) (l : list idx) (o : Z)
  : option (list idx * Z) :=
  match m o with
  | None => None
  | Some r =>
      if is_special_record r then Some (l, -1)
      else columns_loop (Nat.min (length (r_fields r)) (Z.to_nat (MAX_INDEXED_FIELDNR + 1))) 0
             (fun x => if MATCH_TEMPLATE m v x r then row m v x o else Some (x, 0)) l
  end.
(** Db/dbindex.c l.2742-2830, l.2904-2988. *)
Definition wg_index_add_rec := index_rec add_row.
(** Db/dbindex.c l.2742-2830, l.2904-2988. *)
Definition wg_index_del_rec := index_rec remove_row.

(** Db/dbindex.c l.1404-1417: filling a new index from the scan of the data records; the code of an
    insertion is ignored, here it is returned ([true]: all succeeded). *)
Fixpoint fill (m : rmap) (v : V) (x : idx) (scan : list Z) : option (idx * bool) :=
  match scan with
  | [] => Some (x, true)
  | o :: scan =>
      match m o with
      | None => None
      | Some r =>
          if reclen r <=? x_col x then fill m v x scan
          else if MATCH_TEMPLATE m v x r then
            match add_row m v x o with
            | None => None
            | Some (x, c) =>
                match fill m v x scan with
                | None => None
                | Some (x, b) => Some (x, (c =? 0) && b)
                end
            end
          else fill m v x scan
      end
  end.
(** Db/dbindex.c l.1371-1425: create_ttree_index; [root] is the root node. *)
Definition create_ttree_index (m : rmap) (v : V) (c : Z) (tmpl : option (list Z)) (junk_tree : tt) (root : Z) (scan : list Z)
  : option (idx * bool) :=
  fill m v (IX c tmpl (ttree_init junk_tree root)) scan.
End Maint.
