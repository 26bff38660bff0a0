(** Result pages, prefetched queries, result set operations (Db/dbquery.c). *)
From Coq Require Import ZArith List Bool.
From Verif Require Import Base DhashModel.
Import ListNotations.
Open Scope Z_scope.

(** Db/dbquery.c l.57. *)
Definition PAGESIZE := 63.

(** Db/dbquery.c l.68-73: a page of row offsets. *)
Record page := Page { rows : Z -> Z; pnext : option Z }.
(** Pages of one memory pool, numbered in order of allocation
    (Db/dbquery.c l.906, l.1364). *)
Record heap := Heap { pg : Z -> page; npages : Z }.
(** Db/dbquery.c l.906, l.1364. *)
Definition hempty : heap := Heap (fun _ => Page (fun _ => 0) None) 0.
(** Fresh page filled with 0, no successor (Db/dbquery.c l.918-928, l.1398-1405). *)
Definition newpage (h : heap) : heap :=
  Heap (fun p => if p =? npages h then Page (fun _ => 0) None else pg h p) (npages h + 1).
(** [page->next = n] (Db/dbquery.c l.926, l.1408). *)
Definition set_next (h : heap) (p : Z) (n : Z) : heap :=
  Heap (fun q => if q =? p then Page (rows (pg h q)) (Some n) else pg h q) (npages h).
(** [page->rows[i] = v] (Db/dbquery.c l.931, l.1418). *)
Definition set_row (h : heap) (p i v : Z) : heap :=
  Heap (fun q => let g := pg h q in if q =? p then Page (upd (rows g) i v) (pnext g) else g) (npages h).

(** A read cursor: current page and index (Db/dbquery.c l.75-78). *)
Record cursor := Cur { cpage : option Z; cidx : Z }.

(** Db/dbquery.c l.1082-1099 (wg_fetch of a prefetched query) and l.1427-1442
    (fetch_resultset): the next row offset or 0. *)
Definition fetch (h : heap) (c : cursor) : cursor * Z :=
  match cpage c with
  | Some p =>
      let offset := rows (pg h p) (cidx c) in
      let i := cidx c + 1 in
      if offset =? 0 then (Cur None i, 0)
      else if PAGESIZE <=? i then (Cur (pnext (pg h p)) 0, offset)
      else (Cur (Some p) i, offset)
  | None => (c, 0)
  end.

(** *** Prefetched query *)

(** State of the collecting loop: the pages, first page, page written last
    ([prevnext] points into it), index, number of rows (Db/dbquery.c l.896-914). *)
Record build := Build { bheap : heap; bfirst : option Z; bcur : option Z; bi : Z; bcount : Z }.

(** Db/dbquery.c l.916-935: rows [src] as delivered by wg_fetch on the underlying
    query; [mp n] tells whether the [n]-th page allocation succeeds. *)
Fixpoint collect (mp : Z -> bool) (rowlimit : Z) (src : list Z) (b : build) : option build :=
  match src with
  | [] => Some b
  | r :: rest =>
      let b1 :=
        if PAGESIZE <=? bi b then
          if mp (npages (bheap b)) then
            let n := npages (bheap b) in
            let h := newpage (bheap b) in
            match bcur b with
            | None => Some (Build h (Some n) (Some n) 0 (bcount b))
            | Some p => Some (Build (set_next h p n) (bfirst b) (Some n) 0 (bcount b))
            end
          else None
        else Some b in
      match b1 with
      | None => None
      | Some b1 =>
          match bcur b1 with
          | None => None
          | Some p =>
              let b2 := Build (set_row (bheap b1) p (bi b1) r) (bfirst b1) (Some p) (bi b1 + 1) (u64 (bcount b1 + 1)) in
              if negb (rowlimit =? 0) && (rowlimit <=? bcount b2) then Some b2
              else collect mp rowlimit rest b2
          end
      end
  end.

(** Db/dbquery.c l.895-939: pages, read cursor and number of rows of the query. *)
Definition prefetch (mp : Z -> bool) (rowlimit : Z) (src : list Z) : option (heap * cursor * Z) :=
  match collect mp rowlimit src (Build hempty None None PAGESIZE 0) with
  | Some b => Some (bheap b, Cur (bfirst b) 0, bcount b)
  | None => None
  end.

(** [n] calls of wg_fetch (Db/dbquery.c l.976-1105). *)
Fixpoint fetches (n : nat) (h : heap) (c : cursor) : list Z :=
  match n with
  | O => []
  | S m => let '(c', o) := fetch h c in o :: fetches m h c'
  end.

(** *** Result sets *)

(** Db/dbquery.c l.80-86. *)
Record rset := RSet { sheap : heap; first : option Z; wpage : option Z; wpidx : Z; rcur : cursor; res_count : Z }.

(** Db/dbquery.c l.1349-1371: create_resultset. *)
Definition create_resultset : rset := RSet hempty None None PAGESIZE (Cur None 0) 0.
(** Db/dbquery.c l.1386-1389: rewind_resultset. *)
Definition rewind_resultset (s : rset) : rset :=
  RSet (sheap s) (first s) (wpage s) (wpidx s) (Cur (first s) 0) (res_count s).
(** Db/dbquery.c l.1396-1421: append_resultset; -1 when no page can be allocated. *)
Definition append_resultset (mp : Z -> bool) (s : rset) (offset : Z) : rset * Z :=
  let s1 :=
    if PAGESIZE <=? wpidx s then
      if mp (npages (sheap s)) then
        let n := npages (sheap s) in
        let h := newpage (sheap s) in
        match wpage s with
        | Some p => Some (RSet (set_next h p n) (first s) (Some n) 0 (rcur s) (res_count s))
        | None => Some (RSet h (Some n) (Some n) 0 (Cur (Some n) (cidx (rcur s))) (res_count s))
        end
      else None
    else Some s in
  match s1 with
  | None => (s, -1)
  | Some s1 =>
      match wpage s1 with
      | None => (s, -1)
      | Some p => (RSet (set_row (sheap s1) p (wpidx s1) offset) (first s1) (wpage s1) (wpidx s1 + 1) (rcur s1) (res_count s1 + 1), 0)
      end
  end.
(** Db/dbquery.c l.1427-1442: fetch_resultset. *)
Definition fetch_resultset (s : rset) : rset * Z :=
  let '(c, o) := fetch (sheap s) (rcur s) in
  (RSet (sheap s) (first s) (wpage s) (wpidx s) c (res_count s), o).

(** Bound on the rows of a set, fuel of the loops over it: one more than all slots (loops of Db/dbquery.c l.1470-1560). *)
Definition slots (s : rset) : nat := S (Z.to_nat (PAGESIZE * npages (sheap s))).

(** Db/dbquery.c l.1484-1492: insert every row into the hash table. *)
Fixpoint hash_rows (fuel : nat) (s : rset) (t : dtable) : option dtable :=
  match fuel with
  | O => None
  | S f =>
      let '(s', o) := fetch_resultset s in
      if o =? 0 then Some t
      else let '(t', c) := wg_dhash_addkey t o in
           if c =? 0 then hash_rows f s' t' else None
  end.
(** Db/dbquery.c l.1493-1503: rows of the other set found in the table. *)
Fixpoint hash_match (mp : Z -> bool) (fuel : nat) (s : rset) (t : dtable) (res : rset) : option rset :=
  match fuel with
  | O => None
  | S f =>
      let '(s', o) := fetch_resultset s in
      if o =? 0 then Some res
      else if wg_dhash_haskey t o then
        let '(res', e) := append_resultset mp res o in
        if e =? 0 then hash_match mp f s' t res' else None
      else hash_match mp f s' t res
  end.
(** Db/dbquery.c l.1511-1520: look for a row in a rewound set; [None] out of fuel. *)
Fixpoint find_row (fuel : nat) (s : rset) (x : Z) : option (rset * bool) :=
  match fuel with
  | O => None
  | S f =>
      let '(s', o) := fetch_resultset s in
      if o =? 0 then Some (s', false)
      else if x =? o then Some (s', true)
      else find_row f s' x
  end.
(** Db/dbquery.c l.1506-1522: nested loops. *)
Fixpoint nested (mp : Z -> bool) (fuel : nat) (sa sb res : rset) : option rset :=
  match fuel with
  | O => None
  | S f =>
      let '(sa', o) := fetch_resultset sa in
      if o =? 0 then Some res
      else match find_row (slots sb) (rewind_resultset sb) o with
           | None => None
           | Some (sb', true) =>
               let '(res', e) := append_resultset mp res o in
               if e =? 0 then nested mp f sa' sb' res' else None
           | Some (sb', false) => nested mp f sa' sb' res
           end
  end.

(** Db/dbquery.c l.1457-1524: intersect_resultset; [None] is NULL. *)
Definition intersect_resultset (mp : Z -> bool) (seta setb : rset) : option rset :=
  if wrap64 (res_count seta * res_count setb) <? 200 then
    nested mp (slots seta) (rewind_resultset seta) setb create_resultset
  else
    let '(sa, sb) := if res_count setb <? res_count seta then (setb, seta) else (seta, setb) in
    match wg_dhash_init (res_count sa) with
    | None => None
    | Some t =>
        match hash_rows (slots sa) (rewind_resultset sa) t with
        | None => None
        | Some t' => hash_match mp (slots sb) (rewind_resultset sb) t' create_resultset
        end
    end.

(** Db/dbquery.c l.1558-1570. *)
Fixpoint uniq_hash (mp : Z -> bool) (fuel : nat) (s : rset) (t : dtable) (res : rset) : option rset :=
  match fuel with
  | O => None
  | S f =>
      let '(s', o) := fetch_resultset s in
      if o =? 0 then Some res
      else if wg_dhash_haskey t o then uniq_hash mp f s' t res
      else
        let '(res', e) := append_resultset mp res o in
        if e =? 0 then
          let '(t', c) := wg_dhash_addkey t o in
          if c =? 0 then uniq_hash mp f s' t' res' else None
        else None
  end.
(** Db/dbquery.c l.1573-1592. *)
Fixpoint uniq_nested (mp : Z -> bool) (fuel : nat) (s res : rset) : option rset :=
  match fuel with
  | O => None
  | S f =>
      let '(s', o) := fetch_resultset s in
      if o =? 0 then Some res
      else match find_row (slots res) (rewind_resultset res) o with
           | None => None
           | Some (res', true) => uniq_nested mp f s' res'
           | Some (res', false) =>
               let '(res2, e) := append_resultset mp res' o in
               if e =? 0 then uniq_nested mp f s' res2 else None
           end
  end.
(** Db/dbquery.c l.1536-1595: unique_resultset. *)
Definition unique_resultset (mp : Z -> bool) (set : rset) : option rset :=
  if res_count set <? 20 then uniq_nested mp (slots set) (rewind_resultset set) create_resultset
  else match wg_dhash_init (res_count set) with
       | None => None
       | Some t => uniq_hash mp (slots set) (rewind_resultset set) t create_resultset
       end.
