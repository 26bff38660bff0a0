(** Range of a T-tree query (Db/dbquery.c l.445-646) and the row cursor
    (l.1019-1080). *)
From Coq Require Import ZArith List Bool.
From Verif Require Import Base EncodingModel CompareModel TtreeModel.
Import ListNotations.
Open Scope Z_scope.

(** Fields curr_offset, curr_slot, end_offset, end_slot of wg_query
    (Db/dbapi.h l.100-120). *)
Record tq := TQ { q_off : Z; q_slot : Z; q_eoff : Z; q_eslot : Z }.

Section Range.
Variable cmp : Z -> Z -> Z.
Variable key : Z -> Z.

(** Db/dbquery.c l.457-525: node and slot of the first row in range. The outer
    [None] means that the fuel is used up, the inner one is return -1. *)
Definition start_pos (fuel : nat) (s : tt) (start_bound : Z) (incl : bool) : option (option (Z * Z)) :=
  if start_bound =? WG_ILLEGAL then Some (Some (tminn s, 0))
  else if incl then
    match wg_search_ttree_leftmost cmp fuel s (troot s) start_bound 0 with
    | None => None
    | Some (co, REALLY_BOUNDING_NODE) =>
        let cs := wg_search_tnode_first cmp key s co start_bound in
        if cs =? -1 then Some None else Some (Some (co, cs))
    | Some (co, DEAD_END_RIGHT_NOT_BOUNDING) => Some (Some (hsucc s co, 0))
    | Some (co, DEAD_END_LEFT_NOT_BOUNDING) => Some (Some (co, 0))
    end
  else
    match wg_search_ttree_rightmost cmp fuel s (troot s) start_bound 0 with
    | None => None
    | Some (co, REALLY_BOUNDING_NODE) =>
        let cs := wg_search_tnode_last cmp key s co start_bound in
        if cs =? -1 then Some None
        else if hn s co <=? cs + 1 then Some (Some (hsucc s co, 0)) else Some (Some (co, cs + 1))
    | Some (co, DEAD_END_RIGHT_NOT_BOUNDING) => Some (Some (hsucc s co, 0))
    | Some (co, DEAD_END_LEFT_NOT_BOUNDING) => Some (Some (co, 0))
    end.
(** Db/dbquery.c l.537-540, l.564-567, l.587-590, l.600-603: last slot of a node,
    if there is one; otherwise [es] stays. *)
Definition last_slot (s : tt) (eo es : Z) : Z * Z := if eo =? 0 then (eo, es) else (eo, hn s eo - 1).
(** Db/dbquery.c l.527-606: node and slot of the last row in range. *)
Definition end_pos (fuel : nat) (s : tt) (end_bound : Z) (incl : bool) : option (option (Z * Z)) :=
  if end_bound =? WG_ILLEGAL then Some (Some (last_slot s (tmaxn s) (-1)))
  else if incl then
    match wg_search_ttree_rightmost cmp fuel s (troot s) end_bound 0 with
    | None => None
    | Some (eo, REALLY_BOUNDING_NODE) =>
        let es := wg_search_tnode_last cmp key s eo end_bound in
        if es =? -1 then Some None else Some (Some (eo, es))
    | Some (eo, DEAD_END_RIGHT_NOT_BOUNDING) => Some (Some (eo, hn s eo - 1))
    | Some (eo, DEAD_END_LEFT_NOT_BOUNDING) => Some (Some (last_slot s (hpred s eo) (-1)))
    end
  else
    match wg_search_ttree_leftmost cmp fuel s (troot s) end_bound 0 with
    | None => None
    | Some (eo, REALLY_BOUNDING_NODE) =>
        let es := wg_search_tnode_first cmp key s eo end_bound in
        if es =? -1 then Some None
        else if es - 1 <? 0 then Some (Some (last_slot s (hpred s eo) (es - 1))) else Some (Some (eo, es - 1))
    | Some (eo, DEAD_END_RIGHT_NOT_BOUNDING) => Some (Some (eo, hn s eo - 1))
    | Some (eo, DEAD_END_LEFT_NOT_BOUNDING) => Some (Some (last_slot s (hpred s eo) (-1)))
    end.
(** Db/dbquery.c l.445-646: find_ttree_bounds; l.608-638 detect an empty range. *)
Definition find_ttree_bounds (fuel : nat) (s : tt) (start_bound end_bound : Z) (sincl eincl : bool) : option (option tq) :=
  match start_pos fuel s start_bound sincl, end_pos fuel s end_bound eincl with
  | Some (Some (co, cs)), Some (Some (eo, es)) =>
      Some (Some (
        if negb (co =? 0) then
          if (eo =? co) && (es <? cs) then TQ 0 cs 0 es
          else if eo =? 0 then TQ 0 cs eo es
          else if eo =? hpred s co then TQ 0 cs 0 es
          else TQ co cs eo es
        else TQ co cs 0 es))
  | None, _ => None
  | Some None, _ => Some None
  | _, None => None
  | _, Some None => Some None
  end.

(** Db/dbquery.c l.1030-1071: step the cursor (direction 1). *)
Definition advance (s : tt) (q : tq) : tq :=
  if (q_off q =? q_eoff q) && (q_slot q =? q_eslot q) then TQ 0 (q_slot q) (q_eoff q) (q_eslot q)
  else
    let slot := q_slot q + 1 in
    if slot <? 0 then TQ (if q_eoff q =? q_off q then 0 else hpred s (q_off q)) slot (q_eoff q) (q_eslot q)
    else if hn s (q_off q) <=? slot then
      if q_eoff q =? q_off q then TQ 0 slot (q_eoff q) (q_eslot q)
      else TQ (hsucc s (q_off q)) 0 (q_eoff q) (q_eslot q)
    else TQ (q_off q) slot (q_eoff q) (q_eslot q).
(** Db/dbquery.c l.1019-1080: wg_fetch of a T-tree query; [chk] is check_arglist.
    The inner [None] is NULL. *)
Fixpoint fetch_ttree (n : nat) (chk : Z -> bool) (s : tt) (q : tq) : option (option Z * tq) :=
  if q_off q =? 0 then Some (None, q) else
  match n with
  | O => None
  | S n' =>
      let rec := harr s (q_off q) (q_slot q) in
      let q := advance s q in
      if chk rec then Some (Some rec, q) else fetch_ttree n' chk s q
  end.
(** wg_fetch until it returns NULL (Db/dbquery.c l.916-935). *)
Fixpoint fetch_all (n : nat) (chk : Z -> bool) (s : tt) (q : tq) : option (list Z) :=
  match fetch_ttree n chk s q with
  | None => None
  | Some (None, _) => Some []
  | Some (Some rec, q) =>
      match n with
      | O => None
      | S n' => match fetch_all n' chk s q with None => None | Some l => Some (rec :: l) end
      end
  end.

(** Db/dbquery.c l.815-823, l.825-833: range over a T-tree index: an empty query
    if the start bound is greater, [None] inside: wg_make_query returns NULL. *)
Definition range_query (fuel : nat) (s : tt) (start_bound end_bound : Z) (sincl eincl : bool) : option (option tq) :=
  if negb (start_bound =? WG_ILLEGAL) && negb (end_bound =? WG_ILLEGAL) && (cmp start_bound end_bound =? WG_GREATER) then
    Some (Some (TQ 0 (-1) 0 (-1)))
  else find_ttree_bounds fuel s start_bound end_bound sincl eincl.
End Range.
