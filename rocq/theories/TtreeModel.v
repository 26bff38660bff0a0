(** T-tree index (Db/dbindex.c l.196-1364) with chained nodes and a single
    compare per node. Nodes are named by their offsets; offset 0 is no node. *)
From Coq Require Import ZArith List Bool.
From Verif Require Import Base EncodingModel CompareModel.
Import ListNotations.
Open Scope Z_scope.

(** struct wg_tnode (Db/dbindex.h l.87-101), one map per field, and the header
    fields of the index (Db/dballoc.h l.361-367). *)
Record tt := TT {
  hpar : Z -> Z; hmax : Z -> Z; hmin : Z -> Z; hn : Z -> Z; hlh : Z -> Z; hrh : Z -> Z;
  harr : Z -> Z -> Z; hleft : Z -> Z; hright : Z -> Z; hsucc : Z -> Z; hpred : Z -> Z;
  troot : Z; tminn : Z; tmaxn : Z }.

(** Assignments to the fields of struct wg_tnode (Db/dbindex.h l.87-101); the
    subtree heights are unsigned chars. *)
Definition set_par s a v := TT (upd (hpar s) a v) (hmax s) (hmin s) (hn s) (hlh s) (hrh s) (harr s) (hleft s) (hright s) (hsucc s) (hpred s) (troot s) (tminn s) (tmaxn s).
(** Db/dbindex.h l.87-101. *)
Definition set_max s a v := TT (hpar s) (upd (hmax s) a v) (hmin s) (hn s) (hlh s) (hrh s) (harr s) (hleft s) (hright s) (hsucc s) (hpred s) (troot s) (tminn s) (tmaxn s).
(** Db/dbindex.h l.87-101. *)
Definition set_min s a v := TT (hpar s) (hmax s) (upd (hmin s) a v) (hn s) (hlh s) (hrh s) (harr s) (hleft s) (hright s) (hsucc s) (hpred s) (troot s) (tminn s) (tmaxn s).
(** Db/dbindex.h l.87-101. *)
Definition set_n s a v := TT (hpar s) (hmax s) (hmin s) (upd (hn s) a v) (hlh s) (hrh s) (harr s) (hleft s) (hright s) (hsucc s) (hpred s) (troot s) (tminn s) (tmaxn s).
(** Db/dbindex.h l.87-101. *)
Definition set_lh s a v := TT (hpar s) (hmax s) (hmin s) (hn s) (upd (hlh s) a (v mod 256)) (hrh s) (harr s) (hleft s) (hright s) (hsucc s) (hpred s) (troot s) (tminn s) (tmaxn s).
(** Db/dbindex.h l.87-101. *)
Definition set_rh s a v := TT (hpar s) (hmax s) (hmin s) (hn s) (hlh s) (upd (hrh s) a (v mod 256)) (harr s) (hleft s) (hright s) (hsucc s) (hpred s) (troot s) (tminn s) (tmaxn s).
(** Db/dbindex.h l.87-101. *)
Definition set_arr s a v := TT (hpar s) (hmax s) (hmin s) (hn s) (hlh s) (hrh s) (fun x => if x =? a then v else harr s x) (hleft s) (hright s) (hsucc s) (hpred s) (troot s) (tminn s) (tmaxn s).
(** Db/dbindex.h l.87-101. *)
Definition set_left s a v := TT (hpar s) (hmax s) (hmin s) (hn s) (hlh s) (hrh s) (harr s) (upd (hleft s) a v) (hright s) (hsucc s) (hpred s) (troot s) (tminn s) (tmaxn s).
(** Db/dbindex.h l.87-101. *)
Definition set_right s a v := TT (hpar s) (hmax s) (hmin s) (hn s) (hlh s) (hrh s) (harr s) (hleft s) (upd (hright s) a v) (hsucc s) (hpred s) (troot s) (tminn s) (tmaxn s).
(** Db/dbindex.h l.87-101. *)
Definition set_succ s a v := TT (hpar s) (hmax s) (hmin s) (hn s) (hlh s) (hrh s) (harr s) (hleft s) (hright s) (upd (hsucc s) a v) (hpred s) (troot s) (tminn s) (tmaxn s).
(** Db/dbindex.h l.87-101. *)
Definition set_pred s a v := TT (hpar s) (hmax s) (hmin s) (hn s) (hlh s) (hrh s) (harr s) (hleft s) (hright s) (hsucc s) (upd (hpred s) a v) (troot s) (tminn s) (tmaxn s).
(** Assignments to the index header (Db/dballoc.h l.361-367). *)
Definition set_root s v := TT (hpar s) (hmax s) (hmin s) (hn s) (hlh s) (hrh s) (harr s) (hleft s) (hright s) (hsucc s) (hpred s) v (tminn s) (tmaxn s).
(** Db/dballoc.h l.361-367. *)
Definition set_minn s v := TT (hpar s) (hmax s) (hmin s) (hn s) (hlh s) (hrh s) (harr s) (hleft s) (hright s) (hsucc s) (hpred s) (troot s) v (tmaxn s).
(** Db/dballoc.h l.361-367. *)
Definition set_maxn s v := TT (hpar s) (hmax s) (hmin s) (hn s) (hlh s) (hrh s) (harr s) (hleft s) (hright s) (hsucc s) (hpred s) (troot s) (tminn s) v.

(** Db/dballoc.h l.263: slots per node when nodes are chained. *)
Definition WG_TNODE_ARRAY_SIZE := 8.
(** Db/dbindex.h l.42-44. *)
Inductive bound := REALLY_BOUNDING_NODE | DEAD_END_LEFT_NOT_BOUNDING | DEAD_END_RIGHT_NOT_BOUNDING.

(** ** Array loops *)
(** Db/dbindex.c l.478-479, l.636-637, l.852-853: for(j=from; j>from-k; j--) a[j]=a[j-1]. *)
Fixpoint push_right (k : nat) (j : Z) (a : Z -> Z) : Z -> Z :=
  match k with O => a | S k' => push_right k' (j - 1) (upd a j (a (j - 1))) end.
(** Db/dbindex.c l.517-518, l.824-825: k rounds of a[j]=a[j+1] upwards from j. *)
Fixpoint push_left (k : nat) (j : Z) (a : Z -> Z) : Z -> Z :=
  match k with O => a | S k' => push_left k' (j + 1) (upd a j (a (j + 1))) end.
(** Db/dbindex.c l.309-310, l.368-369, l.953-955, l.962-964: k rounds of dst[j+d]=src[j] upwards from j. *)
Fixpoint copy_up (k : nat) (j d : Z) (src dst : Z -> Z) : Z -> Z :=
  match k with O => dst | S k' => copy_up k' (j + 1) d src (upd dst (j + d) (src j)) end.
(** Db/dbindex.c l.949-952: k rounds of a[j+d]=a[j] downwards from j. *)
Fixpoint move_up (k : nat) (j d : Z) (a : Z -> Z) : Z -> Z :=
  match k with O => a | S k' => move_up k' (j - 1) d (upd a (j + d) (a j)) end.

(** ** Rotation *)
(** Db/dbindex.c l.53-56. *)
Inductive overw := LL_CASE | LR_CASE | RL_CASE | RR_CASE.
(** Db/dbindex.c l.196-207. *)
Definition db_which_branch_causes_overweight (s : tt) (root : Z) : overw :=
  if hrh s root <? hlh s root then
    let child := hleft s root in if hrh s child <=? hlh s child then LL_CASE else LR_CASE
  else
    let child := hright s root in if hrh s child <? hlh s child then RL_CASE else RR_CASE.

Section Index.
(** WG_COMPARE (Db/dbcompare.h l.60-61) and wg_get_field of the indexed column
    (Db/dbdata.c l.1149) while the index is being changed. *)
Variable cmp : Z -> Z -> Z.
Variable key : Z -> Z.

(** Db/dbindex.c l.301-319: values of B move into E (LR). *)
Definition special_lr (s : tt) (bb ee : Z) : tt :=
  if (hn s ee =? 1) && (hright s ee =? 0) && (hleft s ee =? 0) && (hn s bb =? WG_TNODE_ARRAY_SIZE) then
    let nb := hn s bb in
    let arr := upd (harr s ee) (nb - 1) (harr s ee 0) in
    let arr := copy_up (Z.to_nat (nb - 1)) 1 (-1) (harr s bb) arr in
    let s := set_arr s ee arr in
    let s := set_n s ee nb in
    let s := set_min s ee (key (harr s ee 0)) in
    let s := set_n s bb 1 in
    set_max s bb (hmin s bb)
  else s.
(** Db/dbindex.c l.363-381: values of B move into E (RL). *)
Definition special_rl (s : tt) (bb ee : Z) : tt :=
  if (hn s ee =? 1) && (hright s ee =? 0) && (hleft s ee =? 0) && (hn s bb =? WG_TNODE_ARRAY_SIZE) then
    let nb := hn s bb in
    let s := set_arr s ee (copy_up (Z.to_nat (nb - 1)) 0 1 (harr s bb) (harr s ee)) in
    let s := set_n s ee nb in
    let s := set_max s ee (key (harr s ee (hn s ee - 1))) in
    let s := set_arr s bb (upd (harr s bb) 0 (harr s bb (hn s bb - 1))) in
    let s := set_n s bb 1 in
    set_min s bb (hmax s bb)
  else s.

(** Db/dbindex.c l.217-399: the four cases; new state and new root of the subtree. *)
Definition rotate_case (s : tt) (root : Z) (ov : overw) : tt * Z :=
  match ov with
  | LL_CASE => (* l.217-242 *)
      let b := hleft s root in
      let e := hright s b in
      let eh := hrh s b in
      let s := set_left s root e in
      let s := set_lh s root eh in
      let s := if e =? 0 then s else set_par s e root in
      let s := set_right s b root in
      let s := set_rh s b (Z.max (hlh s root) (hrh s root) + 1) in
      let s := set_par s root b in
      (s, b)
  | RR_CASE => (* l.244-267 *)
      let c := hright s root in
      let d := hleft s c in
      let dh := hlh s c in
      let s := set_right s root d in
      let s := set_rh s root dh in
      let s := if d =? 0 then s else set_par s d root in
      let s := set_left s c root in
      let s := set_lh s c (Z.max (hrh s root) (hlh s root) + 1) in
      let s := set_par s root c in
      (s, c)
  | LR_CASE => (* l.269-330 *)
      let bb := hleft s root in
      let ee := hright s bb in
      let s := set_left s root (hright s ee) in
      let s := set_lh s root (hrh s ee) in
      let s := if hright s ee =? 0 then s else set_par s (hright s ee) root in
      let s := set_right s bb (hleft s ee) in
      let s := set_rh s bb (hlh s ee) in
      let s := if hleft s ee =? 0 then s else set_par s (hleft s ee) bb in
      let s := special_lr s bb ee in
      let s := set_left s ee bb in
      let s := set_lh s ee (Z.max (hrh s bb) (hlh s bb) + 1) in
      let s := set_par s bb ee in
      let s := set_right s ee root in
      let s := set_rh s ee (Z.max (hrh s root) (hlh s root) + 1) in
      let s := set_par s root ee in
      (s, ee)
  | RL_CASE => (* l.332-392 *)
      let bb := hright s root in
      let ee := hleft s bb in
      let s := set_right s root (hleft s ee) in
      let s := set_rh s root (hlh s ee) in
      let s := if hleft s ee =? 0 then s else set_par s (hleft s ee) root in
      let s := set_left s bb (hright s ee) in
      let s := set_lh s bb (hrh s ee) in
      let s := if hright s ee =? 0 then s else set_par s (hright s ee) bb in
      let s := special_rl s bb ee in
      let s := set_right s ee bb in
      let s := set_rh s ee (Z.max (hrh s bb) (hlh s bb) + 1) in
      let s := set_par s bb ee in
      let s := set_left s ee root in
      let s := set_lh s ee (Z.max (hrh s root) (hlh s root) + 1) in
      let s := set_par s root ee in
      (s, ee)
  end.
(** Db/dbindex.c l.209-420: db_rotate_ttree. *)
Definition db_rotate_ttree (s : tt) (root : Z) (ov : overw) : tt :=
  let grandparent := hpar s root in
  let '(s, r) := rotate_case s root ov in
  if grandparent =? 0 then set_root (set_par s r 0) r
  else
    let s := set_par s r grandparent in
    if hleft s grandparent =? root then
      set_lh (set_left s grandparent r) grandparent (Z.max (hlh s r) (hrh s r) + 1)
    else
      set_rh (set_right s grandparent r) grandparent (Z.max (hlh s r) (hrh s r) + 1).

(** ** Search *)
(** Db/dbindex.c l.1181-1228: wg_search_ttree_rightmost; [rb] is 0 for NULL;
    [None]: the fuel is used up. *)
Fixpoint wg_search_ttree_rightmost (n : nat) (s : tt) (node k rb : Z) : option (Z * bound) :=
  match n with
  | O => None
  | S n' =>
      if cmp k (hmin s node) =? WG_LESSTHAN then
        if negb (hleft s node =? 0) then wg_search_ttree_rightmost n' s (hleft s node) k rb
        else if negb (rb =? 0) && negb (cmp k (hmax s rb) =? WG_GREATER) then Some (rb, REALLY_BOUNDING_NODE)
        else Some (node, DEAD_END_LEFT_NOT_BOUNDING)
      else
        if negb (hright s node =? 0) then wg_search_ttree_rightmost n' s (hright s node) k node
        else if negb (cmp k (hmax s node) =? WG_GREATER) then Some (node, REALLY_BOUNDING_NODE)
        else Some (node, DEAD_END_RIGHT_NOT_BOUNDING)
  end.
(** Db/dbindex.c l.1258-1294: wg_search_ttree_leftmost. *)
Fixpoint wg_search_ttree_leftmost (n : nat) (s : tt) (node k lb : Z) : option (Z * bound) :=
  match n with
  | O => None
  | S n' =>
      if cmp k (hmax s node) =? WG_GREATER then
        if negb (hright s node =? 0) then wg_search_ttree_leftmost n' s (hright s node) k lb
        else if negb (lb =? 0) && negb (cmp k (hmin s lb) =? WG_LESSTHAN) then Some (lb, REALLY_BOUNDING_NODE)
        else Some (node, DEAD_END_RIGHT_NOT_BOUNDING)
      else
        if negb (hleft s node =? 0) then wg_search_ttree_leftmost n' s (hleft s node) k node
        else if negb (cmp k (hmin s node) =? WG_LESSTHAN) then Some (node, REALLY_BOUNDING_NODE)
        else Some (node, DEAD_END_LEFT_NOT_BOUNDING)
  end.
(** Db/dbindex.c l.1326-1343: wg_search_tnode_first; [m] slots left, next one [i]. *)
Fixpoint tnode_first (m : nat) (s : tt) (node k i : Z) : Z :=
  match m with
  | O => -1
  | S m' => if negb (cmp (key (harr s node i)) k =? WG_LESSTHAN) then i else tnode_first m' s node k (i + 1)
  end.
(** Db/dbindex.c l.1326-1343. *)
Definition wg_search_tnode_first (s : tt) (node k : Z) : Z := tnode_first (Z.to_nat (hn s node)) s node k 0.
(** Db/dbindex.c l.1349-1364: wg_search_tnode_last; the next slot is [m - 1]. *)
Fixpoint tnode_last (m : nat) (s : tt) (node k : Z) : Z :=
  match m with
  | O => -1
  | S m' => if negb (cmp (key (harr s node (Z.of_nat m'))) k =? WG_GREATER) then Z.of_nat m' else tnode_last m' s node k
  end.
(** Db/dbindex.c l.1349-1364. *)
Definition wg_search_tnode_last (s : tt) (node k : Z) : Z := tnode_last (Z.to_nat (hn s node)) s node k.

(** ** Insertion *)
(** Db/dbindex.c l.714-750: heights from [child] towards the root, one rotation. *)
Fixpoint add_fix (n : nat) (s : tt) (child : Z) : option tt :=
  match n with
  | O => None
  | S n' =>
      let parent := hpar s child in
      if parent =? 0 then Some s
      else
        let s := if hleft s parent =? child then set_lh s parent (hlh s parent + 1) else set_rh s parent (hrh s parent + 1) in
        let balance := hlh s parent - hrh s parent in
        if balance =? 0 then Some s
        else if (1 <? balance) || (balance <? -1) then
          Some (db_rotate_ttree s parent (db_which_branch_causes_overweight s parent))
        else add_fix n' s parent
  end.

(** Db/dbindex.c l.464-482: first slot from [i] whose key is not below [newvalue]. *)
Fixpoint slot_up (m : nat) (s : tt) (node newvalue i : Z) : Z :=
  match m with
  | O => i
  | S m' => if negb (cmp (key (harr s node i)) newvalue =? WG_LESSTHAN) then i else slot_up m' s node newvalue (i + 1)
  end.
(** Db/dbindex.c l.511-521: last slot above 0 whose key is not above [newvalue], or 0. *)
Fixpoint slot_down (m : nat) (s : tt) (node newvalue : Z) : Z :=
  match m with
  | O => 0
  | S m' => if negb (cmp (key (harr s node (Z.of_nat (S m')))) newvalue =? WG_GREATER) then Z.of_nat (S m') else slot_down m' s node newvalue
  end.
(** Db/dbindex.c l.563-572, l.659-668: a new leaf below [node] with one row. *)
Definition new_leaf (s : tt) (leaf node value row : Z) : tt :=
  let s := set_par s leaf node in
  let s := set_lh s leaf 0 in
  let s := set_rh s leaf 0 in
  let s := set_max s leaf value in
  let s := set_min s leaf value in
  let s := set_n s leaf 1 in
  let s := set_left s leaf 0 in
  let s := set_right s leaf 0 in
  set_arr s leaf (upd (harr s leaf) 0 row).
(** Db/dbindex.c l.579-592, l.672-687: [leaf] becomes left child and predecessor of [node]. *)
Definition link_left (s : tt) (leaf node : Z) : tt :=
  let s := set_left s node leaf in
  let s := set_succ s leaf node in
  let s := set_pred s leaf (hpred s node) in
  let s := if hpred s node =? 0 then set_minn s leaf else set_succ s (hpred s node) leaf in
  set_pred s node leaf.
(** Db/dbindex.c l.690-705: [leaf] becomes right child and successor of [node]. *)
Definition link_right (s : tt) (leaf node : Z) : tt :=
  let s := set_right s node leaf in
  let s := set_succ s leaf (hsucc s node) in
  let s := set_pred s leaf node in
  let s := if hsucc s node =? 0 then set_maxn s leaf else set_pred s (hsucc s node) leaf in
  set_succ s node leaf.

(** Db/dbindex.c l.458-497: room in the bounding node. *)
Definition add_room (s : tt) (node newvalue rec : Z) : tt :=
  let n := hn s node in
  let i := slot_up (Z.to_nat n) s node newvalue 0 in
  let s := set_arr s node (upd (push_right (Z.to_nat (n - i)) n (harr s node)) i rec) in
  let s := set_n s node (n + 1) in
  if i =? 0 then set_min s node newvalue else s.
(** Db/dbindex.c l.498-539: full bounding node; the row replaces the minimum. *)
Definition add_full (s : tt) (node newvalue rec : Z) : tt :=
  let i := slot_down 7 s node newvalue in
  let s := set_arr s node (upd (push_left (Z.to_nat i) 0 (harr s node)) i rec) in
  if i =? 0 then set_min s node newvalue
  else
    let s := set_min s node (key (harr s node 0)) in
    if i =? WG_TNODE_ARRAY_SIZE - 1 then set_max s node newvalue else s.
(** Db/dbindex.c l.541-620: the displaced minimum goes to the greatest lower
    bound node or to a new node; result: state, new node or 0, return code.
    [newnode] is the result of wg_alloc_fixlen_object. *)
Definition add_glb (s : tt) (bnode minvalue minrow newnode : Z) : tt * Z * Z :=
  let node := if hleft s bnode =? 0 then bnode else hpred s bnode in
  if hn s node <? WG_TNODE_ARRAY_SIZE then
    let s := set_arr s node (upd (harr s node) (hn s node) minrow) in
    let s := set_n s node (hn s node + 1) in
    (set_max s node minvalue, 0, 0)
  else if newnode =? 0 then (s, 0, -1)
  else
    let s := new_leaf s newnode node minvalue minrow in
    if bnode =? node then (link_left s newnode node, newnode, 0)
    else
      let s := set_right s node newnode in
      let s := set_succ s newnode (hsucc s node) in
      let s := set_pred s newnode node in
      if hsucc s node =? 0 then (s, 0, -1)
      else
        let s := set_pred s (hsucc s newnode) newnode in
        (set_succ s node newnode, newnode, 0).
(** Db/dbindex.c l.624-709: no bounding node. *)
Definition add_dead (s : tt) (node : Z) (b : bound) (newvalue rec newnode : Z) : tt * Z * Z :=
  if hn s node <? WG_TNODE_ARRAY_SIZE then
    let s := match b with
             | DEAD_END_LEFT_NOT_BOUNDING =>
                 let s := set_arr s node (upd (push_right (Z.to_nat (hn s node)) (hn s node) (harr s node)) 0 rec) in
                 set_min s node newvalue
             | _ =>
                 let s := set_arr s node (upd (harr s node) (hn s node) rec) in
                 set_max s node newvalue
             end in
    let s := set_n s node (hn s node + 1) in
    (if hn s node =? 1 then set_min (set_max s node newvalue) node newvalue else s, 0, 0)
  else if newnode =? 0 then (s, 0, -1)
  else
    let s := new_leaf s newnode node newvalue rec in
    match b with
    | DEAD_END_LEFT_NOT_BOUNDING => (link_left s newnode node, newnode, 0)
    | _ => (link_right s newnode node, newnode, 0)
    end.
(** Db/dbindex.c l.428-752: ttree_add_row; [newnode] is the node
    wg_alloc_fixlen_object would give (0: no memory). [None]: fuel used up. *)
Definition ttree_add_row (fuel : nat) (s : tt) (rec newnode : Z) : option (tt * Z) :=
  if troot s =? 0 then Some (s, -1)
  else
    let newvalue := key rec in
    match wg_search_ttree_rightmost fuel s (troot s) newvalue 0 with
    | None => None
    | Some (node, bt) =>
        let '(s, newoffset, rc) :=
          match bt with
          | REALLY_BOUNDING_NODE =>
              if hn s node <? WG_TNODE_ARRAY_SIZE then (add_room s node newvalue rec, 0, 0)
              else
                let minvalue := hmin s node in
                let minrow := harr s node 0 in
                add_glb (add_full s node newvalue rec) node minvalue minrow newnode
          | _ => add_dead s node bt newvalue rec newnode
          end in
        if negb (rc =? 0) then Some (s, rc)
        else if newoffset =? 0 then Some (s, 0)
        else match add_fix fuel s newoffset with None => None | Some s => Some (s, 0) end
    end.

(** ** Removal *)
(** Db/dbindex.c l.802-807: slot of a row among the first [m], or -1. *)
Fixpoint find_slot (m : nat) (s : tt) (node row i : Z) : Z :=
  match m with
  | O => -1
  | S m' => if harr s node i =? row then i else find_slot m' s node row (i + 1)
  end.
(** Db/dbindex.c l.800-817: scan to the right; node and slot, or [Some (_, -1)]. *)
Fixpoint find_row (n : nat) (s : tt) (node k row : Z) : option (Z * Z) :=
  match n with
  | O => None
  | S n' =>
      let i := find_slot (Z.to_nat (hn s node)) s node row 0 in
      if negb (i =? -1) then Some (node, i)
      else
        let nx := hsucc s node in
        if nx =? 0 then Some (node, -1)
        else if cmp (hmin s nx) k =? WG_GREATER then Some (nx, -1)
        else find_row n' s nx k row
  end.
(** Db/dbindex.c l.819-838: take slot [found] out of [node]. *)
Definition take_slot (s : tt) (node found : Z) : tt :=
  let n := hn s node - 1 in
  let s := set_n s node n in
  let s := if found <? n then set_arr s node (push_left (Z.to_nat (n - found)) found (harr s node)) else s in
  if (found =? n) && negb (n =? 0) then set_max s node (key (harr s node (n - 1)))
  else if (found =? 0) && negb (n =? 0) then set_min s node (key (harr s node 0))
  else s.
(** Db/dbindex.c l.840-873: an internal node with fewer than 5 rows takes the
    greatest lower bound; result: the node that lost a row. *)
Definition borrow (s : tt) (node : Z) : tt * Z :=
  if (hn s node <? 5) && negb (hleft s node =? 0) && negb (hright s node =? 0) then
    let glb := hpred s node in
    let arr := push_right (Z.to_nat (hn s node)) (hn s node) (harr s node) in
    let s := set_arr s node (upd arr 0 (harr s glb (hn s glb - 1))) in
    let s := set_n s node (hn s node + 1) in
    let s := set_min s node (hmax s glb) in
    let s := if hn s node =? 1 then set_max s node (hmax s glb) else s in
    let s := set_n s glb (hn s glb - 1) in
    let s := if negb (hn s glb =? 0) then set_max s glb (key (harr s glb (hn s glb - 1))) else s in
    (s, glb)
  else (s, node).
(** Db/dbindex.c l.893-907, l.971-985: take [x] out of the sequential chain. *)
Definition unchain (s : tt) (x : Z) : tt :=
  let s := if hsucc s x =? 0 then set_maxn s (hpred s x) else set_pred s (hsucc s x) (hpred s x) in
  if hpred s x =? 0 then set_minn s (hsucc s x) else set_succ s (hpred s x) (hsucc s x).
(** wg_free_tnode (Db/dballoc.c l.847-850): the first word of the cell becomes a
    link [junk] of the free list. *)
Definition free_tnode (s : tt) (x junk : Z) : tt := set_par s x junk.
(** Db/dbindex.c l.878-922: an empty leaf goes away; state and [parent] (0: NULL). *)
Definition drop_leaf (s : tt) (node junk : Z) : tt * Z :=
  if (hleft s node =? 0) && (hright s node =? 0) && (hn s node =? 0) then
    let parent := hpar s node in
    let s := if parent =? 0 then s
             else if hleft s parent =? node then set_lh (set_left s parent 0) parent 0
             else set_rh (set_right s parent 0) parent 0 in
    let s := unchain s node in
    let s := if negb (node =? troot s) then free_tnode s node junk
             else
               let s := set_max s node WG_ILLEGAL in
               let s := set_min s node WG_ILLEGAL in
               let s := set_maxn s (troot s) in
               set_minn s (troot s) in
    (s, parent)
  else (s, 0).
(** Db/dbindex.c l.924-997: a half-leaf swallows its leaf if the rows fit;
    [None]: return -4. *)
Definition merge_half (s : tt) (node parent junk : Z) : option (tt * Z) :=
  if ((hleft s node =? 0) && negb (hright s node =? 0)) || (negb (hleft s node =? 0) && (hright s node =? 0)) then
    let left := negb (hleft s node =? 0) in
    let child := if left then hleft s node else hright s node in
    let i := hn s node in
    let nc := hn s child in
    let elements := i + nc in
    if negb ((hlh s child =? 0) && (hrh s child =? 0)) then None
    else if elements <=? WG_TNODE_ARRAY_SIZE then
      let s := set_n s node elements in
      let s := if left then
                 let s := set_arr s node (copy_up (Z.to_nat nc) 0 0 (harr s child) (move_up (Z.to_nat i) (i - 1) nc (harr s node))) in
                 let s := set_lh s node 0 in
                 let s := set_left s node 0 in
                 let s := set_min s node (hmin s child) in
                 if i =? 0 then set_max s node (hmax s child) else s
               else
                 let s := set_arr s node (copy_up (Z.to_nat nc) 0 i (harr s child) (harr s node)) in
                 let s := set_rh s node 0 in
                 let s := set_right s node 0 in
                 let s := set_max s node (hmax s child) in
                 if i =? 0 then set_min s node (hmin s child) else s in
      let s := unchain s child in
      let s := free_tnode s child junk in
      let p := hpar s node in
      if p =? 0 then Some (s, parent)
      else Some (if hleft s p =? node then set_lh s p 1 else set_rh s p 1, p)
    else Some (s, parent)
  else Some (s, parent).
(** Db/dbindex.c l.1001-1028: heights and rotations up to the root. *)
Fixpoint remove_fix (n : nat) (s : tt) (parent : Z) : option tt :=
  match n with
  | O => None
  | S n' =>
      let balance := hlh s parent - hrh s parent in
      let s := if (1 <? balance) || (balance <? -1) then
                 db_rotate_ttree s parent (db_which_branch_causes_overweight s parent)
               else if negb (hpar s parent =? 0) then
                 let height := Z.max (hlh s parent) (hrh s parent) in
                 let gp := hpar s parent in
                 if hleft s gp =? parent then set_lh s gp (1 + height) else set_rh s gp (1 + height)
               else s in
      if hpar s parent =? 0 then Some s else remove_fix n' s (hpar s parent)
  end.
(** Db/dbindex.c l.763-1030: ttree_remove_row; [junk] is the free list link
    written into a released node. *)
Definition ttree_remove_row (fuel : nat) (s : tt) (rec junk : Z) : option (tt * Z) :=
  if troot s =? 0 then Some (s, -1)
  else
    let k := key rec in
    match wg_search_ttree_leftmost fuel s (troot s) k 0 with
    | None => None
    | Some (node, bt) =>
        match bt with
        | REALLY_BOUNDING_NODE =>
            match find_row fuel s node k rec with
            | None => None
            | Some (node, found) =>
                if found =? -1 then Some (s, -3)
                else
                  let s := take_slot s node found in
                  let '(s, node) := borrow s node in
                  let '(s, parent) := drop_leaf s node junk in
                  match merge_half s node parent junk with
                  | None => Some (s, -4)
                  | Some (s, parent) =>
                      if parent =? 0 then Some (s, 0)
                      else match remove_fix fuel s parent with None => None | Some s => Some (s, 0) end
                  end
            end
        | _ => Some (s, -2)
        end
    end.

(** Db/dbindex.c l.1371-1401: the empty root of a new index. *)
Definition ttree_init (s : tt) (node : Z) : tt :=
  let s := set_par s node 0 in
  let s := set_lh s node 0 in
  let s := set_rh s node 0 in
  let s := set_max s node WG_ILLEGAL in
  let s := set_min s node WG_ILLEGAL in
  let s := set_n s node 0 in
  let s := set_left s node 0 in
  let s := set_right s node 0 in
  let s := set_succ s node 0 in
  let s := set_pred s node 0 in
  set_maxn (set_minn (set_root s node) node) node.
End Index.
