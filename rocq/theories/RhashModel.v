(** Hash lists of the reasoner, in which the atoms of active clauses are found by their predicate (Reasoner/clstore.c). *)
From Coq Require Import ZArith Bool List.
Import ListNotations.
Open Scope Z_scope.

(** Reasoner/glb.h l.52: NROF_CLTERM_HASHVEC_ELS. *)
Definition NELS : Z := 500.
(** Conversion to int and to unsigned int (Reasoner/clstore.c l.792-823). *)
Definition i32 (z : Z) : Z := (z + 2147483648) mod 4294967296 - 2147483648.
(** Arithmetic of unsigned int (Reasoner/clstore.c l.797-804). *)
Definition u32 (z : Z) : Z := z mod 4294967296.
(** Arithmetic of unsigned long (Reasoner/clstore.c l.813-823). *)
Definition u64 (z : Z) : Z := z mod 18446744073709551616.
(** Reasoner/clstore.c l.792-805: int_hash. *)
Definition int_hash (x : Z) : Z :=
  if (0 <=? x) && (x <? NELS - 4) then x + 3
  else
    let a := u32 x in
    let a := u32 (a - u32 (Z.shiftl a 6)) in
    let a := Z.lxor a (Z.shiftr a 17) in
    let a := u32 (a - u32 (Z.shiftl a 9)) in
    let a := Z.lxor a (u32 (Z.shiftl a 4)) in
    let a := u32 (a - u32 (Z.shiftl a 3)) in
    let a := Z.lxor a (u32 (Z.shiftl a 10)) in
    let a := Z.lxor a (Z.shiftr a 15) in
    i32 a.
(** Reasoner/clstore.c l.817-822: one string added to a hash; the characters are signed, and come without the final 0. *)
Definition str_step (s : list Z) (h : Z) : Z := fold_left (fun h c => u64 (c + u64 (Z.shiftl h 6) + u64 (Z.shiftl h 16) - h)) s h.
(** Values by their type (Reasoner/clstore.c l.734-779); [HDbl] has whether it is zero and a thousand times it as an int; [HEnc] stands for
    chars, dates, times and constants, by their code. *)
Inductive hv := HNull | HInt (n : Z) | HDbl (z : bool) (k : Z) | HStr (s : list Z) | HDual (s x : list Z) | HEnc (n : Z) | HVar | HRec | HOther.
(** Reasoner/clstore.c l.734-779: the hash before it is made small. *)
Definition rawhash (v : hv) : Z :=
  match v with
  | HNull => 0
  | HInt n => int_hash (i32 n)
  | HDbl z k => if z then 20 else int_hash k
  | HStr s => i32 (str_step s 0)
  | HDual s x => i32 (str_step x (str_step s 0))
  | HEnc n => int_hash (i32 n)
  | HVar => int_hash 0
  | HRec => 1
  | HOther => 2
  end.
(** Reasoner/clstore.c l.720-789: wr_term_basehash; the negation of INT_MIN is undefined. *)
Definition basehash (v : hv) : option Z :=
  let h := rawhash v in
  if h =? -2147483648 then None else Some (Z.abs h mod (NELS - 2)).

(** Reasoner/clstore.h l.41-45: a node. The first field is a length in the first node of a chain, else a term. *)
Record node := Node { first : Z; ncl : Z; next : Z }.
(** The vector of a hash table (its length in front), the nodes by their offsets, and which offsets malloc has given away (Reasoner/clstore.c l.862-975). *)
Record table := Table { vlen : Z; hvec : Z -> Z; heap : Z -> node; live : Z -> bool }.
(** A changed place (Reasoner/clstore.c l.881). *)
Definition upd {A} (f : Z -> A) (i : Z) (x : A) : Z -> A := fun j => if j =? i then x else f j.
(** Reasoner/clstore.c l.862-901: wr_clterm_add_hashlist; [a1] is the offset malloc gives for the first node of a chain, if one is made, and [a2] that for the
    new node. [None]: the error 1. Running out of memory ends the program. *)
Definition add (t : table) (hash term cl a1 a2 : Z) : option table :=
  if (vlen t <=? hash) || (hash <? 1) then None else
  let c := hvec t hash in
  if c =? 0 then
    Some (Table (vlen t) (upd (hvec t) hash a1) (upd (upd (heap t) a1 (Node 1 (ncl (heap t a1)) a2)) a2 (Node term cl 0)) (upd (upd (live t) a1 true) a2 true))
  else
    let p := heap t c in
    Some (Table (vlen t) (hvec t) (upd (upd (heap t) c (Node (first p + 1) (ncl p) a2)) a2 (Node term cl (next p))) (upd (live t) a2 true)).
(** Reasoner/clstore.c l.945-954: wr_clterm_hashlist_len. *)
Definition hlen (t : table) (hash : Z) : Z :=
  if (vlen t <=? hash) || (hash <? 1) then -1 else if hvec t hash =? 0 then 0 else first (heap t (hvec t hash)).
(** Reasoner/clstore.c l.956-966: wr_clterm_hashlist_start. *)
Definition hstart (t : table) (hash : Z) : Z :=
  if (vlen t <=? hash) || (hash <? 1) then -1 else if hvec t hash =? 0 then 0 else next (heap t (hvec t hash)).
(** What a search of a chain does (Reasoner/rgenloop.c l.459-529). *)
Inductive found := WrongHash | Unended | Atoms (l : list (Z * Z)).
(** Reasoner/rgenloop.c l.469-529 with wr_clterm_hashlist_next (Reasoner/clstore.c l.968-970). *)
Fixpoint walk (fuel : nat) (t : table) (a : Z) : found :=
  if a =? 0 then Atoms []
  else match fuel with
       | O => Unended
       | S f => match walk f t (next (heap t a)) with Atoms l => Atoms ((first (heap t a), ncl (heap t a)) :: l) | r => r end
       end.
(** Reasoner/rgenloop.c l.459-468: the search; a negative start is taken for a wrong hash. *)
Definition search (fuel : nat) (t : table) (hash : Z) : found :=
  if hlen t hash =? 0 then Atoms [] else if hstart t hash <? 0 then WrongHash else walk fuel t (hstart t hash).
(** Reasoner/clstore.c l.992-1002: the nodes behind the first of a chain are freed. *)
Fixpoint free_chain (fuel : nat) (t : table) (a : Z) : table :=
  if a =? 0 then t else match fuel with O => t | S f => let n := next (heap t a) in free_chain f (Table (vlen t) (hvec t) (heap t) (upd (live t) a false)) n end.
