(** Growing vectors and strings of the reasoner (Reasoner/mem.c). *)
From Coq Require Import ZArith Bool List.
Import ListNotations.
Open Scope Z_scope.

(** A block of memory: how many elements it has, and what is in them (Reasoner/types.h l.46-48). *)
Record block := Block { size : Z; cell : Z -> Z }.
(** What a call gives: access outside of a block or undefined arithmetic, NULL, or a block. *)
Inductive res := Bad | Null | Blk (b : block).
(** An element written (as [v[i]=e] in Reasoner/mem.c l.218). *)
Definition put (b : block) (i e : Z) : res :=
  if (0 <=? i) && (i <? size b) then Blk (Block (size b) (fun j => if j =? i then e else cell b j)) else Bad.
(** The conversion of a size to the int parameter of wr_malloc and wr_realloc (Reasoner/mem.c l.57, l.64). *)
Definition to_int (z : Z) : Z := (z + 2147483648) mod 4294967296 - 2147483648.
(** Reasoner/mem.c l.57-69: memory of [bytes] bytes for elements of [w] bytes with what was in [old]; a negative number is a huge size, which malloc and realloc refuse.
    [junk] is what is in fresh memory. *)
Definition mem_new (ok : bool) (junk : Z -> Z) (old : block) (w bytes : Z) : option block :=
  if ok && (0 <=? to_int bytes)
  then Some (Block (to_int bytes / w) (fun j => if j <? Z.min (size old) (to_int bytes / w) then cell old j else junk j)) else None.

(** Reasoner/mem.c l.191: the new length is doubled until it is enough; above INT_MAX it is undefined ([None]). *)
Fixpoint grow (fuel : nat) (nlen i : Z) : option Z :=
  if i <=? nlen then Some nlen
  else match fuel with
       | O => None
       | S f => if nlen * 2 <? 2147483648 then grow f (nlen * 2) i else None
       end.
(** Reasoner/mem.c l.181-205: wr_vec_realloc; [err] is alloc_err before, the second result is alloc_err after. *)
Definition vec_realloc (err ok : bool) (junk : Z -> Z) (v : block) (i : Z) : res * bool :=
  if size v <? 1 then (Bad, err) else
  let vlen := to_int (cell v 0) in
  if i <=? vlen then (Blk v, err)
  else if err then (Null, err)
  else if (0 <? vlen) && (2147483648 <=? vlen * 2) then (Bad, err)
  else match grow 32 (if vlen <=? 0 then 2 else vlen * 2) i with
       | None => (Bad, err)
       | Some nlen =>
           match mem_new ok junk v 8 ((nlen + 1) * 8) with
           | None => (Null, true)
           | Some b => (put b 0 nlen, err)
           end
       end.
(** Reasoner/mem.c l.214-231: wr_vec_store. *)
Definition vec_store (err ok : bool) (junk : Z -> Z) (v : block) (i e : Z) : res * bool :=
  if size v <? 1 then (Bad, err) else
  if i <=? to_int (cell v 0) then (put v i e, err)
  else match vec_realloc err ok junk v i with
       | (Blk b, err') => (put b i e, err')
       | (Null, _) => (Null, true)
       | (Bad, err') => (Bad, err')
       end.
(** Reasoner/mem.c l.239-248: wr_cvec_store. *)
Definition cvec_store (err ok : bool) (junk : Z -> Z) (v : block) (i e : Z) : res * bool :=
  match vec_store err ok junk v i e with
  | (Blk b, err') => if size b <? 2 then (Bad, err') else if cell b 1 <=? i then (put b 1 (i + 1), err') else (Blk b, err')
  | r => r
  end.
(** Reasoner/mem.c l.257-262: wr_cvec_push. *)
Definition cvec_push (err ok : bool) (junk : Z -> Z) (v : block) (e : Z) : res * bool :=
  if size v <? 2 then (Bad, err) else cvec_store err ok junk v (to_int (cell v 1)) e.
(** Reasoner/mem.c l.111-132: wr_cvec_new, for memory that malloc aligned. *)
Definition cvec_new (err ok : bool) (junk : Z -> Z) (len : Z) : res * bool :=
  if err then (Null, err) else
  match mem_new ok junk (Block 0 junk) 8 ((len + 2) * 8) with
  | None => (Null, true)
  | Some b => (match put b 0 len with Blk b => put b 1 2 | r => r end, err)
  end.
(** Reasoner/clstore.c l.92-98: wr_push_clqueue_cl; the result replaces the queue, also when it is NULL, and is used at the next call. *)
Definition push_queue (st : res * bool) (ok : bool) (junk : Z -> Z) (e : Z) : res * bool :=
  match st with (Blk v, err) => cvec_push err ok junk v e | (_, err) => (Bad, err) end.
(** Clauses pushed one after the other, with the outcome of allocating for each (Reasoner/clstore.c l.92-98). *)
Fixpoint push_all (st : res * bool) (junk : Z -> Z) (l : list (Z * bool)) : res * bool :=
  match l with [] => st | (e, ok) :: r => push_all (push_queue st ok junk e) junk r end.

(** Reasoner/mem.c l.329-330: the new part is filled with blanks, and ended with 0. *)
Definition blank (b : block) (from newlen : Z) : block :=
  Block (size b) (fun j => if j =? newlen - 1 then 0 else if (from <=? j) && (j <? newlen) then 32 else cell b j).
(** Reasoner/mem.c l.315-335: wr_str_guarantee_space with the length [n] kept for the string; [oks] are the outcomes of allocating.
    Failing ends in wr_sys_exiterr2int ([Null]). *)
Fixpoint guarantee (fuel : nat) (oks : nat -> bool) (junk : Z -> Z) (b : block) (n needed : Z) : res * Z :=
  if needed <=? n then (Blk b, n)
  else match fuel with
       | O => (Bad, n)
       | S f =>
           if 2147483648 <=? n * 2 then (Bad, n) else
           match mem_new (oks f) junk b 1 (n * 2) with
           | None => (Null, n)
           | Some t => if (n - 1 <? 0) || (size t <? n * 2) then (Bad, n) else guarantee f oks junk (blank t (n - 1) (n * 2)) (n * 2) needed
           end
       end.
