(** Memory pools, pairs and atoms (Db/dbmpool.c). *)
From Coq Require Import ZArith List Bool.
From Verif Require Import Base.
Import ListNotations.
Open Scope Z_scope.

(** Db/dbmpool.c l.59-61. *)
Definition NROF_SUBAREAS := 100.
(** Db/dbmpool.c l.59-61. *)
Definition MIN_FIRST_SUBAREA_SIZE := 1024.
(** Db/dbmpool.c l.59-61. *)
Definition ALIGNMENT_BYTES := 4.
(** sizeof(mpool_header), Db/dbmpool.c l.74-90: two words and 100 rows of 24 bytes. *)
Definition HEADER := 2416.
(** Largest int (the type of Db/dbmpool.c l.114, l.150). *)
Definition INT_MAX := 2147483647.

(** Db/dbmpool.c l.74-78: one subarea. *)
Record area := Area { asize : Z; astart : Z; aend : Z }.
(** Db/dbmpool.c l.85-90: the current subarea is the head of [areas]. *)
Record pool := Pool { freeptr : Z; cur_subarea : Z; cur : area; older : list area }.

(** Next address divisible by 4 (Db/dbmpool.c l.136-137, l.182-183, l.246-247). *)
Definition align (p : Z) : Z :=
  let i := p mod ALIGNMENT_BYTES in if i =? 0 then p else p + (ALIGNMENT_BYTES - i).

(** Outcome of a call: a value, NULL, or undefined behaviour (int overflow,
    write outside the subarea table) (Db/dbmpool.c l.114-251). *)
Inductive res (A : Type) := ROk (a : A) | RNull | RUndef.
Arguments ROk {A} a. Arguments RNull {A}. Arguments RUndef {A}.

(** Db/dbmpool.c l.114-145: wg_create_mpool; [malloc n] is the address given by
    malloc, [None] for NULL. *)
Definition wg_create_mpool (malloc : Z -> option Z) (origbytes : Z) : res pool :=
  let bytes := if origbytes <? MIN_FIRST_SUBAREA_SIZE + ALIGNMENT_BYTES
               then HEADER + MIN_FIRST_SUBAREA_SIZE + ALIGNMENT_BYTES
               else HEADER + origbytes + ALIGNMENT_BYTES in
  if INT_MAX <? bytes then RUndef
  else match malloc bytes with
       | None => RNull
       | Some mpool => ROk (Pool (align (mpool + HEADER)) 0 (Area (bytes - HEADER) mpool (mpool + bytes)) [])
       end.

(** Db/dbmpool.c l.167-170: double the size until it suffices; [None] is an
    int overflow. *)
Fixpoint double_size (n : nat) (bytes want : Z) : option Z :=
  match n with
  | O => Some bytes
  | S m => let b := bytes * 2 in
           if INT_MAX <? b then None
           else if want <=? b then Some b else double_size m b want
  end.

(** Db/dbmpool.c l.156-189: extend_mpool. *)
Definition extend_mpool (malloc : Z -> option Z) (p : pool) (minbytes : Z) : res pool :=
  if INT_MAX <? minbytes + ALIGNMENT_BYTES then RUndef
  else match double_size 100 (asize (cur p)) (minbytes + ALIGNMENT_BYTES) with
  | None => RUndef
  | Some bytes =>
      match malloc bytes with
      | None => RNull
      | Some sub =>
          if NROF_SUBAREAS <=? cur_subarea p + 1 then RUndef
          else ROk (Pool (align sub) (cur_subarea p + 1) (Area bytes sub (sub + bytes)) (cur p :: older p))
      end
  end.

(** Db/dbmpool.c l.216-251: wg_alloc_mpool. *)
Definition wg_alloc_mpool (malloc : Z -> option Z) (p : pool) (bytes : Z) : res (pool * Z) :=
  if bytes <=? 0 then RNull
  else
    let p1 := if aend (cur p) <? freeptr p + bytes then extend_mpool malloc p bytes else ROk p in
    match p1 with
    | RUndef => RUndef
    | RNull => RNull
    | ROk p1 => ROk (Pool (align (freeptr p1 + bytes)) (cur_subarea p1) (cur p1) (older p1), freeptr p1)
    end.

(** ** Atoms and pairs: bytes of memory as unsigned values (Db/dbmpool.c l.305-391). *)
Definition bmem := Z -> Z.
(** Copy of a string with its final 0 (Db/dbmpool.c l.360, l.366). *)
Fixpoint put (m : bmem) (p : Z) (l : list Z) : bmem :=
  match l with
  | [] => m
  | b :: r => put (upd m p b) (p + 1) r
  end.
(** A string argument: [None] is NULL (Db/dbmpool.c l.341-349). *)
Definition chars (s : option (list Z)) : list Z := match s with Some l => l | None => [] end.

(** Db/dbmpool.c l.344-349: size of the block asked for. *)
Definition atom_size (s1 s2 : option (list Z)) : Z :=
  2 + Z.of_nat (length (chars s1)) + 1 + Z.of_nat (length (chars s2)) + 1.
(** Db/dbmpool.c l.355-370: fill the block at [ptr]; the address of the atom. *)
Definition fill_atom (m : bmem) (ptr type : Z) (s1 s2 : option (list Z)) : bmem * Z :=
  (put m (ptr + 1) ((type mod 256) :: chars s1 ++ [0] ++ chars s2 ++ [0]), ptr + 1).
(** Db/dbmpool.c l.341-371: wg_mkatom. *)
Definition wg_mkatom (malloc : Z -> option Z) (p : pool) (m : bmem) (type : Z) (s1 s2 : option (list Z)) : res (pool * bmem * Z) :=
  if INT_MAX <? atom_size s1 s2 then RUndef
  else match wg_alloc_mpool malloc p (atom_size s1 s2) with
  | ROk (p', ptr) => let '(m', a) := fill_atom m ptr type s1 s2 in ROk (p', m', a)
  | RNull => RNull
  | RUndef => RUndef
  end.

(** The 8 bytes of a gint, little endian (Db/dbmpool.c l.305-324). *)
Definition le8 (v : Z) : list Z := map (fun i => Z.shiftr (u64 v) (8 * Z.of_nat i) mod 256) (seq 0 8).
(** Reading a gint (Db/dbmpool.c l.318-324). *)
Definition get8 (m : bmem) (p : Z) : Z :=
  wrap64 (fold_right (fun i acc => m (p + Z.of_nat i) + 256 * acc) 0 (seq 0 8)).
(** Db/dbmpool.c l.305-316: wg_mkpair. *)
Definition wg_mkpair (malloc : Z -> option Z) (p : pool) (m : bmem) (x y : Z) : res (pool * bmem * Z) :=
  match wg_alloc_mpool malloc p 16 with
  | ROk (p', ptr) => ROk (p', put m ptr (le8 x ++ le8 y), ptr)
  | RNull => RNull
  | RUndef => RUndef
  end.
(** Db/dbmpool.c l.318-324: wg_first, wg_rest. *)
Definition wg_first (m : bmem) (ptr : Z) : Z := get8 m ptr.
(** Db/dbmpool.c l.318-324. *)
Definition wg_rest (m : bmem) (ptr : Z) : Z := get8 m (ptr + 8).
(** Db/dbmpool.c l.301-303, l.336-339: wg_ispair, wg_isatom. *)
Definition wg_ispair (ptr : Z) : bool := negb (ptr =? 0) && (Z.land ptr 1 =? 0).
(** Db/dbmpool.c l.301-303, l.336-339. *)
Definition wg_isatom (ptr : Z) : bool := negb (ptr =? 0) && (Z.land ptr 1 =? 1).

(** strlen and the string at an address, within [fuel] bytes (called from Db/dbmpool.c l.388). *)
Fixpoint strat (fuel : nat) (m : bmem) (p : Z) : list Z :=
  match fuel with
  | O => []
  | S f => if m p =? 0 then [] else m p :: strat f m (p + 1)
  end.
(** Db/dbmpool.c l.388. *)
Definition strlen (fuel : nat) (m : bmem) (p : Z) : Z := Z.of_nat (length (strat fuel m p)).

(** Db/dbmpool.c l.373-377: wg_atomtype; char is signed. *)
Definition wg_atomtype (m : bmem) (ptr : Z) : Z :=
  if ptr =? 0 then 0 else let b := m ptr in if b <? 128 then b else b - 256.
(** Db/dbmpool.c l.380-384: wg_atomstr1; [None] is NULL. *)
Definition wg_atomstr1 (m : bmem) (ptr : Z) : option Z :=
  if ptr =? 0 then None else if m (ptr + 1) =? 0 then None else Some (ptr + 1).
(** Db/dbmpool.c l.386-391: wg_atomstr2. *)
Definition wg_atomstr2 (fuel : nat) (m : bmem) (ptr : Z) : option Z :=
  if ptr =? 0 then None
  else let q := ptr + strlen fuel m ptr + 1 in
       if m (q + 1) =? 0 then None else Some q.

(** ** Sequences of calls on one pool (Db/dbmpool.c l.114-251, l.305, l.341) *)
Inductive obj :=
| OBlock (p n : Z)                                            (* wg_alloc_mpool *)
| OAtom (a type : Z) (s1 s2 : option (list Z))                (* wg_mkatom *)
| OPair (a x y : Z).                                          (* wg_mkpair *)
(** The block an object was made in (Db/dbmpool.c l.305, l.349). *)
Definition extent (o : obj) : Z * Z :=
  match o with
  | OBlock p n => (p, n)
  | OAtom a _ s1 s2 => (a - 1, atom_size s1 s2)
  | OPair a _ _ => (a, 16)
  end.

(** Contract of malloc relative to the areas in use: a non-NULL address and
    [n] bytes outside every area (called in Db/dbmpool.c l.127, l.171). *)
Definition malloc_ok (areas : list area) (malloc : Z -> option Z) : Prop :=
  forall n a, malloc n = Some a -> 0 < a /\ forall ar, In ar areas -> a + n <= astart ar \/ aend ar <= a.

(** C strings: bytes 1..255 (arguments of Db/dbmpool.c l.341). *)
Definition cstr_ok (s : option (list Z)) : Prop := Forall (fun b => 0 < b < 256) (chars s).

(** Reachable: pool, memory, objects made so far (newest first); the owner of a
    plain block may write anything into it (Db/dbmpool.c l.114-251, l.305, l.341). *)
Inductive mreach : pool -> bmem -> list obj -> Prop :=
| MRcreate malloc n p m : malloc_ok [] malloc -> wg_create_mpool malloc n = ROk p -> mreach p m []
| MRalloc malloc p m h n p' q : mreach p m h -> malloc_ok (cur p :: older p) malloc -> n <= INT_MAX ->
    wg_alloc_mpool malloc p n = ROk (p', q) -> mreach p' m (OBlock q n :: h)
| MRatom malloc p m h t s1 s2 p' m' a : mreach p m h -> malloc_ok (cur p :: older p) malloc -> cstr_ok s1 -> cstr_ok s2 ->
    wg_mkatom malloc p m t s1 s2 = ROk (p', m', a) -> mreach p' m' (OAtom a t s1 s2 :: h)
| MRpair malloc p m h x y p' m' a : mreach p m h -> malloc_ok (cur p :: older p) malloc ->
    wg_mkpair malloc p m x y = ROk (p', m', a) -> mreach p' m' (OPair a x y :: h)
| MRwrite p m h q n a v : mreach p m h -> In (OBlock q n) h -> q <= a < q + n -> mreach p (upd m a v) h.
