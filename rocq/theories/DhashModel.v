(** Hash functions and the double-hashing set of Db/dbhash.c. *)
From Coq Require Import ZArith List Bool.
From Verif Require Import Base.
Import ListNotations.
Open Scope Z_scope.

(** Db/dbhash.c l.97-98: FNV constants for 64-bit gint. *)
Definition FNV_offset_basis : Z := 14695981039346656037.
(** Db/dbhash.c l.97-98. *)
Definition FNV_prime : Z := 1099511628211.

(** Byte [i] of the little-endian representation (Db/dbhash.c l.677). *)
Definition byte_of (v : Z) (i : Z) : Z := Z.shiftr (u64 v) (8 * i) mod 256.

(** Db/dbhash.c l.672-681: rehash_gint. *)
Definition rehash_gint (v : Z) : Z :=
  wrap64 (fold_left (fun h i => u64 (Z.lxor h (byte_of v i) * FNV_prime)) [0;1;2;3;4;5;6;7] FNV_offset_basis).

(** Db/dbhash.c l.848-854: the primes; only the first 20 are used (l.855). *)
Definition primes : list Z :=
  [389; 769; 1543; 3079; 6151; 12289; 24593; 49157; 98317; 196613; 393241; 786433;
   1572869; 3145739; 6291469; 12582917; 25165843; 50331653; 100663319; 201326611].

(** Db/dbhash.c l.860-865: first prime greater than [w] among all but the last,
    else the last. *)
Fixpoint pick (w : Z) (l : list Z) : Z :=
  match l with
  | [] => 0
  | [p] => p
  | p :: r => if w <? p then p else pick w r
  end.
(** Db/dbhash.c l.845-866: dhash_size. *)
Definition dhash_size (entries : Z) : Z :=
  if 2147483645 <? entries then 0 else pick (2 * entries) primes.

(** Db/dbhash.c l.868-870: the probe sequence; the hash is converted to size_t. *)
Definition DHASH_H1 (h sz : Z) : Z := u64 h mod sz.
(** Db/dbhash.c l.868-870. *)
Definition DHASH_H2 (h sz : Z) : Z := 1 + u64 h mod (sz - 1).
(** Db/dbhash.c l.868-870. *)
Definition DHASH_PROBE (h1 h2 i sz : Z) : Z := u64 (h1 + i * h2) mod sz.

(** Db/dbhash.c l.91-94: dhash_table. *)
Record dtable := Dtable { dsize : Z; keys : Z -> Z }.

(** Db/dbhash.c l.890-894: the loop over [i]; [b] is the slot looked at last. *)
Fixpoint dloop (fuel : nat) (t : dtable) (key h1 h2 i b : Z) : Z :=
  match fuel with
  | O => b
  | S f =>
      if i <? dsize t then
        let b' := DHASH_PROBE h1 h2 i (dsize t) in
        if (keys t b' =? key) || (keys t b' =? 0) then b'
        else dloop f t key h1 h2 (i + 1) b'
      else b
  end.

(** Db/dbhash.c l.879-896: dhash_lookup; index of the slot. *)
Definition dhash_lookup (t : dtable) (key : Z) : Z :=
  let h := rehash_gint key in
  let h1 := DHASH_H1 h (dsize t) in
  if (keys t h1 =? key) || (keys t h1 =? 0) then h1
  else dloop (Z.to_nat (dsize t)) t key h1 (DHASH_H2 h (dsize t)) 1 h1.

(** Db/dbhash.c l.904-915: wg_dhash_init; [None] when the size is not supported
    (memory allocation is assumed to succeed). *)
Definition wg_dhash_init (entries : Z) : option dtable :=
  let sz := dhash_size entries in
  if sz =? 0 then None else Some (Dtable sz (fun _ => 0)).

(** Db/dbhash.c l.933-941: wg_dhash_addkey. *)
Definition wg_dhash_addkey (t : dtable) (key : Z) : dtable * Z :=
  let b := dhash_lookup t key in
  if keys t b =? 0 then (Dtable (dsize t) (upd (keys t) b key), 0)
  else if keys t b =? key then (t, 0) else (t, -1).

(** Db/dbhash.c l.948-951: wg_dhash_haskey. *)
Definition wg_dhash_haskey (t : dtable) (key : Z) : bool :=
  keys t (dhash_lookup t key) =? key.

(** A sequence of insertions with the returned codes (Db/dbhash.c l.933-941,
    as used in Db/dbquery.c l.1484-1492). *)
Fixpoint addkeys (t : dtable) (ks : list Z) : dtable * list Z :=
  match ks with
  | [] => (t, [])
  | k :: r => let '(t1, c) := wg_dhash_addkey t k in
              let '(t2, cs) := addkeys t1 r in (t2, c :: cs)
  end.
