(** The extendible hash table of Db/dbhash.c (gint keys to gint values). *)
From Coq Require Import ZArith List Bool.
From Verif Require Import Base DhashModel.
Import ListNotations.
Open Scope Z_scope.

(** Db/dbhash.c l.59, l.67: GINTHASH_BUCKETCAP, GINTHASH_MAXLEVEL. *)
Definition BUCKETCAP : nat := 7%nat.
(** Db/dbhash.c l.59, l.67. *)
Definition MAXLEVEL : Z := 23.

(** Db/dbhash.c l.73-78: ginthash_bucket. The entries are the filled part of the
    key and value arrays, in array order; fill is the length of the list. *)
Record gbucket := GB { blevel : Z; ents : list (Z * Z) }.
(** Db/dbhash.c l.84-88: ext_ginthash. A pointer to a bucket is a number,
    0 is NULL; [nextb] is the next unused bucket of the memory pool. *)
Record gtable := GT { glevel : Z; gdir : Z -> Z; gheap : Z -> gbucket; nextb : Z }.

(** Store through a bucket pointer (e.g. Db/dbhash.c l.751, l.812). *)
Definition hupd (h : Z -> gbucket) (b : Z) (x : gbucket) : Z -> gbucket :=
  fun i => if i =? b then x else h i.

(** Db/dbhash.c l.70: GINTHASH_SCRAMBLE. *)
Definition scramble (k : Z) : Z := rehash_gint k.

(** Db/dbhash.c l.804-816: add_to_bucket, compiled with CHECK. *)
Definition add_to_bucket (b : gbucket) (k v : Z) : gbucket :=
  if (BUCKETCAP <? length (ents b))%nat then b else GB (blevel b) (ents b ++ [(k, v)]).

(** Db/dbhash.c l.821-834: remove_from_bucket. *)
Fixpoint remove_nth (i : nat) (l : list (Z * Z)) : list (Z * Z) :=
  match l, i with
  | [], _ => []
  | _ :: r, O => r
  | x :: r, S j => x :: remove_nth j r
  end.

(** Db/dbhash.c l.686-717: grow_ginthash (memory allocation succeeds);
    [None] when the maximal level is reached. *)
Definition grow_ginthash (t : gtable) : option gtable :=
  let newlevel := glevel t + 1 in
  if MAXLEVEL <=? newlevel then None
  else
    let dirsize := 2 ^ glevel t in
    let d := if glevel t =? 0 then (fun _ => 0)
             else (fun i => if i <? dirsize then gdir t i else gdir t (i - dirsize)) in
    Some (GT newlevel d (gheap t) (nextb t)).

(** Db/dbhash.c l.763-770: relocation of the entries with the bit set, from index
    [i]-1 down to 0. *)
Fixpoint relocate (i : nat) (msbmask : Z) (b newb : gbucket) : gbucket * gbucket :=
  match i with
  | O => (b, newb)
  | S j =>
      match nth_error (ents b) j with
      | None => (b, newb)
      | Some (k, v) =>
          if Z.land (scramble k) msbmask =? 0 then relocate j msbmask b newb
          else relocate j msbmask (GB (blevel b) (remove_nth j (ents b))) (add_to_bucket newb k v)
      end
  end.

(** Db/dbhash.c l.790-796: the directory update; [None] for the paranoia check
    or an index outside the directory. *)
Fixpoint dirloop (n : nat) (j blev msbmask lowbits : Z) (dirsize old new : Z) (d : Z -> Z) : option (Z -> Z) :=
  match n with
  | O => Some d
  | S m =>
      let k := Z.lor (Z.lor (Z.shiftl j blev) msbmask) lowbits in
      if (0 <=? k) && (k <? dirsize) && (d k =? old)
      then dirloop m (j + 1) blev msbmask lowbits dirsize old new (upd d k new)
      else None
  end.

(** Result of an operation: the table, whether it reported success, or an access
    outside the directory or an empty bucket (undefined behaviour) (Db/dbhash.c l.736-1050). *)
Inductive gres (A : Type) := GOk (a : A) (t : gtable) | GFail (t : gtable) | GUb.
Arguments GOk {A}. Arguments GFail {A}. Arguments GUb {A}.

(** Db/dbhash.c l.736-799: ginthash_splitbucket; returns the new bucket. *)
Definition ginthash_splitbucket (t : gtable) (b : Z) : gres Z :=
  match (if blevel (gheap t b) =? glevel t then grow_ginthash t else Some t) with
  | None => GFail t
  | Some t1 =>
      match ents (gheap t1 b) with
      | [] => GUb
      | (k0, _) :: _ =>
          let bk := gheap t1 b in
          let msbmask := 2 ^ blevel bk in
          let lowbits := Z.land (scramble k0) (msbmask - 1) in
          let nb := nextb t1 in
          let '(b1, n1) := relocate (length (ents bk)) msbmask (GB (blevel bk + 1) (ents bk)) (GB (blevel bk + 1) []) in
          let hp := hupd (hupd (gheap t1) b b1) nb n1 in
          if blevel b1 =? glevel t1 then
            let k := Z.lor msbmask lowbits in
            if (0 <=? k) && (k <? 2 ^ glevel t1) then GOk nb (GT (glevel t1) (upd (gdir t1) k nb) hp (nb + 1))
            else GUb
          else
            match dirloop (Z.to_nat (2 ^ (glevel t1 - blevel b1))) 0 (blevel b1) msbmask lowbits (2 ^ glevel t1) b nb (gdir t1) with
            | Some d => GOk nb (GT (glevel t1) d hp (nb + 1))
            | None => GUb
            end
      end
  end.

(** Db/dbhash.c l.618-627: the splitting loop of wg_ginthash_addkey; running out
    of [fuel] is kept apart as undefined. *)
Fixpoint splitloop (fuel : nat) (t : gtable) (b : Z) : gres unit :=
  if (BUCKETCAP <? length (ents (gheap t b)))%nat then
    match fuel with
    | O => GUb
    | S f =>
        match ginthash_splitbucket t b with
        | GOk nb t' => splitloop f t' (if (BUCKETCAP <? length (ents (gheap t' nb)))%nat then nb else b)
        | GFail t' => GFail t'
        | GUb => GUb
        end
    end
  else GOk tt t.

(** Db/dbhash.c l.601-630: wg_ginthash_addkey. *)
Definition wg_ginthash_addkey (t : gtable) (key val : Z) : gres unit :=
  let h := Z.land (scramble key) (2 ^ glevel t - 1) in
  let b := gdir t h in
  if b =? 0 then
    let nb := nextb t in
    let bk := add_to_bucket (GB (glevel t) []) key val in
    GOk tt (GT (glevel t) (upd (gdir t) h nb) (hupd (gheap t) nb bk) (nb + 1))
  else
    let t1 := GT (glevel t) (gdir t) (hupd (gheap t) b (add_to_bucket (gheap t b) key val)) (nextb t) in
    splitloop (Z.to_nat MAXLEVEL) t1 b.

(** Db/dbhash.c l.643-648: first entry with the key. *)
Fixpoint bfind (l : list (Z * Z)) (key : Z) : option Z :=
  match l with
  | [] => None
  | (k, v) :: r => if k =? key then Some v else bfind r key
  end.

(** Db/dbhash.c l.637-651: wg_ginthash_getkey; [None] is return code -1. *)
Definition wg_ginthash_getkey (t : gtable) (key : Z) : option Z :=
  let h := Z.land (scramble key) (2 ^ glevel t - 1) in
  let b := gdir t h in
  if b =? 0 then None else bfind (ents (gheap t b)) key.

(** Db/dbhash.c l.581-594: wg_ginthash_init (memory allocation succeeds). *)
Definition wg_ginthash_init : option gtable :=
  grow_ginthash (GT 0 (fun _ => 0) (fun _ => GB 0 []) 1).

(** A sequence of insertions; [None] when one of them is undefined, otherwise the
    final table and the returned codes (Db/dbhash.c l.601-630). *)
Fixpoint gadds (t : gtable) (l : list (Z * Z)) : option (gtable * list Z) :=
  match l with
  | [] => Some (t, [])
  | (k, v) :: r =>
      match wg_ginthash_addkey t k v with
      | GOk _ t' => match gadds t' r with Some (t2, cs) => Some (t2, 0 :: cs) | None => None end
      | GFail t' => match gadds t' r with Some (t2, cs) => Some (t2, (-1) :: cs) | None => None end
      | GUb => None
      end
  end.
