(** Arguments of the command line of wgdb (Main/wgdb.c). *)
From Coq Require Import ZArith Bool List.
Import ListNotations.
Open Scope Z_scope.

(** A digit of a base up to ten (strtol in Main/wgdb.c l.203, l.261). *)
Definition digit (base c : Z) : bool := (48 <=? c) && (c <? 48 + base).
(** White space, which strtol leaves out (Main/wgdb.c l.203, l.261). *)
Fixpoint skip_ws (s : list Z) : list Z :=
  match s with c :: r => if (c =? 32) || ((9 <=? c) && (c <=? 13)) then skip_ws r else s | [] => [] end.
(** The digits in front with what they stand for, and the rest (strtol in Main/wgdb.c l.203, l.261). *)
Fixpoint digits (base acc : Z) (s : list Z) : Z * list Z :=
  match s with c :: r => if digit base c then digits base (acc * base + (c - 48)) r else (acc, s) | [] => (acc, []) end.
(** LONG_MAX and LONG_MIN (Main/wgdb.c l.203-205). *)
Definition LMAX : Z := 9223372036854775807.
(** Main/wgdb.c l.205. *)
Definition LMIN : Z := -9223372036854775808.
(** A sign (strtol in Main/wgdb.c l.203, l.261). *)
Definition sign (s : list Z) : bool * list Z :=
  match s with c :: r => if c =? 45 then (true, r) else if c =? 43 then (false, r) else (false, s) | [] => (false, s) end.
(** strtol (Main/wgdb.c l.203, l.261): the value, what follows, and whether errno was set to ERANGE. *)
Definition strtol (base : Z) (s : list Z) : Z * list Z * bool :=
  let t := skip_ws s in
  let (neg, t) := sign t in
  match t with
  | c :: _ =>
      if digit base c then
        let (n, rest) := digits base 0 t in
        let n := if neg then - n else n in
        if n <? LMIN then (LMIN, rest, true) else if LMAX <? n then (LMAX, rest, true) else (n, rest, false)
      else (0, s, false)
  | [] => (0, s, false)
  end.
(** Main/wgdb.c l.208-223: the factor for a unit. *)
Definition unit_of (t : list Z) : Z :=
  match t with
  | c :: _ =>
      if (c =? 107) || (c =? 75) then 1000 else if (c =? 109) || (c =? 77) then 1000000 else if (c =? 103) || (c =? 71) then 1000000000 else 1
  | [] => 1
  end.
(** Main/wgdb.c l.201-236: parse_shmsize, with gint of 64 bits; [stale] tells that errno was ERANGE before. [None]: the product is undefined. *)
Definition parse_shmsize (stale : bool) (s : list Z) : option Z :=
  let '(val, t, range) := strtol 10 s in
  let mult := if ((val =? LMAX) || (val =? LMIN)) && (range || stale) then 1 else unit_of t in
  let val := if LMAX <? val then LMAX else val in
  if (LMIN <=? val * mult) && (val * mult <=? LMAX) then Some (val * mult) else None.
(** Main/wgdb.c l.241-254: parse_flag. *)
Fixpoint parse_flag (s : list Z) : Z :=
  match s with
  | c :: r => if c =? 45 then parse_flag r else if c =? 102 then 1 else if c =? 108 then 2 else 0
  | [] => 0
  end.
(** Main/wgdb.c l.259-267: parse_memmode; [errno] is what errno was before. *)
Definition parse_memmode (errno : Z) (s : list Z) : Z :=
  let '(parsed, t, range) := strtol 8 s in
  if (errno =? 0) && negb range && (match t with [] => true | _ => false end) && (parsed <=? 511) && (0 <? parsed) then parsed else 0.
(** The conditions of queries (Db/dbquery.h l.41-46). *)
Inductive cond := EQUAL | NOT_EQUAL | LTEQUAL | GTEQUAL | LESSTHAN | GREATER.
(** Main/wgdb.c l.798-814: the condition by the first characters, as strncmp compares them. *)
Definition cond_of (s : list Z) : option cond :=
  match s with
  | 61 :: _ => Some EQUAL
  | 33 :: 61 :: _ => Some NOT_EQUAL
  | 60 :: 61 :: _ => Some LTEQUAL
  | 62 :: 61 :: _ => Some GTEQUAL
  | 60 :: _ => Some LESSTHAN
  | 62 :: _ => Some GREATER
  | _ => None
  end.
(** Main/wgdb.c l.928-931: the records passed over; [None] when they end. *)
Fixpoint skip {A} (n : nat) (l : list A) : option (list A) :=
  match n with O => Some l | S m => match l with [] => None | _ :: r => skip m r end end.
(** Main/wgdb.c l.933-940: the records printed. *)
Fixpoint show {A} (count howmany : Z) (l : list A) : list A :=
  match l with [] => [] | x :: r => x :: (if count + 1 =? howmany then [] else show (count + 1) howmany r) end.
(** Main/wgdb.c l.923-943: selectdata, for the records of the database in their order. *)
Definition selectdata {A} (l : list A) (howmany startingat : Z) : list A :=
  match skip (Z.to_nat startingat) l with None => [] | Some r => show 0 howmany r end.
(** Main/wgdb.c l.768-818: make_arglist, with the outcome of reading one column, condition and value as [one]: the arguments are taken in threes, and
    those behind the last three are not looked at. [None]: the arguments are refused. *)
Fixpoint arglist {T Q : Type} (one : T -> T -> T -> option Q) (args : list T) : option (list Q) :=
  match args with
  | a :: b :: c :: r =>
      match one a b c with None => None | Some q => match arglist one r with None => None | Some l => Some (q :: l) end end
  | _ => Some []
  end.
(** Db/dbquery.c l.373-376, called in Main/wgdb.c l.853, l.892: an empty list of arguments that is not NULL is refused, when built with CHECK.
    [None]: no query is run. *)
Definition run_args {T Q : Type} (check : bool) (one : T -> T -> T -> option Q) (args : list T) : option (list Q) :=
  match arglist one args with None => None | Some [] => if check then None else Some [] | r => r end.
