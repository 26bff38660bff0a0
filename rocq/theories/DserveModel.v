(** The request side of the dserve tool: splitting and decoding the parameters of a
    request, guessing types of values, and deciding whether a request is allowed
    (Server/dserve_util.c). A C buffer is the list of its bytes (0-255); an access outside
    of it is [None]. *)
From Coq Require Import ZArith List Bool.
Import ListNotations.
Open Scope Z_scope.

(** Reading one char of a buffer (Server/dserve_util.c l.110, l.136). *)
Definition rd (b : list Z) (i : nat) : option Z := nth_error b i.
(** Writing one char of a buffer (Server/dserve_util.c l.110, l.146-152). *)
Fixpoint wr (b : list Z) (i : nat) (v : Z) : option (list Z) :=
  match b, i with
  | [], _ => None
  | _ :: r, O => Some (v mod 256 :: r)
  | x :: r, S i => match wr r i v with Some r => Some (x :: r) | None => None end
  end.

(** strlen from position [i] on (Server/dserve_util.c l.135). *)
Fixpoint strlen_from (b : list Z) (i : nat) : option nat :=
  match b with
  | [] => None
  | x :: r =>
      match i with
      | O => if x =? 0 then Some O else match strlen_from r O with Some n => Some (S n) | None => None end
      | S i => strlen_from r i
      end
  end.
(** The C string at position [i] (Server/dserve_util.c l.119-120: params and values are such pointers). *)
Definition cstr_at (b : list Z) (i : nat) : option (list Z) :=
  match strlen_from b i with Some n => Some (firstn n (skipn i b)) | None => None end.

(** char is signed: conversion of an int to char (Server/dserve_util.c l.130, l.140). *)
Definition to_char (x : Z) : Z := (x + 128) mod 256 - 128.
(** isdigit of ctype.h (Server/dserve_util.c l.166). *)
Definition isdigit (c : Z) : bool := (48 <=? c) && (c <=? 57).
(** isxdigit of ctype.h; a negative char is no digit (Server/dserve_util.c l.139). *)
Definition isxdigit (c : Z) : bool :=
  isdigit c || ((65 <=? c) && (c <=? 70)) || ((97 <=? c) && (c <=? 102)).
(** Server/dserve_util.c l.140-142 (l.143-145): the value of a hex digit, [a] a char. *)
Definition hexval (a : Z) : Z :=
  let a := if 97 <=? a then to_char (a - (65 - 97)) else a in
  if 65 <=? a then to_char (a - (65 - 10)) else to_char (a - 48).

(** Server/dserve_util.c l.136-152: the loop of urldecode; [endp] is the end of the string. *)
Fixpoint urldecode_loop (fuel : nat) (b : list Z) (dst src endp : nat) : option (list Z) :=
  match fuel with
  | O => None
  | S fuel =>
      match rd b src with
      | None => None
      | Some c =>
          if c =? 0 then wr b dst 0
          else
            let plain :=
              match wr b dst c with Some b => urldecode_loop fuel b (S dst) (S src) endp | None => None end in
            if (c =? 37) && Nat.ltb (src + 2) endp then
              match rd b (src + 1), rd b (src + 2) with
              | Some x, Some y =>
                  let a := to_char x in
                  let d := to_char y in
                  if negb (a =? 0) && negb (d =? 0) && isxdigit a && isxdigit d then
                    match wr b dst (16 * hexval a + hexval d) with
                    | Some b => urldecode_loop fuel b (S dst) (src + 3)%nat endp
                    | None => None
                    end
                  else plain
              | _, _ => None
              end
            else plain
      end
  end.
(** Server/dserve_util.c l.129-154: urldecode with [indst] = [src] = the string at [p]. *)
Definition urldecode (b : list Z) (p : nat) : option (list Z) :=
  match strlen_from b p with
  | None => None
  | Some O => Some b
  | Some (S n) => urldecode_loop (S (S n)) b p p (p + S n)
  end.

(** Server/dserve.h l.106. *)
Definition MAXPARAMS : nat := 100.

(** Server/dserve_util.c l.109-111, l.115-117: go to the next [ch] before [ql], put 0 there. *)
Fixpoint split_at (fuel : nat) (b : list Z) (ch : Z) (i ql : nat) : option (list Z * nat) :=
  match fuel with
  | O => None
  | S fuel =>
      if Nat.ltb i ql then
        match rd b i with
        | None => None
        | Some c =>
            if c =? ch then match wr b i 0 with Some b => Some (b, i) | None => None end
            else split_at fuel b ch (S i) ql
        end
      else Some (b, i)
  end.

(** What parse_query gives: -1, or the buffer and the pointers of params and values
    (Server/dserve_util.c l.103). *)
Inductive parsed :=
| PQ_err
| PQ_ok (b : list Z) (pv : list (nat * nat)).

(** Server/dserve_util.c l.107-123: the loop of parse_query, [acc] the pointers stored so far. *)
Fixpoint parse_loop (fuel : nat) (b : list Z) (ql i : nat) (acc : list (nat * nat)) : option parsed :=
  match fuel with
  | O => None
  | S fuel =>
      if Nat.ltb i ql then
        let pi := i in
        match split_at (S ql) b 61 i ql with
        | None => None
        | Some (b, i) =>
            let i := S i in
            if Nat.leb ql i then Some PQ_err
            else
              let vi := i in
              match split_at (S ql) b 38 i ql with
              | None => None
              | Some (b, i) =>
                  if Nat.leb MAXPARAMS (length acc) then Some PQ_err
                  else
                    match urldecode b pi with
                    | None => None
                    | Some b =>
                        match urldecode b vi with
                        | None => None
                        | Some b => parse_loop fuel b ql (S i) (acc ++ [(pi, vi)])
                        end
                    end
              end
        end
      else Some (PQ_ok b acc)
  end.
(** Server/dserve_util.c l.103-124: parse_query. *)
Definition parse_query (query : list Z) (ql : nat) : option parsed := parse_loop (S ql) query ql 0 [].

(** Server/dserve.h l.105. *)
Definition MAXQUERYLEN : nat := 2000.
(** Server/dserve.c l.441-447: the length check, and the copy into an array of 2000 chars
    when not running as a server; [Some None] is the answer "too long query". *)
Definition take_query (isserver : bool) (inquery : list Z) : option (option (list Z * nat)) :=
  let ql := length inquery in
  if Nat.ltb MAXQUERYLEN ql then Some None
  else if isserver then Some (Some (inquery ++ [0], ql))
  else if Nat.leb (S ql) MAXQUERYLEN then Some (Some (inquery ++ [0] ++ repeat 0 (MAXQUERYLEN - S ql), ql))
  else None.

(** Server/dserve_util.c l.163-170: isint of a string. *)
Fixpoint isint (s : list Z) : bool :=
  match s with [] => true | c :: r => if isdigit c then isint r else false end.
(** Server/dserve_util.c l.176-188: isdbl of a string, [c] counts the periods. *)
Fixpoint isdbl_loop (s : list Z) (c : Z) : bool :=
  match s with
  | [] => true
  | x :: r =>
      if isdigit x then isdbl_loop r c
      else if x =? 46 then (if 1 <? c + 1 then false else isdbl_loop r (c + 1)) else false
  end.
(** Server/dserve_util.c l.176-188. *)
Definition isdbl (s : list Z) : bool := isdbl_loop s 0.

(** The value atoi gives for a string of digits; undefined when it does not fit in int
    (Server/dserve_util.c l.74, l.77, l.86). *)
Definition digits_value (s : list Z) : Z := fold_left (fun v c => 10 * v + (c - 48)) s 0.
(** atoi of a string of digits (Server/dserve_util.c l.74, l.77, l.86). *)
Definition atoi (s : list Z) : option Z :=
  let v := digits_value s in if v <=? 2147483647 then Some v else None.

(** Types of a parameter (Server/dserve_util.c l.56-65). *)
Inductive vtype := T_any | T_null | T_int | T_record | T_double | T_str | T_char.
(** What becomes of a value before it is encoded (Server/dserve_util.c l.67-94): the
    parameter value handed to the wg_encode_query_param functions. *)
Inductive pvalue :=
| V_illegal
| V_null
| V_int (n : Z)
| V_record (n : Z)
| V_double (s : list Z)
| V_str (s : list Z)
| V_char (c : Z).
(** Server/dserve_util.c l.67-94: encode_invalue; the outer [None] is undefined behaviour of atoi. *)
Definition encode_invalue (invalue : option (list Z)) (type : vtype) : option pvalue :=
  match invalue with
  | None => Some V_illegal
  | Some s =>
      match type with
      | T_null => Some V_null
      | T_int => if isint s then match atoi s with Some n => Some (V_int n) | None => None end else Some V_illegal
      | T_record => if isint s then match atoi s with Some n => Some (V_record n) | None => None end else Some V_illegal
      | T_double => if isdbl s then Some (V_double s) else Some V_illegal
      | T_str => Some (V_str s)
      | T_char => Some (V_char (nth 0 s 0))
      | T_any =>
          if isint s then match atoi s with Some n => Some (V_int n) | None => None end
          else if isdbl s then Some (V_double s)
          else Some (V_str s)
      end
  end.

(** Equality of strings: strcmp is 0 (Server/dserve_util.c l.875). *)
Fixpoint streq (a b : list Z) : bool :=
  match a, b with
  | [], [] => true
  | x :: a, y :: b => (x =? y) && streq a b
  | _, _ => false
  end.
(** strncmp(l, s, strlen(l)) is 0 and s is not shorter (Server/dserve_util.c l.877-878). *)
Fixpoint strpre (l s : list Z) : bool :=
  match l, s with
  | [], _ => true
  | x :: l, y :: s => (x =? y) && strpre l s
  | _, _ => false
  end.
(** Server/dserve_util.c l.866-882: authorize_aux; a NULL string is [None]. *)
Definition authorize_aux (str : option (list Z)) (lst : list (list Z)) (eqflag : bool) : bool :=
  match lst with
  | [] => true
  | _ :: _ =>
      match str with
      | None => false
      | Some s =>
          if Nat.ltb (length s) 1 then false
          else existsb (fun l => if eqflag then streq l s else strpre l s) lst
      end
  end.

(** Server/dserve.h l.252-254. *)
Inductive level := ADMIN_LEVEL | WRITE_LEVEL | READ_LEVEL.
(** The lists of the configuration (Server/dserve.h l.360-373). *)
Record conf := Conf {
  dbases : list (list Z);
  admin_ips : list (list Z);
  write_ips : list (list Z);
  read_ips : list (list Z);
  admin_tokens : list (list Z);
  write_tokens : list (list Z);
  read_tokens : list (list Z) }.

(** Server/dserve_util.c l.832-864: authorize; [remote] is isserver or iscgi. *)
Definition authorize (lv : level) (remote : bool) (ip : option (list Z)) (c : conf) (database token : option (list Z)) : bool :=
  if negb remote then true
  else if match database with None => false | Some _ => negb (authorize_aux database (dbases c) true) end then false
  else
    match lv with
    | READ_LEVEL =>
        let ok :=
          if authorize_aux ip (admin_ips c) false then true
          else if authorize_aux ip (write_ips c) false then true
          else if authorize_aux ip (read_ips c) false then true
          else false in
        if negb ok then false
        else if authorize_aux token (admin_tokens c) true then true
        else if authorize_aux token (write_tokens c) true then true
        else if authorize_aux token (read_tokens c) true then true
        else false
    | WRITE_LEVEL =>
        let ok :=
          if authorize_aux ip (admin_ips c) false then true
          else if authorize_aux ip (write_ips c) false then true
          else false in
        if negb ok then false
        else if authorize_aux token (admin_tokens c) true then true
        else if authorize_aux token (write_tokens c) true then true
        else false
    | ADMIN_LEVEL =>
        let ok := if authorize_aux ip (admin_ips c) false then true else false in
        if negb ok then false
        else if authorize_aux token (admin_tokens c) true then true
        else false
    end.
