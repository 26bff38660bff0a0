(** What process_query of dserve does with the parameters of a request: the database, the padding, the operation (Server/dserve.c l.404-532). *)
From Coq Require Import ZArith List Bool.
From Coq Require String.
From Verif Require Import DserveModel DserveConfModel DserveOpsModel.
Import ListNotations.
Import String.StringSyntax.
Open Scope Z_scope.

(** The functions process_query calls (Server/dserve.c l.489-518). *)
Inductive oper := Search (c : opcode) | Insert | Create | Drop.
(** The errors, and the call with the database and the padding set before (Server/dserve.c l.437-450, l.468, l.516, l.520). *)
Inductive disp := D_noquery | D_long | D_malformed | D_baddb | D_unknown_op | D_no_op | D_call (o : oper) (db : list Z) (jsonp : option (list Z)).
(** What the search for the database gives: it, the error, or atoi of a number too large (Server/dserve.c l.464-474). *)
Inductive dbres := DB (s : list Z) | DB_bad | DB_undefined.
(** Server/dserve.c l.464-474: the first parameter db with a value. *)
Fixpoint find_db (l : list (list Z * list Z)) (dflt : list Z) : dbres :=
  match l with
  | [] => DB dflt
  | (n, v) :: r =>
      if streq n (bytes "db") && negb (streq v []) then
        match atoi_text v with
        | None => DB_undefined
        | Some a => if (a =? 0) && negb (streq v (bytes "0")) then DB_bad else DB v
        end
      else find_db r dflt
  end.
(** Server/dserve.c l.477-482: the first parameter jsonp. *)
Fixpoint find_jsonp (l : list (list Z * list Z)) : option (list Z) :=
  match l with [] => None | (n, v) :: r => if streq n (bytes "jsonp") then Some v else find_jsonp r end.
(** Server/dserve.c l.487-517: the operation of a name. *)
Definition op_of (v : list Z) : option oper :=
  if streq v (bytes "count") then Some (Search COUNT_CODE)
  else if streq v (bytes "search") || streq v (bytes "select") then Some (Search SEARCH_CODE)
  else if streq v (bytes "insert") then Some Insert
  else if streq v (bytes "update") then Some (Search UPDATE_CODE)
  else if streq v (bytes "delete") then Some (Search DELETE_CODE)
  else if streq v (bytes "create") then Some Create
  else if streq v (bytes "drop") then Some Drop
  else None.
(** Server/dserve.c l.485-520: the first parameter op decides. *)
Fixpoint find_op (l : list (list Z * list Z)) (db : list Z) (jsonp : option (list Z)) : disp :=
  match l with
  | [] => D_no_op
  | (n, v) :: r => if streq n (bytes "op") then match op_of v with Some o => D_call o db jsonp | None => D_unknown_op end else find_op r db jsonp
  end.
(** Server/dserve.c l.436-520: process_query; [ql] is the length of the query, [parsed] what parse_query finds in it ([None]: no parameters),
    [conf] the default database of the configuration. [None] is undefined. *)
Definition process_query (ql : nat) (parsed : option (list (list Z * list Z))) (conf : option (list Z)) : option disp :=
  if Nat.eqb ql 0 then Some D_noquery
  else if Nat.ltb (Z.to_nat 2000) ql then Some D_long
  else
    match parsed with
    | None | Some [] => Some D_malformed
    | Some l =>
        match find_db l (match conf with Some s => s | None => bytes "1000" end) with
        | DB_undefined => None
        | DB_bad => Some D_baddb
        | DB db => Some (find_op l db (find_jsonp l))
        end
    end.
