(** Computed functions of the reasoner: plus and equal are evaluated while a term is built (Reasoner/build.c l.219-316). *)
From Coq Require Import ZArith List Bool.
Import ListNotations.
Open Scope Z_scope.

Section Comp.
  (** Doubles, their sum and the double of an int (Reasoner/build.c l.282-287). *)
  Variable D : Type.
  Variable of_int : Z -> D.
  Variable dadd : D -> D -> D.
  (** Values in a term by their type; [TConst] stands for strings, chars, dates and the other constants with a value of their own
      (Reasoner/build.c l.271-276, l.305-313). *)
  Inductive tv := TInt (n : Z) | TDbl (d : D) | TVar (n : Z) | TRec (fs : list tv) | TUri (s : list Z) | TAnon (n : Z) | TConst (k : Z) (s : list Z).
  (** wr_equal_term with unique strings (Reasoner/build.c l.304). *)
  Variable eqt : tv -> tv -> bool.

  (** Places in a term (Reasoner/glb.c l.107-110, used in Reasoner/build.c l.226, l.269-273). *)
  Record places := Places { firstuse : nat; funpos : nat; arg1 : nat; arg2 : nat }.
  (** Reasoner/glb.c l.107-110: the places set. *)
  Definition std : places := Places 1 1 2 3.
  (** What comes out: the term itself, a value, or WG_ILLEGAL (Reasoner/build.c l.209-214). *)
  Inductive cres := Same | Val (v : tv) | Illegal.
  (** Db/dballoc.h l.522: ACONST_FALSE. *)
  Definition A_FALSE : Z := 0.
  (** Db/dballoc.h l.524. *)
  Definition A_TRUE : Z := 1.
  (** Db/dballoc.h l.541: ACONST_EQUAL. *)
  Definition A_EQUAL : Z := 9.
  (** Db/dballoc.h l.553: ACONST_PLUS. *)
  Definition A_PLUS : Z := 15.
  (** A sum that fits in gint (Reasoner/build.c l.278). *)
  Definition in_gint (z : Z) : bool := (-9223372036854775808 <=? z) && (z <? 9223372036854775808).

  (** Reasoner/build.c l.259-289: wr_compute_fun_plus; [ok] tells whether there is memory for the result, [None] is undefined. *)
  Definition fun_plus (g : places) (fs : list tv) (ok : bool) : option cres :=
    if Nat.ltb (length fs) (firstuse g + 3) then Some Same
    else
      match nth_error fs (arg1 g), nth_error fs (arg2 g) with
      | Some a, Some b =>
          let enc v := if ok then Val v else Illegal in
          match a, b with
          | TInt x, TInt y => if in_gint (x + y) then Some (enc (TInt (x + y))) else None
          | TInt x, TDbl y => Some (enc (TDbl (dadd (of_int x) y)))
          | TDbl x, TInt y => Some (enc (TDbl (dadd x (of_int y))))
          | TDbl x, TDbl y => Some (enc (TDbl (dadd x y)))
          | _, _ => Some Same
          end
      | _, _ => None
      end.
  (** Reasoner/build.c l.305-308: a variable. *)
  Definition is_var (a : tv) : bool := match a with TVar _ => true | _ => false end.
  (** Reasoner/build.c l.310-311: a type whose values may be equal to others. *)
  Definition open_type (a : tv) : bool := match a with TRec _ | TUri _ | TAnon _ => true | _ => false end.
  (** Reasoner/build.c l.292-316: wr_compute_fun_equal. *)
  Definition fun_equal (g : places) (fs : list tv) : option cres :=
    if Nat.ltb (length fs) (firstuse g + 3) then Some Same
    else
      match nth_error fs (arg1 g), nth_error fs (arg2 g) with
      | Some a, Some b =>
          if eqt a b then Some (Val (TAnon A_TRUE))
          else if is_var a then Some Same
          else if is_var b then Some Same
          else if open_type a || open_type b then Some Same
          else Some (Val (TAnon A_FALSE))
      | _, _ => None
      end.
  (** Reasoner/build.c l.219-256: wr_computable_termptr and wr_compute_from_termptr; [nr] constants are known. *)
  Definition compute (g : places) (nr : Z) (fs : list tv) (ok : bool) : option cres :=
    match nth_error fs (funpos g) with
    | None => None
    | Some (TAnon f) =>
        if (f <? nr) && (0 <=? f) then
          if f =? A_PLUS then fun_plus g fs ok else if f =? A_EQUAL then fun_equal g fs else Some Same
        else Some Same
    | Some _ => Some Same
    end.
End Comp.
Arguments TInt {D}. Arguments TDbl {D}. Arguments TVar {D}. Arguments TRec {D}. Arguments TUri {D}. Arguments TAnon {D}. Arguments TConst {D}.
Arguments Same {D}. Arguments Val {D}. Arguments Illegal {D}.
Arguments is_var {D}. Arguments open_type {D}.
