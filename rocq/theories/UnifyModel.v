(** Terms of the reasoner: unification, matching, equality (Reasoner/unify.c).
    A term is an encoded value: a variable, a record, or any other value (a
    constant). The records are a map from offsets to their fields. [None] stands for
    undefined behaviour (a record is read where there is none) or for exhausted fuel. *)
From Coq Require Import ZArith List Bool SpecFloat.
From Verif Require Import Base EncodingModel CompareModel UnistrModel.
Import ListNotations.
Open Scope Z_scope.

(** Reasoner/glb.h [glb]: the database, the records and the settings unify_samelen,
    unify_maxuseterms, unify_firstuseterm (Reasoner/glb.c l.105-107: 1, 0, 1). *)
Record genv := Genv { g_db : cstate; g_rec : Z -> option (list Z); g_samelen : bool; g_maxuse : Z; g_first : Z }.
(** Reasoner/unify.h l.38. *)
Definition UNASSIGNED := WG_ILLEGAL.
(** Db/dbdata.h l.419. *)
Definition isdatarec (i : Z) : bool := Z.land i 7 =? 0.
(** Reasoner/clterm.h l.90 [decode_record]. *)
Definition record (g : genv) (x : Z) : option (list Z) := g_rec g (decode_datarec_offset x).

(** The variable banks, and the variables on the varstack, the last one first
    (Reasoner/glb.h l.90-93). *)
Record ust := Ust { u_vb : Z -> Z; u_stk : list Z }.
(** Reasoner/unify.h l.43 [SETVAR]; the stack holds addresses of cells of the banks. *)
Definition setvar (st : ust) (x y : Z) : ust := Ust (upd (u_vb st) (decode_var x) y) (decode_var x :: u_stk st).
(** Reasoner/unify.c l.509-529 [wr_varval]; Reasoner/unify.h l.41 [VARVAL_F] is the same. *)
Fixpoint wr_varval (n : nat) (vb : Z -> Z) (x : Z) : option Z :=
  match n with
  | O => None
  | S n' => let y := vb (decode_var x) in
            if y =? UNASSIGNED then Some x else if negb (isvar y) then Some y else wr_varval n' vb y
  end.
(** Reasoner/unify.c l.98-99: the value of a variable, other terms themselves. *)
Definition value (n : nat) (vb : Z -> Z) (x : Z) : option Z := if isvar x then wr_varval n vb x else Some x.
(** Reasoner/unify.c l.554-569 [wr_clear_varstack]. *)
Definition wr_clear_varstack (st : ust) : ust := Ust (fold_left (fun vb v => upd vb v UNASSIGNED) (u_stk st) (u_vb st)) [].
(** Reasoner/unify.c l.576-591 [wr_clear_varstack_topslice]: [k] variables stay on the stack. *)
Definition wr_clear_varstack_topslice (st : ust) (k : nat) : ust :=
  let n := (length (u_stk st) - k)%nat in
  Ust (fold_left (fun vb v => upd vb v UNASSIGNED) (firstn n (u_stk st)) (u_vb st)) (skipn n (u_stk st)).

(** Reasoner/unify.c l.163-166, l.200-203: how many fields are used. *)
Definition limit (g : genv) (len : Z) : Z :=
  if negb (g_maxuse g =? 0) && (g_maxuse g + g_first g <? len) then g_first g + g_maxuse g else len.
(** The fields from unify_firstuseterm on up to a limit (Reasoner/unify.c l.163-171). *)
Definition slice (g : genv) (lim : Z) (fs : list Z) : list Z := firstn (Z.to_nat (lim - g_first g)) (skipn (Z.to_nat (g_first g)) fs).
(** Reasoner/unify.c l.152-171: the pairs of fields that are compared, [None] when the
    lengths must be the same and are not. *)
Definition pairs (g : genv) (xs ys : list Z) : option (list (Z * Z)) :=
  let xlen := Z.of_nat (length xs) in
  let ylen := Z.of_nat (length ys) in
  if g_samelen g && negb (xlen =? ylen) then None
  else let uselen := limit g (if g_samelen g then xlen else if xlen <=? ylen then xlen else ylen) in
       Some (combine (slice g uselen xs) (slice g uselen ys)).

(** memcmp of [n] bytes being 0 (Reasoner/unify.c l.461-463, l.486, l.489). *)
Definition same_bytes (m : mem) (a b : Z) (n : nat) : bool := forallb (fun i => byte m (a + Z.of_nat i) =? byte m (b + Z.of_nat i)) (seq 0 n).
(** C == of doubles (Reasoner/unify.c l.454). *)
Definition double_eq (a b : Z) : bool := match SFcompare (double_of_bits a) (double_of_bits b) with Some Eq => true | _ => false end.
(** Db/dbdata.c l.2847-2857 [wg_decode_unistr_lang_len]. *)
Definition lang_len (s : cstate) (a t : Z) : Z := match unistr_lang s a t with None => 0 | Some p => Z.of_nat (length (cstring s p)) end.
(** The tests [s1!=s2 && (s1==NULL || s2==NULL || memcmp(s1,s2,n))] of Reasoner/unify.c l.485 and l.488. *)
Definition differ (m : mem) (s1 s2 : option Z) (n : Z) : bool :=
  match s1, s2 with
  | None, None => false
  | Some p, Some q => negb (p =? q) && negb (same_bytes m p q (Z.to_nat n))
  | _, _ => true
  end.
(** Reasoner/unify.c l.437-494 [wr_equal_ptr_primitives]. The number 11 of l.478 and
    l.482 is in the code. *)
Definition wr_equal_ptr_primitives (s : cstate) (a b : Z) (uniq : bool) : bool :=
  let t := Z.land a 7 in
  if (t =? 1) || (t =? 5) then isfullint b && (words s (decode_fullint_offset a) =? words s (decode_fullint_offset b))
  else if t =? 2 then isfulldouble b && double_eq (wg_decode_double s a) (wg_decode_double s b)
  else if t =? 6 then isshortstr b && same_bytes (words s) (decode_shortstr_offset a) (decode_shortstr_offset b) (Z.to_nat SHORTSTR_SIZE)
  else if t =? 4 then
    if uniq then a =? b
    else
      let t1 := encoded_type (words s) a in
      let t2 := encoded_type (words s) b in
      if negb (t1 =? t2) then false
      else if negb (11 =? lang_len s b t2) then false
      else if negb (11 =? wg_decode_unistr_len s b) then false
      else negb (differ (words s) (unistr_lang s a t1) (unistr_lang s b t2) (lang_len s a t1)) &&
           negb (differ (words s) (wg_decode_unistr a) (wg_decode_unistr b) (wg_decode_unistr_len s a))
  else false.

(** Loops over pairs of fields (Reasoner/unify.c l.167-171, l.360-395). *)
Fixpoint all_pairs (f : Z -> Z -> option bool) (l : list (Z * Z)) : option bool :=
  match l with
  | [] => Some true
  | (a, b) :: r => match f a b with None => None | Some false => Some false | Some true => all_pairs f r end
  end.
(** The same changing the variables (Reasoner/unify.c l.167-171). *)
Fixpoint fold_pairs (f : ust -> Z -> Z -> option (ust * bool)) (st : ust) (l : list (Z * Z)) : option (ust * bool) :=
  match l with
  | [] => Some (st, true)
  | (a, b) :: r => match f st a b with None => None | Some (st, false) => Some (st, false) | Some (st, true) => fold_pairs f st r end
  end.
(** Loop over fields (Reasoner/unify.c l.204-213). *)
Fixpoint any_field (f : Z -> option bool) (l : list Z) : option bool :=
  match l with [] => Some false | a :: r => match f a with None => None | Some true => Some true | Some false => any_field f r end end.

(** Reasoner/unify.c l.183-215 [wr_occurs_in]. *)
Fixpoint wr_occurs_in (n : nat) (g : genv) (vb : Z -> Z) (x y : Z) : option bool :=
  match n with
  | O => None
  | S n' =>
      match record g y with
      | None => None
      | Some ys =>
          any_field (fun yi => match value n' vb yi with
                               | None => None
                               | Some yi => if x =? yi then Some true else if isdatarec yi then wr_occurs_in n' g vb x yi else Some false
                               end) (slice g (limit g (Z.of_nat (length ys))) ys)
      end
  end.
(** Reasoner/unify.c l.81-176 [wr_unify_term_aux] with the occurs check. *)
Fixpoint wr_unify_term_aux (n : nat) (g : genv) (uniq : bool) (st : ust) (x y : Z) : option (ust * bool) :=
  match n with
  | O => None
  | S n' =>
      if x =? y then Some (st, true)
      else
        match value n' (u_vb st) x, value n' (u_vb st) y with
        | Some x, Some y =>
            if x =? y then Some (st, true)
            else if negb (isdatarec x) then
              if negb (isdatarec y) then
                if isvar x then Some (setvar st x y, true)
                else if isvar y then Some (setvar st y x, true)
                else Some (st, wr_equal_ptr_primitives (g_db g) x y uniq)
              else if isvar x then
                match wr_occurs_in n' g (u_vb st) x y with
                | None => None
                | Some true => Some (st, false)
                | Some false => Some (setvar st x y, true)
                end
              else Some (st, false)
            else if isvar y then
              match wr_occurs_in n' g (u_vb st) y x with
              | None => None
              | Some true => Some (st, false)
              | Some false => Some (setvar st y x, true)
              end
            else if negb (isdatarec y) then Some (st, false)
            else
              match record g x, record g y with
              | Some xs, Some ys =>
                  match pairs g xs ys with
                  | None => Some (st, false)
                  | Some l => fold_pairs (fun st a b => if a =? b then Some (st, true) else wr_unify_term_aux n' g uniq st a b) st l
                  end
              | _, _ => None
              end
        | _, _ => None
        end
  end.
(** Reasoner/unify.c l.64-72 [wr_unify_term]. *)
Definition wr_unify_term := wr_unify_term_aux.

(** Reasoner/unify.h l.48-53 [WR_EQUAL_TERM] with Reasoner/unify.c l.392-434
    [wr_equal_term_macroaux], which does not look whether [y] is a record. *)
Fixpoint WR_EQUAL_TERM (n : nat) (g : genv) (uniq : bool) (x y : Z) : option bool :=
  match n with
  | O => None
  | S n' =>
      let eq := Z.land x 7 in
      if x =? y then Some true
      else if ((eq =? 4) && uniq) || (eq =? 3) || (eq =? 7) then Some false
      else if negb (isptr x) || negb (isptr y) then Some false
      else if negb (Z.land x 3 =? Z.land y 3) then Some false
      else if negb (isdatarec x) then
        if isdatarec y then Some false else Some (wr_equal_ptr_primitives (g_db g) x y uniq)
      else
        match record g x, record g y with
        | Some xs, Some ys => match pairs g xs ys with None => Some false | Some l => all_pairs (WR_EQUAL_TERM n' g uniq) l end
        | _, _ => None
        end
  end.
(** Reasoner/unify.c l.329-383 [wr_equal_term]. *)
Definition wr_equal_term (n : nat) (g : genv) (uniq : bool) (x y : Z) : option bool :=
  let eq := Z.land x 7 in
  if x =? y then Some true
  else if ((eq =? 4) && uniq) || (eq =? 3) || (eq =? 7) then Some false
  else if negb (isptr x) || negb (isptr y) then Some false
  else if negb (Z.land x 3 =? Z.land y 3) then Some false
  else if negb (isdatarec x) then
    if isdatarec y then Some false else Some (wr_equal_ptr_primitives (g_db g) x y uniq)
  else if negb (isdatarec y) then Some false
  else
    match record g x, record g y with
    | Some xs, Some ys => match pairs g xs ys with None => Some false | Some l => all_pairs (WR_EQUAL_TERM n g uniq) l end
    | _, _ => None
    end.
(** Reasoner/unify.c l.251-311 [wr_match_term_aux]: a constant [x] that is not equal to
    [y] goes on to the record case, as in the code. *)
Fixpoint wr_match_term_aux (n : nat) (g : genv) (uniq : bool) (st : ust) (x y : Z) : option (ust * bool) :=
  match n with
  | O => None
  | S n' =>
      let recs :=
        if negb (isdatarec y) then Some (st, false)
        else
          match record g x, record g y with
          | Some xs, Some ys =>
              match pairs g xs ys with
              | None => Some (st, false)
              | Some l => fold_pairs (wr_match_term_aux n' g uniq) st l
              end
          | _, _ => None
          end in
      if isvar x then
        let xval := u_vb st (decode_var x) in
        if xval =? UNASSIGNED then Some (setvar st x y, true)
        else match WR_EQUAL_TERM n' g uniq xval y with None => None | Some b => Some (st, b) end
      else if negb (isdatarec x) then
        match WR_EQUAL_TERM n' g uniq x y with None => None | Some true => Some (st, true) | Some false => recs end
      else recs
  end.
