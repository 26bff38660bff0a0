(** Model of CSV export and import and of the ISO date and time texts.
    Db/dbutil.c l.310-408, l.469-498, l.568-637, l.642-899; Db/dbdata.c l.1765-1807.

    Text is a list of bytes. The values of the fields are given decoded: getting a value
    out of its encoding and back is the subject of EncodingModel. *)
From Coq Require Import ZArith List Bool.
From Verif Require Import Base CalendarModel.
Import ListNotations.
Open Scope Z_scope.

(** Characters used by Db/dbutil.c l.62-63 and the code below. *)
Definition QUOTE := 34.
(** Db/dbutil.c l.62. *)
Definition COMMA := 44.   (* CSV_FIELD_SEPARATOR *)
(** Db/dbutil.c l.578. *)
Definition MINUS := 45.
(** Db/dbutil.c l.63. *)
Definition DOT := 46.     (* CSV_DECIMAL_SEPARATOR *)
(** Db/dbdata.c l.1779, l.1804. *)
Definition COLON := 58.
(** Db/dbutil.c l.776, l.803. *)
Definition LF := 10.
(** Db/dbutil.c l.774, l.801. *)
Definition CR := 13.
(** isdigit, used by Db/dbutil.c l.577-578, l.598. *)
Definition isdigit (c : Z) : bool := (48 <=? c) && (c <=? 57).

(** * The C library: printing and reading of integers
    (used by Db/dbutil.c l.357 "%d", l.620 atol and Db/dbdata.c l.1779, l.1790, l.1804). *)
Fixpoint digits (fuel : nat) (n : Z) (acc : list Z) : list Z :=
  match fuel with
  | O => acc
  | S fuel => let acc := 48 + n mod 10 :: acc in
              if n <? 10 then acc else digits fuel (n / 10) acc
  end.
(** "%d" of Db/dbutil.c l.357. *)
Definition print_int (n : Z) : list Z := if n <? 0 then MINUS :: digits 20 (- n) [] else digits 20 n [].
(** "%0wd" (Db/dbdata.c l.1779). *)
Definition print_pad (w : nat) (n : Z) : list Z :=
  let s := print_int (Z.abs n) in
  let w := if n <? 0 then pred w else w in
  (if n <? 0 then [MINUS] else []) ++ repeat 48 (w - length s) ++ s.
(** Value of the digits at the start of a text (Db/dbutil.c l.58, l.622). *)
Fixpoint digits_val (s : list Z) (acc : Z) : Z :=
  match s with
  | c :: s => if isdigit c then digits_val s (acc * 10 + (c - 48)) else acc
  | [] => acc
  end.
(** strtol with base 10 on a text that starts with a digit, or '-' and a digit: the value and
    whether errno was set to ERANGE (Db/dbutil.c l.58, l.622). *)
Definition strtol (s : list Z) : Z * bool :=
  let v := match s with c :: s' => if c =? MINUS then - digits_val s' 0 else digits_val s 0 | [] => 0 end in
  if v <? - 2 ^ 63 then (- 2 ^ 63, true) else if 2 ^ 63 - 1 <? v then (2 ^ 63 - 1, true) else (v, false).

(** "%wd" of sscanf: white space, a sign, digits, at most [w] characters from the sign on (Db/dbdata.c l.1790, l.1804). *)
Definition isspace (c : Z) : bool := (c =? 32) || ((9 <=? c) && (c <=? 13)).
(** White space before "%wd" (Db/dbdata.c l.1790, l.1804). *)
Fixpoint skip_space (s : list Z) : list Z :=
  match s with c :: s' => if isspace c then skip_space s' else s | [] => [] end.
(** The digits of "%wd" (Db/dbdata.c l.1790, l.1804). *)
Fixpoint scan_digits (w : nat) (s : list Z) (acc : Z) (got : bool) : option (Z * list Z) :=
  match w, s with
  | S w, c :: s' => if isdigit c then scan_digits w s' (acc * 10 + (c - 48)) true
                    else if got then Some (acc, s) else None
  | _, _ => if got then Some (acc, s) else None
  end.
(** "%wd" (Db/dbdata.c l.1790, l.1804). *)
Definition scan_int (w : nat) (s : list Z) : option (Z * list Z) :=
  match skip_space s with
  | [] => None
  | c :: s' =>
      if c =? MINUS then match scan_digits (pred w) s' 0 false with Some (v, r) => Some (- v, r) | None => None end
      else if c =? 43 then scan_digits (pred w) s' 0 false
      else scan_digits w (c :: s') 0 false
  end.
(** A character of the format (Db/dbdata.c l.1790, l.1804). *)
Definition scan_lit (l : Z) (s : list Z) : option (list Z) :=
  match s with c :: s => if c =? l then Some s else None | [] => None end.

(** * Dates and times as text *)
(** Db/dbdata.c l.1765-1781: wg_strf_iso_datetime; at most 23 characters are kept. *)
Definition wg_strf_iso_datetime (date time : Z) : option (list Z) :=
  let '(hr, min, sec, spart) := wg_time_to_hms time in
  match scalar_to_ymd date with
  | None => None
  | Some (yr, mo, day) =>
      Some (firstn 23 (print_pad 4 yr ++ MINUS :: print_pad 2 mo ++ MINUS :: print_pad 2 day ++
        84 :: print_pad 2 hr ++ COLON :: print_pad 2 min ++ COLON :: print_pad 2 sec ++ DOT :: print_pad 2 spart))
  end.
(** Db/dbdata.c l.1783-1794: wg_strp_iso_date. *)
Definition wg_strp_iso_date (s : list Z) : Z :=
  match scan_int 4 s with
  | None => -1
  | Some (yr, s) =>
  match scan_lit MINUS s with
  | None => -1
  | Some s =>
  match scan_int 2 s with
  | None => -1
  | Some (mo, s) =>
  match scan_lit MINUS s with
  | None => -1
  | Some s =>
  match scan_int 2 s with
  | None => -1
  | Some (day, s) =>
      if (yr <? 0) || (mo <? 1) || (12 <? mo) || (day <? 1) || (31 <? day) then -1
      else wrap32 (ymd_to_scalar yr mo day)
  end end end end end.
(** Db/dbdata.c l.1797-1807: wg_strp_iso_time; the part of seconds may be missing. *)
Definition wg_strp_iso_time (s : list Z) : Z :=
  match scan_int 2 s with
  | None => -1
  | Some (hr, s) =>
  match scan_lit COLON s with
  | None => -1
  | Some s =>
  match scan_int 2 s with
  | None => -1
  | Some (min, s) =>
  match scan_lit COLON s with
  | None => -1
  | Some s =>
  match scan_int 2 s with
  | None => -1
  | Some (sec, s) =>
      let prt := match scan_lit DOT s with
                 | None => 0
                 | Some s => match scan_int 2 s with Some (p, _) => p | None => 0 end
                 end in
      if (hr <? 0) || (24 <? hr) || (min <? 0) || (60 <? min) || (sec <? 0) || (60 <? sec) || (prt <? 0) || (99 <? prt) then -1
      else hr * (60 * 60 * 100) + min * (60 * 100) + sec * 100 + prt
  end end end end end.

(** * Export *)
(** A decoded field. Doubles and fixpoint numbers, records and the other types are left out (Db/dbutil.c l.340-408). *)
Inductive cval := VNull | VInt (n : Z) | VStr (s : list Z) | VChar (c : Z) | VDate (d : Z) | VTime (t : Z).

(** Db/dbutil.c l.310-338: csv_escaped_str; [pos] is [optr - buf]. *)
Fixpoint escape (s : list Z) (pos buflen : Z) : list Z :=
  match s with
  | [] => []
  | c :: s =>
      let nextsz := if c =? QUOTE then 2 else 1 in
      if pos + nextsz <? buflen then (if c =? QUOTE then [QUOTE; QUOTE] else [c]) ++ escape s (pos + nextsz) buflen
      else []
  end.
(** Db/dbutil.c l.310-338. *)
Definition csv_escaped_str (s : list Z) (buflen : Z) : list Z :=
  QUOTE :: escape s 1 (buflen - 1) ++ [QUOTE].

(** Db/dbutil.c l.61: size of the field buffer. *)
Definition CSV_FIELD_BUF := 4096.
(** Db/dbutil.c l.342-408: snprint_value_csv with [buflen] = [CSV_FIELD_BUF - 1]. The integer is
    stored in an [int] (l.355). *)
Definition snprint_value_csv (v : cval) : option (list Z) :=
  let buflen := CSV_FIELD_BUF - 1 - 1 in
  match v with
  | VNull => Some []
  | VInt n => Some (print_int (wrap32 n))
  | VStr s => Some (csv_escaped_str s buflen)
  | VChar c => Some (if c =? 0 then [] else [c])
  | VDate d => match wg_strf_iso_datetime d 0 with Some s => Some (firstn 10 s) | None => None end
  | VTime t => match wg_strf_iso_datetime 1 t with Some s => Some (skipn 11 s) | None => None end
  end.
(** Db/dbutil.c l.642-669: wg_fprint_record_csv. *)
Fixpoint wg_fprint_record_csv (first : bool) (fields : list cval) : option (list Z) :=
  match fields with
  | [] => Some []
  | v :: fields =>
      match snprint_value_csv v, wg_fprint_record_csv false fields with
      | Some t, Some r => Some ((if first then [] else [COMMA]) ++ t ++ r)
      | _, _ => None
      end
  end.
(** Db/dbutil.c l.674-700: wg_export_db_csv. *)
Fixpoint wg_export_db_csv (rows : list (list cval)) : option (list Z) :=
  match rows with
  | [] => Some []
  | r :: rows =>
      match wg_fprint_record_csv true r, wg_export_db_csv rows with
      | Some t, Some u => Some (t ++ LF :: u)
      | _, _ => None
      end
  end.

(** * Import *)
(** Db/dbutil.c l.707-712: the state of the reader: flags, the text in the buffer, the texts of
    the fields read so far in this row, the rows made. *)
Record rstate := RS { uq_field : bool; quoted_field : bool; esc_quote : bool; eat_sep : bool;
  strbuf : list Z; row : list (list Z); done : list (list (list Z)) }.
(** Db/dbutil.c l.763, l.781: a character is dropped when the buffer is full. *)
Definition put_char (b : list Z) (c : Z) : list Z :=
  if Z.of_nat (length b) <? CSV_FIELD_BUF - 1 then b ++ [c] else b.
(** A C string ends at the first zero byte (Db/dbutil.c l.836-864). *)
Fixpoint cstring (s : list Z) : list Z :=
  match s with c :: s => if c =? 0 then [] else c :: cstring s | [] => [] end.
(** Db/dbutil.c l.836-864 (the text is handed to wg_parse_and_encode) and l.866-893. *)
Definition commit_strbuf (s : rstate) : rstate :=
  RS (uq_field s) (quoted_field s) (esc_quote s) (eat_sep s) [] (row s ++ [cstring (strbuf s)]) (done s).
(** Db/dbutil.c l.836-864, l.866-893. *)
Definition commit_record (s : rstate) : rstate :=
  match row s with
  | [] => s
  | r => RS (uq_field s) (quoted_field s) (esc_quote s) (eat_sep s) (strbuf s) [] (done s ++ [r])
  end.

(** Db/dbutil.c l.731-894: the loop. At the end of the file one more character (char) -1 is
    read, which changes no row. [ungetc] of (int) (char) 255 = EOF does nothing. *)
Fixpoint fread_csv (f : list Z) (s : rstate) : rstate :=
  match f with
  | [] => s
  | c :: f' =>
      if quoted_field s then
        if negb (esc_quote s) && (c =? QUOTE) then
          match f' with
          | [] => commit_strbuf (RS (uq_field s) false (esc_quote s) true (strbuf s) (row s) (done s))
          | n :: f'' =>
              let s := if negb (n =? QUOTE)
                       then commit_strbuf (RS (uq_field s) false (esc_quote s) true (strbuf s) (row s) (done s))
                       else RS (uq_field s) true true (eat_sep s) (strbuf s) (row s) (done s) in
              if n =? 255 then fread_csv f'' s else fread_csv f' s
          end
        else fread_csv f' (RS (uq_field s) true false (eat_sep s) (put_char (strbuf s) c) (row s) (done s))
      else if uq_field s then
        if c =? COMMA then fread_csv f' (commit_strbuf (RS false false (esc_quote s) (eat_sep s) (strbuf s) (row s) (done s)))
        else if c =? CR then fread_csv f' s
        else if c =? LF then fread_csv f' (commit_record (commit_strbuf (RS false false (esc_quote s) (eat_sep s) (strbuf s) (row s) (done s))))
        else fread_csv f' (RS true false (esc_quote s) (eat_sep s) (put_char (strbuf s) c) (row s) (done s))
      else
        if c =? COMMA then
          if eat_sep s then fread_csv f' (RS false false (esc_quote s) false (strbuf s) (row s) (done s))
          else fread_csv f' (commit_strbuf s)
        else if c =? CR then fread_csv f' s
        else if c =? LF then
          if eat_sep s then fread_csv f' (commit_record (RS false false (esc_quote s) false (strbuf s) (row s) (done s)))
          else match row s with
               | [] => fread_csv f' (commit_record s)
               | _ => fread_csv f' (commit_record (commit_strbuf s))
               end
        else if c =? QUOTE then fread_csv f' (RS false true (esc_quote s) (eat_sep s) (strbuf s) (row s) (done s))
        else fread_csv f' (RS true false (esc_quote s) (eat_sep s) (strbuf s ++ [c]) (row s) (done s))
  end.
(** Db/dbutil.c l.725-729. *)
Definition r_init : rstate := RS false false false false [] [] [].
(** The rows of texts found in a file (Db/dbutil.c l.700-899). *)
Definition read_rows (f : list Z) : list (list (list Z)) := done (fread_csv f r_init).

(** * Guessing the type *)
Section Parse.
(** strtod: the double of a text and whether errno was set to ERANGE. *)
Context {D : Type}.
Variable strtod : list Z -> D * bool.

(** Results of Db/dbutil.c l.568-637. *)
Inductive pval := PNull | PInt (n : Z) | PDouble (d : D) | PStr (s : list Z) | PDate (d : Z) | PTime (t : Z).

(** Db/dbutil.c l.590-609: copy of the number, at most 79 characters; the count of decimal points, 2 when
    there is another character. *)
Fixpoint numscan (room : nat) (first : bool) (s : list Z) (decsep : Z) : list Z * Z :=
  match room, s with
  | S room, c :: s =>
      if c =? DOT then let '(t, d) := numscan room false s (decsep + 1) in (c :: t, d)
      else if negb (isdigit c) && negb first then ([], 2)
      else let '(t, d) := numscan room false s decsep in (c :: t, d)
  | _, _ => ([], decsep)
  end.

(** Db/dbutil.c l.568-637: parse_input_type and l.469-498: wg_parse_and_encode. [errno] tells
    whether errno is ERANGE or EINVAL before; it is neither reset before strtol and strtod nor by them. *)
Definition parse_input (errno : bool) (buf : list Z) : pval * bool :=
  match buf with
  | [] => (PNull, errno)
  | c :: rest =>
      if isdigit c || ((c =? MINUS) && match rest with d :: _ => isdigit d | [] => false end) then
        if negb (c =? MINUS) && (0 <=? wg_strp_iso_date buf) then (PDate (wg_strp_iso_date buf), errno)
        else if negb (c =? MINUS) && (0 <=? wg_strp_iso_time buf) then (PTime (wg_strp_iso_time buf), errno)
        else
          let '(num, decsep) := numscan 79 true buf 0 in
          if decsep =? 1 then
            let '(d, e) := strtod num in
            if errno || e then (PStr buf, false) else (PDouble d, false)
          else if decsep =? 0 then
            let '(n, e) := strtol num in
            if errno || e then (PStr buf, false) else (PInt n, false)
          else (PStr buf, errno)
      else (PStr buf, errno)
  end.
(** The fields of a file in the order in which they are read (Db/dbutil.c l.836-893). *)
Fixpoint parse_row (errno : bool) (r : list (list Z)) : list pval * bool :=
  match r with
  | [] => ([], errno)
  | t :: r => let '(v, e) := parse_input errno t in let '(vs, e) := parse_row e r in (v :: vs, e)
  end.
(** The rows one after the other (Db/dbutil.c l.731-894). *)
Fixpoint parse_rows (errno : bool) (rs : list (list (list Z))) : list (list pval) * bool :=
  match rs with
  | [] => ([], errno)
  | r :: rs => let '(v, e) := parse_row errno r in let '(vs, e) := parse_rows e rs in (v :: vs, e)
  end.
(** Db/dbutil.c l.902-919: wg_import_db_csv: the rows of values put in the database. *)
Definition wg_import_db_csv (errno : bool) (f : list Z) : list (list pval) := fst (parse_rows errno (read_rows f)).
End Parse.
Arguments pval : clear implicits.
