(** Model of json/yajl_all.c: the JSON lexer, parser and generator, and of the functions of
    Db/dbjson.c that feed the parser with text. Text is a list of bytes.
    [None] is undefined behaviour or a failed assertion (a read outside the text, signed overflow,
    abort) or, not reachable, exhausted fuel. Memory for buffers and the state stack is always there. *)
From Coq Require Import ZArith List Bool.
From Verif Require Import Base CsvModel RecordModel JsonModel.
Import ListNotations.
Open Scope Z_scope.

(** * Strings *)
(** json/yajl_all.c l.346-351: CharToHex, one digit. *)
Definition hexchar (n : Z) : Z := if n <? 10 then 48 + n else 55 + n.
(** json/yajl_all.c l.353-398: yajl_string_encode, without escape_solidus; what is printed for one byte. *)
Definition encode_byte (c : Z) : list Z :=
  if c =? 13 then [92; 114]
  else if c =? 10 then [92; 110]
  else if c =? 92 then [92; 92]
  else if c =? 34 then [92; 34]
  else if c =? 12 then [92; 102]
  else if c =? 8 then [92; 98]
  else if c =? 9 then [92; 116]
  else if c <? 32 then [92; 117; 48; 48; hexchar (Z.shiftr c 4); hexchar (Z.land c 15)]
  else [c].
(** The loop of yajl_string_encode, l.365-397. *)
Definition yajl_string_encode (s : list Z) : list Z := flat_map encode_byte s.

(** json/yajl_all.c l.400-410: hexToDigit; one digit in unsigned char, [None]: the assertion fails. *)
Definition hex_digit (c : Z) : option Z :=
  let c := if 65 <=? c then (Z.land c 223 - 7) mod 256 else c in
  let c := (c - 48) mod 256 in
  if Z.land c 240 =? 0 then Some c else None.
(** l.402-409: the loop over four digits at [s]; [None]: a read outside the text. *)
Fixpoint hexToDigit (k : nat) (val : Z) (s : list Z) : option Z :=
  match k with
  | O => Some val
  | S k => match s with
           | [] => None
           | c :: s => match hex_digit c with None => None | Some d => hexToDigit k (Z.lor (u32 (Z.shiftl val 4)) d) s end
           end
  end.
(** json/yajl_all.c l.412-436: Utf32toUtf8; the bytes before the final zero byte, but at least
    one (l.482-486). *)
Definition Utf32toUtf8 (c : Z) : list Z :=
  let cont k := Z.lor (Z.land (Z.shiftr c k) 63) 128 in
  if c <? 128 then [c]
  else if c <? 2048 then [Z.lor (Z.shiftr c 6) 192; cont 0]
  else if c <? 65536 then [Z.lor (Z.shiftr c 12) 224; cont 6; cont 0]
  else if c <? 2097152 then [Z.lor (Z.shiftr c 18) 240; cont 12; cont 6; cont 0]
  else [63].
(** json/yajl_all.c l.438-500: yajl_string_decode; [s] is the text of the string and the quote
    after it, [len] the length without the quote, [e] the variable end. *)
Fixpoint string_decode (fuel : nat) (s : list Z) (len e : nat) : option (list Z) :=
  match fuel with
  | O => None
  | S fuel =>
      let more out e := match string_decode fuel s len e with None => None | Some r => Some (out ++ r) end in
      if (len <=? e)%nat then Some []
      else match nth_error s e with
      | None => None
      | Some c =>
          if negb (c =? 92) then more [c] (S e)
          else match nth_error s (S e) with
          | None => None
          | Some c =>
              let e := S e in
              if c =? 114 then more [13] (S e)
              else if c =? 110 then more [10] (S e)
              else if c =? 92 then more [92] (S e)
              else if c =? 47 then more [47] (S e)
              else if c =? 34 then more [34] (S e)
              else if c =? 102 then more [12] (S e)
              else if c =? 98 then more [8] (S e)
              else if c =? 116 then more [9] (S e)
              else if c =? 117 then
                match hexToDigit 4 0 (skipn (S e) s) with
                | None => None
                | Some codepoint =>
                    let e := (e + 4)%nat in
                    if Z.land codepoint 64512 =? 55296 then
                      let e := S e in
                      match nth_error s e with
                      | None => None
                      | Some b =>
                          if negb (b =? 92) then more [63] (S e)
                          else match nth_error s (S e) with
                          | None => None
                          | Some b =>
                              if negb (b =? 117) then more [63] (S e)
                              else match hexToDigit 4 0 (skipn (S (S e)) s) with
                              | None => None
                              | Some surrogate =>
                                  let codepoint := Z.lor (Z.lor (Z.shiftl (Z.land codepoint 63) 10) (Z.shiftl (Z.land (Z.shiftr codepoint 6) 15 + 1) 16)) (Z.land surrogate 1023) in
                                  more (Utf32toUtf8 codepoint) (e + 6)%nat
                              end
                          end
                      end
                    else more (Utf32toUtf8 codepoint) (S e)
                end
              else None
          end
      end
  end.
(** json/yajl_all.c l.438-500. *)
Definition yajl_string_decode (s : list Z) : option (list Z) := string_decode (S (length s)) (s ++ [34]) (length s) 0.

(** * Integers *)
(** LLONG_MAX; json/yajl_all.c l.1537: MAX_VALUE_TO_MULTIPLY. *)
Definition LLONG_MAX := 2 ^ 63 - 1.
(** json/yajl_all.c l.1537. *)
Definition MAX_VALUE_TO_MULTIPLY := LLONG_MAX / 10 + LLONG_MAX mod 10.
(** json/yajl_all.c l.1549-1564: the loop of yajl_parse_integer; [None]: signed overflow,
    [Some None]: ERANGE. *)
Fixpoint parse_digits (s : list Z) (ret : Z) : option (option Z) :=
  match s with
  | [] => Some (Some ret)
  | c :: s =>
      if MAX_VALUE_TO_MULTIPLY <? ret then Some None
      else if LLONG_MAX <? ret * 10 then None
      else if LLONG_MAX - ret * 10 <? c - 48 then Some None
      else if (c <? 48) || (57 <? c) then Some None
      else parse_digits s (ret * 10 + (c - 48))
  end.
(** json/yajl_all.c l.1540-1567: yajl_parse_integer. *)
Definition yajl_parse_integer (s : list Z) : option (option Z) :=
  let (sign, s) := match s with c :: r => if c =? 45 then (-1, r) else (1, s) | [] => (1, s) end in
  let s := match s with c :: r => if c =? 43 then r else s | [] => s end in
  match parse_digits s 0 with None => None | Some None => Some None | Some (Some r) => Some (Some (sign * r)) end.

(** * Lexer *)
(** json/yajl_all.h l.113-139: yajl_tok. *)
Inductive yajl_tok := tok_bool | tok_colon | tok_comma | tok_eof | tok_error | tok_left_brace | tok_left_bracket | tok_null
  | tok_right_brace | tok_right_bracket | tok_integer | tok_double | tok_string | tok_string_with_escapes | tok_comment.
(** json/yajl_all.c l.932-992: charLookupTable; the bits VEC, IJC, VHC. A byte is scanned over
    (l.1059, with UTF-8 checks on) when it has none of IJC, NFP and NUC. *)
Definition VEC (c : Z) : bool := existsb (Z.eqb c) [34; 47; 92; 98; 102; 110; 114; 116].
(** json/yajl_all.c l.932-992, l.1059. *)
Definition IJC (c : Z) : bool := (c <? 32) || (c =? 34) || (c =? 92).
(** json/yajl_all.c l.932-992, l.1059. *)
Definition VHC (c : Z) : bool := ((48 <=? c) && (c <=? 57)) || ((65 <=? c) && (c <=? 70)) || ((97 <=? c) && (c <=? 102)).
(** json/yajl_all.c l.932-992, l.1059. *)
Definition plain (c : Z) : bool := negb (IJC c) && (c <? 128).
(** White space of yajl_lex_lex, json/yajl_all.c l.1341. *)
Definition white (c : Z) : bool := ((9 <=? c) && (c <=? 13)) || (c =? 32).

(** A place to read from: bufOff in the buffer and *offset in the text (json/yajl_all.c l.70-95, l.898-903). *)
Record pos := Pos { bo : nat; off : nat }.
(** json/yajl_all.c l.70-95: the lexer: buf, bufInUse, bufOff. Comments are allowed
    (Db/dbjson.c l.205, l.290, l.403) and UTF-8 is checked. The kind of an error is left out. *)
Record lexer := Lexer { l_buf : list Z; l_use : bool; l_off : nat }.

Section Lex.
(** bufInUse, the buffer and the text with its length. *)
Variable use : bool.
Variable buf txt : list Z.
(** json/yajl_all.c l.898-901: readChar. *)
Definition readChar (p : pos) : option (Z * pos) :=
  if use && (bo p <? length buf)%nat then match nth_error buf (bo p) with Some c => Some (c, Pos (S (bo p)) (off p)) | None => None end
  else match nth_error txt (off p) with Some c => Some (c, Pos (bo p) (S (off p))) | None => None end.
(** json/yajl_all.c l.903: unreadChar. *)
Definition unreadChar (p : pos) : pos := if (0 <? off p)%nat then Pos (bo p) (off p - 1) else Pos (bo p - 1) (off p).
(** json/yajl_all.c l.994, l.1048, l.1170: UTF8_CHECK_EOF, STR_CHECK_EOF, RETURN_IF_EOF. *)
Definition at_eof (p : pos) : bool := (length txt <=? off p)%nat.
(** Check for the end, then read (json/yajl_all.c l.994, l.1048, l.1170). *)
Definition next (p : pos) (k : Z -> pos -> option (yajl_tok * pos)) : option (yajl_tok * pos) :=
  if at_eof p then Some (tok_eof, p) else match readChar p with None => None | Some (c, p) => k c p end.

(** json/yajl_all.c l.1004-1034: [k] continuation bytes. *)
Fixpoint continuation (k : nat) (p : pos) : option (yajl_tok * pos) :=
  match k with
  | O => Some (tok_string, p)
  | S k => next p (fun c p => if Z.shiftr c 6 =? 2 then continuation k p else Some (tok_error, p))
  end.
(** json/yajl_all.c l.996-1038: yajl_lex_utf8_char. *)
Definition yajl_lex_utf8_char (c : Z) (p : pos) : option (yajl_tok * pos) :=
  if c <=? 127 then Some (tok_string, p)
  else if Z.shiftr c 5 =? 6 then continuation 1 p
  else if Z.shiftr c 4 =? 14 then continuation 2 p
  else if Z.shiftr c 3 =? 30 then continuation 3 p
  else Some (tok_error, p).
(** json/yajl_all.c l.1056-1067: yajl_string_scan. *)
Fixpoint yajl_string_scan (s : list Z) : nat := match s with c :: s => if plain c then S (yajl_string_scan s) else O | [] => O end.
(** json/yajl_all.c l.1081-1099: the jump over plain characters. *)
Definition jump (p : pos) : pos :=
  if use && (bo p <? length buf)%nat then Pos (bo p + yajl_string_scan (skipn (bo p) buf)) (off p)
  else if (off p <? length txt)%nat then Pos (bo p) (off p + yajl_string_scan (skipn (off p) txt))
  else p.
(** json/yajl_all.c l.1117-1129: the four digits of \u; tok_string: all there. *)
Fixpoint lex_hex (k : nat) (p : pos) : option (yajl_tok * pos) :=
  match k with
  | O => Some (tok_string, p)
  | S k => next p (fun c p => if VHC c then lex_hex k p else Some (tok_error, unreadChar p))
  end.
(** json/yajl_all.c l.1069-1168: yajl_lex_string; [esc] is hasEscapes. *)
Fixpoint yajl_lex_string (fuel : nat) (esc : bool) (p : pos) : option (yajl_tok * pos) :=
  match fuel with
  | O => None
  | S fuel =>
      let again esc r := match r with Some (tok_string, p) => yajl_lex_string fuel esc p | r => r end in
      next (jump p) (fun c p =>
        if c =? 34 then Some (if esc then tok_string_with_escapes else tok_string, p)
        else if c =? 92 then
          next p (fun c p =>
            if c =? 117 then again true (lex_hex 4 p)
            else if VEC c then yajl_lex_string fuel true p
            else Some (tok_error, unreadChar p))
        else if IJC c then Some (tok_error, unreadChar p)
        else again esc (yajl_lex_utf8_char c p))
  end.
(** json/yajl_all.c l.1195-1198 and the like: digits up to another character. *)
Fixpoint lex_digits (fuel : nat) (p : pos) (k : Z -> pos -> option (yajl_tok * pos)) : option (yajl_tok * pos) :=
  match fuel with
  | O => None
  | S fuel => next p (fun c p => if isdigit c then lex_digits fuel p k else k c p)
  end.
(** json/yajl_all.c l.1229-1251: the exponent and the end of a number. *)
Definition lex_exponent (fuel : nat) (tok : yajl_tok) (c : Z) (p : pos) : option (yajl_tok * pos) :=
  if (c =? 101) || (c =? 69) then
    next p (fun c p =>
      let go c p := if isdigit c then lex_digits fuel p (fun _ p => Some (tok_double, unreadChar p)) else Some (tok_error, unreadChar p) in
      if (c =? 43) || (c =? 45) then next p go else go c p)
  else Some (tok, unreadChar p).
(** json/yajl_all.c l.1206-1226: the fraction. *)
Definition lex_fraction (fuel : nat) (c : Z) (p : pos) : option (yajl_tok * pos) :=
  if c =? 46 then
    next p (fun c p => if isdigit c then lex_digits fuel p (lex_exponent fuel tok_double) else Some (tok_error, unreadChar p))
  else lex_exponent fuel tok_integer c p.
(** json/yajl_all.c l.1172-1257: yajl_lex_number. *)
Definition yajl_lex_number (fuel : nat) (p : pos) : option (yajl_tok * pos) :=
  next p (fun c p =>
    let int c p :=
      if c =? 48 then next p (lex_fraction fuel)
      else if isdigit c then lex_digits fuel p (lex_fraction fuel)
      else Some (tok_error, unreadChar p) in
    if c =? 45 then next p int else int c p).
(** json/yajl_all.c l.1273-1277: a comment up to the end of the line. *)
Fixpoint lex_line (fuel : nat) (p : pos) : option (yajl_tok * pos) :=
  match fuel with
  | O => None
  | S fuel => next p (fun c p => if c =? 10 then Some (tok_comment, p) else lex_line fuel p)
  end.
(** json/yajl_all.c l.1279-1291: a comment up to an asterisk and a slash. *)
Fixpoint lex_block (fuel : nat) (p : pos) : option (yajl_tok * pos) :=
  match fuel with
  | O => None
  | S fuel => next p (fun c p =>
      if c =? 42 then next p (fun c p => if c =? 47 then Some (tok_comment, p) else lex_block fuel (unreadChar p))
      else lex_block fuel p)
  end.
(** json/yajl_all.c l.1259-1298: yajl_lex_comment. *)
Definition yajl_lex_comment (fuel : nat) (p : pos) : option (yajl_tok * pos) :=
  next p (fun c p => if c =? 47 then lex_line fuel p else if c =? 42 then lex_block fuel p else Some (tok_error, p)).
(** json/yajl_all.c l.1344-1359 and the like: the rest of true, false and null. *)
Fixpoint lex_word (want : list Z) (tok : yajl_tok) (p : pos) : option (yajl_tok * pos) :=
  match want with
  | [] => Some (tok, p)
  | w :: want => next p (fun c p => if c =? w then lex_word want tok p else Some (tok_error, unreadChar p))
  end.
End Lex.

(** json/yajl_all.c l.1312-1445: the loop of yajl_lex_lex; [start] is startOffset. *)
Fixpoint lex_loop (fuel : nat) (lx : lexer) (txt : list Z) (start : nat) (p : pos) : option (yajl_tok * lexer * nat * pos) :=
  match fuel with
  | O => None
  | S fuel =>
      let n := S (length (l_buf lx) + length txt) in
      let lexed r := match r with None => None | Some (tok, p) => Some (tok, lx, start, p) end in
      if at_eof txt p then Some (tok_eof, lx, start, p)
      else match readChar (l_use lx) (l_buf lx) txt p with
      | None => None
      | Some (c, p) =>
          if c =? 123 then Some (tok_left_bracket, lx, start, p)
          else if c =? 125 then Some (tok_right_bracket, lx, start, p)
          else if c =? 91 then Some (tok_left_brace, lx, start, p)
          else if c =? 93 then Some (tok_right_brace, lx, start, p)
          else if c =? 44 then Some (tok_comma, lx, start, p)
          else if c =? 58 then Some (tok_colon, lx, start, p)
          else if white c then lex_loop fuel lx txt (S start) p
          else if c =? 116 then lexed (lex_word (l_use lx) (l_buf lx) txt [114; 117; 101] tok_bool p)
          else if c =? 102 then lexed (lex_word (l_use lx) (l_buf lx) txt [97; 108; 115; 101] tok_bool p)
          else if c =? 110 then lexed (lex_word (l_use lx) (l_buf lx) txt [117; 108; 108] tok_null p)
          else if c =? 34 then lexed (yajl_lex_string (l_use lx) (l_buf lx) txt n false p)
          else if (c =? 45) || isdigit c then lexed (yajl_lex_number (l_use lx) (l_buf lx) txt n (unreadChar p))
          else if c =? 47 then
            match yajl_lex_comment (l_use lx) (l_buf lx) txt n p with
            | None => None
            | Some (tok_comment, p) => lex_loop fuel (Lexer [] false (l_off lx)) txt (off p) p
            | Some (tok, p) => Some (tok, lx, start, p)
            end
          else Some (tok_error, lx, start, p)
      end
  end.
(** json/yajl_all.c l.1300-1490: yajl_lex_lex: the token, its text (with the quotes of a
    string), the lexer and the offset afterwards. *)
Definition yajl_lex_lex (lx : lexer) (txt : list Z) (offset : nat) : option (yajl_tok * list Z * lexer * nat) :=
  match lex_loop (S (length (l_buf lx) + length txt)) lx txt offset (Pos (l_off lx) offset) with
  | None => None
  | Some (tok, lx, start, p) =>
      if (off p <? start)%nat then None
      else
        let piece := firstn (off p - start) (skipn start txt) in
        match tok with
        | tok_eof => Some (tok, [], Lexer ((if l_use lx then l_buf lx else []) ++ piece) true 0, off p)
        | _ =>
            if l_use lx then let b := l_buf lx ++ piece in Some (tok, b, Lexer b false 0, off p)
            else Some (tok, piece, Lexer (l_buf lx) false (bo p), off p)
        end
  end.
(** json/yajl_all.c l.1467-1473: a string without its quotes; the assertion. *)
Definition unquote (s : list Z) : option (list Z) :=
  match s with _ :: s => match s with [] => None | _ => Some (removelast s) end | [] => None end.

(** * Parser *)
(** json/yajl_all.h l.199-213: yajl_state. *)
Inductive yajl_state := state_start | state_parse_complete | state_parse_error | state_lexical_error | state_map_start | state_map_sep
  | state_map_need_val | state_map_got_val | state_map_need_key | state_array_start | state_array_got_val | state_array_need_val | state_got_value.
(** json/yajl_api.h: yajl_status (l.62-70). *)
Inductive yajl_status := status_ok | status_client_canceled | status_error.

Section Parse.
Context {C : Type}.
(** The callback functions; [full]: there are functions for strings, keys and numbers (input_cb,
    Db/dbjson.c l.155-167), otherwise only for arrays and objects (validate_cb, l.141-153). There
    are none for null and booleans; the callbacks for these events have to do nothing. *)
Variable full : bool.
Variable callback : C -> event -> option (C * bool).
(** strtod on a text of digits; [None]: overflow. *)
Variable strtod : list Z -> option Z.

(** json/yajl_all.c l.1830-1840: the state of a level after a value. *)
Definition after_value (s : yajl_state) : yajl_state :=
  match s with
  | state_start | state_got_value => state_parse_complete
  | state_map_need_val => state_map_got_val
  | _ => state_array_got_val
  end.
(** What the parser does with a token: an assertion or other undefined behaviour; the state
    parse_error; a callback (if any) and states that replace the top of the stack (json/yajl_all.c l.1711-2010). *)
Inductive action := Undefined | Fail | Move (e : option event) (levels : list yajl_state).
(** Callbacks that exist only in input_cb (Db/dbjson.c l.155-180). *)
Definition only_full (e : event) : option event := if full then Some e else None.
(** The text of a string token (json/yajl_all.c l.1764-1782, l.1865-1880). *)
Definition string_value (escapes : bool) (out : list Z) : option (list Z) :=
  match unquote out with
  | None => None
  | Some s => if full && escapes then yajl_string_decode s else Some s
  end.
(** json/yajl_all.c l.1732-1846: a token where a value is expected, except the end and errors. *)
Definition value_action (st : yajl_state) (tok : yajl_tok) (out : list Z) : action :=
  let next := [after_value st] in
  let string escapes := match string_value escapes out with None => Undefined | Some s => Move (only_full (ELit (LStr s))) next end in
  match tok with
  | tok_string => string false
  | tok_string_with_escapes => string true
  | tok_bool => Move (Some (EBool (match out with b :: _ => b =? 116 | [] => false end))) next
  | tok_null => Move (Some ENull) next
  | tok_left_bracket => Move (Some EObjectBegin) (state_map_start :: next)
  | tok_left_brace => Move (Some EArrayBegin) (state_array_start :: next)
  | tok_integer => if full then match yajl_parse_integer out with
                                | None => Undefined
                                | Some None => Fail
                                | Some (Some i) => Move (Some (ELit (LInt i))) next
                                end
                   else Move None next
  | tok_double => if full then match strtod out with None => Fail | Some d => Move (Some (ELit (LDouble d))) next end else Move None next
  | tok_right_brace => match st with state_array_start => Move (Some EArrayEnd) [] | _ => Fail end
  | _ => Fail
  end.
(** json/yajl_all.c l.1847-1897: a token where a key is expected. *)
Definition key_action (st : yajl_state) (tok : yajl_tok) (out : list Z) : action :=
  let key escapes := match string_value escapes out with None => Undefined | Some s => Move (only_full (EKey s)) [state_map_sep] end in
  match tok with
  | tok_string => key false
  | tok_string_with_escapes => key true
  | tok_right_bracket => match st with state_map_start => Move (Some EObjectEnd) [] | _ => Fail end
  | _ => Fail
  end.
(** json/yajl_all.c l.1898-1915 and 1916-2017: the other states. *)
Definition action_of (st : yajl_state) (tok : yajl_tok) (out : list Z) : action :=
  match st with
  | state_start | state_got_value | state_map_need_val | state_array_need_val | state_array_start => value_action st tok out
  | state_map_start | state_map_need_key => key_action st tok out
  | state_map_sep => match tok with tok_colon => Move None [state_map_need_val] | _ => Fail end
  | state_map_got_val =>
      match tok with
      | tok_right_bracket => Move (Some EObjectEnd) []
      | tok_comma => Move None [state_map_need_key]
      | _ => Fail
      end
  | state_array_got_val =>
      match tok with
      | tok_right_brace => Move (Some EArrayEnd) []
      | tok_comma => Move None [state_array_need_val]
      | _ => Fail
      end
  | _ => Fail
  end.
(** json/yajl_all.c l.1710-2021: yajl_do_parse from around_again on. A state of error and going around
    is written as the return it leads to. *)
Fixpoint do_parse (fuel : nat) (lx : lexer) (stack : list yajl_state) (c : C) (txt : list Z) (offset : nat)
  : option (yajl_status * lexer * list yajl_state * C) :=
  match fuel with
  | O => None
  | S fuel =>
      match stack with
      | [] => None
      | state_lexical_error :: _ | state_parse_error :: _ => Some (status_error, lx, stack, c)
      | st :: stk =>
          let complete := match st with state_parse_complete => true | _ => false end in
          if complete && (offset =? length txt)%nat then Some (status_ok, lx, stack, c)
          else match yajl_lex_lex lx txt offset with
          | None => None
          | Some (tok, out, lx, offset) =>
              if match tok with tok_eof => true | _ => false end then
                (if complete then do_parse fuel lx stack c txt offset else Some (status_ok, lx, stack, c))
              else if match tok with tok_error => negb complete | _ => false end then Some (status_error, lx, state_lexical_error :: stk, c)
              else match action_of st tok out with
              | Undefined => None
              | Fail => Some (status_error, lx, state_parse_error :: stk, c)
              | Move None l => do_parse fuel lx (l ++ stk) c txt offset
              | Move (Some e) l =>
                  match callback c e with
                  | None => None
                  | Some (c, true) => do_parse fuel lx (l ++ stk) c txt offset
                  | Some (c, false) => Some (status_client_canceled, lx, state_parse_error :: stk, c)
                  end
              end
          end
      end
  end.
(** json/yajl_all.c l.1710-1718: yajl_do_parse. *)
Definition yajl_do_parse (lx : lexer) (stack : list yajl_state) (c : C) (txt : list Z) :=
  do_parse (3 + length txt) lx stack c txt 0.
(** json/yajl_all.c l.1683-1708: yajl_do_finish; [true]: yajl_status_ok. *)
Definition yajl_do_finish (lx : lexer) (stack : list yajl_state) (c : C) : option (C * bool) :=
  match yajl_do_parse lx stack c [32] with
  | None => None
  | Some (status_ok, _, stack, c) =>
      match stack with
      | [] => None
      | state_got_value :: _ | state_parse_complete :: _ => Some (c, true)
      | _ => Some (c, false)
      end
  | Some (_, _, _, c) => Some (c, false)
  end.
(** A parse: it goes on with a lexer and a stack, or it has ended with an error (json/yajl_all.c l.288-330). *)
Inductive progress := Going (lx : lexer) (stack : list yajl_state) (c : C) | Ended (c : C).
(** Db/dbjson.c l.210-222, l.292-299, l.405-412: yajl_parse (json/yajl_all.c l.287-302) on the next chunk,
    unless there was an error. *)
Definition feed (s : option progress) (txt : list Z) : option progress :=
  match s with
  | Some (Going lx stack c) =>
      match yajl_do_parse lx stack c txt with
      | None => None
      | Some (status_ok, lx, stack, c) => Some (Going lx stack c)
      | Some (_, _, _, c) => Some (Ended c)
      end
  | s => s
  end.
(** yajl_complete_parse, json/yajl_all.c l.305-321, if there was no error. *)
Definition complete (s : option progress) : option (C * bool) :=
  match s with
  | None => None
  | Some (Going lx stack c) => yajl_do_finish lx stack c
  | Some (Ended c) => Some (c, false)
  end.
(** json/yajl_all.c l.215-249: yajl_alloc and l.905-916: yajl_lex_alloc: the state at the start. *)
Definition yajl_alloc (c : C) : option progress := Some (Going (Lexer [] false 0) [state_start] c).
(** One chunk after the other, then yajl_complete_parse (json/yajl_all.c l.288-330). *)
Definition yajl_run (c : C) (chunks : list (list Z)) : option (C * bool) := complete (fold_left feed chunks (yajl_alloc c)).
End Parse.

(** * Texts given to the parser *)
(** Db/dbjson.c l.179: WG_JSON_INPUT_CHUNK. *)
Definition WG_JSON_INPUT_CHUNK := 16384.
(** Pieces of [n] bytes (Db/dbjson.c l.205-240). *)
Fixpoint pieces (fuel : nat) (n : nat) (s : list Z) : list (list Z) :=
  match fuel, s with
  | O, _ | _, [] => []
  | S fuel, _ => firstn n s :: pieces fuel n (skipn n s)
  end.
(** Db/dbjson.c l.292 and l.405: pieces of a zero terminated text cut by strnlen. *)
Definition text_chunks (buf : list Z) : list (list Z) :=
  let s := cut_zero buf in pieces (length s) (Z.to_nat WG_JSON_INPUT_CHUNK) s.
(** Db/dbjson.c l.278-314: wg_check_json on a text. *)
Definition check_json (buf : list Z) : option Z :=
  match yajl_run false (fun depth e => Some (check_callback depth e)) (fun _ => None) (-1) (text_chunks buf) with
  | None => None
  | Some (depth, ok) => Some (if negb ok then -1 else if depth =? -1 then -1 else 0)
  end.
(** Db/dbjson.c l.181-268: wg_parse_json_file on the content of a file or of stdin that is read
    without an error; [parse] is wg_parse_json_document (l.259). fread (l.211) gives less than a
    chunk only at the end; when it gives nothing the function ends with result 0 (l.212-218). The
    callbacks ahead of the end are run on the full pieces. *)
Definition wg_parse_json_file {D : Type} (parse : D -> list Z -> option (D * Z)) (d : D) (content : list Z) : option (D * Z) :=
  let cb := fun depth e => Some (check_callback depth e) in
  let full_pieces := filter (fun p => Z.of_nat (length p) =? WG_JSON_INPUT_CHUNK) (pieces (length content) (Z.to_nat WG_JSON_INPUT_CHUNK) content) in
  match fold_left (feed false cb (fun _ => None)) full_pieces (yajl_alloc (-1)) with
  | None => None
  | Some (Ended _) => Some (d, -1)
  | s =>
      let last := skipn (length (concat full_pieces)) content in
      match last with
      | [] => Some (d, 0)
      | _ =>
          match complete false cb (fun _ => None) (feed false cb (fun _ => None) s last) with
          | None => None
          | Some (_, false) => Some (d, -1)
          | Some (depth, true) => if depth =? -1 then Some (d, -1) else parse d content
          end
      end
  end.

Section Document.
Context {I V : Type}.
(** As in JsonModel.v. *)
Variable ix_any ix_tab : I -> Z -> bool.
Variable ix_add_rec : rmap -> V -> I -> Z -> option (I * Z).
Variable ix_add_field ix_del_field : rmap -> V -> I -> Z -> Z -> option (I * Z).
Variable v_ref v_free : V -> Z -> V.
Variable alloc_rec : @rdb I V -> Z -> Z.
Variable cell_ok : @rdb I V -> bool.
Variable encode : V -> lit -> V * Z.
Variable malloc_ok : @rdb I V -> bool.
Variable isparam isdocument : bool.
Variable strtod : list Z -> option Z.
(** Db/dbjson.c l.385-422: run_json_parser on a text, with the callbacks input_cb (l.155-167): the database,
    the return code and the document. wg_parse_json_document (l.327-333), wg_parse_json_fragment
    (l.343-349) and wg_parse_json_param (l.361-366) are run_json_parser with isparam and isdocument
    0 1, 0 0 and 1 1. *)
Definition run_json_text (d : @rdb I V) (buf : list Z) : option (@rdb I V * Z * Z) :=
  match yajl_run true (callback ix_any ix_tab ix_add_rec ix_add_field ix_del_field v_ref v_free alloc_rec cell_ok encode malloc_ok isparam isdocument) strtod (Ctx d [] 0) (text_chunks buf) with
  | None => None
  | Some (c, ok) => Some (c_db c, if ok then 0 else -2, c_doc c)
  end.
End Document.

(** * Generator *)
(** json/yajl_all.c l.52-61: yajl_gen_state. *)
Inductive gen_state := gen_start | gen_map_start | gen_map_key | gen_map_val | gen_array_start | gen_in_array | gen_complete | gen_error.
(** json/yajl_all.c l.63-73: the states with the one of the current depth first, and what has been printed. *)
Record generator := Gen { g_state : list gen_state; g_out : list Z }.
(** json/yajl_api.h l.26: YAJL_MAX_DEPTH. *)
Definition YAJL_MAX_DEPTH : nat := 128.
Section Generator.
(** yajl_gen_beautify; wg_print_json_document sets it (Db/dbjson.c l.741). *)
Variable beautify : bool.
(** What wg_snprint_value prints for a double and for a value that is not a number (Db/dbjson.c l.848). *)
Variable double_text : Z -> list Z.
Variable other_text : Z -> list Z.
(** json/yajl_all.c l.605: indentString. *)
Definition indent : list Z := [32; 32; 32; 32].
(** json/yajl_all.c l.605. *)
Definition pretty (s : list Z) : list Z := if beautify then s else [].
(** json/yajl_all.c l.628-636: INSERT_SEP. *)
Definition insert_sep (s : gen_state) : list Z :=
  match s with
  | gen_map_key | gen_in_array => 44 :: pretty [10]
  | gen_map_val => 58 :: pretty [32]
  | _ => []
  end.
(** json/yajl_all.c l.638-647: INSERT_WHITESPACE at a depth. *)
Definition insert_whitespace (s : gen_state) (depth : nat) : list Z :=
  match s with gen_map_val => [] | _ => pretty (flat_map (fun _ => indent) (seq 0 depth)) end.
(** json/yajl_all.c l.672-689: APPENDED_ATOM. *)
Definition appended_atom (s : gen_state) : gen_state :=
  match s with
  | gen_start => gen_complete
  | gen_map_start | gen_map_key => gen_map_val
  | gen_array_start => gen_in_array
  | gen_map_val => gen_map_key
  | s => s
  end.
(** json/yajl_all.c l.691-693: FINAL_NEWLINE. *)
Definition final_newline (s : gen_state) : list Z := match s with gen_complete => pretty [10] | _ => [] end.
(** json/yajl_all.c l.649-653, l.657-662: ENSURE_NOT_KEY, ENSURE_VALID_STATE; [true]: go on. *)
Definition not_key (s : gen_state) : bool := match s with gen_map_key | gen_map_start => false | _ => true end.
(** json/yajl_all.c l.649-653, l.657-662. *)
Definition valid_state (s : gen_state) : bool := match s with gen_error | gen_complete => false | _ => true end.
(** json/yajl_all.c l.734-763: yajl_gen_number ([key] false) and yajl_gen_string ([key] true, without
    UTF-8 check); [None]: another status than ok. *)
Definition gen_atom (key : bool) (text : list Z) (g : generator) : option generator :=
  match g_state g with
  | [] => None
  | s :: st =>
      if negb (valid_state s) || (negb key && negb (not_key s)) then None
      else Some (Gen (appended_atom s :: st) (g_out g ++ insert_sep s ++ insert_whitespace s (length st) ++ text ++ final_newline (appended_atom s)))
  end.
(** json/yajl_all.c l.787-798, l.814-824: yajl_gen_map_open, yajl_gen_array_open. *)
Definition gen_open (inner : gen_state) (c : Z) (g : generator) : option generator :=
  match g_state g with
  | [] => None
  | s :: st =>
      if negb (valid_state s) || negb (not_key s) then None
      else if (YAJL_MAX_DEPTH <=? S (length st))%nat then None
      else Some (Gen (inner :: s :: st) (g_out g ++ insert_sep s ++ insert_whitespace s (length st) ++ c :: pretty [10]))
  end.
(** json/yajl_all.c l.800-812, l.826-837: yajl_gen_map_close, yajl_gen_array_close. *)
Definition gen_close (c : Z) (g : generator) : option generator :=
  match g_state g with
  | s :: s' :: st =>
      if negb (valid_state s) then None
      else let s' := appended_atom s' in
           Some (Gen (s' :: st) (g_out g ++ pretty [10] ++ insert_whitespace s' (length st) ++ c :: final_newline s'))
  | _ => None
  end.
(** Db/dbutil.c l.247-250: an integer is printed as an int. *)
Definition number_text (l : lit) : list Z := match l with LInt z => print_int (wrap32 z) | LDouble b => double_text b | LStr s => s end.
(** The calls made by pretty_print_json, Db/dbjson.c l.756-865. *)
Definition gen_call (g : generator) (x : gen) : option generator :=
  let quoted s := 34 :: yajl_string_encode s ++ [34] in
  match x with
  | GMapOpen => gen_open gen_map_start 123 g
  | GMapClose => gen_close 125 g
  | GArrayOpen => gen_open gen_array_start 91 g
  | GArrayClose => gen_close 93 g
  | GString s => gen_atom true (quoted s) g
  | GNumber l => gen_atom false (number_text l) g
  | GOther e => gen_atom true (quoted (other_text e)) g
  end.
(** Db/dbjson.c l.756-865. *)
Fixpoint gen_calls (g : generator) (l : list gen) : option generator :=
  match l with [] => Some g | x :: l => match gen_call g x with None => None | Some g => gen_calls g l end end.
(** json/yajl_all.c l.591-620: yajl_gen_alloc, and the text printed by the calls. *)
Definition printed (l : list gen) : option (list Z) :=
  match gen_calls (Gen [gen_start] []) l with None => None | Some g => Some (g_out g) end.
End Generator.
