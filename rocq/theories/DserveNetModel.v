(** A connection to the server dserve: reading the request line and the headers, finding the query, the header of the answer, and
    the queue of connections (Server/dserve_net.c). Bytes never written and freed blocks must not be read: [None]. *)
From Coq Require Import ZArith List Bool.
From Coq Require String.
From Verif Require Import DserveModel DserveConfModel DserveOpsModel.
Import ListNotations.
Import String.StringSyntax.
Open Scope Z_scope.

(** Server/dserve.h l.109. *)
Definition MAXLINE : nat := Z.to_nat 10000.
(** Server/dserve.h l.110. *)
Definition MAXLINES : nat := Z.to_nat 1000.
(** Server/dserve.h l.127. *)
Definition MAX_MALLOC : Z := 100000000.
(** The blank between the words of the request line (Server/dserve_net.c l.460). *)
Definition SP : Z := 32.
(** The question mark before a query (Server/dserve_net.c l.477). *)
Definition QM : Z := 63.
(** The end of a line (Server/dserve_net.c l.733). *)
Definition NL : Z := 10.

(** What readlineb gives (Server/dserve_net.c l.722-743): a line, nothing at the end of the data, or an error after some bytes. *)
Inductive line := L_line (s rest : list Z) | L_eof | L_error (s : list Z).
(** Server/dserve_net.c l.726-742: readlineb; [k] bytes fit, [err] tells how the data ends. *)
Fixpoint readlineb (k : nat) (input : list Z) (err : bool) (acc : list Z) : line :=
  match k with
  | O => L_line acc input
  | S k =>
      match input with
      | [] => if err then L_error acc else match acc with [] => L_eof | _ => L_line acc [] end
      | c :: r => if c =? NL then L_line (acc ++ [c]) r else readlineb k r err (acc ++ [c])
      end
  end.
(** Server/dserve_net.c l.732, l.735, l.738, l.741: the buffer after a call; bytes behind the line stay. *)
Definition into (b : list Z) (l : line) : list Z :=
  match l with
  | L_line s _ => s ++ 0 :: skipn (S (length s)) b
  | L_eof => b
  | L_error s => s ++ skipn (length s) b
  end.
(** The data not read yet (Server/dserve_net.c l.730). *)
Definition left_over (l : line) : list Z := match l with L_line _ r => r | _ => [] end.

(** Where the query is: nowhere, in the buffer of the line, in a block of its own, or in a block freed since
    (Server/dserve_net.c l.350, l.479, l.486, Server/dserve.c l.523). *)
Inductive query_ptr := Q_null | Q_buf (n : nat) | Q_post (b : list Z) | Q_freed.
(** What a thread of the pool keeps from one connection to the next (Server/dserve_net.c l.350-352); they are set before the loop only. *)
Record thr := T { t_buf : list Z; t_uri : option nat; t_version : option nat; t_query : query_ptr }.
(** Server/dserve_net.c l.350-352: a new thread. *)
Definition thr_start : thr := T [] None None Q_null.

(** Server/dserve_net.c l.459-465: the request line is cut at its first two blanks. *)
Fixpoint split_line (fuel : nat) (b : list Z) (bp i : nat) (uri version : option nat) : option (list Z * option nat * option nat) :=
  match fuel with
  | O => None
  | S fuel =>
      match rd b bp with
      | None => None
      | Some c =>
          if (c =? 0) || negb (Nat.ltb i 2) then Some (b, uri, version)
          else if c =? SP then
            match wr b bp 0 with
            | None => None
            | Some b => if Nat.eqb i 0 then split_line fuel b (S bp) (S i) (Some (S bp)) version else split_line fuel b (S bp) (S i) uri (Some (S bp))
            end
          else split_line fuel b (S bp) i uri version
      end
  end.
(** Server/dserve_net.c l.476-482: the question mark in the uri. *)
Fixpoint find_query (fuel : nat) (b : list Z) (bp : nat) : option (list Z * option nat) :=
  match fuel with
  | O => None
  | S fuel =>
      match rd b bp with
      | None => None
      | Some c =>
          if c =? 0 then Some (b, None)
          else if c =? QM then match wr b bp 0 with Some b => Some (b, Some (S bp)) | None => None end
          else find_query fuel b (S bp)
      end
  end.

(** What get_post_data gives: NULL, or the block (Server/dserve_net.c l.623-684). *)
Inductive post := P_null | P_block (b : list Z).
(** Server/dserve_net.c l.639-641: a header line with the length; atoi behind the name. *)
Definition is_length (s : list Z) : bool := strpre (bytes "Content-Length:") s || strpre (bytes "content-length:") s.
(** Server/dserve_net.c l.653: the line that ends the headers. *)
Definition is_empty_line (s : list Z) : bool := strpre [13; 10] s || strpre [10] s.
(** Server/dserve_net.c l.634-656: the loop over the lines; [prev] is what the buffer holds, the result is the length and the data left; the
    content type is not used here. *)
Fixpoint headers (n : nat) (prev : option (list Z)) (input : list Z) (err : bool) (len : Z) : option (option (Z * list Z)) :=
  match n with
  | O => Some None
  | S n =>
      let l := readlineb (MAXLINE - 1) input err [] in
      match l with
      | L_error _ => Some None
      | _ =>
          let cur := match l with L_line s _ => Some s | _ => prev end in
          match cur with
          | None => None
          | Some s =>
              match (if is_length s then atoi_text (skipn 15 s) else Some len) with
              | None => None
              | Some len => if is_empty_line s then Some (Some (len, left_over l)) else headers n cur (left_over l) err len
              end
          end
      end
  end.
(** Server/dserve_net.c l.623-684: get_post_data; [junk] are the ten bytes of the block behind the data. *)
Definition get_post_data (input : list Z) (err : bool) (junk : list Z) : option post :=
  match headers MAXLINES None input err 0 with
  | None => None
  | Some None => Some P_null
  | Some (Some (len, rest)) =>
      if (len <=? 0) || (MAX_MALLOC <=? len) then Some P_null
      else if Nat.ltb (length rest) (Z.to_nat len) then Some P_null
      else Some (P_block (firstn (Z.to_nat len) rest ++ junk))
  end.

(** The answers of the server: errors, or the answer of process_query to a query (Server/dserve_net.c l.466-512). *)
Inductive answer := A_method_err | A_request_err | A_noquery_err | A_query (q : list Z).
(** The string a query pointer stands for (Server/dserve_net.c l.489, l.495). *)
Definition query_text (b : list Z) (q : query_ptr) : option (list Z) :=
  match q with Q_null => Some [] | Q_buf n => cstr_at b n | Q_post c => cstr_at c 0 | Q_freed => None end.
(** Server/dserve_net.c l.457-512: one connection. [parsed] is what process_query makes of the buffer (Server/dserve.c l.452). *)
Definition handle_http (t : thr) (input : list Z) (err : bool) (junk : list Z) (parsed : list Z -> list Z) : option (thr * answer) :=
  let l := readlineb (MAXLINE - 1) input err [] in
  let b := into (t_buf t) l in
  match split_line (S (length b)) b 0 0 (t_uri t) (t_version t) with
  | None => None
  | Some (b, uri, version) =>
      match cstr_at b 0 with
      | None => None
      | Some method =>
          let answer b q :=
            match query_text b q with
            | None => None
            | Some [] => Some (T b uri version q, A_noquery_err)
            | Some s => Some (T (parsed b) uri version (match q with Q_post _ => Q_freed | _ => q end), A_query s)
            end in
          if negb (streq method (bytes "GET")) && negb (streq method (bytes "POST")) then Some (T b uri version (t_query t), A_method_err)
          else
            match uri, version with
            | Some u, Some _ =>
                if streq method (bytes "GET") then
                  match find_query (S (length b)) b u with
                  | None => None
                  | Some (b, q) => answer b (match q with Some q => Q_buf q | None => t_query t end)
                  end
                else
                  match get_post_data (left_over l) err junk with
                  | None => None
                  | Some P_null => answer b Q_null
                  | Some (P_block c) => answer b (Q_post c)
                  end
            | _, _ => Some (T b uri version (t_query t), A_request_err)
            end
      end
  end.

(** ** The header of the answer *)
(** Server/dserve.h l.94-101: HEADER_TEMPLATE, up to the place of the length, and behind it. *)
Definition crlf : list Z := [13; 10].
(** Server/dserve.h l.94-100. *)
Definition header_start : list Z :=
  bytes "HTTP/1.0 200 OK" ++ crlf ++ bytes "Server: dserve" ++ crlf ++ bytes "Access-Control-Allow-Origin: *" ++ crlf ++ bytes "Connection: Close" ++ crlf ++
  bytes "Cache-Control: no-cache, must-revalidate" ++ crlf ++ bytes "Pragma: no-cache" ++ crlf ++ bytes "Content-Length: ".
(** Server/dserve.h l.100-101. *)
Definition header_end : list Z := bytes " " ++ crlf ++ bytes "Content-Type: text/plain" ++ crlf ++ crlf.
(** Server/dserve.h l.94-101: ten times X. *)
Definition header_template : list Z := header_start ++ repeat 88 10 ++ header_end.
(** strchr (Server/dserve_net.c l.697). *)
Fixpoint find_x (s : list Z) (i : nat) : option nat := match s with [] => None | c :: r => if c =? 88 then Some i else find_x r (S i) end.
(** Writing a text into a buffer (sprintf, Server/dserve_net.c l.698). *)
Fixpoint put (b : list Z) (i : nat) (s : list Z) : option (list Z) :=
  match s with [] => Some b | c :: r => match wr b i c with Some b => put b (S i) r | None => None end end.
(** Server/dserve_net.c l.700: every X from here on becomes a blank, up to the first other byte. *)
Fixpoint blank_x (fuel : nat) (b : list Z) (i : nat) : option (list Z) :=
  match fuel with
  | O => None
  | S fuel => match rd b i with None => None | Some c => if c =? 88 then match wr b i 32 with Some b => blank_x fuel b (S i) | None => None end else Some b end
  end.
(** Server/dserve_net.c l.693-701: write_header_clen; [digits] is the text of the length. *)
Definition write_header_clen (b digits : list Z) : option (list Z) :=
  match find_x b 0 with
  | None => None
  | Some p =>
      match put b p (digits ++ [0]) with
      | None => None
      | Some b =>
          match wr b (p + length digits) 32 with
          | None => None
          | Some b => blank_x (S (length b)) b (S (p + length digits))
          end
      end
  end.

(** ** The queue of connections *)
(** Server/dserve.h l.85. *)
Definition QUEUE_SIZE : nat := 100.
(** The task queue and where the threads are: looking for work, waiting for the signal, busy (Server/dserve_net.c l.132-137, l.387-424). *)
Record pool := Pool { q_slots : list Z; q_head : nat; q_tail : nat; q_count : nat; p_idle : nat; p_wait : nat; p_busy : nat }.
(** Server/dserve_net.c l.132-137: no connections yet, [n] threads. *)
Definition pool_start (n : nat) : pool := Pool (repeat 0 QUEUE_SIZE) 0 0 0 n 0 0.
(** A slot of the queue is set (Server/dserve_net.c l.197). *)
Definition set_slot (l : list Z) (i : nat) (c : Z) : list Z := firstn i l ++ c :: skipn (S i) l.
(** What happens, each under the mutex: a connection accepted (it is dropped when the queue is full), a thread looking for work takes
    a connection or goes to wait, a thread wakes without signal, a thread is done (Server/dserve_net.c l.175-214, l.388-421). *)
Inductive pev := P_accept (c : Z) | P_look | P_wake | P_done.
(** What was done with a connection (Server/dserve_net.c l.187-202, l.405). *)
Inductive pout := Queued (c : Z) | Dropped (c : Z) | Taken (c : Z) | Nothing.
(** One event; [None] when no thread can do it (Server/dserve_net.c l.175-214, l.388-421). *)
Definition pool_step (p : pool) (e : pev) : option (pool * pout) :=
  let 'Pool s h t n i w b := p in
  match e with
  | P_accept c =>
      if Nat.eqb n QUEUE_SIZE then Some (p, Dropped c)
      else
        let next := if Nat.eqb (t + 1) QUEUE_SIZE then 0%nat else (t + 1)%nat in
        let s := set_slot s t c in
        match w with
        | O => Some (Pool s h next (n + 1) i w b, Queued c)
        | S w => Some (Pool s h next (n + 1) (i + 1) w b, Queued c)
        end
  | P_look =>
      match i with
      | O => None
      | S i =>
          if Nat.eqb n 0 then Some (Pool s h t n i (w + 1) b, Nothing)
          else match nth_error s h with
               | None => None
               | Some c => Some (Pool s (if Nat.eqb (h + 1) QUEUE_SIZE then 0%nat else (h + 1)%nat) t (n - 1) i w (b + 1), Taken c)
               end
      end
  | P_wake => match w with O => None | S w => Some (Pool s h t n (i + 1) w b, Nothing) end
  | P_done => match b with O => None | S b => Some (Pool s h t n (i + 1) w b, Nothing) end
  end.
(** A history of events (Server/dserve_net.c l.169-215, l.379-424). *)
Fixpoint pool_run (p : pool) (es : list pev) : option (pool * list pout) :=
  match es with
  | [] => Some (p, [])
  | e :: es =>
      match pool_step p e with
      | None => None
      | Some (p, o) => match pool_run p es with Some (p, os) => Some (p, o :: os) | None => None end
      end
  end.
