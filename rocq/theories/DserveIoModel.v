(** Reading and writing whole blocks on a connection of dserve, in any pieces (readn and writen, Server/dserve_net.c l.745-790). *)
From Coq Require Import ZArith List Bool.
Import ListNotations.
Open Scope Z_scope.

(** What the connection holds for recv: a piece of data, an interruption, the end, an error (Server/dserve_net.c l.754-759). *)
Inductive piece := Data (s : list Z) | Interrupted | Closed | Broken.
(** The outcome of readn: the bytes put in the buffer and what is left of the connection, an error, or waiting for more
    (Server/dserve_net.c l.758, l.763). *)
Inductive rres := R_done (s : list Z) (rest : list piece) | R_error (s : list Z) | R_waits (s : list Z).
(** Server/dserve_net.c l.745-764: readn; recv gives at most [nleft] bytes of the piece that came, the rest of it stays. *)
Fixpoint readn (nleft : nat) (ps : list piece) (acc : list Z) : rres :=
  if Nat.eqb nleft 0 then R_done acc ps
  else
    match ps with
    | [] => R_waits acc
    | Data [] :: r => readn nleft r acc
    | Data s :: r =>
        if Nat.leb nleft (length s) then R_done (acc ++ firstn nleft s) (Data (skipn nleft s) :: r)
        else readn (nleft - length s) r (acc ++ s)
    | Interrupted :: r => readn nleft r acc
    | Closed :: r => R_done acc ps
    | Broken :: r => R_error acc
    end.

(** What send does: takes at most some bytes, is interrupted, fails (Server/dserve_net.c l.776-784). *)
Inductive sending := Takes (k : nat) | SInterrupted | SFails.
(** The outcome of writen: the bytes sent, and what send does next (Server/dserve_net.c l.783, l.789). *)
Inductive wres := W_done (sent : list Z) (rest : list sending) | W_error (sent : list Z) (rest : list sending) | W_waits (sent : list Z).
(** Server/dserve_net.c l.767-790: writen, without OpenSSL; a count of 0 from send is an error. *)
Fixpoint writen (left : list Z) (es : list sending) (sent : list Z) : wres :=
  match left with
  | [] => W_done sent es
  | _ =>
      match es with
      | [] => W_waits sent
      | Takes O :: r => W_error sent r
      | Takes k :: r => writen (skipn k left) r (sent ++ firstn k left)
      | SInterrupted :: r => writen left r sent
      | SFails :: r => W_error sent r
      end
  end.
(** Server/dserve_net.c l.767-790 built with OpenSSL: only a negative count is an error (l.774). *)
Fixpoint writen_ssl (left : list Z) (es : list sending) (sent : list Z) : wres :=
  match left with
  | [] => W_done sent es
  | _ =>
      match es with
      | [] => W_waits sent
      | Takes k :: r => writen_ssl (skipn k left) r (sent ++ firstn k left)
      | SInterrupted :: r => writen_ssl left r sent
      | SFails :: r => W_error sent r
      end
  end.
(** Server/dserve_net.c l.520-524: the header, then the answer; the first result is not looked at. The bytes the client gets. *)
Definition send_answer (header res : list Z) (es : list sending) : list Z :=
  match writen header es [] with
  | W_waits s => s
  | W_done s es | W_error s es => s ++ match writen res es [] with W_waits t => t | W_done t _ => t | W_error t _ => t end
  end.
