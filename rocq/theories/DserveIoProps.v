(** C77: data passes whole through a connection of dserve, in whatever pieces it comes and goes. *)
From Coq Require Import ZArith List Bool Lia.
From Verif Require Import DserveIoModel.
Import ListNotations.
Open Scope Z_scope.

(** The data a connection gives before its end or an error. *)
Fixpoint stream (ps : list piece) : list Z :=
  match ps with Data s :: r => s ++ stream r | Interrupted :: r => stream r | _ => [] end.
(** How the data ends. *)
Inductive ending := E_closed | E_broken | E_open.
Fixpoint end_of (ps : list piece) : ending :=
  match ps with [] => E_open | Data _ :: r => end_of r | Interrupted :: r => end_of r | Closed :: _ => E_closed | Broken :: _ => E_broken end.

Lemma readn_enough : forall ps n acc, (n <= length (stream ps))%nat ->
  exists rest, readn n ps acc = R_done (acc ++ firstn n (stream ps)) rest /\ stream rest = skipn n (stream ps) /\ end_of rest = end_of ps.
Proof.
  induction ps as [|p ps IH]; intros n acc L.
  - cbn [stream length] in L. assert (n = 0)%nat by lia. subst n. cbn. rewrite app_nil_r. exists []. repeat split.
  - destruct n as [|n]; [destruct p; cbn [readn Nat.eqb firstn skipn]; rewrite app_nil_r; eexists; repeat split|].
    destruct p as [s| | |]; cbn [stream] in *; try (cbn [length] in L; lia).
    + destruct s as [|x s]; [cbn [readn Nat.eqb app end_of]; now apply IH|]. cbn [readn Nat.eqb].
      destruct (Nat.leb_spec (S n) (length (x :: s))) as [G|G].
      * eexists. split; [rewrite firstn_app; replace (S n - length (x :: s))%nat with 0%nat by lia; cbn [firstn]; now rewrite app_nil_r|].
        split; [|reflexivity]. cbn [stream]. rewrite skipn_app. now replace (S n - length (x :: s))%nat with 0%nat by lia.
      * rewrite app_length in L. destruct (IH (S n - length (x :: s))%nat (acc ++ x :: s)) as (rest & E & R & N); [lia|].
        exists rest. rewrite E. split; [|split; [|exact N]].
        -- f_equal. rewrite <- app_assoc. f_equal. rewrite firstn_app. now rewrite (firstn_all2 (x :: s)) by lia.
        -- rewrite R. rewrite skipn_app. now rewrite (skipn_all2 (x :: s)) by lia.
    + cbn [readn Nat.eqb end_of]. now apply IH.
Qed.
Lemma readn_short : forall ps n acc, (length (stream ps) < n)%nat ->
  match end_of ps with
  | E_closed => exists rest, readn n ps acc = R_done (acc ++ stream ps) rest /\ stream rest = []
  | E_broken => readn n ps acc = R_error (acc ++ stream ps)
  | E_open => readn n ps acc = R_waits (acc ++ stream ps)
  end.
Proof.
  induction ps as [|p ps IH]; intros n acc L; (destruct n as [|n]; [lia|]).
  - cbn. now rewrite app_nil_r.
  - destruct p as [s| | |]; cbn [stream end_of] in *.
    + destruct s as [|x s]; [cbn [readn Nat.eqb app]; now apply IH|]. rewrite app_length in L. cbn [readn Nat.eqb].
      destruct (Nat.leb_spec (S n) (length (x :: s))) as [G|G]; [lia|]. specialize (IH (S n - length (x :: s))%nat (acc ++ x :: s)). rewrite <- app_assoc in IH. apply IH. lia.
    + cbn [readn Nat.eqb]. now apply IH.
    + cbn [readn Nat.eqb]. rewrite app_nil_r. eexists. split; reflexivity.
    + cbn [readn Nat.eqb]. now rewrite app_nil_r.
Qed.

(** C77: in whatever pieces and with whatever interruptions the data comes, readn gives the next [n] bytes and leaves the rest. *)
Theorem C77_read : forall ps n, (n <= length (stream ps))%nat ->
  exists rest, readn n ps [] = R_done (firstn n (stream ps)) rest /\ stream rest = skipn n (stream ps) /\ end_of rest = end_of ps.
Proof. intros ps n L. exact (readn_enough ps n [] L). Qed.
Print Assumptions C77_read.
(** C77: when there is less data, what came is given at the end of the data, an error is told, and else it waits. *)
Theorem C77_read_short : forall ps n, (length (stream ps) < n)%nat ->
  match end_of ps with
  | E_closed => exists rest, readn n ps [] = R_done (stream ps) rest /\ stream rest = []
  | E_broken => readn n ps [] = R_error (stream ps)
  | E_open => readn n ps [] = R_waits (stream ps)
  end.
Proof. intros ps n L. exact (readn_short ps n [] L). Qed.
Print Assumptions C77_read_short.
Example C77_read_case : readn 5 [Data [1; 2]; Interrupted; Data [3]; Data [4; 5; 6; 7]; Closed] [] = R_done [1; 2; 3; 4; 5] [Data [6; 7]; Closed] /\
  readn 5 [Data [1; 2]; Interrupted; Closed] [] = R_done [1; 2] [Closed].
Proof. split; reflexivity. Qed.
(** C77: two reads in a row give what one read gives. *)
Theorem C77_read_twice : forall ps n m, (n + m <= length (stream ps))%nat ->
  exists a r1 b r2, readn n ps [] = R_done a r1 /\ readn m r1 [] = R_done b r2 /\ a ++ b = firstn (n + m) (stream ps).
Proof.
  intros ps n m L. destruct (readn_enough ps n [] ltac:(lia)) as (r1 & E1 & S1 & _).
  destruct (readn_enough r1 m []) as (r2 & E2 & _ & _); [rewrite S1, skipn_length; lia|].
  do 4 eexists. split; [exact E1|]. split; [exact E2|]. cbn [app]. rewrite S1.
  rewrite <- (firstn_skipn n (stream ps)) at 3. rewrite firstn_app, firstn_length, Nat.min_l by lia.
  replace (n + m - n)%nat with m by lia. f_equal. rewrite firstn_firstn. f_equal. lia.
Qed.
Print Assumptions C77_read_twice.
Example C77_read_twice_case : readn 2 [Data [1]; Data [2; 3]; Data [4]] [] = R_done [1; 2] [Data [3]; Data [4]] /\ readn 2 [Data [3]; Data [4]] [] = R_done [3; 4] [Data []].
Proof. split; reflexivity. Qed.

Lemma writen_all : forall es left sent,
  match writen left es sent with
  | W_done s _ => s = sent ++ left
  | W_error s _ | W_waits s => exists t, left = t ++ skipn (length t) left /\ s = sent ++ t /\ (length t < length left)%nat
  end.
Proof.
  induction es as [|e es IH]; intros left sent; (destruct left as [|x left]; [cbn [writen]; now rewrite app_nil_r|]).
  - cbn [writen]. exists []. repeat split; [now rewrite app_nil_r|cbn; lia].
  - destruct e as [k| |]; cbn [writen].
    + destruct k as [|k]; [exists []; repeat split; [now rewrite app_nil_r|cbn; lia]|].
      specialize (IH (skipn (S k) (x :: left)) (sent ++ firstn (S k) (x :: left))).
      assert (K : forall s, (exists t, skipn (S k) (x :: left) = t ++ skipn (length t) (skipn (S k) (x :: left)) /\ s = (sent ++ firstn (S k) (x :: left)) ++ t /\ (length t < length (skipn (S k) (x :: left)))%nat) ->
        exists t, x :: left = t ++ skipn (length t) (x :: left) /\ s = sent ++ t /\ (length t < length (x :: left))%nat).
      { intros s (t & E & -> & L). assert (Lk : length (firstn (S k) (x :: left)) = S k) by (rewrite skipn_length in L; rewrite firstn_length; lia).
        exists (firstn (S k) (x :: left) ++ t). split; [|split; [now rewrite <- app_assoc|rewrite app_length, Lk; rewrite skipn_length in L; lia]].
        rewrite app_length, Lk. rewrite <- (firstn_skipn (S k) (x :: left)) at 1. rewrite <- app_assoc. f_equal.
        rewrite E at 1. f_equal. rewrite <- (firstn_skipn (S k) (x :: left)) at 2. rewrite skipn_app, Lk. rewrite (skipn_all2 (firstn (S k) (x :: left))) by lia.
        cbn [app]. f_equal. lia. }
      destruct (writen (skipn (S k) (x :: left)) es (sent ++ firstn (S k) (x :: left))) as [s r|s r|s]; [|now apply K|now apply K].
      rewrite IH, <- app_assoc. now rewrite firstn_skipn.
    + apply IH.
    + exists []. repeat split; [now rewrite app_nil_r|cbn; lia].
Qed.
(** C77: in whatever pieces send takes the data, writen that ends well has sent it all, once and in order; otherwise a part from its start. *)
Theorem C77_write : forall data es,
  match writen data es [] with
  | W_done s _ => s = data
  | W_error s _ | W_waits s => exists t, t <> [] /\ data = s ++ t
  end.
Proof.
  intros data es. pose proof (writen_all es data []) as H. cbn [app] in H.
  assert (K : forall s, (exists t, data = t ++ skipn (length t) data /\ s = t /\ (length t < length data)%nat) -> exists t, t <> [] /\ data = s ++ t).
  { intros s (t & E & -> & L). exists (skipn (length t) data). split; [|exact E]. intros X. rewrite X, app_nil_r in E. rewrite E in L. rewrite <- E in L. subst t. lia. }
  destruct (writen data es []) as [s r|s r|s]; [exact H|now apply K|now apply K].
Qed.
Print Assumptions C77_write.
Lemma writen_good : forall es left sent, Forall (fun e => match e with Takes k => (0 < k)%nat | SInterrupted => True | SFails => False end) es ->
  (length left <= length (filter (fun e => match e with Takes _ => true | _ => false end) es))%nat -> exists rest, writen left es sent = W_done (sent ++ left) rest.
Proof.
  induction es as [|e es IH]; intros left sent F L; (destruct left as [|x left]; [cbn [writen]; rewrite app_nil_r; eauto|]); [cbn in L; lia|].
  inversion F as [|? ? Fe Fr]; subst. destruct e as [k| |]; cbn [writen filter length] in *; [|apply IH; assumption|contradiction].
  destruct k as [|k]; [lia|]. destruct (IH (skipn (S k) (x :: left)) (sent ++ firstn (S k) (x :: left)) Fr) as (rest & E); [rewrite skipn_length; cbn [length]; lia|].
  exists rest. rewrite E, <- app_assoc. now rewrite firstn_skipn.
Qed.
(** C77: without failures, as many calls as bytes are enough, however few bytes each one takes. *)
Theorem C77_write_ends : forall data es, Forall (fun e => match e with Takes k => (0 < k)%nat | SInterrupted => True | SFails => False end) es ->
  (length data <= length (filter (fun e => match e with Takes _ => true | _ => false end) es))%nat -> exists rest, writen data es [] = W_done data rest.
Proof. intros data es F L. exact (writen_good es data [] F L). Qed.
Print Assumptions C77_write_ends.
Example C77_write_case : writen [1; 2; 3; 4] [Takes 1; SInterrupted; Takes 2; Takes 9; Takes 5] [] = W_done [1; 2; 3; 4] [Takes 5] /\
  writen [1; 2; 3; 4] [Takes 3; SFails] [] = W_error [1; 2; 3] [].
Proof. split; reflexivity. Qed.

(** Finding: the result of sending the header is not looked at. When sending fails once inside the header, the answer follows the broken header. *)
Theorem C77_answer_refuted : ~ forall header res es, exists t, header ++ res = send_answer header res es ++ t.
Proof. intros H. destruct (H [1; 2; 3] [7; 8] [Takes 1; SFails; Takes 5]) as (t & E). discriminate E. Qed.
Print Assumptions C77_answer_refuted.
(** C77, part: without failures the client gets the header and the answer, up to where sending has come. *)
Theorem C77_answer_partial : forall header res es, ~ In SFails es -> ~ In (Takes 0) es -> exists t, header ++ res = send_answer header res es ++ t.
Proof.
  assert (NE : forall es left sent, ~ In SFails es -> ~ In (Takes 0) es -> match writen left es sent with W_error _ _ => False | W_done _ r => ~ In SFails r /\ ~ In (Takes 0) r | W_waits _ => True end).
  { induction es as [|e es IH]; intros left sent A B; (destruct left as [|x left]; [cbn [writen]; now split|]); [exact I|].
    assert (A' : ~ In SFails es) by (intros X; apply A; now right). assert (B' : ~ In (Takes 0) es) by (intros X; apply B; now right).
    destruct e as [k| |]; cbn [writen]; [|apply IH; assumption|exfalso; apply A; now left]. destruct k as [|k]; [exfalso; apply B; now left|]. apply IH; assumption. }
  intros header res es A B. unfold send_answer. pose proof (C77_write header es) as H. pose proof (NE es header [] A B) as N.
  destruct (writen header es []) as [s r|s r|s]; [|contradiction|].
  - subst s. destruct N as (A1 & B1). pose proof (C77_write res r) as H2. pose proof (NE r res [] A1 B1) as N2.
    destruct (writen res r []) as [u q|u q|u]; [|contradiction|]; [subst u; exists []; now rewrite app_nil_r|]. destruct H2 as (t & _ & ->). exists t. now rewrite app_assoc.
  - destruct H as (t & _ & ->). exists (t ++ res). now rewrite app_assoc.
Qed.
Print Assumptions C77_answer_partial.
Example C77_answer_case : send_answer [1; 2; 3] [7; 8] [Takes 2; SInterrupted; Takes 4; Takes 1; Takes 1] = [1; 2; 3; 7; 8].
Proof. reflexivity. Qed.
(** Finding: built with OpenSSL, a count of 0 (the connection was shut down) is no error: writen tries again without end. *)
Theorem C77_ssl_refuted : forall n data, data <> [] -> writen_ssl data (repeat (Takes 0) n) [] = W_waits [] /\ (0 < n -> exists r, writen data (repeat (Takes 0) n) [] = W_error [] r)%nat.
Proof.
  intros n data D. split.
  - induction n as [|n IH]; (destruct data as [|x data]; [now contradiction D|]); [reflexivity|]. cbn [repeat writen_ssl skipn firstn app]. exact IH.
  - intros N. destruct n as [|n]; [lia|]. destruct data as [|x data]; [now contradiction D|]. eexists. reflexivity.
Qed.
Print Assumptions C77_ssl_refuted.
Example C77_ssl_case : writen_ssl [1] [Takes 0; Takes 0] [] = W_waits []. Proof. reflexivity. Qed.
