(** C75: each connection gets the answer to its own request. C76: the connections are handled once each, in their order. *)
From Coq Require Import ZArith List Bool Lia.
From Coq Require String.
From Verif Require Import DserveModel DserveConfModel DserveOpsModel DserveProofs DserveOpsProofs DserveNetModel DserveNetProofs.
Import ListNotations.
Import String.StringSyntax.
Open Scope Z_scope.

(** C75: a line read is the data up to and with the first newline, cut where the buffer ends, and it ends with 0 in the buffer. Nothing is
    read only when the data ended at once. *)
Theorem C75_line : forall input err b, let l := readlineb (MAXLINE - 1) input err [] in
  match l with
  | L_line s rest =>
      input = s ++ rest /\ s <> [] /\ (length s < MAXLINE)%nat /\ ~ In NL (removelast s) /\ (last s 0 = NL \/ (length s = MAXLINE - 1)%nat \/ (rest = [] /\ err = false)) /\
      (forall i x, nth_error s i = Some x -> nth_error (into b l) i = Some x) /\ nth_error (into b l) (length s) = Some 0
  | L_eof => input = [] /\ err = false
  | L_error s => err = true /\ s = input /\ ~ In NL input
  end.
Proof.
  intros input err b l. pose proof (rl_cases (MAXLINE - 1) input err []) as H. fold l in H. destruct l as [s rest| |s].
  - destruct H as (m & -> & -> & L & N & W & P). cbn [app] in *. assert (M : (1 < MAXLINE)%nat) by (unfold MAXLINE; lia).
    split; [reflexivity|]. split; [apply P; lia|]. split; [lia|]. split; [exact N|]. split; [exact W|]. cbn [into]. split.
    + intros i x E. rewrite nth_error_app1; [exact E|]. apply nth_error_Some. congruence.
    + rewrite nth_error_app2 by lia. now rewrite Nat.sub_diag.
  - destruct H as (A & B & _). now split.
  - exact H.
Qed.
Print Assumptions C75_line.
Example C75_line_case : readlineb (MAXLINE - 1) (bytes "GET" ++ [10; 65]) true [] = L_line (bytes "GET" ++ [10]) [65] /\
  into [1; 2; 3; 4; 5; 6; 7] (L_line (bytes "GET" ++ [10]) [65]) = bytes "GET" ++ [10; 0; 6; 7].
Proof. split; vm_compute; reflexivity. Qed.

(** C75: whatever the thread did before, a request line "GET path?query version" hands the query, and nothing else, to process_query. *)
Theorem C75_get : forall t path q ver rest err junk parsed,
  ~ In 0 path -> ~ In SP path -> ~ In NL path -> ~ In QM path -> ~ In 0 q -> ~ In SP q -> ~ In NL q -> q <> [] -> ~ In NL ver ->
  (length path + length q + length ver + 7 < MAXLINE)%nat ->
  exists t', handle_http t (bytes "GET" ++ SP :: path ++ QM :: q ++ SP :: ver ++ NL :: rest) err junk parsed = Some (t', A_query q).
Proof. exact get_ok. Qed.
Print Assumptions C75_get.
Definition keep (b : list Z) : list Z := b.
Definition answer_of (r : option (thr * answer)) : option answer := option_map snd r.
Example C75_get_case :
  answer_of (handle_http (T (bytes "GET" ++ [0] ++ bytes "/old" ++ [0] ++ bytes "op=drop" ++ [0]) (Some 4%nat) (Some 30%nat) Q_freed)
    (bytes "GET /dserve?op=count&db=1 HTTP/1.0" ++ [13; 10; 13; 10]) false [] keep) = Some (A_query (bytes "op=count&db=1")).
Proof. vm_compute. reflexivity. Qed.

(** C75: a request line with another method gets the error about the method, whatever the thread did before. *)
Theorem C75_method : forall t w x rest err junk parsed, ~ In 0 w -> ~ In SP w -> ~ In NL w -> ~ In NL x -> w <> bytes "GET" -> w <> bytes "POST" -> (length w + length x + 2 < MAXLINE)%nat ->
  exists t', handle_http t (w ++ SP :: x ++ NL :: rest) err junk parsed = Some (t', A_method_err).
Proof. exact method_ok. Qed.
Print Assumptions C75_method.
Example C75_method_case : answer_of (handle_http thr_start (bytes "PUT /dserve?op=count HTTP/1.0" ++ [13; 10]) false [] keep) = Some A_method_err.
Proof. vm_compute. reflexivity. Qed.

(** C75, part: a request without query gets the error about it, as long as the thread has had no query before. *)
Theorem C75_noquery_partial : forall t path ver rest err junk parsed, t_query t = Q_null ->
  ~ In 0 path -> ~ In SP path -> ~ In NL path -> ~ In QM path -> ~ In NL ver -> (length path + length ver + 6 < MAXLINE)%nat ->
  exists t', handle_http t (bytes "GET" ++ SP :: path ++ SP :: ver ++ NL :: rest) err junk parsed = Some (t', A_noquery_err) /\ t_query t' = Q_null.
Proof. exact noquery_ok. Qed.
Print Assumptions C75_noquery_partial.
Example C75_noquery_case : answer_of (handle_http thr_start (bytes "GET /dserve HTTP/1.0" ++ [13; 10]) false [] keep) = Some A_noquery_err.
Proof. vm_compute. reflexivity. Qed.

(** C75, part: a POST with any header lines, one of them with the length of the data, hands the data to process_query, followed by the
    bytes [j1] that happen to stand behind the data in the block before a 0. They are the data alone only when [j1] is empty. *)
Theorem C75_post_partial : forall nm t path ver ls1 d e ls2 e2 body more err j1 j2 parsed, length_name nm ->
  ~ In 0 path -> ~ In SP path -> ~ In NL path -> ~ In NL ver -> (length path + length ver + 7 < MAXLINE)%nat ->
  Forall other_line ls1 -> Forall other_line ls2 -> number d (Z.of_nat (length body)) -> eol e -> eol e2 ->
  (length d + 18 < MAXLINE)%nat -> (length ls1 + length ls2 + 2 <= MAXLINES)%nat -> ~ In 0 body -> ~ In 0 j1 -> Z.of_nat (length body) < 100000000 ->
  exists t', handle_http t (bytes "POST" ++ SP :: path ++ SP :: ver ++ NL :: lines ls1 ++ nm ++ SP :: d ++ e ++ NL :: lines ls2 ++ e2 ++ NL :: body ++ more) err (j1 ++ 0 :: j2) parsed
    = Some (t', A_query (body ++ j1)) /\ t_query t' = Q_freed.
Proof. exact post_ok. Qed.
Print Assumptions C75_post_partial.
(** C75: a POST whose data is shorter than its length, or too long, gets the error about the query. *)
Theorem C75_short : forall nm t path ver ls1 d v e ls2 e2 body err junk parsed, length_name nm ->
  ~ In 0 path -> ~ In SP path -> ~ In NL path -> ~ In NL ver -> (length path + length ver + 7 < MAXLINE)%nat ->
  Forall other_line ls1 -> Forall other_line ls2 -> number d v -> eol e -> eol e2 ->
  (length d + 18 < MAXLINE)%nat -> (length ls1 + length ls2 + 2 <= MAXLINES)%nat -> Z.of_nat (length body) < v \/ 100000000 <= v ->
  exists t', handle_http t (bytes "POST" ++ SP :: path ++ SP :: ver ++ NL :: lines ls1 ++ nm ++ SP :: d ++ e ++ NL :: lines ls2 ++ e2 ++ NL :: body) err junk parsed
    = Some (t', A_noquery_err) /\ t_query t' = Q_null.
Proof. exact short_ok. Qed.
Print Assumptions C75_short.
Example C75_short_case : answer_of (handle_http thr_start (bytes "POST /dserve HTTP/1.0" ++ [13; 10] ++ bytes "content-length: 9" ++ [13; 10; 13; 10] ++ bytes "op=count") false (repeat 0 10) keep) = Some A_noquery_err /\
  answer_of (handle_http thr_start (bytes "POST /dserve HTTP/1.0" ++ [10] ++ bytes "content-length: 7" ++ [10; 10] ++ bytes "op=count") false (repeat 0 10) keep) = Some (A_query (bytes "op=coun")) /\ number (bytes "9") 9.
Proof. split; [vm_compute; reflexivity|]. split; [vm_compute; reflexivity|]. split; [discriminate|]. split; [repeat constructor|]. split; [reflexivity|lia]. Qed.
(** C75: a POST that is cut inside its headers, by an error or at the end of a line, gets the error about the query. *)
Theorem C75_cut : forall t path ver ls part err junk parsed,
  ~ In 0 path -> ~ In SP path -> ~ In NL path -> ~ In NL ver -> (length path + length ver + 7 < MAXLINE)%nat -> Forall other_line ls ->
  (err = true /\ ~ In NL part /\ (length part + 1 < MAXLINE)%nat) \/ (err = false /\ part = [] /\ ls <> []) ->
  exists t', handle_http t (bytes "POST" ++ SP :: path ++ SP :: ver ++ NL :: lines ls ++ part) err junk parsed = Some (t', A_noquery_err) /\ t_query t' = Q_null.
Proof. exact cut_ok. Qed.
Print Assumptions C75_cut.
(** C75: so does a POST without a length. *)
Theorem C75_nolength : forall t path ver ls e body err junk parsed,
  ~ In 0 path -> ~ In SP path -> ~ In NL path -> ~ In NL ver -> (length path + length ver + 7 < MAXLINE)%nat -> Forall other_line ls -> eol e -> (length ls + 1 <= MAXLINES)%nat ->
  exists t', handle_http t (bytes "POST" ++ SP :: path ++ SP :: ver ++ NL :: lines ls ++ e ++ NL :: body) err junk parsed = Some (t', A_noquery_err) /\ t_query t' = Q_null.
Proof. exact nolength_ok. Qed.
Print Assumptions C75_nolength.
Example C75_cut_case : answer_of (handle_http thr_start (bytes "POST /dserve HTTP/1.0" ++ [13; 10] ++ bytes "Host: a" ++ [13; 10] ++ bytes "Conte") true [] keep) = Some A_noquery_err /\
  answer_of (handle_http thr_start (bytes "POST /dserve HTTP/1.0" ++ [13; 10] ++ bytes "Host: a" ++ [13; 10; 13; 10] ++ bytes "op=count") false [] keep) = Some A_noquery_err.
Proof. split; vm_compute; reflexivity. Qed.
Definition a_post : list Z := bytes "POST /dserve HTTP/1.0" ++ [13; 10] ++ bytes "Host: a" ++ [13; 10] ++ bytes "Content-Length: 8" ++ [13; 10; 13; 10] ++ bytes "op=count".
Example C75_post_case : answer_of (handle_http thr_start a_post false (repeat 0 10) keep) = Some (A_query (bytes "op=count")) /\ other_line (bytes "Host: a" ++ [13]) /\ number (bytes "8") 8.
Proof.
  split; [vm_compute; reflexivity|]. split.
  - split; [vm_compute; intuition discriminate|]. split; [unfold MAXLINE; cbn [length app bytes]; change (length (bytes "Host: a" ++ [13])) with 8%nat; lia|]. split; [discriminate|]. split; [discriminate|]. split; intros r X; discriminate X.
  - split; [discriminate|]. split; [repeat constructor|]. split; [reflexivity|lia].
Qed.

(** The data of a POST is not ended with 0: what stands behind it in the block is taken for a part of it, or memory behind the block is read. *)
Theorem C75_post_refuted : exists j, length j = 10%nat /\
  answer_of (handle_http thr_start a_post false (j ++ [0]) keep) = Some (A_query (bytes "op=countersigned!!")) /\
  handle_http thr_start a_post false j keep = None.
Proof. exists (bytes "ersigned!!"). split; [reflexivity|]. split; vm_compute; reflexivity. Qed.
Print Assumptions C75_post_refuted.

(** What parse_query leaves of the buffer: 0 in the place of each sign of a parameter (Server/dserve_util.c l.103-128). *)
Definition parsed_buf (b : list Z) : list Z := map (fun c => if (c =? 61) || (c =? 38) then 0 else c) b.
(** A request without query is answered with an earlier place of a query on the same thread: here a part of the path becomes the query. After a
    POST the place is freed memory. And a line with no words gets past the check with the old words. *)
Theorem C75_stale_refuted : exists t1 t2 l,
  handle_http thr_start (bytes "GET /?op=count HTTP/1.0" ++ [13; 10]) false [] parsed_buf = Some (t1, A_query (bytes "op=count")) /\
  ~ In QM l /\ answer_of (handle_http t1 l false [] parsed_buf) = Some (A_query (bytes "op=drop&db=7")) /\
  handle_http thr_start a_post false (repeat 0 10) parsed_buf = Some (t2, A_query (bytes "op=count")) /\
  handle_http t2 (bytes "GET / HTTP/1.0" ++ [13; 10]) false [] parsed_buf = None /\
  answer_of (handle_http t1 (bytes "GET") false [] parsed_buf) = Some (A_query (bytes "op")) /\
  answer_of (handle_http thr_start (bytes "GET") false [] parsed_buf) = Some A_request_err.
Proof.
  do 2 eexists. exists (bytes "GET /aop=drop&db=7 HTTP/1.0" ++ [13; 10]). split; [vm_compute; reflexivity|]. split; [vm_compute; intuition discriminate|].
  split; [vm_compute; reflexivity|]. split; [vm_compute; reflexivity|]. split; [vm_compute; reflexivity|]. split; vm_compute; reflexivity.
Qed.
Print Assumptions C75_stale_refuted.

(** A connection closed before any data: a new thread reads a buffer never written (so does a POST closed after
    its first line), another one takes what is left of its last request. *)
Theorem C75_empty_refuted : handle_http thr_start [] false [] parsed_buf = None /\
  handle_http thr_start (bytes "POST / HTTP/1.0" ++ [13; 10]) false [] parsed_buf = None /\
  exists t1, handle_http thr_start (bytes "GET /?op=count HTTP/1.0" ++ [13; 10]) false [] parsed_buf = Some (t1, A_query (bytes "op=count")) /\
    answer_of (handle_http t1 [] false [] parsed_buf) = Some (A_query (bytes "op")).
Proof. split; [vm_compute; reflexivity|]. split; [vm_compute; reflexivity|]. eexists. split; vm_compute; reflexivity. Qed.
Print Assumptions C75_empty_refuted.

(** C75: the header says the length of the answer: the digits stand at their place, blanks behind them, and all else is as in the template. *)
Theorem C75_header : forall d z, Forall (fun c => isdigit c = true) d -> (1 <= length d <= 10)%nat ->
  write_header_clen (header_template ++ 0 :: z) d =
  Some (bytes "HTTP/1.0 200 OK" ++ [13; 10] ++ bytes "Server: dserve" ++ [13; 10] ++ bytes "Access-Control-Allow-Origin: *" ++ [13; 10] ++ bytes "Connection: Close" ++ [13; 10] ++
        bytes "Cache-Control: no-cache, must-revalidate" ++ [13; 10] ++ bytes "Pragma: no-cache" ++ [13; 10] ++ bytes "Content-Length: " ++ d ++ repeat 32 (11 - length d) ++ [13; 10] ++
        bytes "Content-Type: text/plain" ++ [13; 10; 13; 10] ++ 0 :: z).
Proof.
  intros d z F L. rewrite header_ok by assumption. unfold header_start, header_end, crlf. rewrite <- !app_assoc.
  replace (11 - length d)%nat with (10 - length d + 1)%nat by lia. rewrite repeat_app. rewrite <- !app_assoc. reflexivity.
Qed.
Print Assumptions C75_header.
Example C75_header_case : write_header_clen (header_template ++ [0]) (bytes "1234567890") = Some (header_start ++ bytes "1234567890" ++ header_end ++ [0]) /\
  write_header_clen (header_template ++ [0]) (bytes "7") = Some (header_start ++ bytes "7         " ++ header_end ++ [0]).
Proof. split; vm_compute; reflexivity. Qed.

(** C76: in every history the threads take the connections in the order they were put in the queue, each once: those taken and then those that wait
    are the ones put in. Those put in and those dropped are, in order, all connections that came. The queue never holds more than it has slots. *)
Theorem C76_order : forall n es p os, pool_run (pool_start n) es = Some (p, os) ->
  (exists pend, queued os = taken os ++ pend /\ length pend = q_count p /\ (q_count p <= 100)%nat /\ (p_idle p + p_wait p + p_busy p = n)%nat) /\
  flat_map put_in os = flat_map accepted es.
Proof.
  intros n es p os R. destruct (pool_run_ok es n (pool_start n) p os (pool_start_ok n) R) as ((_ & _ & L & _ & S0 & _) & W).
  split; [|exact (run_put es _ p os R)]. exists (waiting p). cbn in W. split; [exact W|]. split; [unfold waiting; now rewrite map_length, seq_length|]. split; [exact L|exact S0].
Qed.
Print Assumptions C76_order.
(** C76: a connection accepted goes in the queue, unless the queue is full. *)
Theorem C76_accept : forall n es p os c p' o, pool_run (pool_start n) es = Some (p, os) -> pool_step p (P_accept c) = Some (p', o) ->
  (length (queued os) < length (taken os) + 100)%nat -> o = Queued c.
Proof.
  intros n es p os c p' o R ST L. destruct (pool_run_ok es n (pool_start n) p os (pool_start_ok n) R) as (OK & W). cbn in W.
  destruct (pool_step_ok n p (P_accept c) p' o OK ST) as (_ & _ & D & A). destruct (A c eq_refl) as [E|E]; [exact E|]. exfalso.
  destruct (D c E) as (_ & F). rewrite W, app_length in L. unfold waiting in L. rewrite map_length, seq_length, F in L. unfold QUEUE_SIZE in L. lia.
Qed.
Print Assumptions C76_accept.
(** C76: no wake-up is lost: while a connection waits in the queue, a thread is about to look, or all threads are busy. *)
Theorem C76_wake : forall n es p os, pool_run (pool_start n) es = Some (p, os) -> (length (taken os) < length (queued os))%nat ->
  (0 < p_idle p)%nat \/ (p_wait p = 0 /\ p_busy p = n)%nat.
Proof.
  intros n es p os R L. destruct (pool_run_ok es n (pool_start n) p os (pool_start_ok n) R) as ((_ & _ & _ & _ & S0 & K) & W). cbn in W.
  rewrite W, app_length in L. unfold waiting in L. rewrite map_length, seq_length in L.
  destruct (p_idle p) eqn:I; [right|left; lia]. destruct (p_wait p) eqn:Wt; [|specialize (K ltac:(lia)); lia]. split; [reflexivity|lia].
Qed.
Print Assumptions C76_wake.
(** C76: a thread that looks while a connection waits takes the oldest one. *)
Theorem C76_take : forall n es p os, pool_run (pool_start n) es = Some (p, os) -> (length (taken os) < length (queued os))%nat -> (0 < p_idle p)%nat ->
  exists p' c, pool_step p P_look = Some (p', Taken c) /\ nth_error (queued os) (length (taken os)) = Some c.
Proof.
  intros n es p os R L I0. destruct (pool_run_ok es n (pool_start n) p os (pool_start_ok n) R) as (OK & W). cbn in W.
  assert (C0 : q_count p <> 0%nat). { intros E. rewrite W, app_length in L. unfold waiting in L. rewrite E in L. cbn in L. lia. }
  destruct p as [s h t m i w b]. cbn [p_idle q_count] in *. destruct i as [|i]; [lia|].
  destruct (pool_step (Pool s h t m (S i) w b) P_look) as [[p' o]|] eqn:ST.
  - pose proof ST as ST2. cbn [pool_step] in ST2. destruct (Nat.eqb_spec m 0); [contradiction|]. destruct (nth_error s h) as [c|]; [|discriminate ST2].
    injection ST2 as _ <-. exists p', c. split; [reflexivity|].
    destruct (pool_step_ok n _ P_look p' (Taken c) OK ST) as (_ & W2 & _). cbn [queued taken app] in W2. rewrite app_nil_r in W2.
    rewrite W, W2, nth_error_app2 by lia. now rewrite Nat.sub_diag.
  - exfalso. cbn [pool_step] in ST. destruct (Nat.eqb_spec m 0); [contradiction|]. destruct (nth_error s h) eqn:Nh; [discriminate ST|].
    apply nth_error_None in Nh. destruct OK as (Ls & Lh & _). cbn [q_slots q_head] in Ls, Lh. lia.
Qed.
Print Assumptions C76_take.
Example C76_case : exists p os, pool_run (pool_start 2) [P_look; P_look; P_accept 5; P_accept 6; P_accept 7; P_look; P_look; P_done; P_look; P_accept 8] = Some (p, os) /\
  queued os = [5; 6; 7; 8] /\ taken os = [5; 6; 7] /\ q_count p = 1%nat /\ p_busy p = 2%nat.
Proof. do 2 eexists. vm_compute. repeat split. Qed.
(** The slots are used again after the last one. *)
Example C76_case_round : exists p os, pool_run (pool_start 1) (flat_map (fun c => [P_accept (Z.of_nat c); P_look; P_done]) (seq 0 130) ++ [P_accept 500; P_accept 501; P_look]) = Some (p, os) /\
  last (taken os) 0 = 500 /\ q_count p = 1%nat /\ q_head p = 31%nat.
Proof. do 2 eexists. vm_compute. repeat split. Qed.
(** A connection that comes when the queue is full is neither queued nor answered: it is forgotten, and stays open. *)
Theorem C76_full_refuted : exists es p os, pool_run (pool_start 8) es = Some (p, os) /\ In (P_accept 999) es /\ ~ In 999 (queued os) /\ In (Dropped 999) os /\ p_busy p = 8%nat.
Proof.
  exists (flat_map (fun c => [P_accept (Z.of_nat c); P_look]) (seq 0 8) ++ map (fun c => P_accept (Z.of_nat c)) (seq 0 100) ++ [P_accept 999]).
  do 2 eexists. split; [vm_compute; reflexivity|]. split; [apply in_or_app; right; apply in_or_app; right; now left|].
  split; [vm_compute; intuition discriminate|]. split; [|reflexivity]. vm_compute. intuition.
Qed.
Print Assumptions C76_full_refuted.
