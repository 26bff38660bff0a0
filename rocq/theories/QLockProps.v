(** Properties C10, C11, C12: queue lock. *)
From Coq Require Import ZArith List Lia Bool Arith Permutation.
From Verif Require Import Base ConcLib QLockModel QLockProofs QLockInv.
Import ListNotations.
Open Scope Z_scope.

(** Full C10 (not provable, see the refutation below): for every execution
    without time-outs and interrupted waits, a writer is the only holder and the
    lock is granted in queue order.

    Proved: the same for all executions in which no futex wake-up reaches a
    client that sleeps on a reused cell and whose turn has not come ([clean]);
    time-outs are allowed. Missing: executions with such a stale wake-up. *)
Theorem C10_exclusion_partial : forall base m n es i j w l l',
  0 < base -> (0 < m)%nat -> clean es (init base m n) = true ->
  let s := exec es (init base m n) in
  nth_error (cl s) i = Some (Hold true l) -> nth_error (cl s) j = Some (Hold w l') -> i = j.
Proof. exact q_exclusive. Qed.
Print Assumptions C10_exclusion_partial.

(** Writer 0 holds, reader 1, reader 2 and writer 3 queue behind it; after the
    release both readers get in (the first wakes the second), then the writer. *)
Definition ex_es : list ev :=
  [StartWrite 0] ++ repeat (Run 0) 4 ++
  [StartRead 1] ++ repeat (Run 1) 5 ++ [StartRead 2] ++ repeat (Run 2) 5 ++
  [StartWrite 3] ++ repeat (Run 3) 5 ++
  [Finish 0] ++ repeat (Run 0) 4 ++ repeat (Run 1) 4 ++ repeat (Run 2) 4.
Example C10_ex :
  clean ex_es (init 1000 4 4) = true /\
  cl (exec ex_es (init 1000 4 4)) = [Idle 1; Hold false 1128; Hold false 1256; Blocked true 1384] /\
  clean (ex_es ++ [Finish 1] ++ repeat (Run 1) 4 ++ [Finish 2] ++ repeat (Run 2) 4) (init 1000 4 4) = true /\
  cl (exec (ex_es ++ [Finish 1] ++ repeat (Run 1) 4 ++ [Finish 2] ++ repeat (Run 2) 4) (init 1000 4 4))
    = [Idle 1; Idle 1; Idle 1; Hold true 1384].
Proof. vm_compute. auto. Qed.

(** Queue order: [tk] numbers the queue entries in the order of joining; the
    holder's number is below that of every queued client whose turn (waiting
    word 0) has not come. *)
Theorem C10_order_partial : forall base m n es i j w l p l',
  0 < base -> (0 < m)%nat -> clean es (init base m n) = true ->
  let s := exec es (init base m n) in
  nth_error (cl s) i = Some (Hold w l) -> nth_error (cl s) j = Some p -> own p = [l'] ->
  waiting (nodes (qs s) l') <> 0 -> tk (qs s) l < tk (qs s) l'.
Proof. exact q_order. Qed.
Print Assumptions C10_order_partial.
Example C10_order_ex :
  let s := exec ex_es (init 1000 4 4) in
  nth_error (cl s) 2 = Some (Hold false 1256) /\ nth_error (cl s) 3 = Some (Blocked true 1384) /\
  waiting (nodes (qs s) 1384) = 1 /\ tk (qs s) 1256 = 2 /\ tk (qs s) 1384 = 3.
Proof. vm_compute. auto 10. Qed.

(** The queue mutex protects its sections (this justifies that the model
    executes each of them in one step). *)
Theorem C10_mutex_partial : forall base m n es i j p q,
  0 < base -> (0 < m)%nat -> clean es (init base m n) = true ->
  let s := exec es (init base m n) in
  nth_error (cl s) i = Some p -> nth_error (cl s) j = Some q -> incs p = 1 -> incs q = 1 -> i = j.
Proof. exact q_mutex. Qed.
Print Assumptions C10_mutex_partial.
Example C10_mutex_ex :
  cl (exec [StartWrite 0; Run 0; StartRead 1; Run 1; Run 0] (init 1000 4 2))
    = [QUnl (AChk true 1000); QSpin (KLock false)].
Proof. vm_compute. reflexivity. Qed.

(** C10 fails: without any time-out or interruption two writers hold the lock.
    Writer 0 releases and is delayed before its futex wake-up of writer 1.
    Writer 1 has seen its turn come by itself, works and releases to writer 2.
    Writer 3 takes over the cell freed by writer 1 and sleeps on it; the late
    wake-up reaches it, and it takes it for the end of its wait. *)
Definition stale_es : list ev :=
  [StartWrite 0] ++ repeat (Run 0) 4 ++
  [StartWrite 1] ++ repeat (Run 1) 3 ++
  [StartWrite 2] ++ repeat (Run 2) 5 ++
  [Finish 0] ++ repeat (Run 0) 3 ++
  [Run 1; Finish 1] ++ repeat (Run 1) 4 ++
  [StartWrite 3] ++ repeat (Run 3) 5 ++
  [Run 0].
Theorem C10_exclusion_refuted :
  exists es i j l l', no_timeout es = true /\
    forallb (fun e => match e with Intr _ => false | _ => true end) es = true /\
    i <> j /\
    nth_error (cl (exec es (init 1000 64 4))) i = Some (Hold true l) /\
    nth_error (cl (exec es (init 1000 64 4))) j = Some (Hold true l').
Proof.
  exists stale_es, 2%nat, 3%nat, 1256, 1128. split; [reflexivity|]. split; [reflexivity|].
  split; [discriminate|]. split; vm_compute; reflexivity.
Qed.
Print Assumptions C10_exclusion_refuted.

(** An interrupted wait (EINTR) is taken for the end of the wait, too. *)
Theorem C10_interrupt_refuted :
  exists es i j l l', i <> j /\
    nth_error (cl (exec es (init 1000 64 2))) i = Some (Hold true l) /\
    nth_error (cl (exec es (init 1000 64 2))) j = Some (Hold true l').
Proof.
  exists ([StartWrite 0] ++ repeat (Run 0) 4 ++ [StartWrite 1] ++ repeat (Run 1) 5 ++ [Intr 1]).
  exists 0%nat, 1%nat, 1000, 1128. split; [discriminate|]. split; vm_compute; reflexivity.
Qed.
Print Assumptions C10_interrupt_refuted.

(** C11, queue lock: in [clean] executions (time-outs allowed), once all
    clients are outside any call and hold nothing, the queue is empty, the
    mutex free, all cells are on the free list, and the next attempt succeeds
    at once. Missing: executions with a stale wake-up. *)
Theorem C11_queue_free_again_partial : forall base m n es,
  0 < base -> (0 < m)%nat -> clean es (init base m n) = true ->
  let s := exec es (init base m n) in
  (forall i p, nth_error (cl s) i = Some p -> exists r, p = Idle r) ->
  tail (qs s) = 0 /\ ql s = 0 /\
  (exists f, chain (nodes (qs s)) (freelist (qs s)) f /\ Permutation f (cells_of base m)) /\
  forall c x (w : bool), nth_error (cl s) c = Some x ->
    exists w' l, nth_error (cl (exec ((if w then StartWrite c else StartRead c) :: repeat (Run c) 4) s)) c
                 = Some (Hold w' l).
Proof.
  intros base m n es Hb Hm C s Q. destruct (q_quiet base m n es Hb Hm C Q) as (T & L & F & X).
  split; [exact T|]. split; [exact L|]. split; [exact X|].
  intros c x w E. exact (q_free base m n es w c x Hb Hm C Q E).
Qed.
Print Assumptions C11_queue_free_again_partial.
(** A queued reader times out while a writer holds the lock. *)
Example C11_queue_ex :
  let es := [StartWrite 0] ++ repeat (Run 0) 4 ++ [StartRead 1] ++ repeat (Run 1) 5 ++ [Timeout 1] ++
            repeat (Run 1) 3 ++ [Finish 0] ++ repeat (Run 0) 3 in
  clean es (init 1000 64 2) = true /\
  cl (exec es (init 1000 64 2)) = [Idle 1; Idle 0] /\ tail (qs (exec es (init 1000 64 2))) = 0.
Proof. vm_compute. auto. Qed.

(** C12, queue lock: in [clean] executions without time-outs, whenever nobody
    holds the lock or releases it and some client is inside a lock call, a
    client gets the lock within eight steps of the clients, without any further
    call. (One of them may have to leave the queue mutex first, so these are
    not always steps of one client.) *)
Theorem C12_queue_progress_partial : forall base m n es,
  0 < base -> (0 < m)%nat -> clean es (init base m n) = true -> no_timeout es = true ->
  let s := exec es (init base m n) in
  (forall i p, nth_error (cl s) i = Some p -> ~ leaving p) ->
  (exists i p, nth_error (cl s) i = Some p /\ inlock p) ->
  exists es' c w l, Forall (fun e => exists d, e = Run d) es' /\ (length es' <= 8)%nat /\
    nth_error (cl (exec es' s)) c = Some (Hold w l).
Proof. exact q_progress. Qed.
Print Assumptions C12_queue_progress_partial.
(** Reader 1 has been woken and is on its way in; reader 2 sleeps. *)
Example C12_queue_ex :
  let s := exec ([StartWrite 0] ++ repeat (Run 0) 4 ++
    [StartRead 1] ++ repeat (Run 1) 5 ++ [StartRead 2] ++ repeat (Run 2) 5 ++
    [Finish 0] ++ repeat (Run 0) 4) (init 1000 4 3) in
  cl s = [Idle 1; QTry (KCasc 1128); Blocked false 1256] /\
  (forall i p, nth_error (cl s) i = Some p -> ~ leaving p) /\
  (exists i p, nth_error (cl s) i = Some p /\ inlock p).
Proof.
  intros s. assert (E : cl s = [Idle 1; QTry (KCasc 1128); Blocked false 1256]) by (vm_compute; reflexivity).
  split; [exact E|]. rewrite E. clear E s. split.
  - intros [|[|[|[|i]]]] p H; cbn in H; try discriminate; injection H as <-; cbn; auto.
  - exists 1%nat, (QTry (KCasc 1128)). split; [reflexivity|exact I].
Qed.

(** A time-out that meets a release loses the lock: client 1 times out while
    client 0 releases to it; it leaves the queue without passing the turn on.
    Client 2 sleeps with nobody left to wake it. *)
Definition lost_es : list ev :=
  [StartWrite 0] ++ repeat (Run 0) 4 ++ [StartWrite 1] ++ repeat (Run 1) 5 ++
  [StartWrite 2] ++ repeat (Run 2) 5 ++
  [Timeout 1; Finish 0] ++ repeat (Run 0) 4 ++ repeat (Run 1) 3.
Definition lost_cl : list pc := [Idle 1; Idle 0; Blocked true 1256].

Lemma lost_state : cl (exec lost_es (init 1000 64 3)) = lost_cl.
Proof. vm_compute. reflexivity. Qed.

Lemma lost_run s d : cl s = lost_cl -> step s (Run d) = s.
Proof.
  intros E. cbn [step]. rewrite E. unfold lost_cl.
  destruct d as [|[|[|[|d]]]]; cbn [nth_error run1]; reflexivity.
Qed.

Definition stuck (s : st) : Prop :=
  (forall i p, nth_error (cl s) i = Some p -> ~ leaving p) /\
  (exists i p, nth_error (cl s) i = Some p /\ inlock p) /\
  forall es' c w l, Forall (fun e => exists d, e = Run d) es' ->
    nth_error (cl (exec es' s)) c <> Some (Hold w l).

Lemma lost_stuck s : cl s = lost_cl -> stuck s.
Proof.
  intros E. unfold stuck. split; [|split].
  - rewrite E. intros [|[|[|[|i]]]] p H; cbn in H; try discriminate; injection H as <-; cbn; auto.
  - exists 2%nat, (Blocked true 1256). rewrite E. split; [reflexivity|exact I].
  - intros es' c w l F. assert (X : exec es' s = s).
    { induction F as [|e es' [d ->] F IH]; [reflexivity|]. unfold exec in *. cbn [fold_left].
      now rewrite (lost_run s d E). }
    rewrite X, E. destruct c as [|[|[|[|c]]]]; cbn; discriminate.
Qed.

Lemma lost_refutes : exists es, clean es (init 1000 64 3) = true /\ stuck (exec es (init 1000 64 3)).
Proof. exists lost_es. split; [vm_compute; reflexivity|]. exact (lost_stuck _ lost_state). Qed.

Theorem C12_queue_timeout_refuted :
  exists es, clean es (init 1000 64 3) = true /\
  let s := exec es (init 1000 64 3) in
  (forall i p, nth_error (cl s) i = Some p -> ~ leaving p) /\
  (exists i p, nth_error (cl s) i = Some p /\ inlock p) /\
  forall es' c w l, Forall (fun e => exists d, e = Run d) es' ->
    nth_error (cl (exec es' s)) c <> Some (Hold w l).
Proof. exact lost_refutes. Qed.
Print Assumptions C12_queue_timeout_refuted.
