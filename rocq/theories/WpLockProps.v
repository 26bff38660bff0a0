(** Properties C09, C11, C12, C51: writer-preference spin lock. *)
From Coq Require Import ZArith List Lia Bool Arith.
From Verif Require Import Base ConcLib SpinLockModel WpLockModel WpLockProofs.
Import ListNotations.
Open Scope Z_scope.

(** C09: a client that holds the lock as a writer is the only holder. *)
Theorem C09_wp_exclusion : forall n es i j,
  Z.of_nat n < 2 ^ 61 ->
  let s := exec es (init n) in
  nth_error (cl s) i = Some WHold ->
  nth_error (cl s) j = Some WHold \/ nth_error (cl s) j = Some RHold -> i = j.
Proof. exact wp_exclusive. Qed.
Print Assumptions C09_wp_exclusion.
(** Two readers hold, a writer waits and keeps a third reader out. *)
Example C09_ex :
  cl (exec [StartRead 0 5; Run 0; Run 0; Run 0; StartRead 1 5; Run 1; Run 1; Run 1;
            StartWrite 2 5; Run 2; Run 2; StartRead 3 5; Run 3; Run 3] (init 4))
    = [RHold; RHold; WSpin 5000000 500000 0; RSpin 5000000 500000 0] /\
  cl (exec [StartRead 0 5; Run 0; Run 0; Run 0; StartRead 1 5; Run 1; Run 1; Run 1;
            StartWrite 2 5; Run 2; Run 2; StartRead 3 5; Run 3; Run 3;
            Finish 0; Run 0; Finish 1; Run 1; Run 2; Run 2; Run 3] (init 4))
    = [Idle 1; Idle 1; WHold; RSpin 5000000 500000 1].
Proof. split; vm_compute; reflexivity. Qed.

Lemma wp_exec_length es s : length (cl (exec es s)) = length (cl s).
Proof.
  revert s; induction es as [|e es IH]; intros s; cbn [exec fold_left]; [reflexivity|].
  unfold exec in IH. rewrite IH. apply step_length.
Qed.

(** C11, writer-preference lock. *)
Theorem C11_wp_free_again : forall n es,
  Z.of_nat n < 2 ^ 61 ->
  let s := exec es (init n) in
  (forall i p, nth_error (cl s) i = Some p -> exists r, p = Idle r) ->
  gl s = 0 /\ wr s = 0 /\
  forall c t, (c < n)%nat ->
    nth_error (cl (exec [StartWrite c t; Run c; Run c] s)) c = Some WHold /\
    nth_error (cl (exec [StartRead c t; Run c; Run c; Run c] s)) c = Some RHold.
Proof.
  intros n es Hn s Q. destruct (wp_quiet n es Hn Q) as [G W]. fold s in G, W. split; [exact G|]. split; [exact W|].
  intros c t Hc. assert (L : length (cl s) = n) by (unfold s; rewrite wp_exec_length; apply repeat_length).
  destruct (nth_error (cl s) c) as [p|] eqn:E; [|apply nth_error_None in E; lia].
  destruct (Q c p E) as [r ->]. split; [eapply wp_free_write|eapply wp_free_read]; eauto.
Qed.
Print Assumptions C11_wp_free_again.
(** A writer gives up (time-out 0) while a reader holds. *)
Example C11_wp_ex :
  let es := [StartRead 0 5; Run 0; Run 0; Run 0; StartWrite 1 0; Run 1; Run 1] ++ repeat (Run 1) 501 in
  cl (exec es (init 2)) = [RHold; Idle 0] /\
  exec (es ++ [Finish 0; Run 0]) (init 2) = mk 0 0 [Idle 1; Idle 0].
Proof. vm_compute. auto. Qed.

(** C12, writer-preference lock. *)
Theorem C12_wp_progress : forall n es,
  Z.of_nat n < 2 ^ 61 ->
  let s := exec es (init n) in
  (forall i p, nth_error (cl s) i = Some p -> ~ leaving p) ->
  (exists i p, nth_error (cl s) i = Some p /\ waiting p) ->
  exists c k, (k <= 4)%nat /\
    let p' := nth_error (cl (exec (repeat (Run c) k) s)) c in
    p' = Some WHold \/ p' = Some RHold.
Proof. exact wp_progress. Qed.
Print Assumptions C12_wp_progress.
Example C12_wp_ex :
  let s := exec [StartRead 0 5; Run 0; Run 0; Run 0; StartWrite 1 5; Run 1; Run 1; StartRead 2 5; Run 2; Run 2;
                 Finish 0; Run 0] (init 3) in
  cl s = [Idle 1; WSpin 5000000 500000 0; RSpin 5000000 500000 0] /\
  (forall i p, nth_error (cl s) i = Some p -> ~ leaving p) /\
  (exists i p, nth_error (cl s) i = Some p /\ waiting p).
Proof.
  intros s. assert (E : cl s = [Idle 1; WSpin 5000000 500000 0; RSpin 5000000 500000 0]) by (vm_compute; reflexivity).
  split; [exact E|]. rewrite E. split.
  - intros [|[|[|[|i]]]] p H; cbn in H; try discriminate; injection H as <-; cbn; auto.
  - exists 1%nat, (WSpin 5000000 500000 0). split; [reflexivity|exact I].
Qed.

(** C51, writer-preference lock, the part that holds: calls that ask for the
    lock as a writer return after a bounded number of own steps. Missing: calls
    that ask for it as a reader, see the next theorem. *)
Theorem C51_wp_writer_returns_partial : forall n es0 c r t es,
  let s := exec es0 (init n) in
  nth_error (cl s) c = Some (Idle r) -> - 2 ^ 40 <= t ->
  4300002 <= runs c es ->
  exists es1 es2 p', es = es1 ++ es2 /\
    nth_error (cl (exec (StartWrite c t :: es1) s)) c = Some p' /\ returned p'.
Proof.
  intros n es0 c r t es s E Ht R.
  assert (E1 : nth_error (cl (step s (StartWrite c t))) c = Some (WInc t)).
  { cbn [step]; rewrite E; cbn [cl ccall]; eapply nth_lset_same; eauto. }
  assert (H : exists es1 es2 p', es = es1 ++ es2 /\
    nth_error (cl (exec es1 (step s (StartWrite c t)))) c = Some p' /\ returned p').
  { eapply wp_returns_from; [exact E1| | |].
    - cbn [local_ok]; exact Ht.
    - left. exact I.
    - cbn [left_steps]; lia. }
  exact H.
Qed.
Print Assumptions C51_wp_writer_returns_partial.
Example C51_wp_ex :
  cl (exec ([StartRead 0 5; Run 0; Run 0; Run 0; StartWrite 1 0; Run 1; Run 1] ++ repeat (Run 1) 501) (init 2))
  = [RHold; Idle 0].
Proof. vm_compute. reflexivity. Qed.

(** A reader of the writer-preference lock has no such bound: for every number
    [k] of own steps there is an execution with two clients and no writer at
    all in which a reader with time-out 2 s takes more than [k] steps of one
    call and the call has returned at no point. *)
Theorem C51_wp_reader_refuted : forall k, exists es,
  k <= runs 0 es /\
  forall es1 es2, es = es1 ++ es2 ->
    exists p, nth_error (cl (exec (livelock_start ++ es1) (init 2))) 0 = Some p /\ ~ returned p.
Proof.
  intros k. exists (turns (Z.to_nat k)). split.
  - rewrite turns_runs. lia.
  - intros es1 es2 H. rewrite exec_app, livelock_start_ok. exact (turns_waiting _ _ _ H).
Qed.
Print Assumptions C51_wp_reader_refuted.
