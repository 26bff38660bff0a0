(** Properties C08, C11, C12, C51, C52: reader-preference spin lock. *)
From Coq Require Import ZArith List Lia Bool Arith.
From Verif Require Import Base ConcLib SpinLockModel RpLockModel RpLockProofs.
Import ListNotations.
Open Scope Z_scope.

(** C08: for every number of clients (the reader count fits its word, so fewer
    than 2^61) and every list of calls, steps and time-outs, a client that
    holds the lock as a writer is the only holder. *)
Theorem C08_rp_exclusion : forall n es i j,
  Z.of_nat n < 2 ^ 61 ->
  let s := exec es (init n) in
  nth_error (cl s) i = Some WHold ->
  nth_error (cl s) j = Some WHold \/ nth_error (cl s) j = Some RHold -> i = j.
Proof. exact rp_exclusive. Qed.
Print Assumptions C08_rp_exclusion.
(** Client 0 writes while 1 has announced itself as a reader and 2 spins as a
    writer; after the release client 1 gets in, 2 still waits. *)
Example C08_ex :
  cl (exec [StartWrite 0 5; Run 0; StartRead 1 5; Run 1; Run 1; StartWrite 2 5; Run 2] (init 3))
    = [WHold; RSpin 5000000 500000 0; WSpin 5000000 500000 0] /\
  cl (exec [StartWrite 0 5; Run 0; StartRead 1 5; Run 1; Run 1; StartWrite 2 5; Run 2;
            Finish 0; Run 0; Run 1; Run 2] (init 3))
    = [Idle 1; RHold; WSpin 5000000 500000 1].
Proof. split; vm_compute; reflexivity. Qed.

(** C11, reader-preference lock: whatever happened before (time-outs included),
    once all clients are outside any call and hold nothing, the lock word is 0
    and the next attempt of either kind succeeds without waiting. *)
Theorem C11_rp_free_again : forall n es,
  Z.of_nat n < 2 ^ 61 ->
  let s := exec es (init n) in
  (forall i p, nth_error (cl s) i = Some p -> exists r, p = Idle r) ->
  gl s = 0 /\
  forall c t, (c < n)%nat ->
    nth_error (cl (exec [StartWrite c t; Run c] s)) c = Some WHold /\
    nth_error (cl (exec [StartRead c t; Run c; Run c] s)) c = Some RHold.
Proof.
  intros n es Hn s Q. pose proof (rp_quiet n es Hn Q) as G. fold s in G. split; [exact G|].
  intros c t Hc. assert (L : length (cl s) = n) by (unfold s; rewrite exec_length; apply repeat_length).
  destruct (nth_error (cl s) c) as [p|] eqn:E; [|apply nth_error_None in E; lia].
  destruct (Q c p E) as [r ->]. split; [eapply rp_free_write|eapply rp_free_read]; eauto.
Qed.
Print Assumptions C11_rp_free_again.
(** A reader that timed out (time-out 0: 500 reads, then it gives up). *)
Example C11_rp_ex :
  let es := [StartWrite 0 5; Run 0; StartRead 1 0; Run 1; Run 1] ++ repeat (Run 1) 501 in
  cl (exec es (init 2)) = [WHold; Idle 0] /\
  cl (exec (es ++ [Finish 0; Run 0]) (init 2)) = [Idle 1; Idle 0] /\
  gl (exec (es ++ [Finish 0; Run 0]) (init 2)) = 0.
Proof. vm_compute. auto. Qed.

(** C12, reader-preference lock. *)
Theorem C12_rp_progress : forall n es,
  Z.of_nat n < 2 ^ 61 ->
  let s := exec es (init n) in
  (forall i p, nth_error (cl s) i = Some p -> ~ leaving p) ->
  (exists i p, nth_error (cl s) i = Some p /\ waiting p) ->
  exists c k, (k <= 2)%nat /\
    let p' := nth_error (cl (exec (repeat (Run c) k) s)) c in
    p' = Some WHold \/ p' = Some RHold.
Proof. exact rp_progress. Qed.
Print Assumptions C12_rp_progress.
(** Hypotheses met: the holder has released, a reader and a writer wait. *)
Example C12_rp_ex :
  let s := exec [StartWrite 0 5; Run 0; StartRead 1 5; Run 1; Run 1; StartWrite 2 5; Run 2;
                 Finish 0; Run 0] (init 3) in
  cl s = [Idle 1; RSpin 5000000 500000 0; WSpin 5000000 500000 0] /\
  (forall i p, nth_error (cl s) i = Some p -> ~ leaving p) /\
  (exists i p, nth_error (cl s) i = Some p /\ waiting p).
Proof.
  intros s. assert (E : cl s = [Idle 1; RSpin 5000000 500000 0; WSpin 5000000 500000 0]) by (vm_compute; reflexivity).
  split; [exact E|]. rewrite E. split.
  - intros [|[|[|[|i]]]] p H; cbn in H; try discriminate; injection H as <-; cbn; auto.
  - exists 1%nat, (RSpin 5000000 500000 0). split; [reflexivity|exact I].
Qed.

(** C51, reader-preference lock: every lock or unlock call returns after at
    most 4300002 steps of its own client, however the others behave. *)
Theorem C51_rp_returns : forall n es0 c r t e es,
  let s := exec es0 (init n) in
  nth_error (cl s) c = Some (Idle r) -> - 2 ^ 40 <= t ->
  e = StartWrite c t \/ e = StartRead c t ->
  4300002 <= runs c es ->
  exists es1 es2 p', es = es1 ++ es2 /\
    nth_error (cl (exec (e :: es1) s)) c = Some p' /\ returned p'.
Proof.
  intros n es0 c r t e es s E Ht He R.
  assert (E1 : nth_error (cl (step s e)) c = Some (ccall (Idle r) e)).
  { destruct He as [-> | ->]; cbn [step]; rewrite E; cbn [cl]; eapply nth_lset_same; eauto. }
  assert (H : exists es1 es2 p', es = es1 ++ es2 /\
    nth_error (cl (exec es1 (step s e))) c = Some p' /\ returned p').
  { eapply rp_returns_from; [exact E1| |].
    - destruct He as [-> | ->]; cbn [ccall local_ok]; exact Ht.
    - destruct He as [-> | ->]; cbn [ccall left_steps]; lia. }
  exact H.
Qed.
Print Assumptions C51_rp_returns.
(** A writer with time-out 0 against a holder: 500 reads, then 0. *)
Example C51_rp_ex :
  cl (exec ([StartRead 0 5; Run 0; Run 0; StartWrite 1 0; Run 1] ++ repeat (Run 1) 500) (init 2)) = [RHold; Idle 0].
Proof. vm_compute. reflexivity. Qed.

(** ** C52: how long the spin locks wait *)

Definition sleep_ok (t : Z) : bool :=
  match total_sleep 200 (init_spin_timeout t) SLEEP_NSEC with
  | Some T => (t * 1000000 - 47000000 <? T) && (T <=? t * 1000000)
  | None => false
  end.

Lemma sleep_ok_all : forallb (fun i => sleep_ok (Z.of_nat i)) (seq 0 (Z.to_nat 2148)) = true.
Proof. vm_compute. reflexivity. Qed.

(** Partial C52 for both spin locks: a time-out of up to 2147 ms is honoured to
    within 47 ms. Missing: longer time-outs, for which the claim is false
    (next theorem). *)
Theorem C52_spin_timeout_partial : forall t, 0 <= t <= 2147 ->
  exists T, total_sleep 200 (init_spin_timeout t) SLEEP_NSEC = Some T /\
            t * 1000000 - 47000000 < T <= t * 1000000.
Proof.
  intros t Ht. pose proof sleep_ok_all as H. rewrite forallb_forall in H.
  specialize (H (Z.to_nat t)). rewrite Z2Nat.id in H by lia.
  assert (Hin : In (Z.to_nat t) (seq 0 (Z.to_nat 2148))) by (apply in_seq; lia).
  specialize (H Hin). unfold sleep_ok in H.
  destruct (total_sleep _ _ _) as [T|]; [|discriminate]. exists T. split; [reflexivity|]. lia.
Qed.
Print Assumptions C52_spin_timeout_partial.
Example C52_spin_ex : total_sleep 200 (init_spin_timeout 100) SLEEP_NSEC = Some 95000000.
Proof. vm_compute. reflexivity. Qed.

(** Every longer time-out is cut to about 2.1 seconds. *)
Theorem C52_spin_timeout_refuted : forall t, 2147 < t ->
  exists T, total_sleep 200 (init_spin_timeout t) SLEEP_NSEC = Some T /\ T = 2139000000.
Proof.
  intros t Ht. unfold init_spin_timeout.
  destruct (Z.ltb_spec (INT_MAX / 1000000) t) as [L|L]; [|exfalso; change (INT_MAX / 1000000) with 2147 in L; lia].
  exists 2139000000. split; [vm_compute; reflexivity|reflexivity].
Qed.
Print Assumptions C52_spin_timeout_refuted.
(** A caller asking for 30 seconds is refused after 2.139. *)
Example C52_spin_refuted_ex : total_sleep 200 (init_spin_timeout 30000) SLEEP_NSEC = Some 2139000000.
Proof. vm_compute. reflexivity. Qed.

(** C52 for the queue lock: below one second the wait is less than a
    microsecond, because milliseconds are stored in the nanosecond member. *)
Theorem C52_queue_timeout_refuted : forall t, 0 <= t < 1000 -> qlock_wait_ns t < 1000.
Proof.
  intros t Ht. unfold qlock_wait_ns. rewrite Z.quot_small, Z.rem_small by lia. lia.
Qed.
Print Assumptions C52_queue_timeout_refuted.
Example C52_queue_ex : qlock_wait_ns 500 = 500 /\ qlock_wait_ns 2500 = 2000000500.
Proof. vm_compute. auto. Qed.

(** What does hold: whole seconds are honoured. *)
Theorem C52_queue_timeout_partial : forall t, 0 <= t ->
  t / 1000 * 1000000000 <= qlock_wait_ns t <= t * 1000000.
Proof.
  intros t Ht. unfold qlock_wait_ns.
  rewrite Z.quot_div_nonneg, Z.rem_mod_nonneg by lia. lia.
Qed.
Print Assumptions C52_queue_timeout_partial.
