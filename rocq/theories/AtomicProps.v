(** Properties C13 and C53. *)
From Coq Require Import ZArith List Lia Bool Arith Permutation.
From Verif Require Import Base ConcLib EncodingModel EncodingProofs AtomicModel AtomicProofs.
Import ListNotations.
Open Scope Z_scope.

(** Full C13: the final value is the initial value plus the increments of the
    calls that returned 0, for every small integer at the start. False for
    values of more than 29 bits (see below).

    Proved: the same when the initial value lies in -2^28 .. 2^28-1, for any
    number of clients, all schedules, all [int] increments. *)
Theorem C13_sum_partial : forall e n v0 es,
  - 2 ^ 28 <= v0 < 2 ^ 28 ->
  Forall (fun x => match x with Start _ (Add d) => - 2 ^ 31 <= d < 2 ^ 31 | Start _ _ => False | Run _ => True end) es ->
  let s := exec e es (init n (encode_smallint v0)) in
  exists w, field s = encode_smallint w /\
    w = v0 + sumZ (map inc (all_succ (cl s))) /\ - 2 ^ 28 <= w < 2 ^ 28.
Proof.
  intros e n v0 es Hv S s. apply atomic_sum; [exact Hv|].
  eapply Forall_impl; [|exact S]. intros [c [d|d]|c]; cbn [add32]; auto.
Qed.
Print Assumptions C13_sum_partial.
(** Two clients read the same old value; the second loses the swap, reads again
    and succeeds; a third call overflows 29 bits and is refused. *)
Example C13_ex :
  let s := exec (Env false false)
    [Start 0 (Add 5); Start 1 (Add 7); Run 0; Run 1; Run 0; Run 1; Run 1; Run 1;
     Start 0 (Add 268435455); Run 0] (init 2 (encode_smallint 100)) in
  field s = encode_smallint 112 /\
  map hist (cl s) = [[(Add 268435455, -16); (Add 5, 0)]; [(Add 7, 0)]].
Proof. vm_compute. auto. Qed.

(** For every small integer at the start the sum is right modulo 2^32. *)
Theorem C13_sum_mod_partial : forall e n f0 es,
  issmallint f0 = true ->
  Forall (fun x => match x with Start _ (Add _) => True | Start _ _ => False | Run _ => True end) es ->
  let s := exec e es (init n f0) in
  (decode_smallint (field s) - (decode_smallint f0 + sumZ (map inc (all_succ (cl s))))) mod 2 ^ 32 = 0.
Proof.
  intros e n f0 es Hf S s. apply atomic_sum_mod; [exact Hf|].
  eapply Forall_impl; [|exact S]. intros [c [d|d]|c]; cbn [is_add]; auto; contradiction.
Qed.
Print Assumptions C13_sum_mod_partial.
Example C13_mod_ex : issmallint (encode_smallint (2 ^ 40)) = true /\
  decode_smallint (field (exec (Env false false) [Start 0 (Add 5); Run 0; Run 0] (init 1 (encode_smallint (2 ^ 40))))) = 5.
Proof. vm_compute. auto. Qed.

(** C13 fails for a field holding 2^32+5: adding 1 reports success and leaves 6. *)
Theorem C13_sum_refuted : exists v0 d, issmallint (encode_smallint v0) = true /\ decode_smallint (encode_smallint v0) = v0 /\
  let s := exec (Env false false) [Start 0 (Add d); Run 0; Run 0] (init 1 (encode_smallint v0)) in
  map hist (cl s) = [[(Add d, 0)]] /\ decode_smallint (field s) <> v0 + d.
Proof. exists (2 ^ 32 + 5), 1. vm_compute. repeat split; discriminate. Qed.
Print Assumptions C13_sum_refuted.

(** C53: the calls that returned 0 (additions and assignments mixed) have the
    effect of applying them one after the other, each exactly once; what was
    done before a point in time stays before what comes later; refused calls
    have no effect. [apply] is the sequential meaning of one call. *)
Theorem C53_linear : forall e n f0 es1 es2,
  exists log1 log2,
    Permutation log1 (all_succ (cl (exec e es1 (init n f0)))) /\
    Permutation (log1 ++ log2) (all_succ (cl (exec e (es1 ++ es2) (init n f0)))) /\
    field (exec e es1 (init n f0)) = fold_left apply log1 f0 /\
    field (exec e (es1 ++ es2) (init n f0)) = fold_left apply (log1 ++ log2) f0 /\
    ops_ok f0 (log1 ++ log2).
Proof. exact atomic_linear_two. Qed.
Print Assumptions C53_linear.
Example C53_ex :
  let es1 := [Start 0 (Add 5); Start 1 (Set_ (encode_smallint 50)); Run 0; Run 1; Run 1] in
  let es2 := [Run 0; Run 0; Run 0] in
  let s1 := exec (Env false false) es1 (init 2 (encode_smallint 1)) in
  let s := exec (Env false false) (es1 ++ es2) (init 2 (encode_smallint 1)) in
  field s1 = encode_smallint 50 /\ all_succ (cl s1) = [Set_ (encode_smallint 50)] /\
  field s = encode_smallint 55 /\ all_succ (cl s) = [Add 5; Set_ (encode_smallint 50)].
Proof. vm_compute. auto 10. Qed.

(** C53: with an index on the field or an active journal nothing is changed. *)
Theorem C53_no_bypass : forall e n f0 es,
  indexed e = true \/ logging e = true -> field (exec e es (init n f0)) = f0.
Proof.
  intros e n f0 es H.
  assert (G : forall s, field s = f0 -> (forall c k, nth_error (cl s) c = Some k -> match at_ k with Cas _ _ _ _ => False | _ => True end) ->
    field (exec e es s) = f0).
  { assert (U : forall d o, update_checks e d o <> 0).
    { intros d o. unfold update_checks. destruct (negb _); [lia|]. destruct (negb _); [lia|].
      destruct (indexed e); [lia|]. destruct (logging e); [lia|]. destruct H; discriminate. }
    assert (R : forall o f, exists r, after_read e o f = inr r).
    { intros [d|d] f; cbn [after_read].
      - destruct (negb _); [eauto|]. destruct (negb _); [eauto|].
        destruct (Z.eqb_spec (update_checks e (encode_smallint32 (wrap32 (decode_smallint f + d))) f) 0) as [E|]; [now apply U in E|eauto].
      - destruct (Z.eqb_spec (update_checks e d f) 0) as [E|]; [now apply U in E|eauto]. }
    induction es as [|x es IH]; intros s F K; [exact F|]. unfold exec in *. cbn [fold_left].
    assert (keep : forall c k k', nth_error (cl s) c = Some k ->
       (match at_ k' with Cas _ _ _ _ => False | _ => True end) ->
       forall d q, nth_error (lset c k' (cl s)) d = Some q -> match at_ q with Cas _ _ _ _ => False | _ => True end).
    { intros c k k' E Ok d q. rewrite (nth_lset _ _ _ _ _ E). destruct (Nat.eqb c d); [intros [= <-]; exact Ok|apply K]. }
    destruct x as [c o|c]; cbn [step]; destruct (nth_error (cl s) c) as [k|] eqn:E; auto.
    - destruct (at_ k); auto. apply IH; [exact F|]. cbn [cl]. eapply keep; [exact E|exact I].
    - pose proof (K c k E) as Kk. unfold cstep. destruct (at_ k) as [|o i|o old nxt i] eqn:Ea; [| |contradiction].
      + apply IH; [exact F|]. cbn [cl]. eapply keep; [exact E|]. now rewrite Ea.
      + destruct (R o (field s)) as [r Er]. rewrite Er. apply IH; [exact F|]. cbn [cl]. eapply keep; [exact E|exact I]. }
  apply G; [reflexivity|]. intros c k E. apply nth_repeat in E. subst k. exact I.
Qed.
Print Assumptions C53_no_bypass.
Example C53_no_bypass_ex :
  map hist (cl (exec (Env true false) [Start 0 (Add 5); Run 0] (init 1 (encode_smallint 1)))) = [[(Add 5, -13)]].
Proof. vm_compute. reflexivity. Qed.
