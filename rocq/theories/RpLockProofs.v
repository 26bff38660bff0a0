(** Invariants of the reader-preference spin lock. *)
From Coq Require Import ZArith List Lia Bool Arith.
From Verif Require Import Base ConcLib SpinLockModel RpLockModel.
Import ListNotations.
Open Scope Z_scope.

Lemma land1 x : Z.land x 1 = x mod 2.
Proof. change 1 with (2 ^ 1 - 1) at 1. rewrite land_ones_mod by lia. reflexivity. Qed.
Lemma land_lnot1 x : Z.land x (Z.lnot 1) = x - x mod 2.
Proof. change 1 with (2 ^ 1 - 1). rewrite land_lnot_mask by lia. reflexivity. Qed.

(** Clients that own the writer flag. *)
Definition wown (p : pc) : Z := match p with WHold | WRel => 1 | _ => 0 end.
(** Clients counted in the reader count. *)
Definition rcnt (p : pc) : Z :=
  match p with RChk _ | RSpin _ _ _ | RGive | RHold | RRel => 1 | _ => 0 end.
(** Readers that have passed the check. *)
Definition rown (p : pc) : Z := match p with RHold | RRel => 1 | _ => 0 end.

Definition Inv (s : st) : Prop :=
  gl s = 2 * sumf rcnt (cl s) + sumf wown (cl s) /\
  sumf wown (cl s) <= 1 /\
  (sumf wown (cl s) = 1 -> sumf rown (cl s) = 0).

Lemma wown01 p : 0 <= wown p <= 1. Proof. destruct p; cbn; lia. Qed.
Lemma rcnt01 p : 0 <= rcnt p <= 1. Proof. destruct p; cbn; lia. Qed.
Lemma rown01 p : 0 <= rown p <= 1. Proof. destruct p; cbn; lia. Qed.
Lemma rown_rcnt l : sumf rown l <= sumf rcnt l.
Proof. induction l as [|p r IH]; cbn [sumf]; [lia|]. destruct p; cbn [rown rcnt]; lia. Qed.

Lemma w_next_0 t ts i : wown (w_next t ts i) = 0 /\ rcnt (w_next t ts i) = 0 /\ rown (w_next t ts i) = 0.
Proof. unfold w_next. destruct (_ <? _); [|destruct (_ <? _)]; cbn; auto. Qed.
Lemma r_next_0 t ts i : wown (r_next t ts i) = 0 /\ rcnt (r_next t ts i) = 1 /\ rown (r_next t ts i) = 0.
Proof. unfold r_next. destruct (_ <? _); [|destruct (_ <? _)]; cbn; auto. Qed.

Lemma step_length s e : length (cl (step s e)) = length (cl s).
Proof.
  destruct e; cbn [step]; destruct (nth_error _ _); auto; cbn [cl]; try apply lset_length.
  destruct (cstep _ _). cbn [cl]. apply lset_length.
Qed.

Lemma Inv_init n : Inv (init n).
Proof. unfold Inv, init; cbn [gl cl]. rewrite !sumf_repeat0 by reflexivity. lia. Qed.

Lemma Inv_call s c p p' :
  Inv s -> nth_error (cl s) c = Some p ->
  wown p' = wown p -> rcnt p' = rcnt p -> rown p' = rown p ->
  Inv (mk (gl s) (lset c p' (cl s))).
Proof.
  unfold Inv; cbn [gl cl]. intros (H1 & H2 & H3) E Ew Er Eo.
  rewrite !(sumf_lset _ c p' p) by assumption. rewrite Ew, Er, Eo.
  split; [|split]; [lia|lia|]. intros H. lia.
Qed.

Lemma Inv_step s e :
  Z.of_nat (length (cl s)) < 2 ^ 61 -> Inv s -> Inv (step s e).
Proof.
  intros Hn I.
  destruct e as [c t|c t|c|c]; cbn [step].
  1-3: destruct (nth_error (cl s) c) as [p|] eqn:E; [|assumption];
       eapply Inv_call; eauto; destruct p; reflexivity.
  destruct (nth_error (cl s) c) as [p|] eqn:E; [|assumption].
  pose proof (sumf_le_length rcnt (cl s) (fun a => proj2 (rcnt01 a))) as Lr.
  pose proof (sumf_ge rcnt (cl s) c p (fun a => proj1 (rcnt01 a)) E) as Gr.
  pose proof (sumf_ge wown (cl s) c p (fun a => proj1 (wown01 a)) E) as Gw.
  pose proof (sumf_ge rown (cl s) c p (fun a => proj1 (rown01 a)) E) as Go.
  pose proof (sumf_nonneg rown (cl s) (fun a => proj1 (rown01 a))) as No.
  pose proof (sumf_nonneg rcnt (cl s) (fun a => proj1 (rcnt01 a))) as Nr.
  pose proof (sumf_nonneg wown (cl s) (fun a => proj1 (wown01 a))) as Nw.
  pose proof (rown_rcnt (cl s)) as OR.
  destruct I as (H1 & H2 & H3).
  assert (W : forall z, 0 <= z < 2 ^ 62 + 16 -> wrap64 z = z).
  { intros z Hz. apply wrap64_id. unfold is64. lia. }
  assert (keep : forall p', wown p' = wown p -> rcnt p' = rcnt p -> rown p' = rown p ->
            Inv (mk (gl s) (lset c p' (cl s)))).
  { intros p' A B C. eapply Inv_call; eauto. repeat split; assumption. }
  destruct p as [r|t|t ts i|t ts i| | |t|t|t ts i| | | ]; cbn [cstep];
    cbn [wown rcnt rown] in *.
  - apply keep; reflexivity.
  - destruct (Z.eqb_spec (gl s) 0); [|apply keep; reflexivity].
    unfold Inv; cbn [gl cl]. rewrite !(sumf_lset _ c _ _ _ E). cbn [wown rcnt rown].
    unfold WAFLAG. lia.
  - destruct (Z.eqb_spec (gl s) 0); [apply keep; reflexivity|].
    destruct (w_next_0 t ts i) as (A & B & C). apply keep; assumption.
  - destruct (Z.eqb_spec (gl s) 0).
    + unfold Inv; cbn [gl cl]. rewrite !(sumf_lset _ c _ _ _ E). cbn [wown rcnt rown].
      unfold WAFLAG. lia.
    + destruct (w_next_0 t ts i) as (A & B & C). apply keep; assumption.
  - apply keep; reflexivity.
  - unfold Inv; cbn [gl cl]. rewrite !(sumf_lset _ c _ _ _ E). cbn [wown rcnt rown].
    unfold WAFLAG. rewrite land_lnot1. lia.
  - unfold Inv; cbn [gl cl]. rewrite !(sumf_lset _ c _ _ _ E). cbn [wown rcnt rown].
    unfold RC_INCR. rewrite W by lia. lia.
  - unfold WAFLAG. rewrite land1. destruct (Z.eqb_spec (gl s mod 2) 0); [|apply keep; reflexivity].
    unfold Inv; cbn [gl cl]. rewrite !(sumf_lset _ c _ _ _ E). cbn [wown rcnt rown]. lia.
  - unfold WAFLAG. rewrite land1. destruct (Z.eqb_spec (gl s mod 2) 0).
    + unfold Inv; cbn [gl cl]. rewrite !(sumf_lset _ c _ _ _ E). cbn [wown rcnt rown]. lia.
    + destruct (r_next_0 t ts i) as (A & B & C). apply keep; assumption.
  - unfold Inv; cbn [gl cl]. rewrite !(sumf_lset _ c _ _ _ E). cbn [wown rcnt rown].
    unfold RC_INCR. rewrite W by lia. lia.
  - apply keep; reflexivity.
  - unfold Inv; cbn [gl cl]. rewrite !(sumf_lset _ c _ _ _ E). cbn [wown rcnt rown].
    unfold RC_INCR. rewrite W by lia. lia.
Qed.

Lemma exec_length es s : length (cl (exec es s)) = length (cl s).
Proof.
  revert s; induction es as [|e es IH]; intros s; cbn [exec fold_left]; [reflexivity|].
  unfold exec in IH. rewrite IH. apply step_length.
Qed.

Lemma Inv_exec es s :
  Z.of_nat (length (cl s)) < 2 ^ 61 -> Inv s -> Inv (exec es s).
Proof.
  revert s; induction es as [|e es IH]; intros s Hn I; cbn [exec fold_left]; [exact I|].
  apply IH; [rewrite step_length; exact Hn|apply Inv_step; assumption].
Qed.

Lemma Inv_reach n es : Z.of_nat n < 2 ^ 61 -> Inv (exec es (init n)).
Proof.
  intros H. apply Inv_exec; [|apply Inv_init].
  unfold init; cbn [cl]. rewrite repeat_length. exact H.
Qed.

(** Mutual exclusion. *)
Lemma rp_exclusive n es i j :
  Z.of_nat n < 2 ^ 61 ->
  let s := exec es (init n) in
  nth_error (cl s) i = Some WHold ->
  nth_error (cl s) j = Some WHold \/ nth_error (cl s) j = Some RHold -> i = j.
Proof.
  intros Hn s Ei Ej. destruct (Inv_reach n es Hn) as (H1 & H2 & H3). fold s in H1, H2, H3.
  destruct (Nat.eq_dec i j) as [|N]; [assumption|exfalso].
  pose proof (sumf_ge wown _ i _ (fun a => proj1 (wown01 a)) Ei) as Gi. cbn [wown] in Gi.
  destruct Ej as [Ej|Ej].
  - pose proof (sumf_ge2 wown _ i j _ _ (fun a => proj1 (wown01 a)) N Ei Ej) as G. cbn [wown] in G. lia.
  - pose proof (sumf_ge rown _ j _ (fun a => proj1 (rown01 a)) Ej) as G. cbn [rown] in G. lia.
Qed.

(** When every client is idle the lock word is 0 again. *)
Lemma rp_quiet n es :
  Z.of_nat n < 2 ^ 61 ->
  let s := exec es (init n) in
  (forall i p, nth_error (cl s) i = Some p -> exists r, p = Idle r) -> gl s = 0.
Proof.
  intros Hn s Q. destruct (Inv_reach n es Hn) as (H1 & H2 & H3). fold s in H1, H2, H3.
  rewrite H1. rewrite !sumf_zero; [lia| |]; intros i a E; destruct (Q i a E) as [r ->]; reflexivity.
Qed.

Lemma exec_app a b s : exec (a ++ b) s = exec b (exec a s).
Proof. apply fold_left_app. Qed.

Lemma run_at s c p :
  nth_error (cl s) c = Some p ->
  exec [Run c] s = mk (fst (cstep (gl s) p)) (lset c (snd (cstep (gl s) p)) (cl s)).
Proof. intros E. cbn [exec fold_left step]. rewrite E. now destruct (cstep _ _). Qed.

Lemma lset_lset {A} i (x y : A) l : lset i x (lset i y l) = lset i x l.
Proof. revert i; induction l as [|a r IH]; intros [|i]; cbn; auto. now rewrite IH. Qed.

(** An attempt on a free lock succeeds at once. *)
Lemma rp_free_write s c r t :
  gl s = 0 -> nth_error (cl s) c = Some (Idle r) ->
  nth_error (cl (exec [StartWrite c t; Run c] s)) c = Some WHold.
Proof.
  intros G E. cbn [exec fold_left]. cbn [step]. rewrite E. cbn [ccall cl gl].
  rewrite (nth_lset_same _ _ _ _ E). cbn [cstep]. rewrite G.
  cbn [Z.eqb cl]. eapply nth_lset_same. eapply nth_lset_same; eauto.
Qed.
Lemma rp_free_read s c r t :
  gl s = 0 -> nth_error (cl s) c = Some (Idle r) ->
  nth_error (cl (exec [StartRead c t; Run c; Run c] s)) c = Some RHold.
Proof.
  intros G E. cbn [exec fold_left]. cbn [step]. rewrite E. cbn [ccall cl gl].
  rewrite (nth_lset_same _ _ _ _ E). cbn [cstep]. rewrite G.
  cbn [step cl gl]. rewrite (nth_lset_same c _ (RInc t)) by (eapply nth_lset_same; eauto).
  cbn [cstep]. change (Z.land (wrap64 (0 + RC_INCR)) WAFLAG =? 0) with true. cbn [cl].
  eapply nth_lset_same. eapply nth_lset_same. eapply nth_lset_same; eauto.
Qed.

(** ** No deadlock *)

(** A client waiting inside a lock call. *)
Definition waiting (p : pc) : Prop :=
  match p with
  | WTry _ | WSpin _ _ _ | WCas _ _ _ | RInc _ | RChk _ | RSpin _ _ _ => True
  | _ => False
  end.
(** A client that holds the lock, or is inside a release or inside the last
    step of a time-out. *)
Definition leaving (p : pc) : Prop :=
  match p with WHold | RHold | WRel | RRel | RGive => True | _ => False end.

Lemma rp_progress n es :
  Z.of_nat n < 2 ^ 61 ->
  let s := exec es (init n) in
  (forall i p, nth_error (cl s) i = Some p -> ~ leaving p) ->
  (exists i p, nth_error (cl s) i = Some p /\ waiting p) ->
  exists c k, (k <= 2)%nat /\
    let p' := nth_error (cl (exec (repeat (Run c) k) s)) c in
    p' = Some WHold \/ p' = Some RHold.
Proof.
  intros Hn s NL (i & p & Ei & Wp).
  destruct (Inv_reach n es Hn) as (H1 & H2 & H3). fold s in H1, H2, H3.
  assert (NW : sumf wown (cl s) = 0).
  { apply sumf_zero. intros j a Ej. specialize (NL j a Ej). destruct a; cbn in *; tauto. }
  assert (Ev : gl s mod 2 = 0) by lia.
  assert (L1 : Z.land (gl s) WAFLAG = 0) by (unfold WAFLAG; rewrite land1; exact Ev).
  destruct (Z.eq_dec (sumf rcnt (cl s)) 0) as [Z0|NZ].
  - assert (G : gl s = 0) by lia.
    destruct p as [r|t|t ts k|t ts k| | |t|t|t ts k| | | ]; cbn in Wp; try contradiction.
    + exists i, 1%nat. split; [lia|]. left. cbn [repeat].
      rewrite (run_at s i _ Ei). cbn [cstep]. rewrite G. cbn [Z.eqb cl].
      eapply nth_lset_same; eauto.
    + exists i, 2%nat. split; [lia|]. left. cbn [repeat].
      change [Run i; Run i] with ([Run i] ++ [Run i]). rewrite exec_app.
      rewrite (run_at s i _ Ei). cbn [cstep]. rewrite G. cbn [Z.eqb cl].
      erewrite run_at by (cbn [fst snd cl]; eapply nth_lset_same; eauto).
      cbn [fst snd cstep gl Z.eqb cl]. eapply nth_lset_same. eapply nth_lset_same; eauto.
    + exists i, 1%nat. split; [lia|]. left. cbn [repeat].
      rewrite (run_at s i _ Ei). cbn [cstep]. rewrite G. cbn [Z.eqb cl].
      eapply nth_lset_same; eauto.
    + exists i, 2%nat. split; [lia|]. right. cbn [repeat].
      change [Run i; Run i] with ([Run i] ++ [Run i]). rewrite exec_app.
      rewrite (run_at s i _ Ei). cbn [cstep]. rewrite G.
      erewrite run_at by (cbn [fst snd cl]; eapply nth_lset_same; eauto).
      cbn [fst snd cstep gl cl]. change (Z.land (wrap64 (0 + RC_INCR)) WAFLAG =? 0) with true.
      cbn [fst snd]. eapply nth_lset_same. eapply nth_lset_same; eauto.
    + pose proof (sumf_ge rcnt _ i _ (fun a => proj1 (rcnt01 a)) Ei) as Gi. cbn [rcnt] in Gi. lia.
    + pose proof (sumf_ge rcnt _ i _ (fun a => proj1 (rcnt01 a)) Ei) as Gi. cbn [rcnt] in Gi. lia.
  - destruct (sumf_pos rcnt (cl s) (fun a => proj1 (rcnt01 a))) as (j & a & Ej & Pj).
    { pose proof (sumf_nonneg rcnt (cl s) (fun a => proj1 (rcnt01 a))). lia. }
    pose proof (NL j a Ej) as NLa.
    destruct a as [r|t|t ts k|t ts k| | |t|t|t ts k| | | ]; cbn in Pj, NLa; try lia; try tauto.
    + exists j, 1%nat. split; [lia|]. right. cbn [repeat].
      rewrite (run_at s j _ Ej). cbn [cstep]. rewrite L1. cbn [Z.eqb cl fst snd].
      eapply nth_lset_same; eauto.
    + exists j, 1%nat. split; [lia|]. right. cbn [repeat].
      rewrite (run_at s j _ Ej). cbn [cstep]. rewrite L1. cbn [Z.eqb cl fst snd].
      eapply nth_lset_same; eauto.
Qed.

(** ** Every call returns *)

(** Upper bound of the steps a client still needs. *)
Definition left_steps (p : pc) : Z :=
  match p with
  | Idle _ | WHold | RHold => 0
  | WTry _ => 4300000
  | WSpin t ts i => 2 * (500 * (Z.max 0 (t / 500000)) + (500 - i)) + 1
  | WCas t ts i => 2 * (500 * (Z.max 0 (t / 500000)) + (500 - i))
  | WRel | RRel | RGive => 1
  | RInc _ => 4300002
  | RChk _ => 4300001
  | RSpin t ts i => 500 * (Z.max 0 (t / 500000)) + (500 - i) + 1
  end.

(** Local variables stay in the ranges that the code relies on. *)
Definition local_ok (p : pc) : Prop :=
  match p with
  | WTry t | RInc t | RChk t => - 2 ^ 40 <= t
  | WSpin t ts i | WCas t ts i | RSpin t ts i =>
      - 2 ^ 60 <= t <= INT_MAX /\ 500000 <= ts /\ ts + t <= 500000 + INT_MAX /\ 0 <= i < 500
      \/ t < 500000 /\ - 2 ^ 60 <= t /\ ts = 500000 /\ 0 <= i < 500
  | _ => True
  end.

Lemma init_to_range t : - 2 ^ 40 <= t -> - 2 ^ 60 <= init_spin_timeout t <= INT_MAX.
Proof.
  unfold init_spin_timeout, INT_MAX. intros H.
  destruct (Z.ltb_spec (2147483647 / 1000000) t) as [L|L]; [lia|].
  assert (t <= 2147) by (change (2147483647 / 1000000) with 2147 in L; exact L).
  rewrite wrap64_id by (unfold is64; lia). lia.
Qed.

Lemma cstep_measure g p :
  local_ok p -> left_steps p <> 0 ->
  local_ok (snd (cstep g p)) /\ 0 <= left_steps (snd (cstep g p)) < left_steps p.
Proof.
  intros L N.
  assert (WN : forall t ts i, local_ok (WSpin t ts i) ->
     local_ok (w_next t ts i) /\ 0 <= left_steps (w_next t ts i) < left_steps (WCas t ts i)).
  { intros t ts i H. unfold w_next, SPIN_COUNT, SLEEP_NSEC. cbn [local_ok] in H.
    unfold INT_MAX in H.
    destruct (Z.ltb_spec (i + 1) 500) as [A|A].
    - cbn [local_ok left_steps]. unfold INT_MAX. split; [lia|lia].
    - rewrite wrap64_id by (unfold is64; lia).
      destruct (Z.ltb_spec (t - ts) 0) as [B|B]; cbn [local_ok left_steps]; unfold INT_MAX.
      + split; [exact I|lia].
      + split; [left; lia|]. lia. }
  assert (RN : forall t ts i, local_ok (RSpin t ts i) ->
     local_ok (r_next t ts i) /\ 0 <= left_steps (r_next t ts i) < left_steps (RSpin t ts i)).
  { intros t ts i H. unfold r_next, SPIN_COUNT, SLEEP_NSEC. cbn [local_ok] in H.
    unfold INT_MAX in H.
    destruct (Z.ltb_spec (i + 1) 500) as [A|A].
    - cbn [local_ok left_steps]. unfold INT_MAX. split; [lia|lia].
    - rewrite wrap64_id by (unfold is64; lia).
      destruct (Z.ltb_spec (t - ts) 0) as [B|B]; cbn [local_ok left_steps]; unfold INT_MAX.
      + split; [exact I|lia].
      + split; [left; lia|]. lia. }
  destruct p as [r|t|t ts i|t ts i| | |t|t|t ts i| | | ]; cbn [cstep];
    try (cbn [left_steps] in N; congruence).
  - destruct (g =? 0); cbn [snd]; [cbn; lia|].
    cbn [local_ok] in L. pose proof (init_to_range t L) as R.
    unfold SLEEP_NSEC, INT_MAX in *. cbn [local_ok left_steps]. unfold INT_MAX. lia.
  - destruct (g =? 0); cbn [snd].
    + cbn [local_ok left_steps] in *. split; [exact L|]. lia.
    + destruct (WN t ts i L) as [A B]. split; [exact A|]. cbn [left_steps] in *. lia.
  - destruct (g =? 0); cbn [snd].
    + cbn [local_ok left_steps] in *. split; [exact I|]. lia.
    + exact (WN t ts i L).
  - cbn; lia.
  - cbn [snd local_ok left_steps] in *. split; [exact L|lia].
  - destruct (Z.land g WAFLAG =? 0); cbn [snd]; [cbn; lia|].
    cbn [local_ok] in L. pose proof (init_to_range t L) as R.
    unfold SLEEP_NSEC, INT_MAX in *. cbn [local_ok left_steps]. unfold INT_MAX. lia.
  - destruct (Z.land g WAFLAG =? 0); cbn [snd].
    + cbn [local_ok left_steps] in *. split; [exact I|]. lia.
    + exact (RN t ts i L).
  - cbn; lia.
  - cbn; lia.
Qed.

(** Number of steps that client [c] takes in [es]. *)
Definition runs (c : nat) (es : list ev) : Z :=
  sumf (fun e => match e with Run d => if Nat.eqb c d then 1 else 0 | _ => 0 end) es.

Definition returned (p : pc) : Prop :=
  match p with Idle _ | WHold | RHold => True | _ => False end.

Lemma left_steps_0 p : local_ok p -> left_steps p <= 0 -> returned p.
Proof.
  destruct p; cbn [local_ok left_steps returned]; try tauto; intros; exfalso; lia.
Qed.

Lemma step_other s e c p :
  nth_error (cl s) c = Some p -> ~ returned p ->
  nth_error (cl (step s e)) c =
    match e with Run d => if Nat.eqb c d then Some (snd (cstep (gl s) p)) else Some p | _ => Some p end.
Proof.
  intros E NR.
  destruct e as [d t|d t|d|d]; cbn [step].
  1-3: destruct (Nat.eq_dec d c) as [->|N];
    [rewrite E; cbn [cl]; rewrite (nth_lset_same _ _ _ _ E); destruct p; cbn in *; tauto
    |destruct (nth_error (cl s) d); [cbn [cl]; rewrite nth_lset_other by exact N|]; exact E].
  destruct (Nat.eqb_spec c d) as [->|N].
  - rewrite E. destruct (cstep (gl s) p). cbn [cl snd]. eapply nth_lset_same; eauto.
  - destruct (nth_error (cl s) d); [destruct (cstep _ _); cbn [cl]; rewrite nth_lset_other by congruence|]; exact E.
Qed.

Lemma rp_returns_from es s c p :
  nth_error (cl s) c = Some p -> local_ok p ->
  left_steps p <= runs c es ->
  exists es1 es2 p', es = es1 ++ es2 /\ nth_error (cl (exec es1 s)) c = Some p' /\ returned p'.
Proof.
  revert s p; induction es as [|e es IH]; intros s p E L R.
  - exists [], [], p. split; [reflexivity|]. split; [exact E|].
    apply left_steps_0; [exact L|]. cbn [runs sumf] in R. exact R.
  - assert (D : returned p \/ ~ returned p) by (destruct p; cbn; tauto).
    destruct D as [D|D].
    + exists [], (e :: es), p. auto.
    + pose proof (step_other s e c p E D) as S.
      assert (NZ : left_steps p <> 0).
      { intros Z. apply D. apply left_steps_0; [exact L|lia]. }
      assert (X : exists p1, nth_error (cl (step s e)) c = Some p1 /\ local_ok p1 /\
                  left_steps p1 <= runs c es).
      { destruct e as [d t|d t|d|d]; cbn [runs sumf] in R.
        1-3: exists p; split; [exact S|]; split; [exact L|]; unfold runs; lia.
        destruct (Nat.eqb c d).
        - exists (snd (cstep (gl s) p)). split; [exact S|].
          destruct (cstep_measure (gl s) p L NZ) as [A B]. split; [exact A|]. unfold runs. lia.
        - exists p. split; [exact S|]. split; [exact L|]. unfold runs. lia. }
      destruct X as (p1 & E1 & L1 & R1).
      destruct (IH _ _ E1 L1 R1) as (es1 & es2 & p' & A & B & C).
      exists (e :: es1), es2, p'. split; [now rewrite A|]. split; [exact B|exact C].
Qed.
