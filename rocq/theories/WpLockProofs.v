(** Invariants of the writer-preference spin lock. *)
From Coq Require Import ZArith List Lia Bool Arith.
From Verif Require Import Base ConcLib SpinLockModel WpLockModel.
Import ListNotations.
Open Scope Z_scope.

Lemma land_lnot1 x : Z.land x (Z.lnot WAFLAG) = x - x mod 2.
Proof. unfold WAFLAG. change 1 with (2 ^ 1 - 1). rewrite land_lnot_mask by lia. reflexivity. Qed.

(** Clients that own the writer flag. *)
Definition wown (p : pc) : Z := match p with WHold | WRel => 1 | _ => 0 end.
(** Clients counted in the writer count. *)
Definition wcnt (p : pc) : Z :=
  match p with
  | WTry _ | WSpin _ _ _ | WCas _ _ _ | WGive | WHold | WRel | WRelW => 1
  | _ => 0
  end.
(** Clients counted in the reader count. *)
Definition rown (p : pc) : Z := match p with RHold | RRel => 1 | _ => 0 end.
(** Values remembered for compare_and_swap are even. *)
Definition even_ok (p : pc) : Prop :=
  match p with RCas1 _ r | RCas _ r => r mod 2 = 0 | _ => True end.

Definition Inv (s : st) : Prop :=
  gl s = 2 * sumf rown (cl s) + sumf wown (cl s) /\
  wr s = sumf wcnt (cl s) /\
  sumf wown (cl s) <= 1 /\
  (sumf wown (cl s) = 1 -> sumf rown (cl s) = 0) /\
  (forall i p, nth_error (cl s) i = Some p -> even_ok p).

Lemma wown01 p : 0 <= wown p <= 1. Proof. destruct p; cbn; lia. Qed.
Lemma wcnt01 p : 0 <= wcnt p <= 1. Proof. destruct p; cbn; lia. Qed.
Lemma rown01 p : 0 <= rown p <= 1. Proof. destruct p; cbn; lia. Qed.

Lemma w_next_0 t ts i :
  wown (w_next t ts i) = 0 /\ wcnt (w_next t ts i) = 1 /\ rown (w_next t ts i) = 0 /\ even_ok (w_next t ts i).
Proof. unfold w_next. destruct (_ <? _); [|destruct (_ <? _)]; cbn; auto. Qed.
Lemma r_next_0 t ts i :
  wown (r_next t ts i) = 0 /\ wcnt (r_next t ts i) = 0 /\ rown (r_next t ts i) = 0 /\ even_ok (r_next t ts i).
Proof. unfold r_next. destruct (_ <? _); [|destruct (_ <? _)]; cbn; auto. Qed.

Lemma step_length s e : length (cl (step s e)) = length (cl s).
Proof.
  destruct e; cbn [step]; destruct (nth_error _ _); auto; cbn [cl]; try apply lset_length.
  destruct (cstep _ _ _) as [[? ?] ?]. cbn [cl]. apply lset_length.
Qed.

Lemma Inv_init n : Inv (init n).
Proof.
  unfold Inv, init; cbn [gl wr cl]. rewrite !sumf_repeat0 by reflexivity.
  split; [lia|]. split; [lia|]. split; [lia|]. split; [lia|].
  intros i p E. apply nth_repeat in E. subst p. exact I.
Qed.

Lemma Inv_call s c p p' :
  Inv s -> nth_error (cl s) c = Some p ->
  wown p' = wown p -> wcnt p' = wcnt p -> rown p' = rown p -> even_ok p' ->
  Inv (mk (gl s) (wr s) (lset c p' (cl s))).
Proof.
  unfold Inv; cbn [gl wr cl]. intros (H1 & H2 & H3 & H4 & H5) E Ew Er Eo Ee.
  rewrite !(sumf_lset _ c p' p) by assumption. rewrite Ew, Er, Eo.
  split; [lia|]. split; [lia|]. split; [lia|]. split; [lia|].
  intros i q. rewrite (nth_lset _ _ _ _ _ E). destruct (Nat.eqb c i); [|apply H5].
  intros [= <-]. exact Ee.
Qed.

Lemma even_lset l c p p' :
  (forall i p, nth_error l i = Some p -> even_ok p) -> nth_error l c = Some p -> even_ok p' ->
  forall i q, nth_error (lset c p' l) i = Some q -> even_ok q.
Proof.
  intros H E Ee i q. rewrite (nth_lset _ _ _ _ _ E). destruct (Nat.eqb c i); [|apply H].
  intros [= <-]. exact Ee.
Qed.

Lemma Inv_step s e :
  Z.of_nat (length (cl s)) < 2 ^ 61 -> Inv s -> Inv (step s e).
Proof.
  intros Hn I.
  destruct e as [c t|c t|c|c]; cbn [step].
  1-3: destruct (nth_error (cl s) c) as [p|] eqn:E; [|assumption];
       eapply Inv_call; eauto; try (destruct p; reflexivity);
       destruct I as (_ & _ & _ & _ & H5); specialize (H5 c p E); destruct p; cbn in *; auto.
  destruct (nth_error (cl s) c) as [p|] eqn:E; [|assumption].
  pose proof (sumf_le_length rown (cl s) (fun a => proj2 (rown01 a))) as Lr.
  pose proof (sumf_le_length wcnt (cl s) (fun a => proj2 (wcnt01 a))) as Lw.
  pose proof (sumf_ge wcnt (cl s) c p (fun a => proj1 (wcnt01 a)) E) as Gc.
  pose proof (sumf_ge wown (cl s) c p (fun a => proj1 (wown01 a)) E) as Gw.
  pose proof (sumf_ge rown (cl s) c p (fun a => proj1 (rown01 a)) E) as Go.
  pose proof (sumf_nonneg rown (cl s) (fun a => proj1 (rown01 a))) as No.
  pose proof (sumf_nonneg wcnt (cl s) (fun a => proj1 (wcnt01 a))) as Nc.
  pose proof (sumf_nonneg wown (cl s) (fun a => proj1 (wown01 a))) as Nw.
  assert (keep : forall p', wown p' = wown p -> wcnt p' = wcnt p -> rown p' = rown p -> even_ok p' ->
            Inv (mk (gl s) (wr s) (lset c p' (cl s)))).
  { intros p' A B C D. eapply Inv_call; eauto. }
  destruct I as (H1 & H2 & H3 & H4 & H5).
  pose proof (H5 c p E) as Ep.
  assert (W : forall z, 0 <= z < 2 ^ 62 + 16 -> wrap64 z = z).
  { intros z Hz. apply wrap64_id. unfold is64. lia. }
  assert (change_ : forall g w p', even_ok p' ->
     g = 2 * (sumf rown (cl s) - rown p + rown p') + (sumf wown (cl s) - wown p + wown p') ->
     w = sumf wcnt (cl s) - wcnt p + wcnt p' ->
     sumf wown (cl s) - wown p + wown p' <= 1 ->
     (sumf wown (cl s) - wown p + wown p' = 1 -> sumf rown (cl s) - rown p + rown p' = 0) ->
     Inv (mk g w (lset c p' (cl s)))).
  { intros g w p' Ee A B C D. unfold Inv; cbn [gl wr cl].
    rewrite !(sumf_lset _ c p' p) by assumption.
    split; [exact A|]. split; [exact B|]. split; [exact C|]. split; [exact D|].
    eapply even_lset; eauto. }
  destruct p as [r|t|t|t ts i|t ts i| | | | |t|t|t r|t ts|t ts i|t|t r|t| | ]; cbn [cstep];
    cbn [wown wcnt rown even_ok] in *.
  - apply keep; reflexivity.
  - apply change_; cbn [wown wcnt rown even_ok]; auto; try lia. rewrite W; lia.
  - destruct (Z.eqb_spec (gl s) 0); [|apply keep; reflexivity].
    apply change_; cbn [wown wcnt rown even_ok]; auto; unfold WAFLAG; lia.
  - destruct (Z.eqb_spec (gl s) 0); [apply keep; reflexivity|].
    destruct (w_next_0 t ts i) as (A & B & C & D). apply keep; assumption.
  - destruct (Z.eqb_spec (gl s) 0).
    + apply change_; cbn [wown wcnt rown even_ok]; auto; unfold WAFLAG; lia.
    + destruct (w_next_0 t ts i) as (A & B & C & D). apply keep; assumption.
  - apply change_; cbn [wown wcnt rown even_ok]; auto; try lia. rewrite W; lia.
  - apply keep; reflexivity.
  - apply change_; cbn [wown wcnt rown even_ok]; auto; try lia. rewrite land_lnot1. lia.
  - apply change_; cbn [wown wcnt rown even_ok]; auto; try lia. rewrite W; lia.
  - destruct (wr s =? 0); apply keep; reflexivity.
  - apply keep; try reflexivity. cbn [even_ok]. rewrite land_lnot1. lia.
  - destruct (Z.eqb_spec (gl s) r) as [Q|Q]; [|apply keep; reflexivity].
    apply change_; cbn [wown wcnt rown even_ok]; auto; try lia. unfold RC_INCR. rewrite W; lia.
  - destruct (wr s =? 0); apply keep; reflexivity.
  - destruct (wr s =? 0); [apply keep; reflexivity|].
    destruct (r_next_0 t ts i) as (A & B & C & D). apply keep; assumption.
  - apply keep; try reflexivity. cbn [even_ok]. rewrite land_lnot1. lia.
  - destruct (Z.eqb_spec (gl s) r) as [Q|Q]; [|apply keep; reflexivity].
    apply change_; cbn [wown wcnt rown even_ok]; auto; try lia. unfold RC_INCR. rewrite W; lia.
  - destruct (wr s =? 0); apply keep; reflexivity.
  - apply keep; reflexivity.
  - apply change_; cbn [wown wcnt rown even_ok]; auto; try lia. unfold RC_INCR. rewrite W; lia.
Qed.

Lemma Inv_exec es s :
  Z.of_nat (length (cl s)) < 2 ^ 61 -> Inv s -> Inv (exec es s).
Proof.
  revert s; induction es as [|e es IH]; intros s Hn I; cbn [exec fold_left]; [exact I|].
  apply IH; [rewrite step_length; exact Hn|apply Inv_step; assumption].
Qed.

Lemma Inv_reach n es : Z.of_nat n < 2 ^ 61 -> Inv (exec es (init n)).
Proof.
  intros H. apply Inv_exec; [|apply Inv_init].
  unfold init; cbn [cl]. rewrite repeat_length. exact H.
Qed.

(** Mutual exclusion. *)
Lemma wp_exclusive n es i j :
  Z.of_nat n < 2 ^ 61 ->
  let s := exec es (init n) in
  nth_error (cl s) i = Some WHold ->
  nth_error (cl s) j = Some WHold \/ nth_error (cl s) j = Some RHold -> i = j.
Proof.
  intros Hn s Ei Ej. destruct (Inv_reach n es Hn) as (H1 & H2 & H3 & H4 & H5). fold s in H1, H2, H3, H4, H5.
  destruct (Nat.eq_dec i j) as [|N]; [assumption|exfalso].
  pose proof (sumf_ge wown _ i _ (fun a => proj1 (wown01 a)) Ei) as Gi. cbn [wown] in Gi.
  destruct Ej as [Ej|Ej].
  - pose proof (sumf_ge2 wown _ i j _ _ (fun a => proj1 (wown01 a)) N Ei Ej) as G. cbn [wown] in G. lia.
  - pose proof (sumf_ge rown _ j _ (fun a => proj1 (rown01 a)) Ej) as G. cbn [rown] in G. lia.
Qed.

(** When every client is idle both words are 0 again. *)
Lemma wp_quiet n es :
  Z.of_nat n < 2 ^ 61 ->
  let s := exec es (init n) in
  (forall i p, nth_error (cl s) i = Some p -> exists r, p = Idle r) -> gl s = 0 /\ wr s = 0.
Proof.
  intros Hn s Q. destruct (Inv_reach n es Hn) as (H1 & H2 & H3 & H4 & H5). fold s in H1, H2, H3, H4, H5.
  rewrite H1, H2. rewrite !sumf_zero; [lia| | |]; intros i a E; destruct (Q i a E) as [r ->]; reflexivity.
Qed.

Lemma exec_app a b s : exec (a ++ b) s = exec b (exec a s).
Proof. apply fold_left_app. Qed.

Lemma lset_lset {A} i (x y : A) l : lset i x (lset i y l) = lset i x l.
Proof. revert i; induction l as [|a r IH]; intros [|i]; cbn; auto. now rewrite IH. Qed.

(** Running one client alone for [k] steps. *)
Fixpoint solo (k : nat) (g w : Z) (p : pc) : Z * Z * pc :=
  match k with
  | O => (g, w, p)
  | S k' => let '(g', w', p') := cstep g w p in solo k' g' w' p'
  end.

Lemma run_solo k s c p :
  nth_error (cl s) c = Some p ->
  exec (repeat (Run c) k) s =
    let '(g, w, p') := solo k (gl s) (wr s) p in mk g w (lset c p' (cl s)).
Proof.
  revert s p; induction k as [|k IH]; intros s p E; cbn [repeat exec fold_left solo].
  - destruct s as [g w l]; cbn [gl wr cl] in *. f_equal.
    clear -E. revert c E; induction l as [|a r IH]; intros [|c]; cbn; try discriminate.
    + now intros [= ->].
    + intros E. f_equal. auto.
  - cbn [step]. rewrite E. destruct (cstep (gl s) (wr s) p) as [[g w] p'] eqn:C.
    unfold exec in IH. rewrite (IH _ p') by (cbn [cl]; eapply nth_lset_same; eauto).
    cbn [gl wr cl]. destruct (solo k g w p') as [[g2 w2] p2]. now rewrite lset_lset.
Qed.

Lemma solo_holds k s c p h :
  nth_error (cl s) c = Some p -> snd (solo k (gl s) (wr s) p) = h ->
  nth_error (cl (exec (repeat (Run c) k) s)) c = Some h.
Proof.
  intros E H. rewrite (run_solo k s c p E). destruct (solo k (gl s) (wr s) p) as [[g w] p'].
  cbn [snd] in H. subst h. cbn [cl]. eapply nth_lset_same; eauto.
Qed.

(** An attempt on a free lock succeeds at once. *)
Lemma wp_free_write s c r t :
  gl s = 0 -> wr s = 0 -> nth_error (cl s) c = Some (Idle r) ->
  nth_error (cl (exec (StartWrite c t :: repeat (Run c) 2) s)) c = Some WHold.
Proof.
  intros G W E. cbn [exec fold_left step]. rewrite E.
  eapply solo_holds; cbn [cl gl wr ccall].
  - eapply nth_lset_same; eauto.
  - rewrite G, W. reflexivity.
Qed.
Lemma wp_free_read s c r t :
  gl s = 0 -> wr s = 0 -> nth_error (cl s) c = Some (Idle r) ->
  nth_error (cl (exec (StartRead c t :: repeat (Run c) 3) s)) c = Some RHold.
Proof.
  intros G W E. cbn [exec fold_left step]. rewrite E.
  eapply solo_holds; cbn [cl gl wr ccall].
  - eapply nth_lset_same; eauto.
  - rewrite G, W. reflexivity.
Qed.

(** ** No deadlock *)

(** A client waiting inside a lock call. *)
Definition waiting (p : pc) : Prop :=
  match p with
  | WInc _ | WTry _ | WSpin _ _ _ | WCas _ _ _ | RChkW _ | RRead1 _ | RCas1 _ _
  | RLoop _ _ | RSpin _ _ _ | RRead _ | RCas _ _ | RWhile _ => True
  | _ => False
  end.
(** A client that holds the lock, or is inside a release or inside the last
    step of a time-out. *)
Definition leaving (p : pc) : Prop :=
  match p with WHold | RHold | WRel | WRelW | RRel | WGive => True | _ => False end.

Lemma wp_progress n es :
  Z.of_nat n < 2 ^ 61 ->
  let s := exec es (init n) in
  (forall i p, nth_error (cl s) i = Some p -> ~ leaving p) ->
  (exists i p, nth_error (cl s) i = Some p /\ waiting p) ->
  exists c k, (k <= 4)%nat /\
    let p' := nth_error (cl (exec (repeat (Run c) k) s)) c in
    p' = Some WHold \/ p' = Some RHold.
Proof.
  intros Hn s NL (i & p & Ei & Wp).
  destruct (Inv_reach n es Hn) as (H1 & H2 & H3 & H4 & H5). fold s in H1, H2, H3, H4, H5.
  assert (NW : sumf wown (cl s) = 0).
  { apply sumf_zero. intros j a Ej. specialize (NL j a Ej). destruct a; cbn in *; tauto. }
  assert (NR : sumf rown (cl s) = 0).
  { apply sumf_zero. intros j a Ej. specialize (NL j a Ej). destruct a; cbn in *; tauto. }
  assert (G : gl s = 0) by lia.
  destruct (Z.eq_dec (sumf wcnt (cl s)) 0) as [Z0|NZ].
  - assert (W : wr s = 0) by lia.
    destruct p as [r|t|t|t ts k|t ts k| | | | |t|t|t r|t ts|t ts k|t|t r|t| | ];
      cbn in Wp; try contradiction.
    1: { exists i, 2%nat. split; [lia|]. left. eapply solo_holds; [eassumption|]. rewrite G, W. reflexivity. }
    1-3: pose proof (sumf_ge wcnt _ i _ (fun a => proj1 (wcnt01 a)) Ei) as Gi; cbn [wcnt] in Gi; lia.
    all: try (exists i, 3%nat; split; [lia|]; right; eapply solo_holds; [eassumption|]; rewrite G, W; reflexivity).
    + destruct (Z.eq_dec r 0) as [->|N].
      * exists i, 1%nat; split; [lia|]; right; eapply solo_holds; [eassumption|]; rewrite G, W; reflexivity.
      * exists i, 4%nat; split; [lia|]; right; eapply solo_holds; [eassumption|].
        rewrite G, W. cbn [solo cstep]. destruct (Z.eqb_spec 0 r); [congruence|reflexivity].
    + destruct (Z.eq_dec r 0) as [->|N].
      * exists i, 1%nat; split; [lia|]; right; eapply solo_holds; [eassumption|]; rewrite G, W; reflexivity.
      * exists i, 4%nat; split; [lia|]; right; eapply solo_holds; [eassumption|].
        rewrite G, W. cbn [solo cstep]. destruct (Z.eqb_spec 0 r); [congruence|reflexivity].
  - destruct (sumf_pos wcnt (cl s) (fun a => proj1 (wcnt01 a))) as (j & a & Ej & Pj).
    { pose proof (sumf_nonneg wcnt (cl s) (fun a => proj1 (wcnt01 a))). lia. }
    pose proof (NL j a Ej) as NLa.
    destruct a as [r|t|t|t ts k|t ts k| | | | |t|t|t r|t ts|t ts k|t|t r|t| | ];
      cbn in Pj, NLa; try lia; try tauto.
    + exists j, 1%nat; split; [lia|]; left; eapply solo_holds; [eassumption|]; rewrite G; reflexivity.
    + exists j, 2%nat; split; [lia|]; left; eapply solo_holds; [eassumption|]; rewrite G; reflexivity.
    + exists j, 1%nat; split; [lia|]; left; eapply solo_holds; [eassumption|]; rewrite G; reflexivity.
Qed.

(** ** Every writer call returns *)

(** Upper bound of the steps a writer still needs. *)
Definition left_steps (p : pc) : Z :=
  match p with
  | WInc _ => 4300002
  | WTry _ => 4300001
  | WSpin t ts i => 2 * (500 * (Z.max 0 (t / 500000)) + (500 - i)) + 2
  | WCas t ts i => 2 * (500 * (Z.max 0 (t / 500000)) + (500 - i)) + 1
  | WRel => 2
  | WRelW | RRel | WGive => 1
  | _ => 0
  end.

(** Local variables stay in the ranges that the code relies on. *)
Definition local_ok (p : pc) : Prop :=
  match p with
  | WInc t | WTry t => - 2 ^ 40 <= t
  | WSpin t ts i | WCas t ts i =>
      - 2 ^ 60 <= t <= INT_MAX /\ 500000 <= ts /\ ts + t <= 500000 + INT_MAX /\ 0 <= i < 500
      \/ t < 500000 /\ - 2 ^ 60 <= t /\ ts = 500000 /\ 0 <= i < 500
  | _ => True
  end.

Lemma init_to_range t : - 2 ^ 40 <= t -> - 2 ^ 60 <= init_spin_timeout t <= INT_MAX.
Proof.
  unfold init_spin_timeout, INT_MAX. intros H.
  destruct (Z.ltb_spec (2147483647 / 1000000) t) as [L|L]; [lia|].
  assert (t <= 2147) by (change (2147483647 / 1000000) with 2147 in L; exact L).
  rewrite wrap64_id by (unfold is64; lia). lia.
Qed.

(** A client inside a wlock, wulock or rulock call. *)
Definition wactive (p : pc) : Prop :=
  match p with
  | WInc _ | WTry _ | WSpin _ _ _ | WCas _ _ _ | WRel | WRelW | RRel | WGive => True
  | _ => False
  end.
Definition returned (p : pc) : Prop :=
  match p with Idle _ | WHold | RHold => True | _ => False end.

Lemma cstep_measure g w p :
  local_ok p -> wactive p ->
  let p' := snd (cstep g w p) in
  local_ok p' /\ 0 <= left_steps p' < left_steps p /\ (wactive p' \/ returned p').
Proof.
  intros L N.
  assert (WN : forall t ts i, local_ok (WSpin t ts i) ->
     local_ok (w_next t ts i) /\ 0 <= left_steps (w_next t ts i) < left_steps (WCas t ts i)
     /\ wactive (w_next t ts i)).
  { intros t ts i H. unfold w_next, SPIN_COUNT, SLEEP_NSEC. cbn [local_ok] in H.
    unfold INT_MAX in H.
    destruct (Z.ltb_spec (i + 1) 500) as [A|A].
    - cbn [local_ok left_steps wactive]. unfold INT_MAX. split; [lia|]. split; [lia|exact I].
    - rewrite wrap64_id by (unfold is64; lia).
      destruct (Z.ltb_spec (t - ts) 0) as [B|B]; cbn [local_ok left_steps wactive]; unfold INT_MAX.
      + split; [exact I|]. split; [lia|exact I].
      + split; [left; lia|]. split; [lia|exact I]. }
  destruct p as [r|t|t|t ts i|t ts i| | | | |t|t|t r|t ts|t ts i|t|t r|t| | ];
    cbn [wactive] in N; try contradiction; cbn [cstep]; cbv zeta.
  - cbn [snd]. cbn [local_ok left_steps wactive] in *. split; [exact L|]. split; [lia|]. now left.
  - destruct (g =? 0); cbn [snd].
    + cbn [local_ok left_steps wactive returned]. split; [exact I|]. split; [lia|]. now right.
    + cbn [local_ok] in L. pose proof (init_to_range t L) as R.
      unfold SLEEP_NSEC, INT_MAX in *. cbn [local_ok left_steps wactive]. unfold INT_MAX.
      split; [lia|]. split; [lia|]. now left.
  - destruct (g =? 0); cbn [snd].
    + cbn [local_ok left_steps wactive] in *. split; [exact L|]. split; [lia|]. now left.
    + destruct (WN t ts i L) as (A & B & C). split; [exact A|]. split; [cbn [left_steps] in *; lia|].
      now left.
  - destruct (g =? 0); cbn [snd].
    + cbn [local_ok left_steps wactive returned] in *. split; [exact I|]. split; [lia|]. now right.
    + destruct (WN t ts i L) as (A & B & C). split; [exact A|]. split; [exact B|]. now left.
  - cbn. split; [exact I|]. split; [lia|]. now right.
  - cbn. split; [exact I|]. split; [lia|]. now left.
  - cbn. split; [exact I|]. split; [lia|]. now right.
  - cbn. split; [exact I|]. split; [lia|]. now right.
Qed.

(** Number of steps that client [c] takes in [es]. *)
Definition runs (c : nat) (es : list ev) : Z :=
  sumf (fun e => match e with Run d => if Nat.eqb c d then 1 else 0 | _ => 0 end) es.

Lemma step_other s e c p :
  nth_error (cl s) c = Some p -> ~ returned p ->
  nth_error (cl (step s e)) c =
    match e with
    | Run d => if Nat.eqb c d then Some (snd (cstep (gl s) (wr s) p)) else Some p
    | _ => Some p end.
Proof.
  intros E NR.
  destruct e as [d t|d t|d|d]; cbn [step].
  1-3: destruct (Nat.eq_dec d c) as [->|N];
    [rewrite E; cbn [cl]; rewrite (nth_lset_same _ _ _ _ E); destruct p; cbn in *; tauto
    |destruct (nth_error (cl s) d); [cbn [cl]; rewrite nth_lset_other by exact N|]; exact E].
  destruct (Nat.eqb_spec c d) as [->|N].
  - rewrite E. destruct (cstep (gl s) (wr s) p) as [[? ?] ?]. cbn [cl snd]. eapply nth_lset_same; eauto.
  - destruct (nth_error (cl s) d); [destruct (cstep _ _ _) as [[? ?] ?]; cbn [cl]; rewrite nth_lset_other by congruence|]; exact E.
Qed.

Lemma wp_returns_from es s c p :
  nth_error (cl s) c = Some p -> local_ok p -> wactive p \/ returned p ->
  left_steps p <= runs c es ->
  exists es1 es2 p', es = es1 ++ es2 /\ nth_error (cl (exec es1 s)) c = Some p' /\ returned p'.
Proof.
  revert s p; induction es as [|e es IH]; intros s p E L D R.
  - exists [], [], p. split; [reflexivity|]. split; [exact E|].
    destruct D as [D|D]; [exfalso|exact D]. cbn [runs sumf] in R.
    destruct p; cbn [local_ok left_steps wactive] in *; try contradiction; lia.
  - destruct D as [D|D]; [|exists [], (e :: es), p; auto].
    assert (NR : ~ returned p) by (destruct p; cbn in *; tauto).
    pose proof (step_other s e c p E NR) as S.
    assert (X : exists p1, nth_error (cl (step s e)) c = Some p1 /\ local_ok p1 /\
                (wactive p1 \/ returned p1) /\ left_steps p1 <= runs c es).
    { destruct e as [d t|d t|d|d]; cbn [runs sumf] in R.
      1-3: exists p; split; [exact S|]; split; [exact L|]; split; [now left|]; unfold runs; lia.
      destruct (Nat.eqb c d).
      - exists (snd (cstep (gl s) (wr s) p)). split; [exact S|].
        destruct (cstep_measure (gl s) (wr s) p L D) as (A & B & C).
        split; [exact A|]. split; [exact C|]. unfold runs. lia.
      - exists p. split; [exact S|]. split; [exact L|]. split; [now left|]. unfold runs. lia. }
    destruct X as (p1 & E1 & L1 & D1 & R1).
    destruct (IH _ _ E1 L1 D1 R1) as (es1 & es2 & p' & A & B & C).
    exists (e :: es1), es2, p'. split; [now rewrite A|]. split; [exact B|exact C].
Qed.

(** ** A reader call may never return *)

(** Client 0 loses the compare_and_swap to client 1 again and again. *)
Definition livelock_start : list ev :=
  [StartRead 0 2000; Run 0; Run 0; StartRead 1 2000; Run 1; Run 1; Run 1;
   Run 0; Finish 1; Run 1; Run 0].
Definition livelock_turn : list ev :=
  [Run 0; StartRead 1 2000; Run 1; Run 1; Run 1; Run 0; Run 0; Finish 1; Run 1].

Fixpoint turns (k : nat) : list ev :=
  match k with O => [] | S k' => livelock_turn ++ turns k' end.

Definition stuck_state : st := mk 0 0 [RRead 2000000000; Idle 1].

Lemma livelock_start_ok : exec livelock_start (init 2) = stuck_state.
Proof. vm_compute. reflexivity. Qed.
Lemma livelock_turn_ok : exec livelock_turn stuck_state = stuck_state.
Proof. vm_compute. reflexivity. Qed.

Lemma runs_app c a b : runs c (a ++ b) = runs c a + runs c b.
Proof. unfold runs. induction a as [|e a IH]; cbn [app sumf]; [lia|]. rewrite IH. lia. Qed.

Definition all_prefixes_waiting (es : list ev) (s : st) : bool :=
  forallb (fun k => match nth_error (cl (exec (firstn k es) s)) 0 with
                    | Some (Idle _) | Some WHold | Some RHold | None => false
                    | _ => true end) (seq 0 (S (length es))).

Lemma prefix_app {A} (a b p q : list A) :
  a ++ b = p ++ q -> (exists r, a = p ++ r) \/ (exists r, p = a ++ r /\ b = r ++ q).
Proof.
  revert p; induction a as [|x a IH]; intros p H.
  - right. exists p. auto.
  - destruct p as [|y p]; [left; eexists; reflexivity|].
    cbn in H. injection H as -> H. destruct (IH p H) as [[r ->]|[r [-> E]]].
    + left. now exists r.
    + right. now exists r.
Qed.

Lemma turns_waiting k p q :
  turns k = p ++ q ->
  exists x, nth_error (cl (exec p stuck_state)) 0 = Some x /\ ~ returned x.
Proof.
  revert p; induction k as [|k IH]; intros p H; cbn [turns] in H.
  - destruct p; [|discriminate]. exists (RRead 2000000000). split; [reflexivity|]. cbn; tauto.
  - destruct (prefix_app _ _ _ _ H) as [[r E]|[r [-> E]]].
    + assert (F : all_prefixes_waiting livelock_turn stuck_state = true) by (vm_compute; reflexivity).
      unfold all_prefixes_waiting in F. rewrite forallb_forall in F.
      specialize (F (length p)).
      assert (Hin : In (length p) (seq 0 (S (length livelock_turn)))).
      { apply in_seq. rewrite E, app_length. lia. }
      specialize (F Hin). rewrite E, firstn_app, Nat.sub_diag, firstn_O, app_nil_r, firstn_all in F.
      destruct (nth_error _ 0) as [x|]; [|discriminate].
      exists x. split; [reflexivity|]. destruct x; cbn; try tauto; discriminate.
    + rewrite exec_app, livelock_turn_ok. exact (IH r E).
Qed.

Lemma turns_runs k : runs 0 (turns k) = 3 * Z.of_nat k.
Proof.
  induction k as [|k IH]; [reflexivity|]. cbn [turns]. rewrite runs_app, IH.
  change (runs 0 livelock_turn) with 3. lia.
Qed.
