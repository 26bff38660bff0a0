(** Atomic field updates: every successful call takes effect exactly once. *)
From Coq Require Import ZArith List Lia Bool Arith Permutation.
From Verif Require Import Base ConcLib EncodingModel EncodingProofs AtomicModel.
Import ListNotations.
Open Scope Z_scope.

(** Effect of an operation on the field content, as the caller understands it. *)
Definition apply (f : Z) (o : op) : Z :=
  match o with
  | Add d => encode_smallint32 (wrap32 (decode_smallint f + d))
  | Set_ d => d
  end.

(** Operations whose call has returned 0. *)
Definition succ (h : list (op * Z)) : list op :=
  map fst (filter (fun x => snd x =? 0) h).
Definition all_succ (l : list client) : list op := flat_map (fun k => succ (hist k)) l.

Lemma flat_lset {A B} (f : A -> list B) l c k :
  nth_error l c = Some k ->
  exists X, Permutation (flat_map f l) (f k ++ X) /\
    forall k', Permutation (flat_map f (lset c k' l)) (f k' ++ X).
Proof.
  revert c; induction l as [|q l IH]; intros [|c]; cbn [nth_error lset flat_map]; try discriminate.
  - intros [= ->]. exists (flat_map f l). auto.
  - intros E. destruct (IH c E) as (X & P & Q). exists (f q ++ X). split.
    + eapply perm_trans; [apply Permutation_app_head; exact P|].
      rewrite !app_assoc. apply Permutation_app_tail, Permutation_app_comm.
    + intros k'. eapply perm_trans; [apply Permutation_app_head; exact (Q k')|].
      rewrite !app_assoc. apply Permutation_app_tail, Permutation_app_comm.
Qed.

(** What a client about to compare-and-swap knows. *)
Definition kok (k : client) : Prop :=
  match at_ k with
  | Cas o old nxt _ => nxt = apply old o /\ (match o with Add _ => issmallint old = true | _ => True end) /\
      (match o with Add d => fits_smallint32 (wrap32 (decode_smallint old + d)) = true | _ => True end)
  | _ => True
  end.

(** The operations applied so far, in order. *)
Definition Lin (f0 : Z) (s : st) (log : list op) : Prop :=
  field s = fold_left apply log f0 /\ Permutation log (all_succ (cl s)) /\
  (forall c k, nth_error (cl s) c = Some k -> kok k).

(** An operation is sound for a field content. *)
Definition op_ok (f : Z) (o : op) : Prop :=
  match o with
  | Add d => issmallint f = true /\ fits_smallint32 (wrap32 (decode_smallint f + d)) = true
  | Set_ _ => True
  end.

Lemma after_read_ok e o f nxt : after_read e o f = inl nxt -> nxt = apply f o /\ op_ok f o.
Proof.
  destruct o as [d|d]; cbn [after_read apply op_ok].
  - destruct (issmallint f); cbn [negb]; [|discriminate].
    destruct (fits_smallint32 _); cbn [negb]; [|discriminate].
    destruct (_ =? 0); [|discriminate]. intros [= <-]. auto.
  - destruct (_ =? 0); [|discriminate]. intros [= <-]. auto.
Qed.

Lemma after_read_nz e o f r : after_read e o f = inr r -> r <> 0.
Proof.
  destruct o as [d|d]; cbn [after_read].
  - destruct (negb (issmallint f)); [intros [= <-]; lia|].
    destruct (negb _); [intros [= <-]; lia|].
    destruct (Z.eqb_spec (update_checks e (encode_smallint32 (wrap32 (decode_smallint f + d))) f) 0);
      [discriminate|intros [= <-]; assumption].
  - destruct (Z.eqb_spec (update_checks e d f) 0); [discriminate|intros [= <-]; assumption].
Qed.

Lemma Lin_step e f0 s log x :
  Lin f0 s log ->
  exists log', Lin f0 (step e s x) log' /\
    (log' = log \/ exists o, log' = log ++ [o] /\ op_ok (field s) o).
Proof.
  intros (F & P & K).
  assert (keep : forall c k k', nth_error (cl s) c = Some k -> succ (hist k') = succ (hist k) -> kok k' ->
     Lin f0 (mk (field s) (lset c k' (cl s))) log).
  { intros c k k' E Eh Ok. unfold Lin; cbn [field cl]. split; [exact F|]. split.
    - destruct (flat_lset (fun k => succ (hist k)) _ _ _ E) as (X & A & B).
      unfold all_succ in *. eapply perm_trans; [exact P|]. eapply perm_trans; [exact A|]. rewrite <- Eh.
      apply Permutation_sym, B.
    - intros d q. rewrite (nth_lset _ _ _ _ _ E). destruct (Nat.eqb c d); [intros [= <-]; exact Ok|apply K]. }
  destruct x as [c o|c]; cbn [step].
  - destruct (nth_error (cl s) c) as [k|] eqn:E; [|exists log; repeat split; auto].
    destruct (at_ k) eqn:Ea; try (exists log; repeat split; now auto).
    exists log. split; [|now left]. eapply keep; [exact E|reflexivity|exact I].
  - destruct (nth_error (cl s) c) as [k|] eqn:E; [|exists log; repeat split; auto].
    unfold cstep. destruct (at_ k) as [|o i|o old nxt i] eqn:Ea.
    + exists log. split; [|now left]. eapply keep; [exact E|reflexivity|]. unfold kok. now rewrite Ea.
    + destruct (after_read e o (field s)) as [nxt|r] eqn:R.
      * exists log. split; [|now left]. eapply keep; [exact E|reflexivity|].
        apply after_read_ok in R. unfold kok; cbn [at_]. destruct R as [-> R]. split; [reflexivity|].
        destruct o; cbn [op_ok] in R; tauto.
      * exists log. split; [|now left]. eapply keep; [exact E| |exact I].
        unfold ret, succ; cbn [hist filter snd]. apply after_read_nz in R.
        destruct (Z.eqb_spec r 0); [congruence|reflexivity].
    + pose proof (K c k E) as Kk. unfold kok in Kk. rewrite Ea in Kk. destruct Kk as (En & K1 & K2).
      destruct (Z.eqb_spec (field s) old) as [Ef|Nf].
      * exists (log ++ [o]). split.
        -- unfold Lin; cbn [field cl]. split; [|split].
           ++ rewrite fold_left_app. cbn [fold_left]. rewrite <- F, Ef. exact En.
           ++ destruct (flat_lset (fun k => succ (hist k)) _ _ _ E) as (X & A & B).
              unfold all_succ in *. eapply perm_trans; [apply Permutation_app_comm|]. cbn [app].
              eapply perm_trans; [apply perm_skip; eapply perm_trans; [exact P|exact A]|].
              eapply perm_trans; [|apply Permutation_sym, (B (ret k o 0))].
              unfold ret, succ; cbn [hist filter snd map fst]. change (0 =? 0) with true. cbv iota.
              cbn [map fst app]. apply Permutation_refl.
           ++ intros d q. rewrite (nth_lset _ _ _ _ _ E). destruct (Nat.eqb c d); [intros [= <-]; exact I|apply K].
        -- right. exists o. split; [reflexivity|]. rewrite Ef. destruct o; cbn [op_ok]; auto.
      * destruct (1000 <? i).
        -- exists log. split; [|now left]. eapply keep; [exact E| |exact I].
           unfold ret, succ; cbn [hist filter snd]. reflexivity.
        -- exists log. split; [|now left]. eapply keep; [exact E|reflexivity|exact I].
Qed.

(** Every operation in the log was sound when it was applied. *)
Fixpoint ops_ok (f : Z) (log : list op) : Prop :=
  match log with [] => True | o :: r => op_ok f o /\ ops_ok (apply f o) r end.

Lemma ops_ok_snoc f log o : ops_ok f log -> op_ok (fold_left apply log f) o -> ops_ok f (log ++ [o]).
Proof.
  revert f; induction log as [|a l IH]; intros f; cbn [ops_ok app fold_left]; [auto|].
  intros (H1 & H2) H3. auto.
Qed.

Lemma Lin_exec e f0 es s log :
  Lin f0 s log -> ops_ok f0 log ->
  exists log2, Lin f0 (exec e es s) (log ++ log2) /\ ops_ok f0 (log ++ log2).
Proof.
  revert s log; induction es as [|x es IH]; intros s log L O.
  - exists []. rewrite app_nil_r. auto.
  - destruct (Lin_step e f0 s log x L) as (log' & L' & [->|(o & -> & Ho)]).
    + exact (IH _ _ L' O).
    + assert (O' : ops_ok f0 (log ++ [o])).
      { apply ops_ok_snoc; [exact O|]. destruct L as (F & _). rewrite <- F. exact Ho. }
      destruct (IH _ _ L' O') as (l2 & A & B). exists (o :: l2).
      replace (log ++ o :: l2) with ((log ++ [o]) ++ l2) by (rewrite <- app_assoc; reflexivity). auto.
Qed.

Lemma Lin_init n f0 : Lin f0 (init n f0) [].
Proof.
  unfold Lin, init; cbn [field cl fold_left]. split; [reflexivity|]. split.
  - assert (E : all_succ (repeat (Client Idle []) n) = []) by (unfold all_succ; induction n; auto).
    rewrite E. constructor.
  - intros c k E. apply nth_repeat in E. subst k. exact I.
Qed.

Lemma atomic_linear e n f0 es :
  exists log, Permutation log (all_succ (cl (exec e es (init n f0)))) /\
    field (exec e es (init n f0)) = fold_left apply log f0 /\ ops_ok f0 log.
Proof.
  destruct (Lin_exec e f0 es (init n f0) [] (Lin_init n f0) I) as (log & (F & P & K) & O).
  exists log. cbn [app] in *. auto.
Qed.

(** The log only grows: what has taken effect stays before what comes later. *)
Lemma atomic_linear_two e n f0 es1 es2 :
  exists log1 log2,
    Permutation log1 (all_succ (cl (exec e es1 (init n f0)))) /\
    Permutation (log1 ++ log2) (all_succ (cl (exec e (es1 ++ es2) (init n f0)))) /\
    field (exec e es1 (init n f0)) = fold_left apply log1 f0 /\
    field (exec e (es1 ++ es2) (init n f0)) = fold_left apply (log1 ++ log2) f0 /\
    ops_ok f0 (log1 ++ log2).
Proof.
  destruct (Lin_exec e f0 es1 (init n f0) [] (Lin_init n f0) I) as (log1 & L1 & O1). cbn [app] in *.
  destruct (Lin_exec e f0 es2 _ _ L1 O1) as (log2 & L2 & O2).
  exists log1, log2. destruct L1 as (F1 & P1 & _). destruct L2 as (F2 & P2 & _).
  unfold exec in *. rewrite fold_left_app. auto 10.
Qed.

(** ** Sums *)

Definition inc (o : op) : Z := match o with Add d => d | Set_ _ => 0 end.
Definition sumZ (l : list Z) : Z := fold_right Z.add 0 l.
Lemma sumZ_perm l l' : Permutation l l' -> sumZ l = sumZ l'.
Proof. induction 1; cbn [sumZ fold_right]; unfold sumZ in *; lia. Qed.
Definition is_add (o : op) : bool := match o with Add _ => true | _ => false end.

Definition small29 (v : Z) : Prop := - 2 ^ 28 <= v < 2 ^ 28.

Lemma fits32_spec v : is32 v -> fits_smallint32 v = true -> small29 v /\ encode_smallint32 v = v * 8 + 3.
Proof.
  intros H. unfold fits_smallint32, encode_smallint32, shl32, small29.
  rewrite Z.shiftl_mul_pow2, Z.shiftr_div_pow2 by lia. change (2 ^ 3) with 8.
  rewrite Z.eqb_eq. unfold is32, wrap32 in *. intros E.
  assert (R : - 2 ^ 28 <= v < 2 ^ 28) by lia. split; [exact R|].
  replace ((v * 8 + 2 ^ 31) mod 2 ^ 32 - 2 ^ 31) with (v * 2 ^ 3) by lia.
  rewrite lor_low by lia. lia.
Qed.

Lemma fits32_conv v : small29 v -> fits_smallint32 v = true /\ encode_smallint32 v = v * 8 + 3.
Proof.
  intros H. unfold fits_smallint32, encode_smallint32, shl32, small29 in *.
  rewrite Z.shiftl_mul_pow2, Z.shiftr_div_pow2 by lia. change (2 ^ 3) with 8.
  rewrite Z.eqb_eq. rewrite wrap32_id by (unfold is32; lia).
  split; [lia|]. change 8 with (2 ^ 3). rewrite lor_low by lia. lia.
Qed.

Lemma decode_enc v : decode_smallint (v * 8 + 3) = v.
Proof. unfold decode_smallint. rewrite Z.shiftr_div_pow2 by lia. change (2 ^ 3) with 8. lia. Qed.

Lemma add_ok_mod f d : op_ok f (Add d) ->
  exists v, small29 v /\ apply f (Add d) = v * 8 + 3 /\ (v - (decode_smallint f + d)) mod 2 ^ 32 = 0 /\
    v = wrap32 (decode_smallint f + d).
Proof.
  intros [_ H]. cbn [apply]. destruct (fits32_spec _ (wrap32_range _) H) as (A & B).
  exists (wrap32 (decode_smallint f + d)). split; [exact A|]. split; [exact B|]. split; [|reflexivity].
  unfold wrap32. lia.
Qed.

Lemma add_sum_exact f v log :
  f = v * 8 + 3 -> small29 v -> ops_ok f log -> forallb is_add log = true ->
  (forall d, In (Add d) log -> is32 d) ->
  exists w, small29 w /\ fold_left apply log f = w * 8 + 3 /\ w = v + sumZ (map inc log).
Proof.
  revert f v; induction log as [|o log IH]; intros f v Ef Hv O A D.
  - exists v. cbn. split; [exact Hv|]. split; [exact Ef|lia].
  - cbn [ops_ok] in O. destruct O as [O1 O2]. cbn [forallb] in A. apply andb_true_iff in A. destruct A as [A1 A2].
    destruct o as [d|]; [|discriminate].
    destruct (add_ok_mod _ _ O1) as (w & Hw & Ew & Em & Ewr).
    assert (X : w = v + d).
    { rewrite Ef, decode_enc in Ewr. specialize (D d (or_introl eq_refl)).
      unfold small29, is32, wrap32 in *. lia. }
    destruct (IH (apply f (Add d)) w Ew Hw O2 A2) as (u & Hu & Eu & Es).
    { intros d' Hd'. apply D. now right. }
    exists u. split; [exact Hu|]. split; [exact Eu|]. cbn [map inc sumZ fold_right]. unfold sumZ in *. lia.
Qed.

Lemma add_sum_mod f log :
  ops_ok f log -> forallb is_add log = true -> log <> [] \/ issmallint f = true ->
  (decode_smallint (fold_left apply log f) - (decode_smallint f + sumZ (map inc log))) mod 2 ^ 32 = 0.
Proof.
  revert f; induction log as [|o log IH]; intros f O A _.
  - cbn. replace (_ - _) with 0 by lia. reflexivity.
  - cbn [ops_ok] in O. destruct O as [O1 O2]. cbn [forallb] in A. apply andb_true_iff in A. destruct A as [A1 A2].
    destruct o as [d|]; [|discriminate].
    destruct (add_ok_mod _ _ O1) as (w & Hw & Ew & Em & Ewr).
    assert (Sm : issmallint (apply f (Add d)) = true).
    { rewrite Ew. unfold issmallint. rewrite land_7. apply Z.eqb_eq. lia. }
    specialize (IH (apply f (Add d)) O2 A2 (or_intror Sm)).
    assert (Dw : decode_smallint (apply f (Add d)) = w) by (rewrite Ew; apply decode_enc).
    cbn [fold_left map inc sumZ fold_right]. rewrite Dw in IH. unfold sumZ in *.
    set (r := decode_smallint (fold_left apply log (apply f (Add d)))) in *. clearbody r.
    set (t := fold_right Z.add 0 (map inc log)) in *. clearbody t. lia.
Qed.

(** ** Only started operations return *)

Definition starts_ok (P : op -> Prop) (es : list ev) : Prop :=
  Forall (fun x => match x with Start _ o => P o | Run _ => True end) es.
Definition client_ok (P : op -> Prop) (k : client) : Prop :=
  match at_ k with Idle => True | Read o _ | Cas o _ _ _ => P o end /\ Forall (fun x => P (fst x)) (hist k).

Lemma started_step P e s x :
  (match x with Start _ o => P o | Run _ => True end) ->
  (forall c k, nth_error (cl s) c = Some k -> client_ok P k) ->
  forall c k, nth_error (cl (step e s x)) c = Some k -> client_ok P k.
Proof.
  intros Hx H.
  assert (keep : forall f c k k', nth_error (cl s) c = Some k -> client_ok P k' ->
    forall d q, nth_error (cl (mk f (lset c k' (cl s)))) d = Some q -> client_ok P q).
  { intros f c k k' E Ok d q. cbn [cl]. rewrite (nth_lset _ _ _ _ _ E). destruct (Nat.eqb c d); [intros [= <-]; exact Ok|apply H]. }
  destruct x as [c o|c]; cbn [step]; destruct (nth_error (cl s) c) as [k|] eqn:E; auto.
  - destruct (at_ k) eqn:Ea; auto. eapply keep; [exact E|]. split; [exact Hx|]. apply (H c k E).
  - destruct (H c k E) as [A B]. unfold cstep.
    destruct (at_ k) as [|o i|o old nxt i] eqn:Ea.
    + eapply keep; [exact E|]. split; [now rewrite Ea|exact B].
    + destruct (after_read _ _ _); eapply keep; [exact E| |exact E|]; (split; [cbn; auto|cbn [hist ret]; auto]).
    + destruct (_ =? _); [|destruct (_ <? _)]; (eapply keep; [exact E|]); (split; [cbn; auto|cbn [hist ret]; auto]).
Qed.

Lemma started_exec P e n f0 es : starts_ok P es ->
  forall o, In o (all_succ (cl (exec e es (init n f0)))) -> P o.
Proof.
  intros S.
  assert (H : forall s, (forall c k, nth_error (cl s) c = Some k -> client_ok P k) ->
     forall c k, nth_error (cl (exec e es s)) c = Some k -> client_ok P k).
  { induction S as [|x es Hx S IH]; intros s Hs; [exact Hs|]. unfold exec. cbn [fold_left]. apply IH.
    intros c k. eapply started_step; eauto. }
  intros o Ho. unfold all_succ in Ho. apply in_flat_map in Ho. destruct Ho as (k & Hk & Ho).
  apply In_nth_error in Hk. destruct Hk as [c Hc].
  assert (K : client_ok P k).
  { eapply H; [|exact Hc]. intros d q E. apply nth_repeat in E. subst q. split; [exact I|constructor]. }
  unfold succ in Ho. apply in_map_iff in Ho. destruct Ho as (x & <- & Hx). apply filter_In in Hx.
  destruct K as [_ K]. rewrite Forall_forall in K. apply K. tauto.
Qed.

Definition add32 (o : op) : Prop := match o with Add d => is32 d | Set_ _ => False end.

Lemma atomic_sum e n v0 es :
  small29 v0 -> starts_ok add32 es ->
  let s := exec e es (init n (encode_smallint v0)) in
  exists w, field s = encode_smallint w /\ w = v0 + sumZ (map inc (all_succ (cl s))) /\ small29 w.
Proof.
  intros Hv S s. destruct (atomic_linear e n (encode_smallint v0) es) as (log & P & F & O). fold s in P, F.
  pose proof (started_exec add32 e n (encode_smallint v0) es S) as St. fold s in St.
  assert (St' : forall o, In o log -> add32 o).
  { intros o Ho. apply St. eapply Permutation_in; eauto. }
  assert (A : forallb is_add log = true).
  { apply forallb_forall. intros o Ho. specialize (St' o Ho). destruct o; cbn in *; auto. }
  assert (E0 : encode_smallint v0 = v0 * 8 + 3).
  { apply encode_smallint_eq. unfold small29, smallint_range in *. lia. }
  destruct (add_sum_exact _ v0 log E0 Hv O A) as (w & Hw & Ew & Es).
  { intros d Hd. exact (St' _ Hd). }
  exists w. split; [|split; [|exact Hw]].
  - rewrite F, Ew. symmetry. apply encode_smallint_eq. unfold small29, smallint_range in *. lia.
  - rewrite Es. f_equal. apply sumZ_perm. apply Permutation_map. exact P.
Qed.

Lemma atomic_sum_mod e n f0 es :
  issmallint f0 = true -> starts_ok (fun o => is_add o = true) es ->
  let s := exec e es (init n f0) in
  (decode_smallint (field s) - (decode_smallint f0 + sumZ (map inc (all_succ (cl s))))) mod 2 ^ 32 = 0.
Proof.
  intros Hv S s. destruct (atomic_linear e n f0 es) as (log & P & F & O). fold s in P, F.
  pose proof (started_exec _ e n f0 es S) as St. fold s in St.
  assert (A : forallb is_add log = true).
  { apply forallb_forall. intros o Ho. apply St. eapply Permutation_in; eauto. }
  pose proof (add_sum_mod f0 log O A (or_intror Hv)) as M. rewrite <- F in M.
  rewrite <- (sumZ_perm (map inc log)); [exact M|]. apply Permutation_map. exact P.
Qed.
