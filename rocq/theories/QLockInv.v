(** The queue lock as a whole: invariants of all executions in which no
    futex wake-up reaches a client whose turn has not come. *)
From Coq Require Import ZArith List Lia Bool Arith Permutation Sorted.
From Verif Require Import Base ConcLib QLockModel QLockProofs.
Import ListNotations.
Open Scope Z_scope.

(** A client is asleep on cell [a] although its turn has not come. *)
Definition stale (s : st) (a : Z) : bool :=
  existsb (fun p => match p with
                    | Blocked _ x => (x =? a) && negb (waiting (nodes (qs s) a) =? 0)
                    | _ => false end) (cl s).

(** The event neither interrupts a futex wait nor delivers a wake-up meant for
    an earlier user of the same cell. *)
Definition clean1 (s : st) (e : ev) : bool :=
  match e with
  | Intr _ => false
  | Run c => match nth_error (cl s) c with
             | Some (Wake a _) => negb (stale s a)
             | _ => true end
  | _ => true
  end.
Fixpoint clean (es : list ev) (s : st) : bool :=
  match es with [] => true | e :: r => clean1 s e && clean r (step s e) end.

Definition is_timeout (e : ev) : bool := match e with Timeout _ => true | _ => false end.
Definition no_timeout (es : list ev) : bool := forallb (fun e => negb (is_timeout e)) es.

Definition incs (p : pc) : Z := match p with QBody _ | QUnl _ => 1 | _ => 0 end.
Lemma incs01 p : 0 <= incs p <= 1. Proof. destruct p; cbn; lia. Qed.

Definition owners (l : list pc) : list Z := flat_map own l.

Record Inv (cells : list Z) (s : st) (g r f : list Z) : Prop := {
  iv_q : QI cells (qs s) g r f;
  iv_own : Permutation (owners (cl s)) (g ++ r);
  iv_pok : forall i p, nth_error (cl s) i = Some p -> pok (nodes (qs s)) p;
  iv_ql : ql s = sumf incs (cl s);
  iv_cs : sumf incs (cl s) <= 1;
  iv_pend : forall i w l, nth_error (cl s) i = Some (Blocked w l) ->
     waiting (nodes (qs s) l) = 0 -> exists j p, nth_error (cl s) j = Some p /\ In l (pend p) }.

(** ** Owners *)

Lemma perm_lset l c p :
  nth_error l c = Some p ->
  exists X, Permutation (owners l) (own p ++ X) /\
    forall p', Permutation (owners (lset c p' l)) (own p' ++ X).
Proof.
  unfold owners. revert c; induction l as [|q l IH]; intros [|c]; cbn [nth_error lset flat_map]; try discriminate.
  - intros [= ->]. exists (flat_map own l). auto.
  - intros E. destruct (IH c E) as (X & A & B). exists (own q ++ X). split.
    + eapply perm_trans; [apply Permutation_app_head; exact A|].
      rewrite !app_assoc. apply Permutation_app_tail, Permutation_app_comm.
    + intros p'. eapply perm_trans; [apply Permutation_app_head; exact (B p')|].
      rewrite !app_assoc. apply Permutation_app_tail, Permutation_app_comm.
Qed.

Lemma own_in l i p x : nth_error l i = Some p -> In x (own p) -> In x (owners l).
Proof.
  intros E I. unfold owners. apply in_flat_map. exists p. split; [eapply nth_error_In; eauto|exact I].
Qed.

Lemma own_unique l i j p q x :
  NoDup (owners l) -> nth_error l i = Some p -> nth_error l j = Some q ->
  In x (own p) -> In x (own q) -> i = j.
Proof.
  unfold owners. revert i j; induction l as [|a l IH]; intros [|i] [|j] N; cbn [nth_error]; try discriminate; auto.
  - intros [= ->] E I1 I2. exfalso. cbn [flat_map] in N. apply NoDup_app_inv in N. destruct N as (_ & _ & D).
    apply (D x I1). apply (own_in l j q x E I2).
  - intros E [= ->] I1 I2. exfalso. cbn [flat_map] in N. apply NoDup_app_inv in N. destruct N as (_ & _ & D).
    apply (D x I2). apply (own_in l i p x E I1).
  - intros E1 E2 I1 I2. f_equal. cbn [flat_map] in N. apply NoDup_app_inv in N. destruct N as (_ & N & _). eauto.
Qed.

Lemma inv_nodup cells s g r f : Inv cells s g r f -> NoDup (owners (cl s)).
Proof.
  intros I. eapply Permutation_NoDup; [apply Permutation_sym, (iv_own _ _ _ _ _ I)|].
  pose proof (qi_nd _ _ _ _ _ (iv_q _ _ _ _ _ I)) as N. now apply NoDup_app_inv in N.
Qed.

Lemma inv_own_in cells s g r f i p x :
  Inv cells s g r f -> nth_error (cl s) i = Some p -> In x (own p) -> In x (g ++ r).
Proof.
  intros I E Ix. eapply Permutation_in; [apply (iv_own _ _ _ _ _ I)|]. eapply own_in; eauto.
Qed.

(** ** One step *)

(** The client moves without touching the queue. *)
Lemma Inv_local cells s g r f c p p' ql' :
  Inv cells s g r f -> nth_error (cl s) c = Some p ->
  own p' = own p -> pok (nodes (qs s)) p' ->
  (forall x, In x (pend p) -> In x (pend p')) ->
  (forall w l, p' = Blocked w l -> p = Blocked w l \/ waiting (nodes (qs s) l) <> 0) ->
  ql' = ql s - incs p + incs p' -> ql' <= 1 ->
  Inv cells (mk ql' (qs s) (lset c p' (cl s))) g r f.
Proof.
  intros I E Eo Ok Pd Bl Eq Le. destruct I as [I1 I2 I3 I4 I5 I6].
  constructor; cbn [qs cl ql].
  - exact I1.
  - destruct (perm_lset _ _ _ E) as (X & A & B). eapply perm_trans; [apply B|]. rewrite Eo.
    eapply perm_trans; [apply Permutation_sym, A|exact I2].
  - intros i q. rewrite (nth_lset _ _ _ _ _ E). destruct (Nat.eqb c i); [intros [= <-]; exact Ok|apply I3].
  - rewrite (sumf_lset _ _ _ _ _ E). lia.
  - rewrite (sumf_lset _ _ _ _ _ E). lia.
  - intros i w l. rewrite (nth_lset _ _ _ _ _ E).
    destruct (Nat.eqb_spec c i) as [->|N].
    + intros [= ->] W. destruct (Bl w l eq_refl) as [->|B]; [|congruence].
      destruct (I6 i w l E W) as (j & q & Ej & Ij). exists j.
      destruct (Nat.eqb_spec i j) as [<-|N].
      * rewrite E in Ej. injection Ej as <-. destruct Ij.
      * exists q. rewrite (nth_lset _ _ _ _ _ E). destruct (Nat.eqb_spec i j); [congruence|]. auto.
    + intros Eb W. destruct (I6 i w l Eb W) as (j & q & Ej & Ij). exists j.
      rewrite (nth_lset _ _ _ _ _ E). destruct (Nat.eqb_spec c j) as [<-|N'].
      * exists p'. split; [reflexivity|]. rewrite E in Ej. injection Ej as <-. now apply Pd.
      * exists q. auto.
Qed.

Lemma ql01 cells s g r f : Inv cells s g r f -> 0 <= ql s <= 1.
Proof.
  intros I. rewrite (iv_ql _ _ _ _ _ I). split; [|apply (iv_cs _ _ _ _ _ I)].
  apply sumf_nonneg. intros a. apply incs01.
Qed.

Lemma pok_keeps s s' a p :
  (forall x, In x (own p) -> keeps s s' a x) -> pok (nodes s) p -> pok (nodes s') p.
Proof.
  intros K. destruct p as [| [ | | | | ] | [ | | | | ] | [ | | | | ] | [ | | | ] | | | | ? [ ] | ];
    cbn [pok kok aok own kown aown] in *; auto;
    match goal with |- context[nodes s ?l] => destruct (K l (or_introl eq_refl)) as (A & B & _) end;
    rewrite A; tauto.
Qed.

Lemma wake_cases a l :
  (wake a l = l /\ forall i w, nth_error l i <> Some (Blocked w a)) \/
  (exists i w, nth_error l i = Some (Blocked w a) /\ wake a l = lset i (woken w a) l).
Proof.
  induction l as [|p l IH]; cbn [wake].
  - left. split; [reflexivity|]. intros [|i] w; discriminate.
  - assert (skip : (forall w, p <> Blocked w a) ->
      (p :: wake a l = p :: l /\ forall i w, nth_error (p :: l) i <> Some (Blocked w a)) \/
      (exists i w, nth_error (p :: l) i = Some (Blocked w a) /\ p :: wake a l = lset i (woken w a) (p :: l))).
    { intros N. destruct IH as [[E H]|(i & w & E & H)].
      - left. split; [now rewrite E|]. intros [|i] w; cbn; [intros [= ->]; now apply (N w)|apply H].
      - right. exists (S i), w. split; [exact E|]. cbn [lset]. now rewrite H. }
    destruct p as [r|k|k|k|k|w x|w x|w x|x k|w x]; try (apply skip; intros; discriminate).
    destruct (Z.eqb_spec x a) as [->|N].
    + right. exists O, w. split; reflexivity.
    + apply skip. congruence.
Qed.

Lemma Inv_step cells s e g r f :
  Inv cells s g r f -> clean1 s e = true ->
  exists g' r' f', Inv cells (step s e) g' r' f' /\
    (is_timeout e = false -> (forall i l, nth_error (cl s) i <> Some (QTry (KTmo l)) /\
        nth_error (cl s) i <> Some (QSpin (KTmo l)) /\ nth_error (cl s) i <> Some (QBody (KTmo l))) ->
     g <> [] \/ r = [] -> g' <> [] \/ r' = []).
Proof.
  intros I C. pose proof (ql01 _ _ _ _ _ I) as QL.
  assert (same : forall s', Inv cells s' g r f -> s' = step s e ->
    exists g' r' f', Inv cells (step s e) g' r' f' /\
    (is_timeout e = false -> (forall i l, nth_error (cl s) i <> Some (QTry (KTmo l)) /\
        nth_error (cl s) i <> Some (QSpin (KTmo l)) /\ nth_error (cl s) i <> Some (QBody (KTmo l))) ->
     g <> [] \/ r = [] -> g' <> [] \/ r' = [])).
  { intros s' H ->. exists g, r, f. auto. }
  assert (call : forall c p, nth_error (cl s) c = Some p -> (forall d, e <> Run d) ->
     Inv cells (mk (ql s) (qs s) (lset c (ccall p e) (cl s))) g r f).
  { intros c p E NR. pose proof (iv_pok _ _ _ _ _ I c p E) as Ok.
    assert (D : ccall p e = p \/ ccall p e <> p).
    { destruct e as [d|d|d|d|d|d]; destruct p as [ | | | | | | |w l| |[ ] l]; cbn [ccall];
        try (left; reflexivity); right; try discriminate. }
    destruct D as [D|D].
    - rewrite D. eapply Inv_local; eauto; try lia.
    - apply (Inv_local _ _ _ _ _ c p).
      + exact I.
      + exact E.
      + destruct e as [d|d|d|d|d|d]; destruct p as [ | | | | | | |w l| |[ ] l]; try reflexivity; discriminate C.
      + destruct e as [d|d|d|d|d|d]; destruct p as [ | | | | | | |w l| |[ ] l]; cbn in *; auto; discriminate C.
      + destruct e as [d|d|d|d|d|d]; destruct p as [ | | | | | | |w l| |[ ] l]; cbn in *; auto; discriminate C.
      + intros w l Eb. exfalso. destruct e as [d|d|d|d|d|d]; destruct p as [ | | | | | | |w' l'| |[ ] l']; cbn in *; try discriminate; try congruence.
      + destruct e as [d|d|d|d|d|d]; destruct p as [ | | | | | | |w l| |[ ] l]; cbn in *; try lia; discriminate C.
      + lia. }
  destruct e as [c|c|c|c|c|c]; cbn [clean1] in C; try discriminate C.
  1,2,3,5: cbn [step] in *; destruct (nth_error (cl s) c) as [p|] eqn:E;
    [eapply same; [apply (call c p E); congruence|reflexivity] | exists g, r, f; auto].
  cbn [step] in *. destruct (nth_error (cl s) c) as [p|] eqn:E; [|exists g, r, f; auto].
  pose proof (iv_pok _ _ _ _ _ I c p E) as Ok.
  destruct p as [rr|k|k|k|a|w l|w l|w l|a k|w l]; cbn [run1] in *.
  - exists g, r, f; auto.
  - (* QTry *)
    destruct (Z.eqb_spec (ql s) 0) as [Z0|NZ].
    + eapply same; [|reflexivity]. apply (Inv_local _ _ _ _ _ c (QTry k)); auto; cbn [incs]; try lia. intros; discriminate.
    + eapply same; [|reflexivity]. apply (Inv_local _ _ _ _ _ c (QTry k)); auto; cbn [incs]; try lia. intros; discriminate.
  - destruct (Z.eqb_spec (ql s) 0) as [Z0|NZ].
    + eapply same; [|reflexivity]. apply (Inv_local _ _ _ _ _ c (QSpin k)); auto; cbn [incs]; try lia. intros; discriminate.
    + exists g, r, f; auto.
  - (* QBody *)
    destruct I as [I1 I2 I3 I4 I5 I6].
    assert (IO : forall l, In l (kown k) -> In l (g ++ r)).
    { intros l Hl. eapply Permutation_in; [exact I2|]. eapply own_in; [exact E|exact Hl]. }
    pose proof (section_all cells k (qs s) g r f I1 IO Ok) as S. unfold section_ok in S.
    destruct (body k (qs s)) as [q' a] eqn:B.
    destruct S as (g' & r' & f' & S1 & S2 & S3 & S4 & S5).
    exists g', r', f'. split.
    + assert (ND : NoDup (owners (cl s))) by (eapply inv_nodup; constructor; eauto).
      assert (K : forall i p, nth_error (cl s) i = Some p -> i <> c -> forall x, In x (own p) -> keeps (qs s) q' a x).
      { intros i p Ei Ni x Hx. apply S4.
        - eapply Permutation_in; [exact I2|]. eapply own_in; eauto.
        - intros Hk. apply Ni. eapply (own_unique (cl s) i c); eauto. }
      constructor; cbn [qs cl ql].
      * exact S1.
      * destruct (perm_lset _ _ _ E) as (X & A & P). eapply perm_trans; [apply P|]. apply S2.
        cbn [own] in A. eapply perm_trans; [apply Permutation_sym, A|exact I2].
      * intros i p. rewrite (nth_lset _ _ _ _ _ E). destruct (Nat.eqb_spec c i) as [->|N].
        -- intros [= <-]. exact S3.
        -- intros Ei. eapply pok_keeps; [|apply (I3 i p Ei)]. apply (K i p Ei). congruence.
      * rewrite (sumf_lset _ _ _ _ _ E). cbn [incs]. lia.
      * rewrite (sumf_lset _ _ _ _ _ E). cbn [incs]. lia.
      * intros i w l. rewrite (nth_lset _ _ _ _ _ E). destruct (Nat.eqb_spec c i) as [->|N]; [discriminate|].
        intros Ei W. destruct (K i _ Ei (not_eq_sym N) l) as (_ & _ & K3); [now left|].
        destruct (K3 W) as [W0|Hp].
        -- destruct (I6 i w l Ei W0) as (j & p & Ej & Ij). exists j, p. split; [|exact Ij].
           rewrite (nth_lset _ _ _ _ _ E). destruct (Nat.eqb_spec c j) as [->|]; [|exact Ej].
           rewrite E in Ej. injection Ej as <-. destruct Ij.
        -- exists c, (QUnl a). split; [|exact Hp]. rewrite (nth_lset _ _ _ _ _ E), Nat.eqb_refl. reflexivity.
    + intros _ NT LV. apply S5; [|exact LV]. intros l ->. now apply (NT c l).
  - (* QUnl *)
    eapply same; [|reflexivity].
    assert (QC : ql s = 1).
    { rewrite (iv_ql _ _ _ _ _ I). pose proof (iv_cs _ _ _ _ _ I).
      pose proof (sumf_ge incs (cl s) c _ (fun a => proj1 (incs01 a)) E) as G. cbn [incs] in G. lia. }
    apply (Inv_local _ _ _ _ _ c (QUnl a)); auto; try lia.
    + destruct a; cbn [cont]; try reflexivity; destruct (a =? 0); reflexivity.
    + destruct a; cbn [cont pok aok] in *; auto; destruct (a =? 0); cbn [pok cls] in *; auto; tauto.
    + destruct a; cbn [cont pend apend]; try (intros x []); destruct (a =? 0); cbn; auto; intros x [].
    + intros w l Eb. exfalso. destruct a; cbn [cont] in Eb; try discriminate; destruct (a =? 0); discriminate.
    + destruct a; cbn [cont incs]; try lia; destruct (a =? 0); cbn [incs]; lia.
  - (* Chk *)
    destruct (Z.eqb_spec (waiting (nodes (qs s) l)) 0) as [W|W]; (eapply same; [|reflexivity]);
      apply (Inv_local _ _ _ _ _ c (Chk w l)); auto; cbn [incs pok] in *; try lia; auto; intros; discriminate.
  - (* FWait *)
    destruct (Z.eqb_spec (waiting (nodes (qs s) l)) 1) as [W|W].
    + eapply same; [|reflexivity]. apply (Inv_local _ _ _ _ _ c (FWait w l)); auto; cbn [incs] in *; try lia.
      intros w' l' [= -> ->]. right. lia.
    + assert (W0 : waiting (nodes (qs s) l) = 0).
      { assert (Hl : In l (g ++ r)) by (eapply inv_own_in; [exact I|exact E|now left]).
        destruct (qi_gr _ _ _ _ _ (iv_q _ _ _ _ _ I)) as (G1 & G2 & _).
        rewrite Forall_forall in G1, G2. apply in_app_or in Hl. destruct Hl as [Hl|Hl]; [now apply G1|].
        specialize (G2 l Hl). lia. }
      eapply same; [|reflexivity]. apply (Inv_local _ _ _ _ _ c (FWait w l)); auto; cbn [incs] in *; try lia.
      * destruct w; reflexivity.
      * destruct w; cbn [woken pok kok cls] in *; auto.
      * intros x [].
      * intros w' l' Eb. destruct w; discriminate.
      * destruct w; cbn [woken incs]; lia.
  - exists g, r, f; auto.
  - (* Wake *)
    eapply same; [|reflexivity].
    set (p' := match k with Some l => Hold false l | None => Idle 1 end).
    assert (X : exists l1, wake a (cl s) = l1 /\ nth_error l1 c = Some (Wake a k) /\
       Inv cells (mk (ql s) (qs s) l1) g r f /\ forall i w, nth_error l1 i <> Some (Blocked w a)).
    { destruct (wake_cases a (cl s)) as [[Ew H]|(i & w & Ei & Ew)].
      - exists (cl s). rewrite Ew. split; [reflexivity|]. split; [exact E|]. split; [|exact H].
        destruct s; exact I.
      - exists (lset i (woken w a) (cl s)). split; [exact Ew|].
        assert (Nic : i <> c) by (intros ->; congruence).
        assert (W0 : waiting (nodes (qs s) a) = 0).
        { apply negb_true_iff in C. unfold stale in C.
          destruct (Z.eq_dec (waiting (nodes (qs s) a)) 0) as [|NW]; [assumption|exfalso].
          assert (T : existsb (fun p => match p with
                    | Blocked _ x => (x =? a) && negb (waiting (nodes (qs s) a) =? 0)
                    | _ => false end) (cl s) = true).
          { apply existsb_exists. exists (Blocked w a). split; [eapply nth_error_In; eauto|].
            rewrite Z.eqb_refl. destruct (Z.eqb_spec (waiting (nodes (qs s) a)) 0); [congruence|reflexivity]. }
          congruence. }
        pose proof (iv_pok _ _ _ _ _ I i _ Ei) as Oi. cbn [pok] in Oi.
        split; [rewrite nth_lset_other by exact Nic; exact E|]. split.
        + apply (Inv_local _ _ _ _ _ i (Blocked w a)); auto; cbn [incs]; try lia.
          * destruct w; reflexivity.
          * destruct w; cbn [woken pok kok cls] in *; auto.
          * intros x [].
          * intros w' l' Eb. destruct w; discriminate.
          * destruct w; cbn [woken incs]; lia.
        + intros j w'. rewrite (nth_lset _ _ _ _ _ Ei). destruct (Nat.eqb_spec i j) as [->|N].
          * destruct w; discriminate.
          * intros Ej. apply N. eapply (own_unique (cl s) i j (Blocked w a) (Blocked w' a) a); eauto; try (now left).
            eapply inv_nodup; eauto. }
    destruct X as (l1 & -> & E1 & I' & NB).
    destruct I' as [J1 J2 J3 J4 J5 J6]. cbn [qs cl ql] in *.
    constructor; cbn [qs cl ql].
    + exact J1.
    + destruct (perm_lset _ _ _ E1) as (X & A & P). eapply perm_trans; [apply P|].
      eapply perm_trans; [|exact J2]. eapply perm_trans; [|apply Permutation_sym, A].
      unfold p'. destruct k; apply Permutation_refl.
    + intros i q. rewrite (nth_lset _ _ _ _ _ E1). destruct (Nat.eqb c i); [intros [= <-]|apply J3].
      pose proof (J3 c _ E1) as O1. unfold p'. destruct k; cbn [pok cls] in *; auto.
    + rewrite (sumf_lset _ _ _ _ _ E1). unfold p'. destruct k; cbn [incs]; lia.
    + rewrite (sumf_lset _ _ _ _ _ E1). unfold p'. destruct k; cbn [incs]; lia.
    + intros i w l. rewrite (nth_lset _ _ _ _ _ E1). destruct (Nat.eqb_spec c i) as [->|N].
      * intros Eb. unfold p' in Eb. destruct k; discriminate.
      * intros Ei W. destruct (J6 i w l Ei W) as (j & q & Ej & Ij). exists j, q. split; [|exact Ij].
        rewrite (nth_lset _ _ _ _ _ E1). destruct (Nat.eqb_spec c j) as [->|]; [|exact Ej].
        exfalso. rewrite E1 in Ej. injection Ej as <-. cbn [pend] in Ij. destruct Ij as [<-|[]].
        apply (NB i w Ei).
  - exists g, r, f; auto.
Qed.

(** ** Whole executions *)

Lemma chain_init base m k j :
  0 < base -> (0 < k)%nat -> (j + k = m)%nat ->
  chain (init_nodes base m) (base + 128 * Z.of_nat j) (map (fun i => base + 128 * Z.of_nat i) (seq j k)).
Proof.
  intros Hb. revert j; induction k as [|k IH]; intros j Hk Hm; [lia|].
  cbn [seq map chain]. split; [reflexivity|].
  assert (X : ncell (init_nodes base m (base + 128 * Z.of_nat j)) =
     if base + 128 * Z.of_nat j =? base + 128 * (Z.of_nat m - 1) then 0 else base + 128 * Z.of_nat j + 128)
    by reflexivity.
  rewrite X.
  destruct k as [|k].
  - destruct (Z.eqb_spec (base + 128 * Z.of_nat j) (base + 128 * (Z.of_nat m - 1))) as [|N]; [reflexivity|].
    exfalso. apply N. lia.
  - destruct (Z.eqb_spec (base + 128 * Z.of_nat j) (base + 128 * (Z.of_nat m - 1))) as [N|_]; [lia|].
    replace (base + 128 * Z.of_nat j + 128) with (base + 128 * Z.of_nat (S j)) by lia.
    apply IH; lia.
Qed.

Definition cells_of (base : Z) (m : nat) : list Z := map (fun i => base + 128 * Z.of_nat i) (seq 0 m).

Lemma Inv_init base m n : 0 < base -> (0 < m)%nat -> Inv (cells_of base m) (init base m n) [] [] (cells_of base m).
Proof.
  intros Hb Hm. constructor; unfold init; cbn [qs cl ql].
  - constructor; cbn [app nodes tail freelist tk now].
    + unfold cells_of. apply FinFun.Injective_map_NoDup; [|apply seq_NoDup]. intros x y H. lia.
    + unfold cells_of. intros H. apply in_map_iff in H. destruct H as (x & H & _). lia.
    + apply Permutation_refl.
    + exact I.
    + reflexivity.
    + unfold cells_of. pose proof (chain_init base m m 0 Hb Hm eq_refl) as C.
      replace (base + 128 * Z.of_nat 0) with base in C by lia. exact C.
    + unfold grants. cbn. repeat split; auto.
    + constructor.
    + constructor.
  - cbn [app]. unfold owners. assert (E : flat_map own (repeat (Idle 1) n) = []) by (induction n; auto).
    rewrite E. constructor.
  - intros i p E. apply nth_repeat in E. subst p. exact I.
  - rewrite sumf_repeat0 by reflexivity. reflexivity.
  - rewrite sumf_repeat0 by reflexivity. lia.
  - intros i w l E. apply nth_repeat in E. discriminate.
Qed.

(** Nobody is in the time-out branch. *)
Definition not_tmo (p : pc) : Prop :=
  match p with QTry (KTmo _) | QSpin (KTmo _) | QBody (KTmo _) => False | _ => True end.
Definition NT (s : st) : Prop := forall i p, nth_error (cl s) i = Some p -> not_tmo p.

Lemma NT_lset l c p p' :
  nth_error l c = Some p -> not_tmo p' -> (forall i q, nth_error l i = Some q -> not_tmo q) ->
  forall i q, nth_error (lset c p' l) i = Some q -> not_tmo q.
Proof.
  intros E N H i q. rewrite (nth_lset _ _ _ _ _ E). destruct (Nat.eqb c i); [intros [= <-]; exact N|apply H].
Qed.

Lemma not_tmo_woken w l : not_tmo (woken w l). Proof. destruct w; exact I. Qed.

Lemma NT_wake a l :
  (forall i q, nth_error l i = Some q -> not_tmo q) ->
  forall i q, nth_error (wake a l) i = Some q -> not_tmo q.
Proof.
  intros H. destruct (wake_cases a l) as [[E _]|(i & w & Ei & E)]; rewrite E; [exact H|].
  eapply NT_lset; eauto. apply not_tmo_woken.
Qed.

Lemma NT_step s e : is_timeout e = false -> NT s -> NT (step s e).
Proof.
  intros T H. unfold NT in *.
  destruct e as [c|c|c|c|c|c]; try discriminate T; cbn [step];
    (destruct (nth_error (cl s) c) as [p|] eqn:E; [|exact H]); pose proof (H c p E) as Hp.
  1,2,3,5: cbn [cl]; eapply NT_lset; [exact E| |exact H];
    destruct p as [ | | | | | | |w l| |[ ] l]; cbn [ccall]; auto; try apply not_tmo_woken; exact I.
  destruct p as [r|k|k|k|a|w l|w l|w l|a k|w l]; cbn [run1]; try exact H.
  - destruct (ql s =? 0); cbn [cl]; eapply NT_lset; eauto.
  - destruct (ql s =? 0); cbn [cl]; [eapply NT_lset; eauto|exact H].
  - destruct (body k (qs s)) as [q a]. cbn [cl]. eapply NT_lset; eauto. exact I.
  - cbn [cl]. eapply NT_lset; eauto. destruct a; cbn [cont]; try exact I; destruct (a =? 0); exact I.
  - destruct (_ =? 0); cbn [cl]; eapply NT_lset; eauto; try exact I.
  - destruct (_ =? 1); cbn [cl]; eapply NT_lset; eauto; try exact I; apply not_tmo_woken.
  - cbn [cl]. intros i q. destruct (nth_error (wake a (cl s)) c) as [p|] eqn:E2.
    + eapply NT_lset; [exact E2| |apply NT_wake, H]. destruct k; exact I.
    + assert (L : nth_error (lset c (match k with Some l => Hold false l | None => Idle 1 end) (wake a (cl s))) i
                  = nth_error (wake a (cl s)) i).
      { clear -E2. revert c i E2. generalize (wake a (cl s)) as l. induction l as [|x l IH]; intros [|c] i E2; cbn in *; auto; try discriminate.
        destruct i; cbn; auto. }
      rewrite L. apply NT_wake, H.
Qed.

Lemma Inv_exec cells es s g r f :
  Inv cells s g r f -> clean es s = true ->
  exists g' r' f', Inv cells (exec es s) g' r' f' /\
    (no_timeout es = true -> NT s -> g <> [] \/ r = [] -> NT (exec es s) /\ (g' <> [] \/ r' = [])).
Proof.
  revert s g r f; induction es as [|e es IH]; intros s g r f I C.
  - exists g, r, f. cbn [exec fold_left]. auto.
  - cbn [clean] in C. apply andb_true_iff in C. destruct C as [C1 C2].
    destruct (Inv_step cells s e g r f I C1) as (g1 & r1 & f1 & I1 & L1).
    destruct (IH _ _ _ _ I1 C2) as (g2 & r2 & f2 & I2 & L2).
    exists g2, r2, f2. split; [exact I2|]. intros T N LV. unfold no_timeout in *. cbn [forallb] in T.
    apply andb_true_iff in T. destruct T as [T1 T2]. apply negb_true_iff in T1.
    apply (L2 T2); [now apply NT_step|]. apply L1; auto.
    intros i l. repeat split; intros E; exact (N _ _ E).
Qed.

Lemma Inv_reach base m n es :
  0 < base -> (0 < m)%nat -> clean es (init base m n) = true ->
  exists g r f, Inv (cells_of base m) (exec es (init base m n)) g r f /\
    (no_timeout es = true -> NT (exec es (init base m n)) /\ (g <> [] \/ r = [])).
Proof.
  intros Hb Hm C. destruct (Inv_exec _ es _ _ _ _ (Inv_init base m n Hb Hm) C) as (g & r & f & I & L).
  exists g, r, f. split; [exact I|]. intros T. apply L; auto.
  intros i p E. apply nth_repeat in E. subst p. exact Logic.I.
Qed.

(** Mutual exclusion. *)
Lemma q_exclusive base m n es i j w l l' :
  0 < base -> (0 < m)%nat -> clean es (init base m n) = true ->
  let s := exec es (init base m n) in
  nth_error (cl s) i = Some (Hold true l) -> nth_error (cl s) j = Some (Hold w l') -> i = j.
Proof.
  intros Hb Hm C s Ei Ej. destruct (Inv_reach base m n es Hb Hm C) as (g & r & f & I & _). fold s in I.
  pose proof (iv_pok _ _ _ _ _ I i _ Ei) as [Ci Wi]. pose proof (iv_pok _ _ _ _ _ I j _ Ej) as [Cj Wj].
  pose proof (inv_own_in _ _ _ _ _ i _ l I Ei (or_introl eq_refl)) as Oi.
  pose proof (inv_own_in _ _ _ _ _ j _ l' I Ej (or_introl eq_refl)) as Oj.
  pose proof (granted_in _ _ _ _ _ _ (iv_q _ _ _ _ _ I) Oi Wi) as Gi.
  pose proof (granted_in _ _ _ _ _ _ (iv_q _ _ _ _ _ I) Oj Wj) as Gj.
  rewrite (granted_writer _ _ _ _ _ _ (iv_q _ _ _ _ _ I) Gi Ci) in Gj. destruct Gj as [<-|[]].
  eapply (own_unique (cl s)); [eapply inv_nodup; eauto|exact Ei|exact Ej|now left|now left].
Qed.

(** At most one client is inside a section protected by the queue mutex. *)
Lemma q_mutex base m n es i j p q :
  0 < base -> (0 < m)%nat -> clean es (init base m n) = true ->
  let s := exec es (init base m n) in
  nth_error (cl s) i = Some p -> nth_error (cl s) j = Some q -> incs p = 1 -> incs q = 1 -> i = j.
Proof.
  intros Hb Hm C s Ei Ej Pi Pj. destruct (Inv_reach base m n es Hb Hm C) as (g & r & f & I & _). fold s in I.
  destruct (Nat.eq_dec i j) as [|N]; [assumption|exfalso].
  pose proof (sumf_ge2 incs _ i j _ _ (fun a => proj1 (incs01 a)) N Ei Ej) as G.
  pose proof (iv_cs _ _ _ _ _ I). lia.
Qed.

(** Queue order: whoever holds the lock joined the queue before everybody
    whose turn has not come. *)
Lemma q_order base m n es i j w l p l' :
  0 < base -> (0 < m)%nat -> clean es (init base m n) = true ->
  let s := exec es (init base m n) in
  nth_error (cl s) i = Some (Hold w l) -> nth_error (cl s) j = Some p -> own p = [l'] ->
  waiting (nodes (qs s) l') <> 0 -> tk (qs s) l < tk (qs s) l'.
Proof.
  intros Hb Hm C s Ei Ej Op Wn. destruct (Inv_reach base m n es Hb Hm C) as (g & r & f & I & _). fold s in I.
  pose proof (iv_pok _ _ _ _ _ I i _ Ei) as [Ci Wi].
  pose proof (inv_own_in _ _ _ _ _ i _ l I Ei (or_introl eq_refl)) as Oi.
  assert (Oj : In l' (g ++ r)) by (eapply inv_own_in; [exact I|exact Ej|rewrite Op; now left]).
  pose proof (granted_in _ _ _ _ _ _ (iv_q _ _ _ _ _ I) Oi Wi) as Gi.
  destruct (qi_gr _ _ _ _ _ (iv_q _ _ _ _ _ I)) as (G1 & _). rewrite Forall_forall in G1.
  apply in_app_or in Oj. destruct Oj as [Oj|Oj]; [now specialize (G1 l' Oj)|].
  pose proof (qi_tk _ _ _ _ _ (iv_q _ _ _ _ _ I)) as S. clear -S Gi Oj.
  induction g as [|x g IH]; [destruct Gi|]. cbn [app] in S. inversion_clear S as [|? ? S1 S2].
  destruct Gi as [->|Gi]; [|now apply IH]. rewrite Forall_forall in S2. apply S2. apply in_or_app. now right.
Qed.

(** When all calls have returned and nobody holds the lock, the queue is
    empty, the mutex is free and the next attempt succeeds at once. *)
Lemma q_quiet base m n es :
  0 < base -> (0 < m)%nat -> clean es (init base m n) = true ->
  let s := exec es (init base m n) in
  (forall i p, nth_error (cl s) i = Some p -> exists r, p = Idle r) ->
  tail (qs s) = 0 /\ ql s = 0 /\ freelist (qs s) <> 0 /\
  exists f, chain (nodes (qs s)) (freelist (qs s)) f /\ Permutation f (cells_of base m).
Proof.
  intros Hb Hm C s Q. destruct (Inv_reach base m n es Hb Hm C) as (g & r & f & I & _). fold s in I.
  assert (E : g ++ r = []).
  { assert (O : owners (cl s) = []).
    { unfold owners. generalize dependent (cl s). intros l Q. clear -Q. induction l as [|p l IH]; [reflexivity|].
      cbn [flat_map]. destruct (Q O p eq_refl) as [r ->]. cbn [own app]. apply IH. intros i q E. exact (Q (S i) q E). }
    pose proof (iv_own _ _ _ _ _ I) as P. rewrite O in P. now apply Permutation_nil in P. }
  destruct I as [Iq _ _ Iql _ _]. destruct Iq as [Q1 Q2 Q3 Q4 Q5 Q6 Q7 Q8 Q9].
  rewrite E in *. cbn [app last] in *. split; [exact Q5|]. split.
  { rewrite Iql. apply sumf_zero. intros i a Ei. destruct (Q i a Ei) as [x ->]. reflexivity. }
  split.
  - destruct f as [|x f].
    + apply Permutation_nil in Q3. unfold cells_of in Q3. destruct m; [lia|discriminate].
    + cbn [chain] in Q6. destruct Q6 as [-> _]. intros Z. apply Q2. left. exact Z.
  - exists f. auto.
Qed.

Lemma run_step s c p : nth_error (cl s) c = Some p -> step s (Run c) = run1 s c p.
Proof. intros E. cbn [step]. now rewrite E. Qed.

(** [k] steps of client [c] bring it into the lock. *)
Definition enters (k : nat) (s : st) (c : nat) : Prop :=
  exists w l, nth_error (cl (exec (repeat (Run c) k) s)) c = Some (Hold w l).

Lemma enters_step k s c p :
  nth_error (cl s) c = Some p -> enters k (run1 s c p) c -> enters (S k) s c.
Proof.
  intros E H. unfold enters in *. cbn [repeat]. unfold exec in *. cbn [fold_left].
  now rewrite (run_step _ _ _ E).
Qed.

Lemma enters_0 s c w l : nth_error (cl s) c = Some (Hold w l) -> enters 0 s c.
Proof. intros E. exists w, l. exact E. Qed.

Lemma wake_other a l c k : nth_error l c = Some (Wake a k) -> nth_error (wake a l) c = Some (Wake a k).
Proof.
  intros E. destruct (wake_cases a l) as [[Ew _]|(i & w & Ei & Ew)]; rewrite Ew; [exact E|].
  rewrite nth_lset_other; [exact E|]. intros ->. congruence.
Qed.

Lemma enters_wake s c a l : nth_error (cl s) c = Some (Wake a (Some l)) -> enters 1 s c.
Proof.
  intros E. eapply enters_step; [exact E|]. cbn [run1]. eapply enters_0. cbn [cl].
  eapply nth_lset_same. apply (wake_other _ _ _ _ E).
Qed.

Lemma enters_casc s c l : ql s = 0 -> nth_error (cl s) c = Some (QTry (KCasc l)) ->
  exists k, (k <= 4)%nat /\ enters k s c.
Proof.
  intros Q E.
  assert (X : exists q a, body (KCasc l) (qs s) = (q, AWakeHold a l)).
  { cbn [body]. unfold body_casc. destruct (_ && _ && _); eauto. }
  destruct X as (q & a & X).
  assert (S1 : enters 0 (mk 0 q (lset c (cont (AWakeHold a l)) (lset c (QUnl (AWakeHold a l)) (lset c (QBody (KCasc l)) (cl s))))) c \/
               enters 1 (mk 0 q (lset c (cont (AWakeHold a l)) (lset c (QUnl (AWakeHold a l)) (lset c (QBody (KCasc l)) (cl s))))) c).
  { assert (N : nth_error (lset c (cont (AWakeHold a l)) (lset c (QUnl (AWakeHold a l)) (lset c (QBody (KCasc l)) (cl s)))) c
                = Some (cont (AWakeHold a l))).
    { eapply nth_lset_same. eapply nth_lset_same. eapply nth_lset_same. exact E. }
    cbn [cont] in *. destruct (a =? 0).
    - left. eapply enters_0. exact N.
    - right. eapply enters_wake. exact N. }
  assert (S2 : forall k, enters k (mk 0 q (lset c (cont (AWakeHold a l)) (lset c (QUnl (AWakeHold a l)) (lset c (QBody (KCasc l)) (cl s))))) c
     -> enters (S (S (S k))) s c).
  { intros k H. eapply enters_step; [exact E|]. cbn [run1]. rewrite Q. change (0 =? 0) with true. cbv iota.
    eapply enters_step; [eapply nth_lset_same; exact E|]. cbn [run1 qs cl ql]. rewrite X.
    eapply enters_step; [eapply nth_lset_same; eapply nth_lset_same; exact E|]. cbn [run1 qs cl ql]. exact H. }
  destruct S1 as [S1|S1]; apply S2 in S1; eauto.
Qed.

Lemma enters_casc' s c l : ql s = 0 -> nth_error (cl s) c = Some (QSpin (KCasc l)) ->
  exists k, (k <= 5)%nat /\ enters k s c.
Proof.
  intros Q E.
  assert (X : exists k, (k <= 4)%nat /\ enters k (run1 s c (QSpin (KCasc l))) c).
  { cbn [run1]. rewrite Q. change (0 =? 0) with true. cbv iota. apply (enters_casc _ c l); [reflexivity|].
    eapply nth_lset_same; exact E. }
  destruct X as (k & Hk & X). exists (S k). split; [lia|]. eapply enters_step; eauto.
Qed.

(** On an empty queue with a free cell. *)
Lemma enters_empty s c w :
  ql s = 0 -> tail (qs s) = 0 -> freelist (qs s) <> 0 -> nth_error (cl s) c = Some (QTry (KLock w)) ->
  enters 4 s c.
Proof.
  intros Q T F E.
  eapply enters_step; [exact E|]. cbn [run1]. rewrite Q. change (0 =? 0) with true. cbv iota.
  eapply enters_step; [eapply nth_lset_same; exact E|]. cbn [run1 qs cl ql body].
  unfold body_lock, alloc_lock. destruct (Z.eqb_spec (freelist (qs s)) 0) as [|NZ]; [congruence|].
  cbn [tail nodes freelist tk now].
  destruct (Z.eqb_spec (freelist (qs s)) 0) as [|_]; [congruence|]. rewrite T. change (0 =? 0) with true. cbv iota.
  eapply enters_step; [eapply nth_lset_same; eapply nth_lset_same; exact E|]. cbn [run1 qs cl ql cont].
  eapply enters_step; [eapply nth_lset_same; eapply nth_lset_same; eapply nth_lset_same; exact E|].
  cbn [run1 qs cl ql nodes]. unfold set_waiting at 1, setnode at 1. rewrite Z.eqb_refl. cbn [waiting].
  change (0 =? 0) with true. cbv iota.
  eapply enters_0. cbn [cl]. eapply nth_lset_same. eapply nth_lset_same. eapply nth_lset_same. eapply nth_lset_same. exact E.
Qed.

Lemma enters_empty' s c w :
  ql s = 0 -> tail (qs s) = 0 -> freelist (qs s) <> 0 -> nth_error (cl s) c = Some (QSpin (KLock w)) ->
  enters 5 s c.
Proof.
  intros Q T F E. eapply enters_step; [exact E|]. cbn [run1]. rewrite Q. change (0 =? 0) with true. cbv iota.
  eapply enters_empty; [reflexivity|exact T|exact F|]. cbn [cl]. eapply nth_lset_same; exact E.
Qed.

Lemma q_free base m n es w c x :
  0 < base -> (0 < m)%nat -> clean es (init base m n) = true ->
  let s := exec es (init base m n) in
  (forall i p, nth_error (cl s) i = Some p -> exists r, p = Idle r) ->
  nth_error (cl s) c = Some x ->
  let e := if w : bool then StartWrite c else StartRead c in
  exists w' l, nth_error (cl (exec (e :: repeat (Run c) 4) s)) c = Some (Hold w' l).
Proof.
  intros Hb Hm C s Q E e. destruct (q_quiet base m n es Hb Hm C Q) as (T & L & F & _).
  destruct (Q c x E) as [r ->].
  assert (H : enters 4 (mk (ql s) (qs s) (lset c (QTry (KLock w)) (cl s))) c).
  { apply (enters_empty _ c w); [exact L|exact T|exact F|]. cbn [cl]. eapply nth_lset_same; exact E. }
  unfold exec. cbn [fold_left]. unfold enters, exec in H.
  replace (step s e) with (mk (ql s) (qs s) (lset c (QTry (KLock w)) (cl s))); [exact H|].
  unfold e. destruct w; cbn [step]; rewrite E; reflexivity.
Qed.

(** ** No deadlock *)

(** Inside a call that asks for the lock. *)
Definition inlock (p : pc) : Prop :=
  match p with
  | QTry k | QSpin k | QBody k => match k with KLock _ | KCasc _ => True | _ => False end
  | QUnl a => match a with AChk _ _ | AWakeHold _ _ => True | _ => False end
  | Chk _ _ | FWait _ _ | Blocked _ _ | Wake _ (Some _) => True
  | _ => False
  end.
(** Holding the lock, or inside a release. *)
Definition leaving (p : pc) : Prop :=
  match p with
  | QTry k | QSpin k | QBody k => match k with KWUnlock _ | KRUnlock _ => True | _ => False end
  | QUnl (AWake _) => True
  | Hold _ _ | Wake _ None => True
  | _ => False
  end.

Definition Good (cells : list Z) (s : st) (g r f : list Z) : Prop :=
  Inv cells s g r f /\ NT s /\ (g <> [] \/ r = []) /\
  (forall i p, nth_error (cl s) i = Some p -> ~ leaving p).
Definition someone (s : st) (g : list Z) : Prop :=
  (exists i p, nth_error (cl s) i = Some p /\ inlock p) \/ g <> [].

Lemma free_not_incs cells s g r f i p :
  Inv cells s g r f -> ql s = 0 -> nth_error (cl s) i = Some p -> incs p = 0.
Proof.
  intros I Q E. pose proof (iv_ql _ _ _ _ _ I) as H.
  pose proof (sumf_ge incs _ i _ (fun a => proj1 (incs01 a)) E) as G.
  pose proof (incs01 p). lia.
Qed.

Lemma enters_le k s c : enters k s c -> forall b, (k <= b)%nat ->
  exists k, (k <= b)%nat /\ enters k s c.
Proof. intros H b L. eauto. Qed.

Lemma progress_free cells s g r f :
  cells <> [] -> Good cells s g r f -> ql s = 0 -> someone s g ->
  exists c k, (k <= 6)%nat /\ enters k s c.
Proof.
  intros NC (I & N & LV & NL) Q W.
  destruct g as [|x g].
  - destruct LV as [LV|LV]; [congruence|]. subst r. destruct W as [(i & p & E & Ip)|W]; [|congruence].
    assert (O : own p = []).
    { destruct (own p) as [|y t] eqn:Eo; [reflexivity|exfalso].
      assert (H : In y ([] ++ [])) by (eapply inv_own_in; [exact I|exact E|rewrite Eo; now left]). destruct H. }
    pose proof (free_not_incs _ _ _ _ _ _ _ I Q E) as Inc.
    pose proof (iv_q _ _ _ _ _ I) as Iq.
    assert (F : freelist (qs s) <> 0).
    { destruct f as [|y f].
      - pose proof (qi_perm _ _ _ _ _ Iq) as P. cbn [app] in P. apply Permutation_nil in P. congruence.
      - pose proof (qi_chain _ _ _ _ _ Iq) as C. cbn [chain] in C. destruct C as [-> _].
        intros Z. apply (qi_nz _ _ _ _ _ Iq). left. exact Z. }
    pose proof (qi_tail _ _ _ _ _ Iq) as T. cbn [app last] in T.
    exists i. destruct p as [rr|k|k|k|a|w l|w l|w l|a [k|]|w l]; cbn [inlock own incs] in *; try contradiction; try discriminate; try lia.
    + destruct k; cbn [kown] in O; try discriminate; try contradiction. exists 4%nat. split; [lia|]. eapply enters_empty; eauto.
    + destruct k; cbn [kown] in O; try discriminate; try contradiction. exists 5%nat. split; [lia|]. eapply enters_empty'; eauto.
  - clear W.
    assert (X : exists i p, nth_error (cl s) i = Some p /\ In x (own p)).
    { assert (H : In x (owners (cl s))).
      { eapply Permutation_in; [apply Permutation_sym, (iv_own _ _ _ _ _ I)|]. now left. }
      unfold owners in H. apply in_flat_map in H. destruct H as (p & Hp & Hx).
      apply In_nth_error in Hp. destruct Hp as [i Hi]. eauto. }
    destruct X as (i & p & E & Hx).
    assert (W0 : waiting (nodes (qs s) x) = 0).
    { destruct (qi_gr _ _ _ _ _ (iv_q _ _ _ _ _ I)) as (G1 & _). now inversion_clear G1. }
    pose proof (free_not_incs _ _ _ _ _ _ _ I Q E) as Inc.
    pose proof (NL i p E) as NLp. pose proof (N i p E) as Np.
    destruct p as [rr|k|k|k|a|w l|w l|w l|a [k|]|w l]; cbn [own incs leaving not_tmo] in *; try contradiction; try lia.
    + destruct k; cbn [kown] in Hx; try contradiction; try (exfalso; now apply NLp).
      exists i. destruct (enters_casc s i l Q E) as (k & Hk & H). exists k. split; [lia|exact H].
    + destruct k; cbn [kown] in Hx; try contradiction; try (exfalso; now apply NLp).
      exists i. destruct (enters_casc' s i l Q E) as (k & Hk & H). exists k. split; [lia|exact H].
    + destruct Hx as [->|[]]. exists i, 1%nat. split; [lia|]. eapply enters_step; [exact E|]. cbn [run1].
      rewrite W0. change (0 =? 0) with true. cbv iota. eapply enters_0. cbn [cl]. eapply nth_lset_same; exact E.
    + destruct Hx as [->|[]].
      assert (S1 : run1 s i (FWait w x) = mk (ql s) (qs s) (lset i (woken w x) (cl s))).
      { cbn [run1]. rewrite W0. reflexivity. }
      assert (E1 : nth_error (lset i (woken w x) (cl s)) i = Some (woken w x)) by (eapply nth_lset_same; exact E).
      destruct w; cbn [woken] in *.
      * exists i, 1%nat. split; [lia|]. eapply enters_step; [exact E|]. rewrite S1. eapply enters_0. exact E1.
      * destruct (enters_casc (mk (ql s) (qs s) (lset i (QTry (KCasc x)) (cl s))) i x Q E1) as (k & Hk & H).
        exists i, (S k). split; [lia|]. eapply enters_step; [exact E|]. rewrite S1. exact H.
    + destruct Hx as [->|[]]. destruct (iv_pend _ _ _ _ _ I i w x E W0) as (j & q & Ej & Ij).
      pose proof (free_not_incs _ _ _ _ _ _ _ I Q Ej) as Incj. pose proof (NL j q Ej) as NLq.
      destruct q as [rr|k|k|k|a|w' l|w' l|w' l|a [k|]|w' l]; cbn [pend incs leaving] in *; try contradiction; try lia.
      exists j, 1%nat. split; [lia|]. eapply enters_wake; exact Ej.
    + exists i, 1%nat. split; [lia|]. eapply enters_wake; exact E.
Qed.

Lemma Good_run cells s g r f c p :
  Good cells s g r f -> nth_error (cl s) c = Some p -> (forall a k, p <> Wake a k) ->
  (forall q, nth_error (cl (run1 s c p)) c = Some q -> ~ leaving q) ->
  exists g' r' f', Good cells (run1 s c p) g' r' f'.
Proof.
  intros (I & N & LV & NL) E NW NLq. rewrite <- (run_step _ _ _ E).
  assert (C : clean1 s (Run c) = true).
  { cbn [clean1]. rewrite E. destruct p; try reflexivity. exfalso. eapply NW. reflexivity. }
  destruct (Inv_step cells s (Run c) g r f I C) as (g' & r' & f' & I' & L').
  exists g', r', f'. split; [exact I'|]. split; [now apply NT_step|]. split.
  { apply L'; auto. intros i l. repeat split; intros Ei; exact (N _ _ Ei). }
  intros i q Eq. destruct (Nat.eq_dec i c) as [->|Nic].
  { apply NLq. rewrite <- (run_step _ _ _ E). exact Eq. }
  rewrite (run_step _ _ _ E) in Eq.
  assert (Eq' : nth_error (cl s) i = Some q).
  { destruct p as [rr|k|k|k|a|w l|w l|w l|a k|w l]; cbn [run1] in Eq; try exact Eq.
    - destruct (ql s =? 0); cbn [cl] in Eq; rewrite nth_lset_other in Eq by congruence; exact Eq.
    - destruct (ql s =? 0); cbn [cl] in Eq; [rewrite nth_lset_other in Eq by congruence|]; exact Eq.
    - destruct (body k (qs s)); cbn [cl] in Eq; rewrite nth_lset_other in Eq by congruence; exact Eq.
    - cbn [cl] in Eq; rewrite nth_lset_other in Eq by congruence; exact Eq.
    - destruct (_ =? 0); cbn [cl] in Eq; rewrite nth_lset_other in Eq by congruence; exact Eq.
    - destruct (_ =? 1); cbn [cl] in Eq; rewrite nth_lset_other in Eq by congruence; exact Eq.
    - exfalso. eapply NW. reflexivity. }
  exact (NL i q Eq').
Qed.

Definition only_runs (es : list ev) : Prop := Forall (fun e => exists c, e = Run c) es.

Definition reaches (b : nat) (s : st) : Prop :=
  exists es c w l, only_runs es /\ (length es <= b)%nat /\ nth_error (cl (exec es s)) c = Some (Hold w l).

Lemma reaches_step b s c p : nth_error (cl s) c = Some p -> reaches b (run1 s c p) -> reaches (S b) s.
Proof.
  intros E (es & d & w & l & O & Le & H). exists (Run c :: es), d, w, l.
  split; [constructor; eauto|]. split; [cbn; lia|]. unfold exec in *. cbn [fold_left].
  now rewrite (run_step _ _ _ E).
Qed.

Lemma reaches_enters k s c b : (k <= b)%nat -> enters k s c -> reaches b s.
Proof.
  intros L (w & l & H). exists (repeat (Run c) k), c, w, l. split.
  - apply Forall_forall. intros e He. apply repeat_spec in He. eauto.
  - rewrite repeat_length. auto.
Qed.

Lemma progress_unl cells s g r f c a :
  cells <> [] -> Good cells s g r f -> nth_error (cl s) c = Some (QUnl a) -> someone s g -> reaches 7 s.
Proof.
  intros NC G E W. eapply reaches_step; [exact E|].
  pose proof G as (I & N & LV & NL). pose proof (NL c _ E) as NLa. cbn [leaving] in NLa.
  assert (E1 : nth_error (cl (run1 s c (QUnl a))) c = Some (cont a)).
  { cbn [run1 cl]. eapply nth_lset_same; exact E. }
  assert (D : (exists w l, cont a = Hold w l) \/ ~ leaving (cont a)).
  { destruct a; cbn [cont]; auto; try (exfalso; now apply NLa). destruct (a =? 0); eauto. }
  destruct D as [(w & l & D)|D].
  { rewrite D in E1. apply (reaches_enters 0 _ c); [lia|]. eapply enters_0; exact E1. }
  destruct (Good_run cells s g r f c _ G E) as (g' & r' & f' & G'); [discriminate| |].
  { intros q Hq. rewrite E1 in Hq. injection Hq as <-. exact D. }
  assert (W' : someone (run1 s c (QUnl a)) g').
  { destruct (Nat.eq_dec 0 0) as [_|]; [|congruence].
    assert (K : (exists i p, nth_error (cl s) i = Some p /\ inlock p) -> someone (run1 s c (QUnl a)) g').
    { intros (i & p & Ei & Ip). destruct (Nat.eq_dec c i) as [<-|Nic].
      - rewrite E in Ei. injection Ei as <-. left. exists c, (cont a). split; [exact E1|].
        destruct a; cbn [inlock cont leaving] in *; try contradiction; auto. destruct (a =? 0); cbn in *; auto.
      - left. exists i, p. split; [|exact Ip]. cbn [run1 cl]. rewrite nth_lset_other by exact Nic. exact Ei. }
    destruct W as [W|W]; [exact (K W)|].
    (* somebody owns the first cell *)
    destruct g as [|x g]; [congruence|].
    assert (H : In x (owners (cl s))).
    { eapply Permutation_in; [apply Permutation_sym, (iv_own _ _ _ _ _ I)|]. now left. }
    unfold owners in H. apply in_flat_map in H. destruct H as (p & Hp & Hx).
    apply In_nth_error in Hp. destruct Hp as [i Hi]. apply K. exists i, p. split; [exact Hi|].
    pose proof (NL i p Hi) as Q1. pose proof (N i p Hi) as Q2.
    destruct p as [rr|k|k|k|aa|w l|w l|w l|aa [k|]|w l]; cbn [own leaving inlock not_tmo] in *; try contradiction; auto;
      try (destruct k; cbn [kown] in *; try contradiction; now auto).
    destruct aa; cbn [aown] in *; try contradiction; auto. }
  assert (Q0 : ql (run1 s c (QUnl a)) = 0) by reflexivity.
  destruct (progress_free cells _ _ _ _ NC G' Q0 W') as (d & k & Hk & H).
  eapply reaches_enters; [exact Hk|exact H].
Qed.

Lemma progress_body cells s g r f c k :
  cells <> [] -> Good cells s g r f -> nth_error (cl s) c = Some (QBody k) -> someone s g -> reaches 8 s.
Proof.
  intros NC G E W. eapply reaches_step; [exact E|].
  pose proof G as (I & N & LV & NL). pose proof (NL c _ E) as NLa. pose proof (N c _ E) as Na.
  destruct (body k (qs s)) as [q a] eqn:B.
  assert (S : run1 s c (QBody k) = mk (ql s) q (lset c (QUnl a) (cl s))) by (cbn [run1]; now rewrite B).
  assert (E1 : nth_error (cl (run1 s c (QBody k))) c = Some (QUnl a)).
  { rewrite S. cbn [cl]. eapply nth_lset_same; exact E. }
  assert (D : inlock (QUnl a) \/ (q = qs s /\ a = ARet 0 /\ freelist (qs s) = 0)).
  { destruct k; cbn [body leaving not_tmo] in *; try contradiction; try (exfalso; now apply NLa).
    - unfold body_lock, alloc_lock in B. destruct (Z.eqb_spec (freelist (qs s)) 0) as [Z|NZ].
      + rewrite Z.eqb_refl in B. injection B as <- <-. auto.
      + destruct (Z.eqb_spec (freelist (qs s)) 0); [congruence|]. injection B as _ <-. left. exact Logic.I.
    - unfold body_casc in B. destruct (_ && _ && _); injection B as _ <-; left; exact Logic.I. }
  assert (D2 : ~ leaving (QUnl a)).
  { destruct D as [D|(_ & -> & _)]; [|cbn; auto]. destruct a; cbn in *; auto. }
  destruct (Good_run cells s g r f c _ G E) as (g' & r' & f' & G'); [discriminate| |].
  { intros p Hp. rewrite E1 in Hp. injection Hp as <-. exact D2. }
  eapply progress_unl; [exact NC|exact G'|exact E1|].
  destruct D as [D|(-> & -> & F0)].
  - left. exists c, (QUnl a). auto.
  - right. destruct G' as (I' & _ & LV' & _). intros ->. destruct LV' as [?| ->]; [congruence|].
    pose proof (iv_q _ _ _ _ _ I') as Iq. rewrite S in Iq. cbn [qs] in Iq.
    pose proof (qi_chain _ _ _ _ _ Iq) as C. rewrite F0 in C. destruct f' as [|y f'].
    + pose proof (qi_perm _ _ _ _ _ Iq) as P. cbn [app] in P. apply Permutation_nil in P. congruence.
    + cbn [chain] in C. destruct C as [<- _]. apply (qi_nz _ _ _ _ _ Iq). now left.
Qed.

Lemma q_progress base m n es :
  0 < base -> (0 < m)%nat -> clean es (init base m n) = true -> no_timeout es = true ->
  let s := exec es (init base m n) in
  (forall i p, nth_error (cl s) i = Some p -> ~ leaving p) ->
  (exists i p, nth_error (cl s) i = Some p /\ inlock p) ->
  reaches 8 s.
Proof.
  intros Hb Hm C T s NL W. destruct (Inv_reach base m n es Hb Hm C) as (g & r & f & I & L).
  destruct (L T) as [N LV]. fold s in I, N.
  assert (NC : cells_of base m <> []) by (unfold cells_of; destruct m; [lia|discriminate]).
  assert (G : Good (cells_of base m) s g r f) by (exact (conj I (conj N (conj LV NL)))).
  assert (W' : someone s g) by (now left).
  destruct (Z.eq_dec (ql s) 0) as [Q|Q].
  - destruct (progress_free _ _ _ _ _ NC G Q W') as (c & k & Hk & H).
    eapply reaches_enters; [|exact H]. lia.
  - assert (P : 0 < sumf incs (cl s)).
    { rewrite <- (iv_ql _ _ _ _ _ I). pose proof (ql01 _ _ _ _ _ I). lia. }
    destruct (sumf_pos incs (cl s) (fun a => proj1 (incs01 a)) P) as (c & p & E & Pp).
    destruct p as [rr|k|k|k|a|w l|w l|w l|a k|w l]; cbn [incs] in Pp; try lia.
    + exact (progress_body _ _ _ _ _ _ _ NC G E W').
    + destruct (progress_unl _ _ _ _ _ _ _ NC G E W') as (es' & d & w & l & A1 & A2 & A3).
      exists es', d, w, l. split; [exact A1|]. split; [lia|exact A3].
Qed.
