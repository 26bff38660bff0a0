(** Subsumption of clauses (Reasoner/subsume.c). *)
From Coq Require Import ZArith List Bool Lia.
From Verif Require Import Base EncodingModel CompareModel UnistrModel UnifyModel UnifySpec UnifyProofs UnifyTotal MatchProofs ResolveModel ResolveSpec BuildProofs ResolveProofs.
Import ListNotations.
Open Scope Z_scope.
#[local] Ltac Zify.zify_post_hook ::= Z.div_mod_to_equations.

(** The first clause subsumes the second: an instance of it is a part of the second, its
    literals being at different places. *)
Definition subsumes (l1 l2 : list (bool * term)) : Prop :=
  exists s js, NoDup js /\ Forall2 (fun q j => nth_error l2 j = Some (fst q, inst s (snd q))) l1 js.
(** The sign of a literal is 0 or ATOM_META_NEG. *)
Definition metas_ok (l : list (Z * Z)) : Prop := Forall (fun p => Z.land (fst p) ATOM_META_NEG = 0 \/ Z.land (fst p) ATOM_META_NEG = ATOM_META_NEG) l.
Definition ground (t : term) : Prop := forall v, ~ occurs v t.

Definition same (st st' : ust) : Prop := (forall v, u_vb st' v = u_vb st v) /\ u_stk st' = u_stk st.
Lemma same_refl st : same st st.
Proof. easy. Qed.
Lemma same_trans a b d : same a b -> same b d -> same a d.
Proof. intros (A & B) (E & F). split; [intros v; now rewrite E|now rewrite F]. Qed.
Lemma same_binds g st st' th : same st st' -> binds g (u_vb st') th <-> binds g (u_vb st) th.
Proof. intros (A & _). unfold binds. split; intros H v t; [rewrite <- (A v)|rewrite (A v)]; apply H. Qed.
Lemma same_bound g st st' : same st st' -> bound_ok g (u_vb st) -> bound_ok g (u_vb st').
Proof. intros (A & _) H v. rewrite (A v). apply H. Qed.
Lemma same_cov st st' : same st st' -> cov st -> cov st'.
Proof. intros (A & B) H v. rewrite (A v), B. apply H. Qed.
Lemma fold_un : forall l vb v, fold_left (fun vb v => upd vb v UNASSIGNED) l vb v = if in_dec Z.eq_dec v l then UNASSIGNED else vb v.
Proof.
  induction l as [|a l IH]; intros vb v; cbn [fold_left]; [reflexivity|]. rewrite IH. destruct (in_dec Z.eq_dec v l) as [J|J]; destruct (in_dec Z.eq_dec v (a :: l)) as [K|K]; try reflexivity.
  - contradiction K. now right.
  - destruct K as [->|K]; [|contradiction]. unfold upd. now rewrite Z.eqb_refl.
  - unfold upd. destruct (Z.eqb_spec v a) as [->|]; [contradiction K; now left|reflexivity].
Qed.
Lemma restore st st1 new : u_stk st1 = new ++ u_stk st -> (forall v, ~ In v new -> u_vb st1 v = u_vb st v) -> (forall v, In v new -> u_vb st v = UNASSIGNED) -> same st (wr_clear_varstack_topslice st1 (length (u_stk st))).
Proof.
  intros K O U. unfold wr_clear_varstack_topslice. rewrite K, app_length, Nat.add_sub. split; cbn [u_vb u_stk].
  - intros v. rewrite firstn_app, Nat.sub_diag, firstn_O, app_nil_r, firstn_all, fold_un. destruct (in_dec Z.eq_dec v new) as [J|J]; [symmetry; now apply U|now apply O].
  - now rewrite skipn_app, Nat.sub_diag, skipn_all.
Qed.
Lemma restore_same st st1 st2 new : u_stk st1 = new ++ u_stk st -> (forall v, ~ In v new -> u_vb st1 v = u_vb st v) -> (forall v, In v new -> u_vb st v = UNASSIGNED) -> same st1 st2 -> same st (wr_clear_varstack_topslice st2 (length (u_stk st))).
Proof. intros K O U (A & B). apply (restore st st2 new); [now rewrite B|intros v N; rewrite A; now apply O|exact U]. Qed.
Lemma binds_ex g st : cov st -> bound_ok g (u_vb st) -> exists th, binds g (u_vb st) th.
Proof.
  intros C B. assert (X : forall l, exists th, forall v, In v l -> u_vb st v <> UNASSIGNED -> rep g (u_vb st v) (th v)).
  { induction l as [|a l (th & IH)]; [exists TV; easy|]. destruct (Z.eq_dec (u_vb st a) UNASSIGNED) as [Ea|Ea].
    - exists th. intros v [<-|J] N; [contradiction|now apply IH].
    - destruct (B a Ea) as (t & Ra). exists (fun v => if v =? a then t else th v). intros v J N. destruct (Z.eqb_spec v a) as [->|D]; [exact Ra|]. destruct J as [->|J]; [contradiction|now apply IH]. }
  destruct (X (u_stk st)) as (th & H). exists th. intros v t N R. apply (rep_det g (u_vb st v)); [|exact R]. apply H; [now apply C|exact N].
Qed.

Lemma f2_length {A B} (P : A -> B -> Prop) l k : Forall2 P l k -> length l = length k.
Proof. induction 1; cbn; congruence. Qed.
(** Choices of places for the literals of the first clause. *)
Definition picks (l2 : list (bool * term)) (used : list bool) (th : Z -> term) (l1 : list (bool * term)) (js : list nat) : Prop :=
  NoDup js /\ Forall (fun j => nth j used true = false) js /\ Forall2 (fun q j => nth_error l2 j = Some (fst q, inst th (snd q))) l1 js.
Lemma set_nth_spec : forall used i j, nth j (set_nth i used) true = false <-> nth j used true = false /\ j <> i.
Proof.
  induction used as [|b used IH]; intros i j; cbn [set_nth]; [destruct i; destruct j; (split; [intros H; discriminate H|intros (H & _); discriminate H])|]. destruct i as [|i]; destruct j as [|j]; cbn [set_nth nth].
  - split; [discriminate|]. now intros (_ & N).
  - split; [intros H; split; [exact H|lia]|easy].
  - split; [intros H; split; [exact H|lia]|easy].
  - rewrite IH. split; intros (H & N); (split; [exact H|lia]).
Qed.
Lemma negpol_false m1 m2 : negpol m1 m2 = false -> is_neg m1 = is_neg m2.
Proof. unfold negpol, is_neg. intros H. apply negb_false_iff, Z.eqb_eq in H. now rewrite H. Qed.
Definition mok (m : Z) : Prop := Z.land m ATOM_META_NEG = 0 \/ Z.land m ATOM_META_NEG = ATOM_META_NEG.
Lemma negpol_true m1 m2 : mok m1 -> mok m2 -> negpol m1 m2 = true -> is_neg m1 <> is_neg m2.
Proof. unfold negpol, is_neg. intros [A|A] [B|B]; rewrite A, B; try discriminate. Qed.
(** One place may be taken for another one with the same literal. *)
Lemma swap l2 used th q l1 i j js : picks l2 used th (q :: l1) (j :: js) -> j <> i -> nth i used true = false -> nth_error l2 i = nth_error l2 j -> exists js', picks l2 (set_nth i used) th l1 js'.
Proof.
  intros (N & U & F) D Ui E. inversion N as [|? ? Nj N']; subst. inversion F as [|? ? ? ? Fj F']; subst. pose proof (Forall_inv U) as Uj. pose proof (Forall_inv_tail U) as U'.
  exists (map (fun k => if Nat.eq_dec k i then j else k) js). split; [|split].
  - clear - N' Nj. induction js as [|k js IH]; [constructor|]. inversion N' as [|? ? Nk N2]; subst. cbn [map]. constructor; [|apply IH; [intros J; apply Nj; now right|exact N2]].
    intros J. apply in_map_iff in J. destruct J as (k2 & E & J). destruct (Nat.eq_dec k2 i); destruct (Nat.eq_dec k i); subst; try contradiction; apply Nj; [now left|now right].
  - apply Forall_map. apply Forall_forall. intros k Ik. rewrite Forall_forall in U'. apply set_nth_spec. destruct (Nat.eq_dec k i); split; auto.
  - clear - F' E. induction F' as [|q k l ks H F IH]; [constructor|]. cbn [map]. constructor; [|exact IH]. destruct (Nat.eq_dec k i) as [->|]; [now rewrite <- E|exact H].
Qed.

Record spost (g : genv) (st st' : ust) (b : bool) (P : (Z -> term) -> Prop) : Prop := Spost {
  t_true : b = true -> bound_ok g (u_vb st') /\ forall th, binds g (u_vb st') th -> binds g (u_vb st) th /\ P th;
  t_false : b = false -> same st st' /\ forall th, binds g (u_vb st) th -> ~ P th }.
Section Sub.
Variables (c : cfg) (h : heap).
Let g := gof c h.
Hypothesis W : wf g.
Lemma aux_sub n : forall ls1 qs1 ls2 qs2 used st st' b, ls1 <> [] -> Forall2 (lrep c h) ls1 qs1 -> Forall2 (lrep c h) ls2 qs2 -> metas_ok ls1 -> metas_ok ls2 -> bound_ok g (u_vb st) ->
  wr_subsume_cl_aux n g ls1 ls2 used st = Some (st', b) -> spost g st st' b (fun th => exists js, picks qs2 used th qs1 js).
Proof.
  induction ls1 as [|[m1 a1] r1 IH]; intros qs1 ls2 qs2 used st0 st' b Ne R1 R2 K1 K2 B0; [now contradiction Ne|]. clear Ne. cbn [wr_subsume_cl_aux].
  inversion R1 as [|p q l k (Sg1 & Rp1) R1']; subst. cbn [fst snd] in Sg1, Rp1. rename k into k1.
  match goal with |- ?f _ _ = _ -> _ => set (loop := f) end.
  assert (L : forall l2 i st, l2 = skipn i ls2 -> same st0 st -> (forall th j js, (j < i)%nat -> binds g (u_vb st0) th -> ~ picks qs2 used th (q :: k1) (j :: js)) ->
    loop (combine (seq i (length l2)) l2) st = Some (st', b) -> spost g st0 st' b (fun th => exists js, picks qs2 used th (q :: k1) js)).
  2:{ apply (L ls2 O st0); [reflexivity|apply same_refl|]. intros th j js Lj. lia. }
  induction l2 as [|[m2 a2] l2 IHl]; intros i st Ei Sm No; cbn [length seq combine]; unfold loop; fold loop.
  - intros E. injection E as <- <-. constructor; [discriminate|]. intros _. split; [exact Sm|]. intros th Bt (js & P). destruct js as [|j js]; [destruct P as (_ & _ & P); inversion P|]. apply (No th j js); [|exact Bt|exact P].
    destruct P as (_ & _ & P). inversion P as [|? ? ? ? Pj _]; subst. assert (Lj : (j < length qs2)%nat) by (apply nth_error_Some; congruence). rewrite <- (f2_length _ _ _ R2) in Lj. assert (length (skipn i ls2) = O) by now rewrite <- Ei. rewrite skipn_length in H. lia.
  - assert (Ei2 : l2 = skipn (S i) ls2). { clear - Ei. revert i Ei. induction ls2 as [|x ls2 IH]; intros [|i] Ei; cbn [skipn] in Ei; try discriminate; [now injection Ei|]. apply IH. exact Ei. }
    assert (Hi : nth_error ls2 i = Some (m2, a2)). { clear - Ei. revert i Ei. induction ls2 as [|x ls2 IH]; intros [|i] Ei; cbn [skipn] in Ei; try discriminate; [now injection Ei as <- _|]. cbn [nth_error]. apply IH. exact Ei. }
    assert (Hq : exists q2, nth_error qs2 i = Some q2 /\ lrep c h (m2, a2) q2). { clear - R2 Hi. revert i Hi. induction R2 as [|p q2 l k H F IH]; intros [|i] Hi; try discriminate; cbn [nth_error] in Hi |- *; [injection Hi as ->; now exists q2|]. now apply IH. }
    destruct Hq as (q2 & Hq & Sg2 & Rp2). cbn [fst snd] in Sg2, Rp2.
    assert (Km : mok m1 /\ mok m2). { split; [exact (Forall_inv K1)|]. apply nth_error_In in Hi. unfold metas_ok in K2. rewrite Forall_forall in K2. exact (K2 _ Hi). } destruct Km as (Km1 & Km2).
    assert (NXT : forall st2, same st0 st2 -> (forall th js, binds g (u_vb st0) th -> ~ picks qs2 used th (q :: k1) (i :: js)) -> loop (combine (seq (S i) (length l2)) l2) st2 = Some (st', b) -> spost g st0 st' b (fun th => exists js, picks qs2 used th (q :: k1) js)).
    { intros st2 Sm2 Ni. apply IHl; [exact Ei2|exact Sm2|]. intros th j js Lj Bt. destruct (Nat.eq_dec j i) as [->|]; [now apply Ni|]. apply No; [lia|exact Bt]. }
    destruct (nth i used true) eqn:Un; cbn [orb].
    { apply NXT; [exact Sm|]. intros th js _ (_ & U & _). pose proof (Forall_inv U). cbn beta in H. congruence. }
    destruct (negpol m1 m2) eqn:Np.
    { apply NXT; [exact Sm|]. intros th js _ (_ & _ & F). inversion F as [|? ? ? ? Fj _]; subst. apply (negpol_true m1 m2 Km1 Km2 Np). rewrite Hq in Fj. injection Fj as ->. cbn [fst] in Sg2. congruence. }
    pose proof (negpol_false m1 m2 Np) as Sg. destruct (wr_match_term_aux n g true st a1 a2) as [[st1 b1]|] eqn:Em; [|discriminate].
    destruct (match_ok g W n st a1 a2 st1 b1 (snd q) (snd q2) (same_bound g st0 st Sm B0) Rp1 Rp2 Em) as [MO (new & Ks & Ov & Uv) Mx Mt Mf].
    assert (Rs : forall st2, same st1 st2 -> same st0 (wr_clear_varstack_topslice st2 (length (u_stk st)))) by (intros st2 S2; apply (same_trans st0 st); [exact Sm|]; now apply (restore_same st st1 st2 new)).
    assert (Bq : forall th js, binds g (u_vb st0) th -> picks qs2 used th (q :: k1) (i :: js) -> inst th (snd q) = snd q2 /\ picks qs2 (set_nth i used) th k1 js).
    { intros th js _ (N & U & F). inversion F as [|? ? ? ? Fj F']; subst. inversion N as [|? ? Ni N']; subst. rewrite Hq in Fj. injection Fj as ->. split; [reflexivity|]. split; [exact N'|]. split; [|exact F'].
      apply Forall_forall. intros j Ij. apply set_nth_spec. pose proof (Forall_inv_tail U) as U'. rewrite Forall_forall in U'. split; [now apply U'|]. intros ->. contradiction. }
    destruct b1.
    2:{ apply NXT; [now apply Rs|]. intros th js Bt P. destruct (Bq th js Bt P) as (Q & _). apply (Mf eq_refl th); [|exact Q]. now apply (same_binds g st0 st). }
    assert (Rest : forall st2 b2, (match r1 with [] => Some (st1, true) | _ => wr_subsume_cl_aux n g r1 ls2 (set_nth i used) st1 end) = Some (st2, b2) -> spost g st1 st2 b2 (fun th => exists js, picks qs2 (set_nth i used) th k1 js)).
    { intros st2 b2. destruct r1 as [|p r1].
      - intros E. injection E as <- <-. inversion R1'; subst. constructor; [|discriminate]. intros _. split; [exact MO|]. intros th Bt. split; [exact Bt|]. exists []. repeat constructor.
      - intros E. apply (IH k1 ls2 qs2 (set_nth i used) st1 st2 b2); try assumption; [discriminate|exact (Forall_inv_tail K1)]. }
    destruct (match r1 with [] => Some (st1, true) | _ => wr_subsume_cl_aux n g r1 ls2 (set_nth i used) st1 end) as [[st2 b2]|]; [|discriminate]. destruct (Rest st2 b2 eq_refl) as [Tt Tf]. clear Rest. destruct b2.
    + intros E. injection E as <- <-. constructor; [|discriminate]. intros _. destruct (Tt eq_refl) as (BO & Tb). split; [exact BO|]. intros th Bt. destruct (Tb th Bt) as (B1 & js & P & U & F). destruct (proj1 (Mt eq_refl th) B1) as (B2 & Q).
      split; [now apply (same_binds g st0 st)|]. exists (i :: js). split; [|split].
      * constructor; [|exact P]. intros J. rewrite Forall_forall in U. specialize (U i J). apply set_nth_spec in U. now destruct U.
      * constructor; [exact Un|]. apply (Forall_impl _ (fun j Hj => proj1 (proj1 (set_nth_spec used i j) Hj)) U).
      * constructor; [|exact F]. rewrite Hq. f_equal. destruct q2 as [s2 t2]. cbn [fst snd] in *. f_equal; congruence.
    + destruct (Tf eq_refl) as (S2 & Nf). destruct (Nat.eqb_spec (length (u_stk st)) (length (u_stk st1))) as [El|El].
      * intros E. injection E as <- <-. constructor; [discriminate|]. intros _. split; [now apply Rs|]. intros th Bt (js & P).
        assert (En : new = []) by (rewrite Ks, app_length in El; apply length_zero_iff_nil; lia). subst new.
        assert (Bst1 : binds g (u_vb st1) th). { intros v t. rewrite (Ov v (fun x => x)). now apply (same_binds g st0 st). }
        destruct (proj1 (Mt eq_refl th) Bst1) as (_ & Q). destruct js as [|j js]; [destruct P as (_ & _ & P); inversion P|].
        destruct (Nat.eq_dec j i) as [->|Dj]; [apply (Nf th Bst1); exists js; now apply Bq|]. apply (Nf th Bst1). apply (swap qs2 used th q k1 i j js P Dj Un).
        destruct P as (_ & _ & P). inversion P as [|? ? ? ? Pj _]; subst. rewrite Pj, Hq. f_equal. destruct q2 as [s2 t2]. cbn [fst snd] in *. f_equal; congruence.
      * apply NXT; [now apply Rs|]. intros th js Bt P. destruct (Bq th js Bt P) as (Q & P'). apply (Nf th); [|now exists js]. apply (Mt eq_refl th). split; [now apply (same_binds g st0 st)|exact Q].
Qed.
Lemma clean_binds st th : clean st -> binds g (u_vb st) th.
Proof. intros (U & _) v t N. now contradiction (N (U v)). Qed.
Lemma clean_bound st : clean st -> bound_ok g (u_vb st).
Proof. intros (U & _) v N. now contradiction (N (U v)). Qed.
Lemma match_one n st a1 a2 t1 t2 st' b : clean st -> rep g a1 t1 -> rep g a2 t2 -> wr_match_term_aux n g true st a1 a2 = Some (st', b) -> (b = true <-> exists th, inst th t1 = t2) /\ clean (wr_clear_varstack st').
Proof.
  intros C R1 R2 E. pose proof (match_cov g n _ _ _ _ _ (clean_cov _ C) E) as Cv. split; [|now apply cov_clear].
  destruct (match_ok g W n st a1 a2 st' b t1 t2 (clean_bound st C) R1 R2 E) as [MO _ _ T F]. split.
  - intros B. destruct (binds_ex g st' Cv MO) as (th & Bt). exists th. now apply (T B th).
  - intros (th & Q). destruct b; [reflexivity|]. now contradiction (F eq_refl th (clean_binds st th C)).
Qed.
Lemma unit_sub n m1 a1 t1 : rep g a1 t1 -> mok m1 -> forall ls2 qs2 st st' b, clean st -> Forall2 (lrep c h) ls2 qs2 -> metas_ok ls2 -> unit_loop n g m1 a1 ls2 st = Some (st', b) ->
  (b = true <-> exists th, In (is_neg m1, inst th t1) qs2).
Proof.
  intros Ra Km. induction ls2 as [|[m2 a2] ls2 IH]; intros qs2 st st' b C R K; inversion R as [|p q l k (Sg & Rp) R']; subst; cbn [unit_loop fst snd] in *.
  - intros E. injection E as <- <-. split; [discriminate|]. now intros (th & []).
  - assert (Skip : (forall th, q <> (is_neg m1, inst th t1)) -> (exists th, In (is_neg m1, inst th t1) k) <-> (exists th, In (is_neg m1, inst th t1) (q :: k))).
    { intros Nq. split; intros (th & I); exists th; [now right|]. destruct I as [I|I]; [now contradiction (Nq th)|exact I]. }
    destruct (negpol m1 m2) eqn:Np.
    + intros E. rewrite (IH k st st' b C R' (Forall_inv_tail K) E). apply Skip. intros th ->. apply (negpol_true m1 m2 Km (Forall_inv K) Np). now symmetry.
    + apply negpol_false in Np. destruct (wr_match_term_aux n g true st a1 a2) as [[st1 b1]|] eqn:E1; [|discriminate]. destruct (match_one n st a1 a2 t1 (snd q) st1 b1 C Ra Rp E1) as (Q & C1). destruct b1.
      * intros E. injection E as <- <-. split; [intros _|reflexivity]. destruct (proj1 Q eq_refl) as (th & Et). exists th. left. destruct q as [s t]. cbn [fst snd] in *. congruence.
      * intros E. rewrite (IH k _ st' b C1 R' (Forall_inv_tail K) E). apply Skip. intros th ->. cbn [snd] in Q. assert (false = true) by (apply Q; now exists th). discriminate.
Qed.
Lemma fact_sub n a1 t1 : rep g a1 t1 -> forall ls2 qs2 b, Forall2 (lrep c h) ls2 qs2 -> fact_loop n g a1 ls2 = Some b -> (b = true <-> In (false, t1) qs2).
Proof.
  intros Ra. induction ls2 as [|[m2 a2] ls2 IH]; intros qs2 b R; inversion R as [|p q l k (Sg & Rp) R']; subst; cbn [fact_loop fst snd] in *.
  - intros E. injection E as <-. now split.
  - destruct q as [s t]. cbn [fst snd] in *. destruct (is_neg m2) eqn:Nm.
    + intros E. rewrite (IH k b R' E). subst s. split; [now right|]. intros [I|I]; [discriminate|exact I].
    + destruct (wr_equal_term n g true a1 a2) as [b1|] eqn:E1; [|discriminate]. pose proof (wr_equal_term_ok g W n a1 a2 t1 t b1 Ra Rp E1) as Q. subst s. destruct b1.
      * intros E. injection E as <-. split; [|reflexivity]. intros _. left. f_equal. symmetry. now apply Q.
      * intros E. rewrite (IH k b R' E). split; [now right|]. intros [I|I]; [|exact I]. injection I as ->. now assert (false = true) by now apply Q.
Qed.
Lemma inst_ground th t : ground t -> inst th t = t.
Proof. intros G. rewrite <- (inst_TV t) at 2. apply inst_ext. intros v O. now contradiction (G v). Qed.
Lemma sub_unit q l2 : subsumes [q] l2 <-> exists th, In (fst q, inst th (snd q)) l2.
Proof.
  split.
  - intros (th & js & _ & F). inversion F as [|? j ? ? H F']; subst. exists th. now apply nth_error_In in H.
  - intros (th & I). apply In_nth_error in I. destruct I as (j & I). exists th, [j]. split; [constructor; [easy|constructor]|]. constructor; [exact I|constructor].
Qed.
Lemma sub_len l1 l2 : subsumes l1 l2 -> (length l1 <= length l2)%nat.
Proof.
  intros (th & js & N & F). rewrite (f2_length _ _ _ F). assert (I : incl js (seq 0 (length l2))).
  { intros j J. apply in_seq. split; [lia|]. cbn. clear N. induction F as [|q j' l k H F IH]; [easy|]. destruct J as [->|J]; [apply nth_error_Some; congruence|now apply IH]. }
  pose proof (NoDup_incl_length N I). now rewrite seq_length in H.
Qed.
Theorem subsume_ok n cl1 cl2 ls1 ls2 qs1 qs2 st st' b : clean st -> qs1 <> [] -> clause_lits h cl1 = Some ls1 -> clause_lits h cl2 = Some ls2 -> Forall2 (lrep c h) ls1 qs1 -> Forall2 (lrep c h) ls2 qs2 -> metas_ok ls1 -> metas_ok ls2 ->
  (h_rule h cl1 = false -> Forall (fun q => ground (snd q)) qs1) -> wr_subsume_cl n c h st cl1 cl2 = Some (st', b) -> (b = true <-> subsumes qs1 qs2).
Proof.
  intros C Nq E1 E2 R1 R2 K1 K2 G. unfold wr_subsume_cl. fold g. rewrite E1, E2. unfold clause_lits in E1, E2. destruct (h_rule h cl1); cbn [negb].
  - assert (ONE : forall m1 a1, ls1 = [(m1, a1)] -> exists t1, qs1 = [(is_neg m1, t1)] /\ rep g a1 t1 /\ mok m1).
    { intros m1 a1 ->. inversion R1 as [|p [s t] l k (Sg & Rp) R']; subst. inversion R'; subst. cbn [fst snd] in *. exists t. split; [now rewrite Sg|]. split; [exact Rp|exact (Forall_inv K1)]. }
    destruct (h_rule h cl2); cbn [negb].
    + assert (FULL : ls1 <> [] -> (if (length ls2 <? length ls1)%nat then Some (st, false) else match wr_subsume_cl_aux n g ls1 ls2 (map (fun _ => false) ls2) st with None => None | Some (st, b) => Some (wr_clear_varstack st, b) end) = Some (st', b) -> (b = true <-> subsumes qs1 qs2)).
      { intros Ne. destruct (Nat.ltb_spec (length ls2) (length ls1)) as [L|L].
        - intros E. injection E as <- <-. split; [discriminate|]. intros S. apply sub_len in S. rewrite <- (f2_length _ _ _ R1), <- (f2_length _ _ _ R2) in S. lia.
        - destruct (wr_subsume_cl_aux n g ls1 ls2 _ st) as [[st1 b1]|] eqn:E; [|discriminate]. intros E3. injection E3 as <- <-. pose proof (subs_aux_cov n g ls1 ls2 _ st st1 b1 (clean_cov st C) E) as Cv.
          destruct (aux_sub n ls1 qs1 ls2 qs2 _ st st1 b1 Ne R1 R2 K1 K2 (clean_bound st C) E) as [T F]. split.
          + intros ->. destruct (T eq_refl) as (BO & Tb). destruct (binds_ex g st1 Cv BO) as (th & Bt). destruct (Tb th Bt) as (_ & js & N & _ & P). now exists th, js.
          + intros (th & js & N & P). destruct b1; [reflexivity|]. destruct (F eq_refl) as (_ & Nf). contradiction (Nf th (clean_binds st th C)). exists js. split; [exact N|]. split; [|exact P].
            clear - P R2. induction P as [|q j l k H F IH]; constructor; [|exact IH]. assert (L : (j < length ls2)%nat) by (rewrite (f2_length _ _ _ R2); apply nth_error_Some; congruence). clear - L. revert j L. induction ls2 as [|x ls2 IH]; intros j L; [cbn in L; lia|]. destruct j as [|j]; [reflexivity|]. cbn [map nth]. apply IH. cbn in L. lia. }
      destruct ls1 as [|[m1 a1] [|p ls1]]; [|clear FULL|now apply FULL].
      * inversion R1; subst. now contradiction Nq.
      * destruct (ONE m1 a1 eq_refl) as (t1 & -> & Ra & Km). intros E. rewrite sub_unit. cbn [fst snd]. now apply (unit_sub n m1 a1 t1 Ra Km ls2 qs2 st st' b).
    + injection E2 as <-. inversion R2 as [|p [s2 t2] l k (Sg2 & Rp2) R']; subst. inversion R'; subst. cbn [fst snd] in *. change (is_neg 0) with false in Sg2. subst s2.
      destruct ls1 as [|[m1 a1] [|p ls1]]; [discriminate| |].
      * destruct (ONE m1 a1 eq_refl) as (t1 & -> & Ra & Km). rewrite sub_unit. cbn [fst snd]. destruct (is_neg m1) eqn:Nm.
        { intros E. injection E as <- <-. split; [discriminate|]. intros (th & [I|[]]). discriminate. }
        destruct (wr_match_term_aux n g true st a1 (encode_datarec_offset cl2)) as [[st1 b1]|] eqn:E; [|discriminate]. intros E3. injection E3 as <- <-. destruct (match_one n st a1 _ t1 t2 st1 b1 C Ra Rp2 E) as (Q & _). rewrite Q. split; intros (th & I); exists th; [left; congruence|]. destruct I as [I|[]]. congruence.
      * intros E. injection E as <- <-. split; [discriminate|]. intros S. apply sub_len in S. rewrite <- (f2_length _ _ _ R1) in S. cbn in S. lia.
  - injection E1 as <-. inversion R1 as [|p [s1 t1] l k (Sg1 & Rp1) R']; subst. inversion R'; subst. cbn [fst snd] in *. change (is_neg 0) with false in Sg1. subst s1. pose proof (Forall_inv (G eq_refl)) as Gt. cbn [snd] in Gt.
    rewrite sub_unit. cbn [fst snd]. assert (Gr : (exists th, In (false, inst th t1) qs2) <-> In (false, t1) qs2). { split; [intros (th & I); now rewrite (inst_ground th t1 Gt) in I|]. intros I. exists TV. now rewrite (inst_ground TV t1 Gt). }
    rewrite Gr. destruct (h_rule h cl2); cbn [negb].
    + destruct (fact_loop n g _ ls2) as [b1|] eqn:E; [|discriminate]. intros E3. injection E3 as <- <-. now apply (fact_sub n _ t1 Rp1 ls2).
    + injection E2 as <-. inversion R2 as [|p [s2 t2] l k (Sg2 & Rp2) R'']; subst. inversion R''; subst. cbn [fst snd] in *. change (is_neg 0) with false in Sg2. subst s2.
      destruct (wr_equal_term _ _ _ _ _) as [b1|] eqn:E; [|discriminate]. intros E3. injection E3 as <- <-. rewrite (wr_equal_term_ok g W _ _ _ t1 t2 b1 Rp1 Rp2 E). split; [intros ->; now left|]. intros [I|[]]. congruence.
Qed.
End Sub.
