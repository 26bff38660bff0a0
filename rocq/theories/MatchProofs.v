(** Equality, matching and subsumption of terms. *)
From Coq Require Import ZArith List Bool SpecFloat Lia.
From Verif Require Import Base EncodingModel CompareModel CompareProofs UnistrModel UnifyModel UnifySpec UnifyProofs UnifyTotal.
Import ListNotations.
Open Scope Z_scope.
#[local] Ltac Zify.zify_post_hook ::= Z.div_mod_to_equations.

(** Records are at offsets that are multiples of 8, and not at 0. *)
Definition wf (g : genv) : Prop := std g /\ forall a fs, g_rec g a = Some fs -> a <> 0 /\ Z.land a 7 = 0.
Lemma land7 x : Z.land x 7 = x mod 8.
Proof. change 7 with (Z.ones 3). now rewrite Z.land_ones by lia. Qed.
Lemma land3 x : Z.land x 3 = x mod 4.
Proof. change 3 with (Z.ones 2). now rewrite Z.land_ones by lia. Qed.
Lemma land15 x : Z.land x 15 = x mod 16.
Proof. change 15 with (Z.ones 4). now rewrite Z.land_ones by lia. Qed.
Lemma key_imm s x y : const_key s y = KImm x -> x = y.
Proof.
  unfold const_key. destruct ((Z.land y 7 =? 1) || (Z.land y 7 =? 5)); [discriminate|]. destruct (Z.land y 7 =? 2); [destruct (double_of_bits (wg_decode_double s y)); intros H; now inversion H|].
  destruct (Z.land y 7 =? 6); [discriminate|]. intros H. now inversion H.
Qed.
Lemma key_other s x : Z.land x 7 = 4 \/ Z.land x 7 = 3 \/ Z.land x 7 = 7 -> const_key s x = KImm x.
Proof. unfold const_key. intros [->|[->| ->]]; reflexivity. Qed.
Lemma key_kind s x y : x <> y -> const_key s x = const_key s y -> Z.land x 3 = Z.land y 3.
Proof.
  intros N. rewrite !land3. unfold const_key. rewrite !land7.
  destruct (Z.eqb_spec (x mod 8) 1) as [X1|X1]; destruct (Z.eqb_spec (x mod 8) 5) as [X5|X5]; cbn [orb];
  destruct (Z.eqb_spec (y mod 8) 1) as [Y1|Y1]; destruct (Z.eqb_spec (y mod 8) 5) as [Y5|Y5]; cbn [orb]; try (intros _; lia);
  destruct (Z.eqb_spec (x mod 8) 2) as [X2|X2]; destruct (Z.eqb_spec (y mod 8) 2) as [Y2|Y2]; try (intros _; lia);
  destruct (Z.eqb_spec (x mod 8) 6) as [X6|X6]; destruct (Z.eqb_spec (y mod 8) 6) as [Y6|Y6]; try (intros _; lia);
  try (destruct (double_of_bits (wg_decode_double s x))); try (destruct (double_of_bits (wg_decode_double s y))); intros H; try discriminate; injection H as H; contradiction.
Qed.
Lemma wf_rec g x t : wf g -> rep g x t -> x <> 0.
Proof.
  intros (_ & W) R ->. inversion R as [e V|e V D N|e fs ts D Rc L Rs]; subst; [discriminate|discriminate|]. unfold record, decode_datarec_offset in Rc. now apply W in Rc.
Qed.
(** The kind of a value and the form of its term. *)
Lemma rep_cases g x t : rep g x t -> (isvar x = true /\ t = TV (decode_var x)) \/ (isvar x = false /\ isdatarec x = false /\ t = TC (const_key (g_db g) x)) \/ (isvar x = false /\ isdatarec x = true /\ exists fs ts, record g x = Some fs /\ t = TF ts /\ g_first g <= Z.of_nat (length fs) /\ reps g (args g fs) ts).
Proof. intros R. inversion R; subst; [now left|right; now left|right; right]. split; [now apply rec_not_var|]. split; [assumption|]. now exists fs, ts. Qed.
Lemma all_spec g (f : Z -> Z -> option bool) es fs ts us b : reps g es ts -> reps g fs us -> length es = length fs ->
  (forall a c t u r, rep g a t -> rep g c u -> f a c = Some r -> (r = true <-> t = u)) -> all_pairs f (combine es fs) = Some b -> (b = true <-> ts = us).
Proof.
  intros Rs. revert fs us b. induction Rs as [|e t es ts R Rs IH]; intros fs us b Us L H; inversion Us as [|c u fs' us' U Us']; subst; try discriminate; cbn [combine all_pairs].
  - intros E. now injection E as <-.
  - injection L as L. destruct (f e c) as [r|] eqn:F; [|discriminate]. pose proof (H e c t u r R U F) as Q. destruct r.
    + intros E. specialize (IH fs' us' b Us' L H E). rewrite IH. assert (t = u) by now apply Q. subst. split; [congruence|]. intros X. now injection X.
    + intros E. injection E as <-. split; [discriminate|]. intros X. injection X as X _. now apply Q in X.
Qed.
Theorem equal_ok g : wf g -> forall n x y tx ty b, rep g x tx -> rep g y ty -> WR_EQUAL_TERM n g true x y = Some b -> (b = true <-> tx = ty).
Proof.
  intros W. induction n as [|n IH]; intros x y tx ty b Rx Ry; cbn [WR_EQUAL_TERM]; [discriminate|].
  destruct (Z.eqb_spec x y) as [->|N]. { intros E. injection E as <-. split; [|easy]. intros _. now apply (rep_det g y). }
  pose proof (wf_rec g x tx W Rx) as X0. pose proof (wf_rec g y ty W Ry) as Y0.
  destruct (rep_cases g x tx Rx) as [(Vx & ->)|[(Vx & Dx & ->)|(Vx & Dx & xs & txs & Rcx & -> & Lx & Rxs)]].
  - replace (Z.land x 7 =? 7) with true. 2:{ symmetry. apply Z.eqb_eq. unfold isvar in Vx. apply Z.eqb_eq in Vx. rewrite land15 in Vx. rewrite land7. lia. }
    rewrite orb_true_r. intros E. injection E as <-. split; [discriminate|]. intros E. destruct (rep_cases g y ty Ry) as [(Vy & ->)|[(Vy & Dy & ->)|(Vy & Dy & ys & tys & Rcy & -> & Ly & Rys)]]; try discriminate. injection E as E. now apply var_inj in E.
  - destruct (((Z.land x 7 =? 4) && true) || (Z.land x 7 =? 3) || (Z.land x 7 =? 7)) eqn:K.
    { intros E. injection E as <-. split; [discriminate|]. intros E. rewrite key_other in E. 2:{ rewrite andb_true_r in K. apply orb_prop in K. destruct K as [K|K]; [apply orb_prop in K; destruct K as [K|K]|]; apply Z.eqb_eq in K; auto. }
      destruct (rep_cases g y ty Ry) as [(Vy & ->)|[(Vy & Dy & ->)|(Vy & Dy & ys & tys & Rcy & -> & Ly & Rys)]]; try discriminate. injection E as E. symmetry in E. now apply key_imm in E. }
    destruct (negb (isptr x) || negb (isptr y)) eqn:P.
    { intros E. injection E as <-. split; [discriminate|]. intros E. apply orb_prop in P. destruct P as [P|P].
      - exfalso. apply negb_true_iff in P. unfold isptr in P. apply andb_false_iff in P. destruct P as [P|P]; apply negb_false_iff, Z.eqb_eq in P; [contradiction|]. rewrite land3 in P. rewrite andb_true_r, !land7 in K. apply orb_false_iff in K. destruct K as (K & K7). apply orb_false_iff in K. destruct K as (_ & K3). apply Z.eqb_neq in K3, K7. lia.
      - apply negb_true_iff in P. unfold isptr in P. apply andb_false_iff in P. destruct P as [P|P]; apply negb_false_iff, Z.eqb_eq in P; [contradiction|].
        destruct (rep_cases g y ty Ry) as [(Vy & ->)|[(Vy & Dy & ->)|(Vy & Dy & ys & tys & Rcy & -> & Ly & Rys)]]; try discriminate. injection E as E. rewrite (key_other _ y) in E; [apply key_imm in E; congruence|]. rewrite land3 in P. rewrite land7. lia. }
    destruct (negb (Z.land x 3 =? Z.land y 3)) eqn:Q.
    { intros E. injection E as <-. split; [discriminate|]. intros E. destruct (rep_cases g y ty Ry) as [(Vy & ->)|[(Vy & Dy & ->)|(Vy & Dy & ys & tys & Rcy & -> & Ly & Rys)]]; try discriminate. injection E as E. apply key_kind in E; [|exact N]. apply negb_true_iff, Z.eqb_neq in Q. contradiction. }
    rewrite Dx. cbn [negb]. destruct (rep_cases g y ty Ry) as [(Vy & ->)|[(Vy & Dy & ->)|(Vy & Dy & ys & tys & Rcy & -> & Ly & Rys)]].
    + exfalso. apply negb_false_iff, Z.eqb_eq in Q. unfold isvar in Vy. apply Z.eqb_eq in Vy. rewrite land15 in Vy. rewrite !land3 in Q. rewrite andb_true_r, !land7 in K. apply orb_false_iff in K. destruct K as (K & K7). apply orb_false_iff in K. destruct K as (_ & K3). apply Z.eqb_neq in K3, K7. lia.
    + rewrite Dy. intros E. injection E as <-. rewrite (prim_key (g_db g) x y N). split; [congruence|]. intros E. now injection E.
    + rewrite Dy. intros E. injection E as <-. split; discriminate.
  - pose proof Dx as Ex. unfold isdatarec in Ex. apply Z.eqb_eq in Ex. rewrite Ex. cbn [Z.eqb Pos.eqb andb orb].
    destruct (negb (isptr x) || negb (isptr y)) eqn:P.
    { intros E. injection E as <-. split; [discriminate|]. intros E. apply orb_prop in P. destruct P as [P|P].
      - exfalso. apply negb_true_iff in P. unfold isptr in P. apply andb_false_iff in P. destruct P as [P|P]; apply negb_false_iff, Z.eqb_eq in P; [contradiction|]. rewrite land3 in P. rewrite land7 in Ex. lia.
      - apply negb_true_iff in P. unfold isptr in P. apply andb_false_iff in P. destruct P as [P|P]; apply negb_false_iff, Z.eqb_eq in P; [contradiction|].
        destruct (rep_cases g y ty Ry) as [(Vy & ->)|[(Vy & Dy & ->)|(Vy & Dy & ys & tys & Rcy & -> & Ly & Rys)]]; try discriminate. unfold isdatarec in Dy. apply Z.eqb_eq in Dy. rewrite land7 in Dy. rewrite land3 in P. lia. }
    destruct (negb (Z.land x 3 =? Z.land y 3)) eqn:Q.
    { intros E. injection E as <-. split; [discriminate|]. intros E. destruct (rep_cases g y ty Ry) as [(Vy & ->)|[(Vy & Dy & ->)|(Vy & Dy & ys & tys & Rcy & -> & Ly & Rys)]]; try discriminate. apply negb_true_iff, Z.eqb_neq in Q. unfold isdatarec in Dy. apply Z.eqb_eq in Dy. rewrite land7 in Dy, Ex. rewrite !land3 in Q. lia. }
    rewrite Dx. cbn [negb]. rewrite Rcx. destruct (record g y) as [ys|] eqn:Rcy; [|discriminate].
    assert (Dy : isdatarec y = true). { destruct W as (_ & W). unfold record, decode_datarec_offset in Rcy. apply W in Rcy. unfold isdatarec. now apply Z.eqb_eq. }
    destruct (rep_rec_inv g y ty Ry Dy) as (ys' & tys & -> & Rcy' & Ly & Rys). rewrite Rcy in Rcy'. injection Rcy' as <-.
    rewrite (std_pairs g xs ys (proj1 W)). destruct (Nat.eqb_spec (length xs) (length ys)) as [L|L].
    + intros E. assert (LL : length (args g xs) = length (args g ys)) by (unfold args; now rewrite !skipn_length, L). rewrite (all_spec g _ _ _ txs tys b Rxs Rys LL) by (exact IH || exact E). split; [congruence|]. intros X. now injection X.
    + intros E. injection E as <-. split; [discriminate|]. intros E. injection E as ->. exfalso. apply L. apply (args_len g xs ys (proj1 W) Lx Ly). now rewrite (reps_len _ _ _ Rxs), (reps_len _ _ _ Rys).
Qed.
Theorem wr_equal_term_ok g : wf g -> forall n x y tx ty b, rep g x tx -> rep g y ty -> wr_equal_term n g true x y = Some b -> (b = true <-> tx = ty).
Proof.
  intros W n x y tx ty b Rx Ry E. assert (G : WR_EQUAL_TERM (S n) g true x y = Some b \/ (isdatarec x = true /\ isdatarec y = false /\ b = false)).
  { unfold wr_equal_term in E. cbn [WR_EQUAL_TERM]. destruct (x =? y); [now left|]. destruct (((Z.land x 7 =? 4) && true) || (Z.land x 7 =? 3) || (Z.land x 7 =? 7)); [now left|].
    destruct (negb (isptr x) || negb (isptr y)); [now left|]. destruct (negb (Z.land x 3 =? Z.land y 3)); [now left|]. destruct (isdatarec x); cbn [negb] in *; [|now left]. destruct (isdatarec y); cbn [negb] in *; [now left|]. right. injection E as <-. easy. }
  destruct G as [G|(Dx & Dy & ->)]; [now apply (equal_ok g W (S n) x y tx ty b)|]. split; [discriminate|]. intros ->. destruct (rep_rec_inv g x ty Rx Dx) as (fs & ts & -> & _). inversion Ry; subst. congruence.
Qed.
(** Without long strings the equality check is always defined. *)
Fixpoint nolong (t : term) : Prop :=
  match t with TV _ => True | TC (KImm e) => Z.land e 7 <> 4 | TC _ => True | TF l => (fix go l := match l with [] => True | t :: r => nolong t /\ go r end) l end.
Lemma nolong_TF l : nolong (TF l) <-> Forall nolong l.
Proof. cbn [nolong]. induction l as [|t l IH]; [easy|]. rewrite IH, Forall_cons_iff. reflexivity. Qed.
Theorem equal_total g : wf g -> forall n x y tx ty, (size tx <= n)%nat -> rep g x tx -> rep g y ty -> nolong ty -> exists b, WR_EQUAL_TERM n g true x y = Some b.
Proof.
  intros W. induction n as [|n IH]; intros x y tx ty Sz Rx Ry NL; [destruct tx; cbn [size] in Sz; lia|]. cbn [WR_EQUAL_TERM].
  destruct (x =? y); [now eexists|]. destruct (((Z.land x 7 =? 4) && true) || (Z.land x 7 =? 3) || (Z.land x 7 =? 7)); [now eexists|].
  destruct (negb (isptr x) || negb (isptr y)) eqn:P; [now eexists|]. destruct (negb (Z.land x 3 =? Z.land y 3)) eqn:Q; [now eexists|].
  destruct (isdatarec x) eqn:Dx; cbn [negb]; [|destruct (isdatarec y); now eexists].
  destruct (rep_rec_inv g x tx Rx Dx) as (xs & txs & -> & Rcx & Lx & Rxs). rewrite Rcx. apply orb_false_iff in P. destruct P as (_ & P). apply negb_false_iff in P. unfold isptr in P. apply andb_prop in P. destruct P as (_ & P). apply negb_true_iff, Z.eqb_neq in P. rewrite land3 in P.
  apply negb_false_iff, Z.eqb_eq in Q. unfold isdatarec in Dx. apply Z.eqb_eq in Dx. rewrite land7 in Dx. rewrite !land3 in Q.
  destruct (rep_cases g y ty Ry) as [(Vy & ->)|[(Vy & Dy & ->)|(Vy & Dy & ys & tys & Rcy & -> & Ly & Rys)]].
  - exfalso. unfold isvar in Vy. apply Z.eqb_eq in Vy. rewrite land15 in Vy. lia.
  - exfalso. unfold isdatarec in Dy. apply Z.eqb_neq in Dy. assert (Y4 : Z.land y 7 = 4) by (rewrite land7 in *; lia). rewrite key_other in NL by now left. now apply NL.
  - rewrite Rcy, (std_pairs g xs ys (proj1 W)). destruct (length xs =? length ys)%nat; [|now eexists]. apply nolong_TF in NL. rewrite size_TF in Sz. apply le_S_n in Sz. clear - IH Sz Rxs Rys NL.
    revert tys NL Rys. generalize (args g ys). induction Rxs as [|e t es ts R Rs IHs]; intros fs us NL Rys; [now eexists|]. inversion Rys as [|c u fs' us' U Us']; subst; [now eexists|]. cbn [combine all_pairs].
    cbn [map list_sum fold_right] in Sz. unfold list_sum in IHs. apply Forall_cons_iff in NL. destruct (IH e c t u) as (b & ->); [lia|easy|easy|easy|]. destruct b; [|now eexists]. apply (IHs ltac:(lia) fs' us'); easy.
Qed.

(** ** Matching *)
(** The substitution agrees with the bindings made by matching. *)
Definition binds (g : genv) (vb : Z -> Z) (th : Z -> term) : Prop := forall v t, vb v <> UNASSIGNED -> rep g (vb v) t -> th v = t.
Definition bound_ok (g : genv) (vb : Z -> Z) : Prop := forall v, vb v <> UNASSIGNED -> exists t, rep g (vb v) t.
Record mpost (g : genv) (st st' : ust) (b : bool) (eqs : (Z -> term) -> Prop) : Prop := Mpost {
  m_ok : bound_ok g (u_vb st');
  m_stk : exists new, u_stk st' = new ++ u_stk st /\ (forall v, ~ In v new -> u_vb st' v = u_vb st v) /\ (forall v, In v new -> u_vb st v = UNASSIGNED);
  m_ext : forall th, binds g (u_vb st') th -> binds g (u_vb st) th;
  m_true : b = true -> forall th, binds g (u_vb st') th <-> binds g (u_vb st) th /\ eqs th;
  m_false : b = false -> forall th, binds g (u_vb st) th -> ~ eqs th }.
Lemma mpost_same g st b (eqs : (Z -> term) -> Prop) : bound_ok g (u_vb st) -> (b = true -> forall th, binds g (u_vb st) th -> eqs th) -> (b = false -> forall th, binds g (u_vb st) th -> ~ eqs th) -> mpost g st st b eqs.
Proof.
  intros O T F. constructor; [exact O| |easy| |exact F].
  - exists []. repeat split; easy.
  - intros B th. split; [|easy]. intros Q. split; [exact Q|now apply T].
Qed.
Lemma mpost_trans g a b c r e1 e2 : mpost g a b true e1 -> mpost g b c r e2 -> mpost g a c r (fun th => e1 th /\ e2 th).
Proof.
  intros [O1 (n1 & K1 & D1 & U1) X1 T1 F1] [O2 (n2 & K2 & D2 & U2) X2 T2 F2]. constructor; [exact O2| |now intros; apply X1, X2| |].
  - exists (n2 ++ n1). split; [rewrite K2, K1; now rewrite app_assoc|]. split.
    + intros v N. rewrite in_app_iff in N. rewrite D2, D1 by tauto. reflexivity.
    + intros v. rewrite in_app_iff. intros Hv. destruct (in_dec Z.eq_dec v n1) as [J|J]; [now apply U1|]. destruct Hv as [Hv|Hv]; [|contradiction]. rewrite <- D1 by exact J. now apply U2.
  - intros R th. rewrite (T2 R th), (T1 eq_refl th). tauto.
  - intros R th Q (E1 & E2). apply (F2 R th); [|exact E2]. apply (T1 eq_refl). now split.
Qed.
Lemma mpost_weak g a b r (e1 e2 : (Z -> term) -> Prop) : mpost g a b r e1 -> (forall th, e1 th <-> e2 th) -> mpost g a b r e2.
Proof.
  intros [O K X T F] E. constructor; try assumption.
  - intros R th. rewrite (T R th), (E th). reflexivity.
  - intros R th Q. rewrite <- (E th). now apply F.
Qed.
Theorem match_ok g : wf g -> forall n st x y st' b tx ty, bound_ok g (u_vb st) -> rep g x tx -> rep g y ty -> wr_match_term_aux n g true st x y = Some (st', b) ->
  mpost g st st' b (fun th => inst th tx = ty).
Proof.
  intros W. induction n as [|n IH]; intros st x y st' b tx ty O Rx Ry; cbn [wr_match_term_aux]; [discriminate|].
  destruct (rep_cases g x tx Rx) as [(Vx & ->)|[(Vx & Dx & ->)|(Vx & Dx & xs & txs & Rcx & -> & Lx & Rxs)]]; rewrite Vx.
  - cbn [inst]. destruct (Z.eqb_spec (u_vb st (decode_var x)) UNASSIGNED) as [U|U].
    + intros E. injection E as <- <-. unfold setvar. constructor; cbn [u_vb u_stk].
      * intros v. unfold upd. destruct (v =? decode_var x); [intros _; now exists ty|apply O].
      * exists [decode_var x]. split; [reflexivity|]. split; [|intros v [<-|[]]; exact U]. intros v Nv. unfold upd. destruct (Z.eqb_spec v (decode_var x)) as [->|]; [|reflexivity]. contradiction Nv. now left.
      * intros th B v t A R. apply B; unfold upd; destruct (Z.eqb_spec v (decode_var x)); try assumption; subst; contradiction.
      * intros _ th. unfold binds, upd. split.
        -- intros B. split; [intros v t A R; specialize (B v t); destruct (Z.eqb_spec v (decode_var x)); [subst; contradiction|now apply B]|]. apply (B (decode_var x) ty); rewrite Z.eqb_refl; [now apply rep_assigned in Ry|exact Ry].
        -- intros (B & E) v t. destruct (Z.eqb_spec v (decode_var x)) as [->|]; [|apply B]. intros _ R. rewrite E. now apply (rep_det g y).
      * discriminate.
    + destruct (O _ U) as (t & Rt). destruct (WR_EQUAL_TERM n g true (u_vb st (decode_var x)) y) as [r|] eqn:Q; [|discriminate]. intros E. injection E as <- <-.
      apply (equal_ok g W n _ y t ty) in Q; [|exact Rt|exact Ry]. apply mpost_same; [exact O| |].
      * intros -> th B. rewrite (B _ t U Rt). now apply Q.
      * intros -> th B. rewrite (B _ t U Rt). intros E. now apply Q in E.
  - rewrite Dx. cbn [negb]. destruct (WR_EQUAL_TERM n g true x y) as [r|] eqn:Q; [|discriminate]. apply (equal_ok g W n _ y _ ty r Rx Ry) in Q. destruct r.
    + intros E. injection E as <- <-. apply mpost_same; [exact O| |discriminate]. intros _ th _. now apply Q.
    + destruct (isdatarec y) eqn:Dy; cbn [negb].
      * destruct (record g x) as [xs|] eqn:Rc; [|discriminate]. destruct W as (_ & W). apply W in Rc. unfold isdatarec in Dx. apply Z.eqb_neq in Dx. unfold decode_datarec_offset in Rc. destruct Rc as (_ & Rc). contradiction.
      * intros E. injection E as <- <-. apply mpost_same; [exact O|discriminate|]. intros _ th _ E. now apply Q in E.
  - rewrite Dx. cbn [negb]. destruct (isdatarec y) eqn:Dy; cbn [negb].
    2:{ intros E. injection E as <- <-. apply mpost_same; [exact O|discriminate|]. intros _ th _ E. cbn [inst] in E. destruct (rep_cases g y ty Ry) as [(Vy & ->)|[(Vy & _ & ->)|(Vy & D2 & ys & tys & Rcy & -> & Ly & Rys)]]; try discriminate. congruence. }
    destruct (rep_rec_inv g y ty Ry Dy) as (ys & tys & -> & Rcy & Ly & Rys). rewrite Rcx, Rcy, (std_pairs g xs ys (proj1 W)).
    destruct (Nat.eqb_spec (length xs) (length ys)) as [L|L].
    2:{ intros E. injection E as <- <-. apply mpost_same; [exact O|discriminate|]. intros _ th _ E. cbn [inst] in E. injection E as E. apply L. apply (args_len g xs ys (proj1 W) Lx Ly). rewrite (reps_len _ _ _ Rxs), (reps_len _ _ _ Rys), <- E. now rewrite map_length. }
    assert (LL : length (args g xs) = length (args g ys)) by (unfold args; now rewrite !skipn_length, L).
    clear - IH O Rxs Rys LL. intros E. apply (mpost_weak g st st' b (fun th => map (inst th) txs = tys)); [|intros th; cbn [inst]; split; [congruence|intros X; now injection X]].
    revert st O E. revert tys Rys LL. generalize (args g ys). induction Rxs as [|e t es ts R Rs IHs]; intros fs us Rys LL st O; inversion Rys as [|c u fs' us' U Us']; subst; try discriminate; cbn [combine fold_pairs map].
    + intros E. injection E as <- <-. apply mpost_same; [exact O|reflexivity|discriminate].
    + injection LL as LL. destruct (wr_match_term_aux n g true st e c) as [[st1 b1]|] eqn:M; [|discriminate]. pose proof (IH st e c st1 b1 t u O R U M) as P1. destruct b1.
      * intros E. specialize (IHs fs' us' Us' LL st1 (m_ok _ _ _ _ _ P1) E). apply (mpost_weak g st st' b (fun th => inst th t = u /\ map (inst th) ts = us')); [now apply (mpost_trans g st st1 st')|].
        intros th. split; [intros (-> & ->); reflexivity|]. intros X. now injection X.
      * intros E. injection E as <- <-. destruct P1 as [O1 K1 X1 T1 F1]. constructor; try assumption; [discriminate|]. intros _ th B X. apply (F1 eq_refl th B). now injection X.
Qed.
