(** Unification computes most general unifiers. *)
From Coq Require Import ZArith List Bool SpecFloat Lia.
From Verif Require Import Base EncodingModel CompareModel CompareProofs UnistrModel UnifyModel UnifySpec.
Import ListNotations.
Open Scope Z_scope.
#[local] Ltac Zify.zify_post_hook ::= Z.div_mod_to_equations.

(** ** Constants *)
Lemma isfullint7 b : isfullint b = (Z.land b 7 =? 1) || (Z.land b 7 =? 5).
Proof.
  unfold isfullint. change 7 with (Z.ones 3). change 3 with (Z.ones 2) at 1. rewrite !Z.land_ones by lia. change (2 ^ 3) with 8. change (2 ^ 2) with 4.
  destruct (Z.eqb_spec (b mod 4) 1), (Z.eqb_spec (b mod 8) 1), (Z.eqb_spec (b mod 8) 5); cbn [orb]; try reflexivity; exfalso; lia.
Qed.
Lemma same_bytes_iff m a b n : same_bytes m a b n = true <-> map (fun i => byte m (a + Z.of_nat i)) (seq 0 n) = map (fun i => byte m (b + Z.of_nat i)) (seq 0 n).
Proof.
  unfold same_bytes. rewrite forallb_forall. generalize (seq 0 n). induction l as [|i l IH]; cbn [map]; [easy|]. split.
  - intros H. f_equal; [apply Z.eqb_eq, H; now left|]. apply IH. intros x Hx. apply H. now right.
  - intros H. injection H as E R. intros x [->|Hx]; [now apply Z.eqb_eq|]. now apply (proj2 IH R).
Qed.
Lemma KStr_inj a b : KStr a = KStr b -> a = b.
Proof. intros H. now injection H. Qed.
Lemma prim_key s a b : a <> b -> wr_equal_ptr_primitives s a b true = true <-> const_key s a = const_key s b.
Proof.
  intros N. unfold wr_equal_ptr_primitives, const_key, isfulldouble, isshortstr. rewrite isfullint7.
  destruct ((Z.land a 7 =? 1) || (Z.land a 7 =? 5)).
  { destruct ((Z.land b 7 =? 1) || (Z.land b 7 =? 5)); cbn [andb].
    - rewrite Z.eqb_eq. split; [intros ->; reflexivity|]. intros H. now injection H.
    - split; [discriminate|]. destruct (Z.land b 7 =? 2); [destruct (double_of_bits (wg_decode_double s b)); discriminate|]. destruct (Z.land b 7 =? 6); discriminate. }
  destruct (Z.eqb_spec (Z.land a 7) 2) as [Ea|Ea].
  { destruct (Z.eqb_spec (Z.land b 7) 2) as [Eb|Eb]; cbn [andb].
    - rewrite Eb. cbn [Z.eqb Pos.eqb orb]. unfold double_eq.
      pose proof (double_cmp (wg_decode_double s a) (wg_decode_double s b) (wg_decode_double_range s a) (wg_decode_double_range s b)) as D. unfold not_nan in D.
      assert (DA : double_of_bits (wg_decode_double s a) = S754_nan \/ double_of_bits (wg_decode_double s a) <> S754_nan) by (destruct (double_of_bits (wg_decode_double s a)); (now left) || (right; discriminate)).
      assert (DB : double_of_bits (wg_decode_double s b) = S754_nan \/ double_of_bits (wg_decode_double s b) <> S754_nan) by (destruct (double_of_bits (wg_decode_double s b)); (now left) || (right; discriminate)).
      destruct DA as [DA|DA]; [rewrite DA; cbn [SFcompare]; split; [discriminate|]; destruct (double_of_bits (wg_decode_double s b)); intros H; try discriminate; injection H as H; contradiction|].
      destruct DB as [DB|DB]; [rewrite DB; destruct (double_of_bits (wg_decode_double s a)); cbn [SFcompare]; (split; [discriminate|]); intros H; try discriminate; now contradiction DA|].
      rewrite D by assumption.
      assert (KA : match double_of_bits (wg_decode_double s a) with S754_nan => KImm a | _ => KDouble (dkey (wg_decode_double s a)) end = KDouble (dkey (wg_decode_double s a))) by (destruct (double_of_bits (wg_decode_double s a)); try reflexivity; now contradiction DA).
      assert (KB : match double_of_bits (wg_decode_double s b) with S754_nan => KImm b | _ => KDouble (dkey (wg_decode_double s b)) end = KDouble (dkey (wg_decode_double s b))) by (destruct (double_of_bits (wg_decode_double s b)); try reflexivity; now contradiction DB).
      rewrite KA, KB. destruct (Z.compare_spec (dkey (wg_decode_double s a)) (dkey (wg_decode_double s b))) as [E|E|E].
      + rewrite E. easy.
      + split; [discriminate|]. intros H. injection H. lia.
      + split; [discriminate|]. intros H. injection H. lia.
    - split; [discriminate|]. destruct ((Z.land b 7 =? 1) || (Z.land b 7 =? 5)); [destruct (double_of_bits (wg_decode_double s a)); discriminate|].
      destruct (Z.land b 7 =? 6); [destruct (double_of_bits (wg_decode_double s a)); discriminate|]. destruct (double_of_bits (wg_decode_double s a)); intros H; try discriminate. injection H as H. contradiction. }
  destruct (Z.eqb_spec (Z.land a 7) 6) as [Fa|Fa].
  { destruct (Z.eqb_spec (Z.land b 7) 6) as [Fb|Fb]; cbn [andb].
    - rewrite Fb. cbn [Z.eqb Pos.eqb orb]. rewrite same_bytes_iff. split; [apply f_equal|apply KStr_inj].
    - split; [discriminate|]. destruct ((Z.land b 7 =? 1) || (Z.land b 7 =? 5)); [discriminate|]. destruct (Z.land b 7 =? 2); [destruct (double_of_bits (wg_decode_double s b)); discriminate|discriminate]. }
  replace (if Z.land a 7 =? 4 then a =? b else false) with false by (destruct (Z.land a 7 =? 4); [symmetry; now apply Z.eqb_neq|reflexivity]).
  split; [discriminate|]. destruct ((Z.land b 7 =? 1) || (Z.land b 7 =? 5)); [discriminate|]. destruct (Z.land b 7 =? 2); [destruct (double_of_bits (wg_decode_double s b)); intros H; try discriminate; injection H as H; contradiction|].
  destruct (Z.land b 7 =? 6); [discriminate|]. intros H. injection H as H. contradiction.
Qed.

(** ** Records *)
Lemma std_slice g fs : std g -> slice g (limit g (Z.of_nat (length fs))) fs = args g fs.
Proof.
  intros (_ & M & F). unfold slice, limit, args. rewrite M. cbn [Z.eqb negb andb]. apply firstn_all2. rewrite skipn_length. lia.
Qed.
Lemma std_pairs g xs ys : std g -> pairs g xs ys = if (length xs =? length ys)%nat then Some (combine (args g xs) (args g ys)) else None.
Proof.
  intros Sd. pose proof Sd as (L & M & F). unfold pairs. rewrite L. cbn [andb].
  destruct (Nat.eqb_spec (length xs) (length ys)) as [E|E].
  - rewrite E, Z.eqb_refl. cbn [negb]. f_equal. f_equal; [rewrite <- E|]; now apply std_slice.
  - replace (Z.of_nat (length xs) =? Z.of_nat (length ys)) with false by (symmetry; apply Z.eqb_neq; lia). reflexivity.
Qed.
Lemma args_len g xs ys : std g -> g_first g <= Z.of_nat (length xs) -> g_first g <= Z.of_nat (length ys) -> length (args g xs) = length (args g ys) -> length xs = length ys.
Proof. intros (_ & _ & F). unfold args. rewrite !skipn_length. lia. Qed.

(** ** Bindings *)
Record inv (g : genv) (vb : Z -> Z) (th : Z -> term) (rk : Z -> nat) : Prop := Inv {
  i_free : forall v, vb v = UNASSIGNED -> th v = TV v;
  i_sol : solves g vb th;
  i_mg : forall th', solves g vb th' -> forall v, inst th' (th v) = th' v;
  i_rep : forall v, vb v <> UNASSIGNED -> exists t, rep g (vb v) t;
  i_rank : forall v, isvar (vb v) = true -> (rk (decode_var (vb v)) < rk v)%nat }.
Lemma inv_empty g vb : (forall v, vb v = UNASSIGNED) -> inv g vb TV (fun _ => O).
Proof.
  intros H. constructor.
  - reflexivity.
  - intros v t N. now contradiction (N (H v)).
  - reflexivity.
  - intros v N. now contradiction (N (H v)).
  - intros v V. rewrite H in V. discriminate.
Qed.
(** The new value of variable [x]. *)
Definition put (x : Z) (t : term) (v : Z) : term := if v =? x then t else TV v.
Lemma put_other x t u : ~ occurs x u -> inst (put x t) u = u.
Proof. intros N. rewrite <- (inst_TV u) at 2. apply inst_ext. intros v O. unfold put. destruct (Z.eqb_spec v x); [subst; contradiction|reflexivity]. Qed.
Lemma solves_set g vb x y ty th : vb x = UNASSIGNED -> rep g y ty -> solves g (upd vb x y) th <-> solves g vb th /\ th x = inst th ty.
Proof.
  intros U R. unfold solves. split.
  - intros H. split.
    + intros v t N Rv. apply H; unfold upd; destruct (Z.eqb_spec v x); try assumption; subst; contradiction.
    + apply (H x ty); unfold upd; rewrite Z.eqb_refl; [now apply rep_assigned in R|exact R].
  - intros (H & E) v t. unfold upd. destruct (Z.eqb_spec v x) as [->|N]; [|apply H]. intros _ R'. now rewrite <- (rep_det g y ty R t R').
Qed.
Lemma inv_set g vb th rk x y ty : inv g vb th rk -> vb x = UNASSIGNED -> rep g y ty -> ~ occurs x (inst th ty) -> (isvar y = true -> vb (decode_var y) = UNASSIGNED) ->
  exists th' rk', inv g (upd vb x y) th' rk'.
Proof.
  intros [F S M R K] U Ry N Y.
  exists (fun v => inst (put x (inst th ty)) (th v)), (fun v => (rk v + match th v with TV u => if (u =? x)%Z then Datatypes.S (rk (decode_var y)) else O | _ => O end)%nat).
  assert (NY : y <> UNASSIGNED) by now apply rep_assigned in Ry.
  constructor.
  - intros v. unfold upd. destruct (Z.eqb_spec v x) as [->|D]; [intros; contradiction|]. intros E. rewrite (F v E). cbn [inst]. unfold put. destruct (Z.eqb_spec v x); [contradiction|reflexivity].
  - apply (solves_set g vb x y ty); [exact U|exact Ry|]. split.
    + intros v t A Rv. rewrite (S v t A Rv), inst_inst. reflexivity.
    + rewrite (F x U). cbn [inst]. unfold put at 1. rewrite Z.eqb_refl, <- inst_inst. symmetry. now apply put_other.
  - intros th' S' v. apply (solves_set g vb x y ty) in S'; [|exact U|exact Ry]. destruct S' as (S' & E). rewrite inst_inst, <- (M th' S' v). apply inst_ext. intros w _. unfold put. destruct (Z.eqb_spec w x) as [->|]; [|reflexivity].
    rewrite inst_inst, E. apply inst_ext. intros u _. now apply M.
  - intros v. unfold upd. destruct (Z.eqb_spec v x) as [->|D]; [intros _; now exists ty|apply R].
  - intros v. unfold upd. destruct (Z.eqb_spec v x) as [->|D].
    + intros V. specialize (Y V). rewrite (F _ U), Z.eqb_refl, (F _ Y). inversion Ry; subst; [|congruence|apply rec_not_var in H; congruence]. cbn [inst] in N. rewrite (F _ Y) in N. cbn [occurs] in N.
      destruct (Z.eqb_spec (decode_var y) x); [contradiction|lia].
    + intros V. specialize (K v V). rewrite (S v (TV (decode_var (vb v)))); [|now apply var_assigned|now apply rep_var]. cbn [inst]. lia.
Qed.
Lemma value_spec g vb th rk n e e' t : inv g vb th rk -> rep g e t -> value n vb e = Some e' ->
  exists t', rep g e' t' /\ (forall th', solves g vb th' -> inst th' t' = inst th' t) /\ (isvar e' = true -> vb (decode_var e') = UNASSIGNED).
Proof.
  intros H. unfold value. revert e t. induction n as [|n IH]; intros e t R.
  - destruct (isvar e) eqn:V; [discriminate|]. intros E. injection E as <-. exists t. split; [exact R|]. split; [reflexivity|congruence].
  - destruct (isvar e) eqn:V; [|intros E; injection E as <-; exists t; split; [exact R|]; split; [reflexivity|congruence]].
    cbn [wr_varval]. destruct (Z.eqb_spec (vb (decode_var e)) UNASSIGNED) as [U|U]; [intros E; injection E as <-; exists t; now repeat split|].
    assert (T : t = TV (decode_var e)) by (inversion R; subst; [reflexivity|congruence|apply rec_not_var in H0; congruence]). subst t.
    destruct (i_rep _ _ _ _ H _ U) as (u & Ru).
    assert (W : exists t', rep g (vb (decode_var e)) u -> (if isvar (vb (decode_var e)) then wr_varval n vb (vb (decode_var e)) else Some (vb (decode_var e))) = Some e' ->
       rep g e' t' /\ (forall th', solves g vb th' -> inst th' t' = inst th' u) /\ (isvar e' = true -> vb (decode_var e') = UNASSIGNED)).
    { destruct (if isvar (vb (decode_var e)) then wr_varval n vb (vb (decode_var e)) else Some (vb (decode_var e))) as [q|] eqn:Q; [|exists u; discriminate].
      destruct (Z.eqb_spec q e') as [->|]; [|exists u; intros _ E; injection E; contradiction].
      destruct (IH _ _ Ru Q) as (t' & I). exists t'. intros _ _. exact I. }
    destruct W as (t' & W). intros E. exists t'.
    destruct (W Ru) as (R' & I' & V').
    { destruct (isvar (vb (decode_var e))); cbn [negb] in E; exact E. }
    split; [exact R'|]. split; [|exact V']. intros th' S'. rewrite (I' th' S'). cbn [inst]. symmetry. now apply S'.
Qed.
Lemma varval_mono n m vb e r : (n <= m)%nat -> wr_varval n vb e = Some r -> wr_varval m vb e = Some r.
Proof.
  revert m e. induction n as [|n IH]; intros m e L; [discriminate|]. destruct m as [|m]; [lia|]. cbn [wr_varval]. destruct (vb (decode_var e) =? UNASSIGNED); [easy|]. destruct (negb (isvar (vb (decode_var e)))); [easy|]. apply IH. lia.
Qed.
Lemma value_mono n m vb e r : (n <= m)%nat -> value n vb e = Some r -> value m vb e = Some r.
Proof. unfold value. intros L. destruct (isvar e); [now apply varval_mono|easy]. Qed.
Lemma value_total g vb th rk e : inv g vb th rk -> exists r, value (S (rk (decode_var e))) vb e = Some r.
Proof.
  intros H. unfold value. destruct (isvar e); [|now exists e].
  assert (G : forall n e, (rk (decode_var e) < n)%nat -> exists r, wr_varval n vb e = Some r).
  { induction n as [|n IH]; intros x L; [lia|]. cbn [wr_varval]. destruct (vb (decode_var x) =? UNASSIGNED); [now eexists|]. destruct (isvar (vb (decode_var x))) eqn:V; cbn [negb]; [|now eexists].
    apply IH. pose proof (i_rank _ _ _ _ H _ V). lia. }
  apply G. lia.
Qed.

(** ** Occurs check *)
Lemma rep_rec_inv g e t : rep g e t -> isdatarec e = true -> exists fs ts, t = TF ts /\ record g e = Some fs /\ g_first g <= Z.of_nat (length fs) /\ reps g (args g fs) ts.
Proof. intros R D. inversion R; subst; [apply rec_not_var in D; congruence|congruence|]. now exists fs, ts. Qed.
Lemma rep_con_inv g e t : rep g e t -> isvar e = false -> isdatarec e = false -> t = TC (const_key (g_db g) e).
Proof. intros R V D. inversion R; subst; [congruence|reflexivity|congruence]. Qed.
Lemma rep_var_inv g e t : rep g e t -> isvar e = true -> t = TV (decode_var e).
Proof. intros R V. inversion R; subst; [reflexivity|congruence|apply rec_not_var in H; congruence]. Qed.
Lemma occurs_spec g vb th rk : std g -> inv g vb th rk -> forall n x y ts b, isvar x = true -> vb (decode_var x) = UNASSIGNED -> isdatarec y = true -> rep g y (TF ts) ->
  wr_occurs_in n g vb x y = Some b -> (b = true <-> occurs (decode_var x) (inst th (TF ts))).
Proof.
  intros Sd H. induction n as [|n IH]; intros x y ts b V U D R; cbn [wr_occurs_in]; [discriminate|].
  destruct (rep_rec_inv g y _ R D) as (fs & ts' & E & Rc & L & Rs). injection E as <-. rewrite Rc, (std_slice g fs Sd).
  cbn [inst]. rewrite occurs_TF. clear Rc L R D y. revert b. induction Rs as [|e t es ts Re Rs IHs]; intros b; cbn [any_field map].
  - intros E. injection E as <-. split; [discriminate|intros X; inversion X].
  - destruct (value n vb e) as [e'|] eqn:Ve; [|discriminate].
    destruct (value_spec g vb th rk n e e' t H Re Ve) as (t' & R' & I' & U'). specialize (I' th (i_sol _ _ _ _ H)).
    assert (X : forall b', (if x =? e' then Some true else if isdatarec e' then wr_occurs_in n g vb x e' else Some false) = Some b' -> (b' = true <-> occurs (decode_var x) (inst th t))).
    { intros b'. rewrite <- I'. destruct (Z.eqb_spec x e') as [<-|Nx].
      - intros E. injection E as <-. rewrite (rep_var_inv _ _ _ R' V). cbn [inst]. rewrite (i_free _ _ _ _ H _ U). cbn [occurs]. easy.
      - destruct (isdatarec e') eqn:D'.
        + destruct (rep_rec_inv g e' _ R' D') as (fs' & ts' & -> & _). now apply IH.
        + intros E. injection E as <-. split; [discriminate|]. destruct (isvar e') eqn:Ve'.
          * rewrite (rep_var_inv _ _ _ R' Ve'). cbn [inst]. rewrite (i_free _ _ _ _ H _ (U' eq_refl)). cbn [occurs]. intros E. apply var_inj in E; [congruence|exact Ve'|exact V].
          * rewrite (rep_con_inv _ _ _ R' Ve' D'). intros []. }
    destruct (if x =? e' then Some true else if isdatarec e' then wr_occurs_in n g vb x e' else Some false) as [[]|]; [| |discriminate].
    + intros E. injection E as <-. specialize (X true eq_refl). split; [|easy]. intros _. left. now apply X.
    + intros E. specialize (X false eq_refl). rewrite (IHs b E), Exists_cons. split; [now right|]. intros [O|O]; [now apply X in O|exact O].
Qed.

(** ** Unification: soundness and completeness *)
Lemma NoDup_app_intro {A} (a b : list A) : NoDup a -> NoDup b -> (forall x, In x a -> In x b -> False) -> NoDup (a ++ b).
Proof.
  induction a as [|x a IH]; intros Na Nb D; [exact Nb|]. inversion Na; subst. cbn [app]. constructor.
  - rewrite in_app_iff. intros [J|J]; [contradiction|]. apply (D x); [now left|exact J].
  - apply IH; try assumption. intros y Ja Jb. apply (D y); [now right|exact Jb].
Qed.
Record post (g : genv) (st st' : ust) (b : bool) (eqs : (Z -> term) -> Prop) : Prop := Post {
  p_inv : exists th' rk', inv g (u_vb st') th' rk';
  p_stk : exists new, u_stk st' = new ++ u_stk st /\ (new = [] -> u_vb st' = u_vb st) /\ (forall v, ~ In v new -> u_vb st' v = u_vb st v) /\ (forall v, In v new -> u_vb st v = UNASSIGNED /\ u_vb st' v <> UNASSIGNED) /\ NoDup new;
  p_ext : forall th, solves g (u_vb st') th -> solves g (u_vb st) th;
  p_true : b = true -> forall th, solves g (u_vb st') th <-> solves g (u_vb st) th /\ eqs th;
  p_false : b = false -> forall th, solves g (u_vb st) th -> ~ eqs th }.
Lemma post_same g st th rk b (eqs : (Z -> term) -> Prop) : inv g (u_vb st) th rk -> (b = true -> forall th, solves g (u_vb st) th -> eqs th) -> (b = false -> forall th, solves g (u_vb st) th -> ~ eqs th) -> post g st st b eqs.
Proof.
  intros H T F. constructor; [now exists th, rk| |easy| |exact F].
  - exists []. repeat split; try easy. constructor.
  - intros B th1. split; [|easy]. intros S. split; [exact S|now apply T].
Qed.
Lemma post_set g st th rk x y ty (eqs : (Z -> term) -> Prop) : inv g (u_vb st) th rk -> isvar x = true -> u_vb st (decode_var x) = UNASSIGNED -> rep g y ty -> ~ occurs (decode_var x) (inst th ty) ->
  (isvar y = true -> u_vb st (decode_var y) = UNASSIGNED) -> (forall th, solves g (u_vb st) th -> (eqs th <-> th (decode_var x) = inst th ty)) -> post g st (setvar st x y) true eqs.
Proof.
  intros H V U R N Y Q. unfold setvar. constructor; cbn [u_vb u_stk].
  - now apply (inv_set g _ th rk _ _ ty).
  - exists [decode_var x]. split; [reflexivity|]. split; [discriminate|]. split; [|split; [|repeat constructor; easy]].
    + intros v Nv. unfold upd. destruct (Z.eqb_spec v (decode_var x)) as [->|]; [|reflexivity]. contradiction Nv. now left.
    + intros v [<-|[]]. split; [exact U|]. unfold upd. rewrite Z.eqb_refl. now apply rep_assigned in R.
  - intros th1 S. now apply (solves_set g _ _ y ty) in S.
  - intros _ th1. rewrite (solves_set g _ _ y ty) by assumption. split; intros (S & E); (split; [exact S|]); now apply Q.
  - discriminate.
Qed.
Lemma post_trans g a b c r eqs1 eqs2 : post g a b true eqs1 -> post g b c r eqs2 -> post g a c r (fun th => eqs1 th /\ eqs2 th).
Proof.
  intros [I1 (n1 & K1 & Z1 & O1 & M1 & D1) X1 T1 F1] [I2 (n2 & K2 & Z2 & O2 & M2 & D2) X2 T2 F2]. constructor; [exact I2| |now intros; apply X1, X2| |].
  - exists (n2 ++ n1). split; [rewrite K2, K1; now rewrite app_assoc|]. split; [intros E; apply app_eq_nil in E; destruct E; now rewrite Z2, Z1|]. split; [|split].
    + intros v N. rewrite in_app_iff in N. rewrite O2, O1 by tauto. reflexivity.
    + intros v. rewrite in_app_iff. intros Hv. destruct (in_dec Z.eq_dec v n1) as [J|J].
      * destruct (M1 v J) as (A & B). split; [exact A|]. destruct (in_dec Z.eq_dec v n2) as [J2|J2]; [now apply M2|]. now rewrite O2.
      * destruct Hv as [Hv|Hv]; [|contradiction]. destruct (M2 v Hv) as (A & B). split; [|exact B]. now rewrite <- O1.
    + apply NoDup_app_intro; try assumption. intros v J2 J1. destruct (M2 v J2), (M1 v J1). contradiction.
  - intros R th1. rewrite (T2 R th1), (T1 eq_refl th1). tauto.
  - intros R th1 S (E1 & E2). apply (F2 R th1); [|exact E2]. apply (T1 eq_refl). now split.
Qed.

Lemma post_weak g a b r (e1 e2 : (Z -> term) -> Prop) : post g a b r e1 -> (forall th, solves g (u_vb a) th -> (e1 th <-> e2 th)) -> post g a b r e2.
Proof.
  intros [I K X T F] E. constructor; try assumption.
  - intros R th. rewrite (T R th). split; intros (S & Q); (split; [exact S|]); now apply E.
  - intros R th S Q. apply (F R th S). now apply E.
Qed.
Lemma post_fail g a b c eqs1 eqs2 : post g a b true eqs1 -> post g b c false eqs2 -> post g a c false (fun th => eqs1 th /\ eqs2 th).
Proof. apply post_trans. Qed.
Lemma map_cons_eq (f : term -> term) a b l k : f a = f b /\ map f l = map f k <-> map f (a :: l) = map f (b :: k).
Proof. cbn [map]. split; [intros (-> & ->); reflexivity|]. intros H. injection H. auto. Qed.
Theorem unify_ok g : std g -> forall n st x y st' b tx ty th rk, inv g (u_vb st) th rk -> rep g x tx -> rep g y ty -> wr_unify_term_aux n g true st x y = Some (st', b) ->
  post g st st' b (fun th => inst th tx = inst th ty).
Proof.
  intros Sd. induction n as [|n IH]; intros st x y st' b tx ty th rk H Rx Ry; cbn [wr_unify_term_aux]; [discriminate|].
  destruct (Z.eqb_spec x y) as [->|N0].
  { intros E. injection E as <- <-. apply (post_same g st th rk); [exact H| |discriminate]. intros _ th1 _. now rewrite (rep_det g y tx Rx ty Ry). }
  destruct (value n (u_vb st) x) as [x'|] eqn:Vx; [|discriminate]. destruct (value n (u_vb st) y) as [y'|] eqn:Vy; [|discriminate].
  destruct (value_spec g _ th rk n x x' tx H Rx Vx) as (tx' & Rx' & Ix & Ux). destruct (value_spec g _ th rk n y y' ty H Ry Vy) as (ty' & Ry' & Iy & Uy).
  intros E. apply (post_weak g st st' b (fun th => inst th tx' = inst th ty')); [|intros th1 S1; now rewrite (Ix th1 S1), (Iy th1 S1)].
  revert E. clear x y tx ty Rx Ry N0 Vx Vy Ix Iy. rename x' into x, y' into y, tx' into tx, ty' into ty, Rx' into Rx, Ry' into Ry.
  destruct (Z.eqb_spec x y) as [->|N].
  { intros E. injection E as <- <-. apply (post_same g st th rk); [exact H| |discriminate]. intros _ th1 _. now rewrite (rep_det g y tx Rx ty Ry). }
  assert (SET : forall u z tu tz, rep g u tu -> rep g z tz -> u <> z -> isvar u = true -> u_vb st (decode_var u) = UNASSIGNED -> (isvar z = true -> u_vb st (decode_var z) = UNASSIGNED) ->
     isdatarec z = false -> post g st (setvar st u z) true (fun th => inst th tu = inst th tz)).
  { intros u z tu tz Ru Rz Nu Vu Uu Uz Dz. rewrite (rep_var_inv _ _ _ Ru Vu). apply (post_set g st th rk u z tz); try assumption; [|easy].
    destruct (isvar z) eqn:Vz.
    - rewrite (rep_var_inv _ _ _ Rz Vz). cbn [inst]. rewrite (i_free _ _ _ _ H _ (Uz eq_refl)). cbn [occurs]. intros E. apply Nu. symmetry. now apply var_inj.
    - rewrite (rep_con_inv _ _ _ Rz Vz Dz). intros []. }
  assert (OCC : forall u z tu tz, rep g u tu -> rep g z tz -> isvar u = true -> u_vb st (decode_var u) = UNASSIGNED -> isdatarec z = true ->
     match wr_occurs_in n g (u_vb st) u z with None => None | Some true => Some (st, false) | Some false => Some (setvar st u z, true) end = Some (st', b) ->
     post g st st' b (fun th => inst th tu = inst th tz)).
  { intros u z tu tz Ru Rz Vu Uu Dz. destruct (wr_occurs_in n g (u_vb st) u z) as [o|] eqn:O; [|discriminate].
    destruct (rep_rec_inv g z tz Rz Dz) as (fs & ts & -> & _). apply (occurs_spec g _ th rk Sd H n u z ts o Vu Uu Dz Rz) in O. rewrite (rep_var_inv _ _ _ Ru Vu). destruct o.
    - intros E. injection E as <- <-. apply (post_same g st th rk); [exact H|discriminate|]. intros _ th1 S1 E. cbn [inst] in E.
      assert (O' : occurs (decode_var u) (inst th (TF ts))) by now apply O.
      pose proof (occurs_size_TF th1 (decode_var u) (map (inst th) ts) O') as Z1. change (TF (map (inst th) ts)) with (inst th (TF ts)) in Z1. rewrite inst_inst in Z1.
      rewrite (inst_ext (fun v => inst th1 (th v)) th1) in Z1 by (intros; now apply (i_mg _ _ _ _ H)). cbn [inst] in Z1. rewrite E in Z1. lia.
    - intros E. injection E as <- <-. apply (post_set g st th rk u z (TF ts)); try assumption; [|intros X; apply rec_not_var in Dz; congruence|easy]. intros O'. apply O in O'. discriminate. }
  destruct (isdatarec x) eqn:Dx; cbn [negb].
  2:{ destruct (isdatarec y) eqn:Dy; cbn [negb].
    - destruct (isvar x) eqn:Wx; [apply OCC; auto|]. intros E. injection E as <- <-. apply (post_same g st th rk); [exact H|discriminate|]. intros _ th1 _.
      rewrite (rep_con_inv _ _ _ Rx Wx Dx). destruct (rep_rec_inv g y ty Ry Dy) as (fs & ts & -> & _). discriminate.
    - destruct (isvar x) eqn:Wx; [intros E; injection E as <- <-; apply SET; auto|]. destruct (isvar y) eqn:Wy.
      + intros E. injection E as <- <-. apply (post_weak g st _ true (fun th => inst th ty = inst th tx)); [apply SET; auto; congruence|]. intros th1 _. split; congruence.
      + intros E. injection E as <- <-. rewrite (rep_con_inv _ _ _ Rx Wx Dx), (rep_con_inv _ _ _ Ry Wy Dy). pose proof (prim_key (g_db g) x y N) as P. apply (post_same g st th rk); [exact H| |].
        * intros B th1 _. cbn [inst]. f_equal. now apply P.
        * intros B th1 _ E. cbn [inst] in E. injection E as E. apply P in E. congruence. }
  destruct (isvar y) eqn:Wy.
  { intros E. apply (post_weak g st st' b (fun th => inst th ty = inst th tx)); [|intros th1 _; split; congruence]. revert E. apply OCC; auto. }
  destruct (isdatarec y) eqn:Dy; cbn [negb].
  2:{ intros E. injection E as <- <-. apply (post_same g st th rk); [exact H|discriminate|]. intros _ th1 _.
    rewrite (rep_con_inv _ _ _ Ry Wy Dy). destruct (rep_rec_inv g x tx Rx Dx) as (fs & ts & -> & _). discriminate. }
  destruct (rep_rec_inv g x tx Rx Dx) as (xs & txs & -> & Rcx & Lx & Rxs). destruct (rep_rec_inv g y ty Ry Dy) as (ys & tys & -> & Rcy & Ly & Rys).
  rewrite Rcx, Rcy, (std_pairs g xs ys Sd). destruct (Nat.eqb_spec (length xs) (length ys)) as [L|L].
  2:{ intros E. injection E as <- <-. apply (post_same g st th rk); [exact H|discriminate|]. intros _ th1 _ E. cbn [inst] in E. injection E as E. apply (f_equal (@length term)) in E. rewrite !map_length, <- (reps_len _ _ _ Rxs), <- (reps_len _ _ _ Rys) in E.
    apply L. now apply (args_len g xs ys Sd). }
  assert (LL : length (args g xs) = length (args g ys)) by (unfold args; now rewrite !skipn_length, L).
  clear - IH H Rxs Rys LL. intros E. apply (post_weak g st st' b (fun th => map (inst th) txs = map (inst th) tys)); [|intros th1 _; cbn [inst]; split; [congruence|intros X; now injection X]].
  set (es := args g xs) in *. set (fs := args g ys) in *. clearbody es fs. clear xs ys.
  revert st th rk H fs tys Rys LL E. induction Rxs as [|a ta es txs Ra Rxs IHl]; intros st th rk H fs tys Rys LL.
  - inversion Rys; subst; [|discriminate]. cbn [combine fold_pairs]. intros E. injection E as <- <-. apply (post_same g st th rk); [exact H|reflexivity|discriminate].
  - inversion Rys as [|a2 t2 es2 ts2 R2 Rs2]; subst; [discriminate|]. cbn [combine fold_pairs]. injection LL as LL.
    assert (P1 : forall st1 b1, (if a =? a2 then Some (st, true) else wr_unify_term_aux n g true st a a2) = Some (st1, b1) -> post g st st1 b1 (fun th => inst th ta = inst th t2)).
    { intros st1 b1. destruct (Z.eqb_spec a a2) as [->|Na].
      - intros E. injection E as <- <-. apply (post_same g st th rk); [exact H| |discriminate]. intros _ th1 _. now rewrite (rep_det g a2 ta Ra t2 R2).
      - now apply (IH st a a2 st1 b1 ta t2 th rk). }
    destruct (if a =? a2 then Some (st, true) else wr_unify_term_aux n g true st a a2) as [[st1 []]|]; [| |discriminate].
    + specialize (P1 st1 true eq_refl). intros E. destruct (p_inv _ _ _ _ _ P1) as (th1 & rk1 & H1). specialize (IHl st1 th1 rk1 H1 es2 ts2 Rs2 LL E).
      apply (post_weak g st st' b (fun th => inst th ta = inst th t2 /\ map (inst th) txs = map (inst th) ts2)); [now apply (post_trans g st st1 st')|]. intros th2 _. apply map_cons_eq.
    + specialize (P1 st1 false eq_refl). intros E. injection E as <- <-. destruct P1 as [I1 K1 X1 T1 F1]. constructor; try assumption; [discriminate|]. intros _ th2 S2 Q. apply (F1 eq_refl th2 S2). apply map_cons_eq in Q. apply Q.
Qed.
