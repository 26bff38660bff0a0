(** Unification ends. *)
From Coq Require Import ZArith List Bool SpecFloat Lia Wf_nat.
From Verif Require Import Base EncodingModel CompareModel CompareProofs UnistrModel UnifyModel UnifySpec UnifyProofs.
Import ListNotations.
Open Scope Z_scope.
#[local] Ltac Zify.zify_post_hook ::= Z.div_mod_to_equations.

(** ** More fuel changes nothing *)
Lemma any_mono (f f' : Z -> option bool) l r : (forall a b, f a = Some b -> f' a = Some b) -> any_field f l = Some r -> any_field f' l = Some r.
Proof.
  intros H. induction l as [|a l IH]; cbn [any_field]; [easy|]. destruct (f a) as [[]|] eqn:E; [| |discriminate]; rewrite (H a _ E); [easy|exact IH].
Qed.
Lemma occurs_mono g vb x r : forall n m y, (n <= m)%nat -> wr_occurs_in n g vb x y = Some r -> wr_occurs_in m g vb x y = Some r.
Proof.
  assert (G : forall n m y r, (n <= m)%nat -> wr_occurs_in n g vb x y = Some r -> wr_occurs_in m g vb x y = Some r); [|intros; now apply (G n)].
  induction n as [|n IH]; intros m y q L; [discriminate|]. destruct m as [|m]; [lia|]. cbn [wr_occurs_in]. destruct (record g y); [|easy]. apply any_mono. intros a b.
  destruct (value n vb a) as [a'|] eqn:V; [|discriminate]. rewrite (value_mono n m vb a a') by (assumption || lia). destruct (x =? a'); [easy|]. destruct (isdatarec a'); [|easy]. apply IH. lia.
Qed.
Lemma fold_mono (f f' : ust -> Z -> Z -> option (ust * bool)) l st r : (forall st a b r, f st a b = Some r -> f' st a b = Some r) -> fold_pairs f st l = Some r -> fold_pairs f' st l = Some r.
Proof.
  intros H. revert st. induction l as [|[a b] l IH]; intros st; cbn [fold_pairs]; [easy|]. destruct (f st a b) as [[st1 c]|] eqn:E; [|discriminate]. rewrite (H _ _ _ _ E). destruct c; [apply IH|easy].
Qed.
Lemma unify_mono g u : forall n m st x y r, (n <= m)%nat -> wr_unify_term_aux n g u st x y = Some r -> wr_unify_term_aux m g u st x y = Some r.
Proof.
  induction n as [|n IH]; intros m st x y r L; [discriminate|]. destruct m as [|m]; [lia|]. apply le_S_n in L. cbn [wr_unify_term_aux]. destruct (x =? y); [easy|].
  destruct (value n (u_vb st) x) as [x'|] eqn:Vx; [|discriminate]. rewrite (value_mono n m _ _ _ L Vx).
  destruct (value n (u_vb st) y) as [y'|] eqn:Vy; [|discriminate]. rewrite (value_mono n m _ _ _ L Vy).
  destruct (x' =? y'); [easy|]. destruct (isdatarec x'); cbn [negb].
  - destruct (isvar y').
    + destruct (wr_occurs_in n g (u_vb st) y' x') as [o|] eqn:O; [|discriminate]. now rewrite (occurs_mono g _ _ _ n m _ L O).
    + destruct (isdatarec y'); cbn [negb]; [|easy]. destruct (record g x'); [|easy]. destruct (record g y'); [|easy]. destruct (pairs g l l0); [|easy]. apply fold_mono. intros st0 a b r0. destruct (a =? b); [easy|]. now apply IH.
  - destruct (isdatarec y'); cbn [negb]; [|easy]. destruct (isvar x'); [|easy]. destruct (wr_occurs_in n g (u_vb st) x' y') as [o|] eqn:O; [|discriminate]. now rewrite (occurs_mono g _ _ _ n m _ L O).
Qed.

(** ** Enough fuel *)
Lemma occurs_total g vb th rk : std g -> inv g vb th rk -> forall x k y ts, (size (inst th (TF ts)) < k)%nat -> isdatarec y = true -> rep g y (TF ts) -> exists n r, wr_occurs_in n g vb x y = Some r.
Proof.
  intros Sd H x. induction k as [|k IH]; intros y ts L D R; [lia|].
  destruct (rep_rec_inv g y _ R D) as (fs & ts' & E & Rc & Lf & Rs). injection E as <-.
  assert (G : exists n r, any_field (fun yi => match value n vb yi with
                               | None => None
                               | Some yi => if x =? yi then Some true else if isdatarec yi then wr_occurs_in n g vb x yi else Some false
                               end) (args g fs) = Some r).
  { assert (L' : forall t, In t ts -> (size (inst th t) < k)%nat). { intros t Ht. cbn [inst] in L. pose proof (size_in (inst th t) _ (in_map (inst th) _ _ Ht)). lia. }
    clear R D Rc L Lf. induction Rs as [|e t es ts Re Rs IHs]; [now exists O, false|].
    destruct IHs as (n1 & r1 & A1). { intros u Hu. apply L'. now right. }
    destruct (value_total g vb th rk e H) as (e' & Ve). set (n2 := S (rk (decode_var e))) in *. destruct (value_spec g vb th rk n2 e e' t H Re Ve) as (t' & R' & I' & U'). specialize (I' th (i_sol _ _ _ _ H)).
    assert (Q : exists n3 r3, (if x =? e' then Some true else if isdatarec e' then wr_occurs_in n3 g vb x e' else Some false) = Some r3).
    { destruct (x =? e'); [now exists O, true|]. destruct (isdatarec e') eqn:D'; [|now exists O, false]. destruct (rep_rec_inv g e' _ R' D') as (fs' & ts' & -> & _).
      apply (IH e' ts'); [|exact D'|exact R']. rewrite I'. apply L'. now left. }
    destruct Q as (n3 & r3 & Q). exists (n1 + n2 + n3)%nat. cbn [any_field]. rewrite (value_mono n2 (n1 + n2 + n3) vb e e') by (assumption || lia).
    replace (if x =? e' then Some true else if isdatarec e' then wr_occurs_in (n1 + n2 + n3) g vb x e' else Some false) with (Some r3).
    2:{ symmetry. destruct (x =? e'); [exact Q|]. destruct (isdatarec e'); [|exact Q]. apply (occurs_mono g vb x r3 n3); [lia|exact Q]. }
    destruct r3; [now eexists|]. exists r1. revert A1. apply any_mono. intros a b. destruct (value n1 vb a) as [a'|] eqn:V; [|discriminate]. rewrite (value_mono n1 (n1 + n2 + n3) vb a a') by (assumption || lia).
    destruct (x =? a'); [easy|]. destruct (isdatarec a'); [|easy]. apply occurs_mono. lia. }
  destruct G as (n & r & G). exists (S n), r. cbn [wr_occurs_in]. now rewrite Rc, (std_slice g fs Sd).
Qed.

(** All variables are in a list. *)
Definition within (V : list Z) (t : term) : Prop := forall v, occurs v t -> In v V.
Definition closed (g : genv) (V : list Z) (vb : Z -> Z) : Prop := forall v t, vb v <> UNASSIGNED -> rep g (vb v) t -> within V t.
Definition free (vb : Z -> Z) (V : list Z) : nat := length (filter (fun v => vb v =? UNASSIGNED) V).
Lemma within_TF V l : within V (TF l) <-> Forall (within V) l.
Proof.
  unfold within. rewrite Forall_forall. split.
  - intros H t Ht v O. apply H. apply occurs_TF, Exists_exists. now exists t.
  - intros H v O. apply occurs_TF, Exists_exists in O. destruct O as (t & Ht & O). now apply (H t Ht).
Qed.
Lemma within_ex t : exists V, within V t.
Proof.
  induction t as [v|k|l IH] using term_ind'.
  - exists [v]. intros w <-. now left.
  - exists []. intros w [].
  - induction IH as [|t l (V & HV) IH (W & HW)]; [exists []; apply within_TF; constructor|]. exists (V ++ W). apply within_TF. constructor.
    + intros v O. apply in_app_iff. left. now apply HV.
    + apply within_TF in HW. eapply Forall_impl; [|exact HW]. intros u Hu v O. apply in_app_iff. right. now apply Hu.
Qed.
Lemma value_within g vb th rk n e e' t V : inv g vb th rk -> closed g V vb -> rep g e t -> within V t -> value n vb e = Some e' -> forall t', rep g e' t' -> within V t'.
Proof.
  intros H C. unfold value. revert e t. induction n as [|n IH]; intros e t R W.
  - destruct (isvar e) eqn:Ve; [discriminate|]. intros E. injection E as <-. intros t' R'. now rewrite <- (rep_det g e t R t' R').
  - destruct (isvar e) eqn:Ve; [|intros E; injection E as <-; intros t' R'; now rewrite <- (rep_det g e t R t' R')].
    cbn [wr_varval]. destruct (Z.eqb_spec (vb (decode_var e)) UNASSIGNED) as [U|U]; [intros E; injection E as <-; intros t' R'; now rewrite <- (rep_det g e t R t' R')|].
    destruct (i_rep _ _ _ _ H _ U) as (u & Ru). pose proof (C _ u U Ru) as Wu. intros E. apply (IH _ u Ru Wu). destruct (isvar (vb (decode_var e))); exact E.
Qed.
Lemma filter_len (f f' : Z -> bool) l : (forall v, In v l -> f' v = true -> f v = true) -> (length (filter f' l) <= length (filter f l))%nat.
Proof.
  induction l as [|a l IH]; intros H; cbn [filter length]; [lia|]. specialize (IH (fun v Hv => H v (or_intror Hv))). specialize (H a (or_introl eq_refl)).
  destruct (f' a), (f a); cbn [length]; try lia; discriminate (H eq_refl).
Qed.
Lemma filter_lt (f f' : Z -> bool) l w : (forall v, In v l -> f' v = true -> f v = true) -> In w l -> f w = true -> f' w = false -> (length (filter f' l) < length (filter f l))%nat.
Proof.
  induction l as [|a l IH]; intros H J Fw F'w; [easy|]. destruct J as [->|J]; cbn [filter].
  - rewrite Fw, F'w. cbn [length]. pose proof (filter_len f f' l (fun v Hv => H v (or_intror Hv))). lia.
  - specialize (IH (fun v Hv => H v (or_intror Hv)) J Fw F'w). specialize (H a (or_introl eq_refl)). destruct (f' a), (f a); cbn [length]; try lia; discriminate (H eq_refl).
Qed.

(** What one unification leaves behind: only variables of [V] are set, to terms with
    variables of [V]. *)
Lemma closed_set g V vb x y ty : closed g V vb -> rep g y ty -> within V ty -> closed g V (upd vb x y).
Proof. intros C R W v t. unfold upd. destruct (v =? x); [|apply C]. intros _ R'. now rewrite <- (rep_det g y ty R t R'). Qed.
Lemma unify_within g V : std g -> forall n st x y st' b tx ty th rk, inv g (u_vb st) th rk -> rep g x tx -> rep g y ty -> closed g V (u_vb st) -> within V tx -> within V ty ->
  wr_unify_term_aux n g true st x y = Some (st', b) -> closed g V (u_vb st') /\ forall v, u_vb st' v <> u_vb st v -> In v V.
Proof.
  intros Sd. induction n as [|n IH]; intros st x y st' b tx ty th rk H Rx Ry C Wx Wy; cbn [wr_unify_term_aux]; [discriminate|].
  assert (SAME : forall b0, Some (st, b0) = Some (st', b) -> closed g V (u_vb st') /\ forall v, u_vb st' v <> u_vb st v -> In v V) by (intros b0 E; injection E as <- <-; split; [exact C|congruence]).
  destruct (x =? y); [apply SAME|].
  destruct (value n (u_vb st) x) as [x'|] eqn:Vx; [|discriminate]. destruct (value n (u_vb st) y) as [y'|] eqn:Vy; [|discriminate].
  destruct (value_spec g _ th rk n x x' tx H Rx Vx) as (tx' & Rx' & Ix & Ux). destruct (value_spec g _ th rk n y y' ty H Ry Vy) as (ty' & Ry' & Iy & Uy).
  pose proof (value_within g _ th rk n x x' tx V H C Rx Wx Vx tx' Rx') as Wx'. pose proof (value_within g _ th rk n y y' ty V H C Ry Wy Vy ty' Ry') as Wy'.
  destruct (x' =? y'); [apply SAME|].
  assert (SET : forall u z tu tz b0, rep g u tu -> rep g z tz -> isvar u = true -> within V tu -> within V tz -> Some (setvar st u z, b0) = Some (st', b) -> closed g V (u_vb st') /\ forall v, u_vb st' v <> u_vb st v -> In v V).
  { intros u z tu tz b0 Ru Rz Vu Wu Wz E. injection E as <- <-. unfold setvar. cbn [u_vb]. split; [now apply (closed_set g V _ _ z tz)|]. intros v. unfold upd. destruct (Z.eqb_spec v (decode_var u)) as [->|]; [|congruence]. intros _. apply Wu. rewrite (rep_var_inv _ _ _ Ru Vu). reflexivity. }
  destruct (isdatarec x') eqn:Dx; cbn [negb].
  2:{ destruct (isdatarec y') eqn:Dy; cbn [negb].
    - destruct (isvar x') eqn:W1; [|apply SAME]. destruct (wr_occurs_in n g (u_vb st) x' y') as [[]|]; [apply SAME| |discriminate]. now apply (SET x' y' tx' ty').
    - destruct (isvar x') eqn:W1; [now apply (SET x' y' tx' ty')|]. destruct (isvar y') eqn:W2; [now apply (SET y' x' ty' tx')|apply SAME]. }
  destruct (isvar y') eqn:W2. { destruct (wr_occurs_in n g (u_vb st) y' x') as [[]|]; [apply SAME| |discriminate]. now apply (SET y' x' ty' tx'). }
  destruct (isdatarec y') eqn:Dy; cbn [negb]; [|apply SAME].
  destruct (rep_rec_inv g x' tx' Rx' Dx) as (xs & txs & -> & Rcx & Lx & Rxs). destruct (rep_rec_inv g y' ty' Ry' Dy) as (ys & tys & -> & Rcy & Ly & Rys).
  rewrite Rcx, Rcy, (std_pairs g xs ys Sd). destruct (Nat.eqb_spec (length xs) (length ys)) as [L|L]; [|apply SAME].
  apply within_TF in Wx'. apply within_TF in Wy'. clear - Sd IH H C Rxs Rys Wx' Wy'.
  set (es := args g xs) in *. set (fs := args g ys) in *. clearbody es fs. clear xs ys.
  revert st th rk H C fs tys Rys Wy'. induction Rxs as [|a ta es txs Ra Rxs IHl]; intros st th rk H C fs tys Rys Wy'.
  - cbn [combine fold_pairs]. intros E. injection E as <- <-. split; [exact C|congruence].
  - inversion Rys as [|a2 t2 es2 ts2 R2 Rs2]; subst; cbn [combine fold_pairs]; [intros E; injection E as <- <-; split; [exact C|congruence]|].
    pose proof (Forall_inv Wx') as A1; pose proof (Forall_inv_tail Wx') as A2; pose proof (Forall_inv Wy') as B1; pose proof (Forall_inv_tail Wy') as B2. specialize (IHl A2).
    assert (P1 : forall st1 b1, (if a =? a2 then Some (st, true) else wr_unify_term_aux n g true st a a2) = Some (st1, b1) -> (exists th1 rk1, inv g (u_vb st1) th1 rk1) /\ closed g V (u_vb st1) /\ forall v, u_vb st1 v <> u_vb st v -> In v V).
    { intros st1 b1. destruct (Z.eqb_spec a a2) as [->|Na].
      - intros E. injection E as <- <-. split; [now exists th, rk|]. split; [exact C|congruence].
      - intros E. split; [exact (p_inv _ _ _ _ _ (unify_ok g Sd n st a a2 st1 b1 ta t2 th rk H Ra R2 E))|now apply (IH st a a2 st1 b1 ta t2 th rk)]. }
    destruct (if a =? a2 then Some (st, true) else wr_unify_term_aux n g true st a a2) as [[st1 []]|]; [| |discriminate].
    + destruct (P1 st1 true eq_refl) as ((th1 & rk1 & H1) & C1 & O1). intros E. destruct (IHl st1 th1 rk1 H1 C1 es2 ts2 Rs2 B2 E) as (C2 & O2). split; [exact C2|]. intros v Nv. destruct (Z.eq_dec (u_vb st1 v) (u_vb st v)) as [Q|Q]; [apply O2; congruence|now apply O1].
    + destruct (P1 st1 false eq_refl) as (_ & C1 & O1). intros E. injection E as <- <-. now split.
Qed.
Lemma post_free g V st st' b eqs : post g st st' b eqs -> (forall v, u_vb st' v <> u_vb st v -> In v V) -> u_vb st' = u_vb st \/ (free (u_vb st') V < free (u_vb st) V)%nat.
Proof.
  intros [_ (new & K & Z0 & O & M & _) _ _ _] In0. destruct new as [|w new]; [left; now apply Z0|right].
  destruct (M w (or_introl eq_refl)) as (A & B). unfold free. apply (filter_lt _ _ V w).
  - intros v _ E. apply Z.eqb_eq in E. apply Z.eqb_eq. destruct (in_dec Z.eq_dec v (w :: new)) as [J|J]; [now apply M|]. now rewrite <- O.
  - apply In0. congruence.
  - now apply Z.eqb_eq.
  - now apply Z.eqb_neq.
Qed.
Theorem unify_total g V : std g -> forall U k st x y tx ty th rk, inv g (u_vb st) th rk -> rep g x tx -> rep g y ty -> closed g V (u_vb st) -> within V tx -> within V ty ->
  free (u_vb st) V = U -> size (inst th tx) = k -> exists n r, wr_unify_term_aux n g true st x y = Some r.
Proof.
  intros Sd. induction U as [U IHU] using lt_wf_ind. induction k as [k IHk] using lt_wf_ind.
  intros st x y tx ty th rk H Rx Ry C Wx Wy HU Hk.
  destruct (value_total g _ th rk x H) as (x' & Vx). destruct (value_total g _ th rk y H) as (y' & Vy).
  set (n1 := S (rk (decode_var x))) in *. set (n2 := S (rk (decode_var y))) in *.
  destruct (value_spec g _ th rk n1 x x' tx H Rx Vx) as (tx' & Rx' & Ix & Ux). destruct (value_spec g _ th rk n2 y y' ty H Ry Vy) as (ty' & Ry' & Iy & Uy).
  pose proof (value_within g _ th rk n1 x x' tx V H C Rx Wx Vx tx' Rx') as Wx'. pose proof (value_within g _ th rk n2 y y' ty V H C Ry Wy Vy ty' Ry') as Wy'.
  assert (G : exists n, (n1 <= n)%nat /\ (n2 <= n)%nat /\ exists r, wr_unify_term_aux (S n) g true st x y = Some r); [|destruct G as (n & _ & _ & r & G); now exists (S n), r].
  assert (VX : forall n, (n1 <= n)%nat -> value n (u_vb st) x = Some x') by (intros; now apply (value_mono n1)).
  assert (VY : forall n, (n2 <= n)%nat -> value n (u_vb st) y = Some y') by (intros; now apply (value_mono n2)).
  assert (BASE : forall n3 (F : nat -> option (ust * bool)), (exists r, forall n, (n3 <= n)%nat -> F n = Some r) -> (forall n, (n1 <= n)%nat -> (n2 <= n)%nat -> (x =? y) = true \/ wr_unify_term_aux (S n) g true st x y = F n) -> exists n, (n1 <= n)%nat /\ (n2 <= n)%nat /\ exists r, wr_unify_term_aux (S n) g true st x y = Some r).
  { intros n3 F (r & HF) E. exists (n1 + n2 + n3)%nat. split; [lia|]. split; [lia|]. destruct (E (n1 + n2 + n3)%nat) as [E'|E']; [lia|lia| |].
    - cbn [wr_unify_term_aux]. rewrite E'. now eexists.
    - exists r. rewrite E'. apply HF. lia. }
  destruct (x =? y) eqn:E0. { apply (BASE O (fun _ => Some (st, true))); [now eexists|now left]. }
  destruct (x' =? y') eqn:E1. { apply (BASE O (fun _ => Some (st, true))); [now eexists|]. intros n L1 L2. right. cbn [wr_unify_term_aux]. now rewrite E0, VX, VY, E1. }
  assert (OCC : forall u z tz, rep g z tz -> isdatarec z = true -> exists n3 r, forall n, (n3 <= n)%nat -> match wr_occurs_in n g (u_vb st) u z with None => None | Some true => Some (st, false) | Some false => Some (setvar st u z, true) end = Some r).
  { intros u z tz Rz Dz. destruct (rep_rec_inv g z tz Rz Dz) as (fs & ts & -> & _). destruct (occurs_total g _ th rk Sd H u (S (size (inst th (TF ts)))) z ts) as (n3 & r & O); [lia|exact Dz|exact Rz|].
    exists n3, (if r then (st, false) else (setvar st u z, true)). intros n Ln. rewrite (occurs_mono g _ u r n3 n z Ln O). now destruct r. }
  destruct (isdatarec x') eqn:Dx.
  2:{ destruct (isdatarec y') eqn:Dy.
    - destruct (isvar x') eqn:W1.
      + destruct (OCC x' y' ty' Ry' Dy) as (n3 & O). apply (BASE n3 _ O). intros n L1 L2. right. cbn [wr_unify_term_aux]. now rewrite E0, VX, VY, E1, Dx, Dy, W1.
      + apply (BASE O (fun _ => Some (st, false))); [now eexists|]. intros n L1 L2. right. cbn [wr_unify_term_aux]. now rewrite E0, VX, VY, E1, Dx, Dy, W1.
    - apply (BASE O (fun _ => if isvar x' then Some (setvar st x' y', true) else if isvar y' then Some (setvar st y' x', true) else Some (st, wr_equal_ptr_primitives (g_db g) x' y' true))).
      + destruct (isvar x'), (isvar y'); now eexists.
      + intros n L1 L2. right. cbn [wr_unify_term_aux]. now rewrite E0, VX, VY, E1, Dx, Dy. }
  destruct (isvar y') eqn:W2. { destruct (OCC y' x' tx' Rx' Dx) as (n3 & O). apply (BASE n3 _ O). intros n L1 L2. right. cbn [wr_unify_term_aux]. now rewrite E0, VX, VY, E1, Dx, W2. }
  destruct (isdatarec y') eqn:Dy.
  2:{ apply (BASE O (fun _ => Some (st, false))); [now eexists|]. intros n L1 L2. right. cbn [wr_unify_term_aux]. now rewrite E0, VX, VY, E1, Dx, W2, Dy. }
  destruct (rep_rec_inv g x' tx' Rx' Dx) as (xs & txs & -> & Rcx & Lx & Rxs). destruct (rep_rec_inv g y' ty' Ry' Dy) as (ys & tys & -> & Rcy & Ly & Rys).
  destruct (length xs =? length ys)%nat eqn:EL.
  2:{ apply (BASE O (fun _ => Some (st, false))); [now eexists|]. intros n L1 L2. right. cbn [wr_unify_term_aux]. now rewrite E0, VX, VY, E1, Dx, W2, Dy, Rcx, Rcy, (std_pairs g xs ys Sd), EL. }
  apply within_TF in Wx'. apply within_TF in Wy'.
  assert (Sz : forall t, In t txs -> (size (inst th t) < k)%nat). { intros t Ht. rewrite <- Hk, <- (Ix th (i_sol _ _ _ _ H)). cbn [inst]. now apply size_in, in_map. }
  assert (LST : exists n3 r, fold_pairs (fun st a b => if a =? b then Some (st, true) else wr_unify_term_aux n3 g true st a b) st (combine (args g xs) (args g ys)) = Some r).
  { clear - IHU IHk Sd H C HU Sz Rxs Rys Wx' Wy'.
    set (es := args g xs) in *. set (fs := args g ys) in *. clearbody es fs. clear xs ys.
    assert (HS : (free (u_vb st) V < U)%nat \/ (free (u_vb st) V = U /\ inv g (u_vb st) th rk)) by (right; now split).
    assert (HI : exists th rk, inv g (u_vb st) th rk) by now exists th, rk. clear H HU.
    revert st HS HI C fs tys Rys Wy'. induction Rxs as [|a ta es txs Ra Rxs IHl]; intros st HS HI C fs tys Rys Wy'; [now exists O, (st, true)|].
    inversion Rys as [|a2 t2 es2 ts2 R2 Rs2]; subst; [now exists O, (st, true)|]. pose proof (Forall_inv Wx') as A1; pose proof (Forall_inv_tail Wx') as A2; pose proof (Forall_inv Wy') as B1; pose proof (Forall_inv_tail Wy') as B2. specialize (IHl A2 (fun t Ht => Sz t (or_intror Ht))).
    destruct HI as (th1 & rk1 & H1'). 
    assert (P1 : exists n4 r, (if a =? a2 then Some (st, true) else wr_unify_term_aux n4 g true st a a2) = Some r).
    { destruct (a =? a2); [now exists O, (st, true)|]. destruct HS as [HS|(HS & H)].
      - apply (IHU _ HS (size (inst th1 ta)) st a a2 ta t2 th1 rk1); auto.
      - apply (IHk (size (inst th ta)) (Sz ta (or_introl eq_refl)) st a a2 ta t2 th rk); auto. }
    destruct P1 as (n4 & [st1 b1] & P1). cbn [combine fold_pairs].
    assert (Q : exists th2 rk2, inv g (u_vb st1) th2 rk2). { destruct (a =? a2); [injection P1 as <- <-; now exists th1, rk1|]. exact (p_inv _ _ _ _ _ (unify_ok g Sd n4 st a a2 st1 b1 ta t2 th1 rk1 H1' Ra R2 P1)). }
    assert (Q2 : closed g V (u_vb st1) /\ (u_vb st1 = u_vb st \/ (free (u_vb st1) V < free (u_vb st) V)%nat)).
    { destruct (a =? a2); [injection P1 as <- <-; split; [exact C|now left]|]. destruct (unify_within g V Sd n4 st a a2 st1 b1 ta t2 th1 rk1 H1' Ra R2 C A1 B1 P1) as (C1 & O1). split; [exact C1|].
      apply (post_free g V st st1 b1 _ (unify_ok g Sd n4 st a a2 st1 b1 ta t2 th1 rk1 H1' Ra R2 P1) O1). }
    destruct Q2 as (C1 & F1). destruct b1.
    - destruct (IHl st1) with (fs := es2) (tys := ts2) as (n5 & r & P2); auto.
      { destruct F1 as [F1|F1]; [rewrite F1; exact HS|]. left. destruct HS as [HS|(HS & _)]; lia. }
      exists (n4 + n5)%nat, r. cbn [combine fold_pairs].
      replace (if a =? a2 then Some (st, true) else wr_unify_term_aux (n4 + n5) g true st a a2) with (Some (st1, true)).
      2:{ symmetry. destruct (a =? a2); [exact P1|]. apply (unify_mono g true n4); [lia|exact P1]. }
      revert P2. apply fold_mono. intros st0 a0 b0 r0. destruct (a0 =? b0); [easy|]. apply unify_mono. lia.
    - exists n4, (st1, false). cbn [combine fold_pairs]. now rewrite P1. }
  destruct LST as (n3 & r & LST).
  apply (BASE n3 (fun n => fold_pairs (fun st a b => if a =? b then Some (st, true) else wr_unify_term_aux n g true st a b) st (combine (args g xs) (args g ys)))).
  - exists r. intros n Ln. revert LST. apply fold_mono. intros st0 a0 b0 r0. destruct (a0 =? b0); [easy|]. now apply unify_mono.
  - intros n L1 L2. right. cbn [wr_unify_term_aux]. now rewrite E0, VX, VY, E1, Dx, W2, Dy, Rcx, Rcy, (std_pairs g xs ys Sd), EL.
Qed.
