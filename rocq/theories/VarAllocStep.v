(** Allocation in a variable-length area preserves the invariant. *)
From Coq Require Import ZArith List Lia Bool.
From Verif Require Import Base FixAllocModel VarAllocModel VarAllocCore VarAllocProofs.
Import ListNotations.
Open Scope Z_scope.

Ltac kinds := repeat match goal with y : blk |- _ => destruct y as [? ? []] end.
Ltac locals :=
  unfold adj, setpf, setw, bend; cbn [app chain ba bs bk frs isF andb]; intros; cbn [app chain ba bs bk frs isF andb] in *;
  repeat match goal with H : _ /\ _ |- _ => destruct H end;
  try contradiction; try discriminate; try congruence;
  repeat split; first [assumption|discriminate|reflexivity|exact Logic.I|congruence|lia|idtac].
Ltac loc := let x := fresh "x" in intros x; kinds; locals.

Section WithRegion.
Context {rg : region}.

(** Result [r] of a request for [w] bytes: one more used block, the others as before. *)
Definition gives (s : vstate) (L : list blk) (w : Z) (s' : vstate) (r : Z) : Prop :=
  exists L' fl' l1 l2 d, inv s' L' fl' /\ r <> 0 /\ vsubs s' = vsubs s /\
    lives L = l1 ++ l2 /\ lives L' = l1 ++ (r, w, d) :: l2.

Lemma others_dvok s s' L L' : others s s' -> dvs L' = dvs L -> dvok s L -> dvok s' L'.
Proof. unfold others, dvok. intros (_ & _ & _ & _ & -> & ->) ->. auto. Qed.
Lemma others_subsok s s' L L' : others s s' -> subsok s L -> sts L' = sts L -> ens L' = ens L -> subsok s' L'.
Proof. intros (_ & E1 & E2 & E3 & _) S. apply (subsok_ext s s' L L' S); assumption. Qed.
Lemma others_store s a v : others s (store s a v).
Proof. unfold others. cbn. auto 10. Qed.
Lemma vsubs_others s s' : others s s' -> vsubs s' = vsubs s.
Proof. unfold others. tauto. Qed.


Lemma take_give s L fl i n w : inv s L fl -> 0 <= i < 288 -> vb s i <> 0 -> getfreeobjectsize (fetch s (vb s i)) = n ->
  0 <= w -> w mod 8 = 0 -> n = Z.max 32 w ->
  gives s L w (mark_prevused (store (take_first s i) (vb s i) (makeusedobjectsizeprevused w)) (vb s i + n)) (vb s i).
Proof.
  intros [C F D S] Hi Nz En W1 W2 W3. destruct (first_block s L fl i C Hi Nz) as (l1 & m & l2 & q2 & -> & Ei & Efl).
  set (a := vb s i) in *. pose proof (in_mid l1 (B a m KFree) l2) as Hb. pose proof (cok _ _ _ C _ Hb) as G. unfold gok in G. cbn in G.
  assert (m = n). { assert (Hh := fetch_hdr s _ fl _ C Hb ltac:(discriminate)). unfold hdr in Hh. cbn [bk bs ba] in Hh. rewrite Hh, getfree_free in En by lia. exact En. }
  subst m. destruct (full_next _ _ _ F) as (y & l3 & -> & A); [discriminate|].
  destruct (take_spec s l1 n (y :: l3) fl i q2 C Hi Ei Efl) as (fl1 & C1 & O1). fold a in C1.
  set (s1 := take_first s i) in *. rewrite mkpu_eq0 by lia.
  pose proof (core_mkused s1 l1 a n w (y :: l3) fl1 C1 W1 W2 W3) as C2. set (s2 := store s1 a w) in *. set (d := vm s1) in *.
  assert (Ny : bk y <> KTmp). { apply (full_notmp _ _ F). apply in_or_app. right. right. now left. }
  assert (Ey : ba y = a + n). { unfold adj in A. cbn in A. unfold bend in A. cbn in A. lia. }
  change (l1 ++ B a n (KUsed w false d) :: y :: l3) with (l1 ++ [B a n (KUsed w false d)] ++ y :: l3) in C2. rewrite app_assoc in C2.
  destruct (mark_prevused_spec s2 _ y l3 fl1 C2 Ny) as (C3 & O3 & _). rewrite Ey in C3, O3. rewrite <- app_assoc in C3. cbn [app] in C3.
  assert (O : others s (mark_prevused s2 (a + n))). { eapply others_trans; [exact O1|]. eapply others_trans; [apply others_store|exact O3]. }
  exists (l1 ++ B a n (KUsed w false d) :: setpf false y :: l3), fl1, (lives l1), (lives (y :: l3)), d. split; [constructor|split; [|split; [|split]]].
  - exact C3.
  - apply (full_replace l1 [B a n KFree] [B a n (KUsed w false d)] y (setpf false y) l3 F (sameb_setpf _ _)). clear. loc.
  - refine (others_dvok s _ _ _ O _ D). rewrite !dvs_app. f_equal. change (dvs (setpf false y :: l3) = dvs (y :: l3)). apply dvs_setpf.
  - refine (others_subsok s _ _ _ O S _ _); rewrite ?sts_app, ?ens_app; f_equal; [change (sts (setpf false y :: l3) = sts (y :: l3)); apply sts_setpf|change (ens (setpf false y :: l3) = ens (y :: l3)); apply ens_setpf].
  - exact Nz.
  - apply (vsubs_others _ _ O).
  - rewrite lives_app. reflexivity.
  - rewrite lives_app, !lives_cons, live1_setpf. reflexivity.
Qed.

Lemma split_give_spec s L fl i n used w : inv s L fl -> 0 <= i < 288 -> vb s i <> 0 -> getfreeobjectsize (fetch s (vb s i)) = n ->
  0 <= w -> w mod 8 = 0 -> used = Z.max 32 w -> used + 32 <= n ->
  exists s', split_give s i used w = (s', vb s i) /\ gives s L w s' (vb s i).
Proof.
  intros [C F D S] Hi Nz En W1 W2 W3 W4. destruct (first_block s L fl i C Hi Nz) as (l1 & m & l2 & q2 & -> & Ei & Efl).
  set (a := vb s i) in *. pose proof (in_mid l1 (B a m KFree) l2) as Hb. pose proof (cok _ _ _ C _ Hb) as G. pose proof (size_ok _ _ _ _ C F S Hb) as Sz.
  unfold gok in G. cbn in G, Sz.
  assert (Hh := fetch_hdr s _ fl _ C Hb ltac:(discriminate)). assert (If := isfree_hdr _ (cok _ _ _ C _ Hb) ltac:(discriminate)). rewrite <- Hh in If. cbn [ba bk isF] in If.
  assert (m = n). { unfold hdr in Hh. cbn [bk bs ba] in Hh. rewrite Hh, getfree_free in En by lia. exact En. }
  subst m.
  destruct (take_spec s l1 n l2 fl i q2 C Hi Ei Efl) as (fl1 & C1 & O1). fold a in C1.
  unfold split_give, split_free. fold a. rewrite If. cbn [negb]. rewrite En. set (s1 := take_first s i) in *.
  rewrite (mkpu_eq0 used) by lia.
  apply (core_cut s1 l1 a n used l2 fl1) in C1; [|lia|lia|lia].
  assert (C2 : core (store s1 a used) (l1 ++ B a used KTmp :: B (a + used) (n - used) KTmp :: l2) fl1).
  { apply (core_store_tmp _ _ fl1 _ _ (B a used KTmp)); [exact C1|apply in_mid|reflexivity|unfold bend; cbn; lia]. }
  set (s2 := store s1 a used) in *.
  change (l1 ++ B a used KTmp :: B (a + used) (n - used) KTmp :: l2) with (l1 ++ [B a used KTmp] ++ B (a + used) (n - used) KTmp :: l2) in C2. rewrite app_assoc in C2.
  destruct (push_spec s2 _ (a + used) (n - used) l2 fl1 C2) as (s3 & fl3 & P & C3 & O3); [apply idx_range; lia|].
  rewrite P. change (0 <? 0) with false. cbn iota. rewrite <- app_assoc in C3. cbn [app] in C3. rewrite mkpu_eq0 by lia.
  pose proof (core_mkused s3 l1 a used w _ fl3 C3 W1 W2 W3) as C4. set (s4 := store s3 a w) in *. set (d := vm s3) in *.
  assert (O : others s s4). { eapply others_trans; [exact O1|]. eapply others_trans; [apply others_store|]. eapply others_trans; [exact O3|apply others_store]. }
  exists s4. split; [reflexivity|]. destruct (full_next _ _ _ F) as (y & l3 & -> & A); [discriminate|].
  exists (l1 ++ B a used (KUsed w false d) :: B (a + used) (n - used) KFree :: y :: l3), fl3, (lives l1), (lives (y :: l3)), d. split; [constructor|split; [|split; [|split]]].
  - exact C4.
  - apply (full_replace l1 [B a n KFree] [B a used (KUsed w false d); B (a + used) (n - used) KFree] y y l3 F); [destruct y as [? ? []]; unfold sameb; cbn; auto|]. clear. loc.
  - refine (others_dvok s _ _ _ O _ D). rewrite !dvs_app. reflexivity.
  - refine (others_subsok s _ _ _ O S _ _); rewrite ?sts_app, ?ens_app; reflexivity.
  - exact Nz.
  - apply (vsubs_others _ _ O).
  - rewrite lives_app. reflexivity.
  - rewrite lives_app, !lives_cons. reflexivity.
Qed.

Lemma find_split_spec n : forall s i used j, find_split n s i used = Some j ->
  i <= j < 256 /\ vb s j <> 0 /\ used + 32 <= getfreeobjectsize (fetch s (vb s j)).
Proof.
  induction n as [|n IH]; intros s i used j; cbn [find_split]; [discriminate|]. destruct (Z.ltb_spec i EXACTBUCKETS_NR) as [Hi|Hi]; [|discriminate].
  unfold EXACTBUCKETS_NR in Hi. destruct (Z.eqb_spec (vb s i) 0) as [E|E]; cbn [negb andb].
  - intros H. apply IH in H as (H1 & H2). split; [lia|exact H2].
  - destruct (Z.leb_spec (used + MIN_VARLENOBJ_SIZE) (getfreeobjectsize (fetch s (vb s i)))) as [Hl|Hl].
    + intros H. injection H as <-. unfold MIN_VARLENOBJ_SIZE in Hl. split; [lia|]. split; [exact E|lia].
    + intros H. apply IH in H as (H1 & H2). split; [lia|exact H2].
Qed.

Lemma dvs_single L b : dvs L = [b] -> exists l1 l2, L = l1 ++ b :: l2 /\ dvs l1 = [] /\ dvs l2 = [].
Proof.
  induction L as [|x L IH]; cbn; [discriminate|]. fold (dvs L). destruct (isDv x) eqn:E.
  - intros H. injection H as <- H. exists [], L. auto.
  - intros H. destruct (IH H) as (l1 & l2 & -> & H1 & H2). exists (x :: l1), l2. split; [reflexivity|]. split; [|exact H2]. cbn. rewrite E. exact H1.
Qed.

Lemma used_bytes_eq w : 0 <= w -> w mod 8 = 0 -> used_bytes w = Z.max 32 w.
Proof.
  intros H1 H2. unfold used_bytes, MIN_VARLENOBJ_SIZE. destruct (Z.leb_spec w 32); [lia|].
  assert (R : Z.rem w 8 = 0). { apply Z.rem_divide; [lia|]. apply Z.mod_divide; [lia|exact H2]. } rewrite R. cbn. lia.
Qed.

(** Giving out the whole victim, Db/dballoc.c l.925-930. *)
Lemma dv_take s L fl w : inv s L fl -> vb s DVBUCKET <> 0 -> 0 <= w -> w mod 8 = 0 -> vb s DVSIZEBUCKET = Z.max 32 w ->
  gives s L w (store (setb (setb s DVBUCKET 0) DVSIZEBUCKET 0) (vb s DVBUCKET) w) (vb s DVBUCKET).
Proof.
  intros [C F D S] Nz W1 W2 W3. destruct D as [(D & _)|(a & n & Ed & E1 & E2)]; [congruence|].
  destruct (dvs_single _ _ Ed) as (l1 & l2 & -> & D1 & D2). rewrite E1 in *. rewrite E2 in W3.
  pose proof (core_forget _ _ _ _ _ _ _ C ltac:(discriminate)) as C1.
  apply (core_setb _ _ _ DVBUCKET 0) in C1; [|unfold DVBUCKET, EXACTBUCKETS_NR, VARBUCKETS_NR; lia].
  apply (core_setb _ _ _ DVSIZEBUCKET 0) in C1; [|unfold DVSIZEBUCKET, EXACTBUCKETS_NR, VARBUCKETS_NR; lia].
  pose proof (core_mkused _ l1 a n w l2 fl C1 W1 W2 W3) as C2. cbn [setb vm] in C2.
  exists (l1 ++ B a n (KUsed w false (vm s)) :: l2), fl, (lives l1), (lives l2), (vm s). split; [constructor|split; [|split; [|split]]].
  - exact C2.
  - destruct (full_next _ _ _ F) as (y & l3 & -> & A); [discriminate|].
    apply (full_replace l1 [B a n KDv] [B a n (KUsed w false (vm s))] y y l3 F); [destruct y as [? ? []]; unfold sameb; cbn; auto|]. clear. loc.
  - left. split; [reflexivity|]. split; [reflexivity|]. rewrite dvs_app. cbn. fold (dvs l2). rewrite D1, D2. reflexivity.
  - refine (subsok_ext s _ _ _ S _ _ _ _ _); try reflexivity; rewrite ?sts_app, ?ens_app; reflexivity.
  - exact Nz.
  - reflexivity.
  - rewrite lives_app. reflexivity.
  - rewrite lives_app, !lives_cons. reflexivity.
Qed.

(** Giving out the beginning of the victim, Db/dballoc.c l.931-941. *)
Lemma dv_split s L fl used w : inv s L fl -> vb s DVBUCKET <> 0 -> 0 <= w -> w mod 8 = 0 -> used = Z.max 32 w -> used + 32 <= vb s DVSIZEBUCKET ->
  gives s L w (store (setb (setb (store (store s (vb s DVBUCKET + used) (makespecialusedobjectsize (vb s DVSIZEBUCKET - used)))
      (vb s DVBUCKET + used + 8) SPECIALGINT1DV) DVBUCKET (vb s DVBUCKET + used)) DVSIZEBUCKET (vb s DVSIZEBUCKET - used)) (vb s DVBUCKET) w) (vb s DVBUCKET).
Proof.
  intros [C F D S] Nz W1 W2 W3 W4. destruct D as [(D & _)|(a & n & Ed & E1 & E2)]; [congruence|].
  destruct (dvs_single _ _ Ed) as (l1 & l2 & -> & D1 & D2). rewrite E1 in *. rewrite E2 in *.
  pose proof (core_forget _ _ _ _ _ _ _ C ltac:(discriminate)) as C1.
  apply (core_cut s l1 a n used l2 fl) in C1; [|lia|lia|lia].
  change (l1 ++ B a used KTmp :: B (a + used) (n - used) KTmp :: l2) with (l1 ++ [B a used KTmp] ++ B (a + used) (n - used) KTmp :: l2) in C1. rewrite app_assoc in C1.
  apply core_mkdv in C1. rewrite <- app_assoc in C1. cbn [app] in C1.
  set (s1 := store (store s (a + used) _) _ _) in *.
  apply (core_setb _ _ _ DVBUCKET (a + used)) in C1; [|unfold DVBUCKET, EXACTBUCKETS_NR, VARBUCKETS_NR; lia].
  apply (core_setb _ _ _ DVSIZEBUCKET (n - used)) in C1; [|unfold DVSIZEBUCKET, EXACTBUCKETS_NR, VARBUCKETS_NR; lia].
  pose proof (core_mkused _ l1 a used w _ fl C1 W1 W2 W3) as C2. cbn [setb vm] in C2.
  exists (l1 ++ B a used (KUsed w false (vm s1)) :: B (a + used) (n - used) KDv :: l2), fl, (lives l1), (lives l2), (vm s1). split; [constructor|split; [|split; [|split]]].
  - exact C2.
  - destruct (full_next _ _ _ F) as (y & l3 & -> & A); [discriminate|].
    apply (full_replace l1 [B a n KDv] [B a used (KUsed w false (vm s1)); B (a + used) (n - used) KDv] y y l3 F); [destruct y as [? ? []]; unfold sameb; cbn; auto|]. clear. loc.
  - right. exists (a + used), (n - used). split; [|split; reflexivity]. rewrite dvs_app. cbn. fold (dvs l2). rewrite D1, D2. reflexivity.
  - refine (subsok_ext s _ _ _ S _ _ _ _ _); try reflexivity; rewrite ?sts_app, ?ens_app; reflexivity.
  - exact Nz.
  - reflexivity.
  - rewrite lives_app. reflexivity.
  - rewrite lives_app, !lives_cons. reflexivity.
Qed.

Lemma var_loop_spec n : forall s L fl i used w s' r, inv s L fl -> 0 <= i -> 0 <= w -> w mod 8 = 0 -> used = Z.max 32 w ->
  var_loop n s i used w = Some (s', r) -> gives s L w s' r.
Proof.
  induction n as [|n IH]; intros s L fl i used w s' r I Hi W1 W2 W3; cbn [var_loop]; [discriminate|].
  destruct (Z.ltb_spec i (EXACTBUCKETS_NR + VARBUCKETS_NR)) as [Hl|Hl]; [|discriminate]. unfold EXACTBUCKETS_NR, VARBUCKETS_NR in Hl.
  destruct (Z.eqb_spec (vb s i) 0) as [E|E]; [intros H; eapply (IH s L fl (i + 1)); eauto; lia|].
  destruct (Z.eqb_spec (getfreeobjectsize (fetch s (vb s i))) used) as [Eu|Eu].
  - intros H. injection H as <- <-. rewrite Eu. apply (take_give s L fl i used w I); auto; lia.
  - destruct (Z.leb_spec (used + MIN_VARLENOBJ_SIZE) (getfreeobjectsize (fetch s (vb s i)))) as [Hs|Hs]; unfold MIN_VARLENOBJ_SIZE in Hs.
    + intros H. destruct (split_give_spec s L fl i _ used w I ltac:(lia) E eq_refl W1 W2 W3 Hs) as (s1 & E1 & G).
      assert (E2 : split_give s i used w = (s', r)) by congruence. rewrite E1 in E2. injection E2 as <- <-. exact G.
    + intros H. eapply (IH s L fl (i + 1)); eauto; lia.
Qed.

Lemma alloc_try_spec s L fl w : inv s L fl -> 0 <= w < 2 ^ 40 -> w mod 8 = 0 ->
  match alloc_try s w with TDone s' r => gives s L w s' r | TNone => True | TUndef => False end.
Proof.
  intros I W1 W2. unfold alloc_try. rewrite (used_bytes_eq w) by lia. set (used := Z.max 32 w). cbv zeta. rewrite (mkpu_eq0 w) by exact W2.
  destruct (Z.ltb_spec used EXACTBUCKETS_NR) as [Hu|Hu]; cbn [andb].
  1: destruct (Z.eqb_spec (vb s used) 0) as [E|E]; cbn [negb].
  2: { unfold EXACTBUCKETS_NR in Hu. assert (Hi : 0 <= used < 288) by lia.
       destruct (first_block s L fl used (i_core _ _ _ I) Hi E) as (l1 & n & l2 & q2 & EL & Ei & _).
       pose proof (in_mid l1 (B (vb s used) n KFree) l2) as Hb. rewrite <- EL in Hb.
       pose proof (size_ok _ _ _ _ (i_core _ _ _ I) (i_full _ _ _ I) (i_subs _ _ _ I) Hb) as Sz. cbn in Sz.
       apply idx_exact in Ei; [|lia|lia]. subst n.
       assert (Hh := fetch_hdr s _ fl _ (i_core _ _ _ I) Hb ltac:(discriminate)). unfold hdr in Hh. cbn [bk bs ba] in Hh.
       replace w with (makeusedobjectsizeprevused w) at 2 by (apply mkpu_eq0; exact W2).
       apply (take_give s L fl used used w I Hi E); [|lia|exact W2|reflexivity]. rewrite Hh. apply getfree_free. unfold used. lia. }
  all: (destruct (find_split 3 s (used + 1) used) as [i|] eqn:F3;
    [apply find_split_spec in F3 as (F1 & F2 & F3); destruct (split_give_spec s L fl i _ used w I ltac:(lia) F2 eq_refl ltac:(lia) W2 eq_refl F3) as (s1 & E1 & G); rewrite E1; exact G|]).
  all: (destruct (Z.eqb_spec (vb s DVBUCKET) 0) as [Ed|Ed]; cbn [negb]; rewrite ?andb_false_r, ?andb_true_r; cbn [andb]).
  all: try (destruct (Z.eqb_spec used (vb s DVSIZEBUCKET)) as [Es|Es]; rewrite ?andb_false_r;
     [rewrite <- Es, Z.leb_refl; cbn [andb]; apply (dv_take s L fl w I Ed); [lia|exact W2|now rewrite <- Es]|]).
  all: try (destruct (Z.leb_spec used (vb s DVSIZEBUCKET)) as [Hl|Hl]; cbn [andb]).
  all: try (destruct (Z.leb_spec (used + MIN_VARLENOBJ_SIZE) (vb s DVSIZEBUCKET)) as [Hm|Hm];
     [apply (dv_split s L fl used w I Ed); [lia|exact W2|reflexivity|unfold MIN_VARLENOBJ_SIZE in Hm; lia]|]).
  all: (destruct (find_split 256 s (used + 1) used) as [i|] eqn:F4;
    [apply find_split_spec in F4 as (F1 & F2 & F4); destruct (split_give_spec s L fl i _ used w I ltac:(lia) F2 eq_refl ltac:(lia) W2 eq_refl F4) as (s1 & E1 & G); rewrite E1; exact G|]).
  all: change (wg_freebuckets_index used) with (idx used); pose proof (idx_range used ltac:(lia)) as Hx; destruct (Z.ltb_spec (idx used) 0); [lia|].
  all: destruct (var_loop 288 s (idx used) used w) as [[s' r]|] eqn:V; [|exact Logic.I]; apply (var_loop_spec _ s L fl _ used w s' r I) in V; auto; lia.
Qed.

End WithRegion.
