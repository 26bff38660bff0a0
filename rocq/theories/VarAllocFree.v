(** Freeing in a variable-length area preserves the invariant. *)
From Coq Require Import ZArith List Lia Bool.
From Verif Require Import Base FixAllocModel VarAllocModel VarAllocCore VarAllocProofs VarAllocStep.
Import ListNotations.
Open Scope Z_scope.

Section WithRegion.
Context {rg : region}.

Lemma dvb_out : ~ 0 <= DVBUCKET < 288.
Proof. unfold DVBUCKET, EXACTBUCKETS_NR, VARBUCKETS_NR. lia. Qed.
Lemma dvs_out : ~ 0 <= DVSIZEBUCKET < 288.
Proof. unfold DVSIZEBUCKET, EXACTBUCKETS_NR, VARBUCKETS_NR. lia. Qed.

Lemma sameb_refl y : sameb y y.
Proof. destruct y as [? ? []]; unfold sameb; cbn; auto. Qed.
Lemma adj_next b y : adj b y -> bk b <> KEnd -> ba y = bend b /\ bk y <> KTmp.
Proof. unfold adj. intros (A & _ & A2) N. split; [destruct (bk b); tauto|]. destruct (bk y); [discriminate..|contradiction|discriminate]. Qed.
Lemma setpf_ba v y : ba (setpf v y) = ba y.
Proof. destruct y as [? ? []]; reflexivity. Qed.
Lemma setpf_bs v y : bs (setpf v y) = bs y.
Proof. destruct y as [? ? []]; reflexivity. Qed.
Lemma setpf_notmp v y : bk y <> KTmp -> bk (setpf v y) <> KTmp.
Proof. destruct y as [? ? []]; cbn; congruence. Qed.

Lemma two_one (x o : blk) l1 l2 p1 p2 : l1 ++ l2 = [x] -> x <> o -> l1 ++ o :: l2 = p1 ++ x :: p2 -> p1 ++ p2 = [o].
Proof.
  intros H N E. destruct l1 as [|a [|b l1]]; cbn in *.
  - subst l2. destruct p1 as [|c [|c' p1]]; cbn in *; inversion E; subst; [congruence|reflexivity|]. destruct p1; discriminate.
  - inversion H; subst. destruct p1 as [|c [|c' p1]]; cbn in *; inversion E; subst; [reflexivity|congruence|]. destruct p1; discriminate.
  - discriminate.
Qed.

(** The last part of the function, Db/dballoc.c l.1337-1372. *)
Definition finish_free (s : vstate) (o size : Z) : vres :=
  if vb s DVSIZEBUCKET <? size then
    match replace_dv s o size with
    | (s, None) => VOk s 0
    | (s, Some (o', size')) => match push_free s o' size' with None => VUndef | Some s => VOk s 0 end
    end
  else match push_free s o size with None => VUndef | Some s => VOk s 0 end.

Lemma finish_spec s l1 o n l2 fl : core s (l1 ++ B o n KTmp :: l2) fl -> full (l1 ++ B o n KFree :: l2) -> dvok s (l1 ++ l2) -> subsok s (l1 ++ l2) ->
  (forall b, In b (l1 ++ B o n KTmp :: l2) -> bend b <= vfree s) ->
  exists s' L' fl', finish_free s o n = VOk s' 0 /\ inv s' L' fl' /\ lives L' = lives l1 ++ lives l2 /\ vsubs s' = vsubs s.
Proof.
  intros C F D S Bd. pose proof (cok _ _ _ C _ (in_mid l1 _ l2)) as G. unfold gok in G. cbn in G.
  assert (Sz : forall b, In b (l1 ++ B o n KTmp :: l2) -> 0 <= bs b < 2 ^ 40).
  { intros b Hb. pose proof (so_free _ _ S). pose proof (Bd b Hb). apply (cok _ _ _ C) in Hb. unfold gok, bend in *. lia. }
  pose proof (Sz _ (in_mid l1 _ l2)) as Sn. cbn in Sn.
  destruct (full_next _ _ _ F) as (y & l3 & -> & A); [discriminate|]. destruct (adj_next _ _ A) as [Ey Ny]; [discriminate|]. unfold bend in Ey. cbn in Ey.
  unfold finish_free. destruct (Z.ltb_spec (vb s DVSIZEBUCKET) n) as [Hn|Hn].
  - unfold replace_dv. cbv zeta.
    (* the new victim *)
    pose proof (core_setb _ _ _ DVBUCKET o C dvb_out) as C1. apply (core_setb _ _ _ DVSIZEBUCKET n) in C1; [|exact dvs_out].
    apply core_mkdv in C1. set (s1 := store (store (setb (setb s DVBUCKET o) DVSIZEBUCKET n) o (makespecialusedobjectsize n)) (o + 8) SPECIALGINT1DV) in *.
    change (l1 ++ B o n KDv :: y :: l3) with (l1 ++ [B o n KDv] ++ y :: l3) in C1. rewrite app_assoc in C1.
    destruct (mark_prevused_spec s1 _ y l3 fl C1 Ny) as (C2 & O2 & _). rewrite Ey in C2, O2. rewrite <- app_assoc in C2. cbn [app] in C2.
    set (s2 := mark_prevused s1 (o + n)) in *. set (y' := setpf false y) in *. set (L1 := l1 ++ B o n KDv :: y' :: l3) in *.
    assert (F1 : full L1).
    { apply (full_replace l1 [B o n KFree] [B o n KDv] y y' l3 F (sameb_setpf _ _)). unfold y'. clear. loc. }
    assert (Dn : vb s2 DVBUCKET = o /\ vb s2 DVSIZEBUCKET = n). { destruct O2 as (_ & _ & _ & _ & -> & ->). split; reflexivity. }
    assert (Q : vfree s2 = vfree s /\ vsize s2 = vsize s /\ vsubs s2 = vsubs s). { destruct O2 as (_ & -> & -> & -> & _). repeat split. }
    assert (Ed : dvs L1 = dvs l1 ++ B o n KDv :: dvs (y :: l3)).
    { unfold L1. rewrite dvs_app. f_equal. change (dvs (B o n KDv :: y' :: l3)) with (B o n KDv :: dvs (y' :: l3)). f_equal. apply dvs_setpf. }
    assert (Ss : sts L1 = sts (l1 ++ y :: l3) /\ ens L1 = ens (l1 ++ y :: l3)).
    { unfold L1. rewrite !sts_app, !ens_app. split; f_equal; [change (sts (y' :: l3) = sts (y :: l3)); apply sts_setpf|change (ens (y' :: l3) = ens (y :: l3)); apply ens_setpf]. }
    assert (Lv : lives L1 = lives l1 ++ lives (y :: l3)).
    { unfold L1. rewrite lives_app, !lives_cons. unfold y'. rewrite live1_setpf. reflexivity. }
    destruct D as [(D1 & D2 & D3)|(a & m & D3 & D1 & D2)].
    + rewrite D1. cbn [Z.eqb]. exists s2, L1, fl. split; [reflexivity|]. split; [constructor|split].
      * exact C2.
      * exact F1.
      * right. exists o, n. split; [|exact Dn]. rewrite Ed. rewrite dvs_app in D3. apply app_eq_nil in D3 as [-> ->]. reflexivity.
      * apply (subsok_ext s s2 _ L1 S); tauto.
      * exact Lv.
      * tauto.
    + rewrite D1, D2. assert (In (B a m KDv) (l1 ++ y :: l3)) as Hd.
      { assert (In (B a m KDv) (dvs (l1 ++ y :: l3))) by (rewrite D3; now left). apply filter_In in H as [H _]. exact H. }
      assert (Hd0 : In (B a m KDv) (l1 ++ B o n KTmp :: y :: l3)) by (rewrite in_app_iff in *; cbn; tauto).
      assert (No : B a m KDv <> B o n KDv).
      { intros E. injection E as -> ->. assert (X := cinj _ _ _ C (B o n KDv) (B o n KTmp) Hd0 (in_mid _ _ _) eq_refl). discriminate. }
      pose proof (cok _ _ _ C _ Hd0) as Ga. unfold gok in Ga. cbn in Ga. pose proof (Sz _ Hd0) as Sm. cbn in Sm.
      destruct (Z.eqb_spec a 0); [lia|].
      assert (Hd1 : In (B a m KDv) L1).
      { assert (In (B a m KDv) (dvs L1)). { rewrite Ed. rewrite dvs_app in D3. assert (In (B a m KDv) (dvs l1 ++ dvs (y :: l3))) as X by (rewrite D3; now left). rewrite in_app_iff in *. cbn [In]. tauto. }
        apply filter_In in H as [H _]. exact H. }
      apply in_split in Hd1 as (p1 & p2 & EL). rewrite EL in C2, F1.
      destruct (full_next _ _ _ F1) as (z & p3 & -> & Az); [discriminate|]. destruct (adj_next _ _ Az) as [Ez Nz]; [discriminate|]. unfold bend in Ez. cbn in Ez.
      pose proof (core_forget _ _ _ _ _ _ _ C2 ltac:(discriminate)) as C3.
      change (p1 ++ B a m KTmp :: z :: p3) with (p1 ++ [B a m KTmp] ++ z :: p3) in C3. rewrite app_assoc in C3.
      destruct (mark_prevfree_spec s2 _ z p3 fl C3 Nz) as (C4 & O4 & _). rewrite Ez in C4, O4. cbv zeta in C4, O4.
      set (s3 := if isnormalusedobject _ then _ else _) in *. rewrite <- app_assoc in C4. cbn [app] in C4.
      destruct (push_spec s3 p1 a m (setpf true z :: p3) fl C4) as (s4 & fl4 & P & C5 & O5); [apply idx_range; lia|]. rewrite P.
      pose proof (others_trans _ _ _ O4 O5) as O. exists s4, (p1 ++ B a m KFree :: setpf true z :: p3), fl4. split; [reflexivity|]. split; [constructor|split].
      * exact C5.
      * apply (full_replace p1 [B a m KDv] [B a m KFree] z _ p3 F1 (sameb_setpf _ _)). clear. loc.
      * right. exists o, n. destruct O as (_ & _ & _ & _ & -> & ->). split; [|exact Dn]. rewrite dvs_app. change (dvs (B a m KFree :: setpf true z :: p3)) with (dvs (setpf true z :: p3)).
        rewrite dvs_setpf. rewrite EL, dvs_app in Ed. change (dvs (B a m KDv :: z :: p3)) with (B a m KDv :: dvs (z :: p3)) in Ed. rewrite dvs_app in D3.
        apply (two_one (B a m KDv) (B o n KDv) _ _ _ _ D3 No (eq_sym Ed)).
      * destruct O as (_ & O1 & O2' & O3 & _). apply (subsok_ext s s4 _ _ S); [rewrite O1; tauto|rewrite O2'; tauto|rewrite O3; tauto| |].
        -- rewrite <- (proj1 Ss), EL. rewrite !sts_app. f_equal. change (sts (setpf true z :: p3) = sts (z :: p3)). apply sts_setpf.
        -- rewrite <- (proj2 Ss), EL. rewrite !ens_app. f_equal. change (ens (setpf true z :: p3) = ens (z :: p3)). apply ens_setpf.
      * rewrite <- Lv, EL. rewrite !lives_app, !lives_cons, live1_setpf. reflexivity.
      * destruct O as (_ & _ & _ & -> & _). tauto.
  - destruct (push_spec s l1 o n (y :: l3) fl C) as (s1 & fl1 & P & C1 & O1); [apply idx_range; lia|]. rewrite P.
    exists s1, (l1 ++ B o n KFree :: y :: l3), fl1. split; [reflexivity|]. split; [constructor|split].
    + exact C1.
    + exact F.
    + refine (others_dvok s _ _ _ O1 _ D). rewrite !dvs_app. reflexivity.
    + refine (others_subsok s _ _ _ O1 S _ _); rewrite ?sts_app, ?ens_app; reflexivity.
    + rewrite lives_app. reflexivity.
    + apply (vsubs_others _ _ O1).
Qed.

Lemma free_tail_spec s l1 o n l2 fl d0 : core s (l1 ++ B o n KTmp :: l2) fl -> full (l1 ++ B o n (KUsed 0 false d0) :: l2) ->
  (forall l0 x, l1 = l0 ++ [x] -> bk x <> KDv) -> dvok s (l1 ++ l2) -> subsok s (l1 ++ l2) ->
  (forall b, In b (l1 ++ B o n KTmp :: l2) -> bend b <= vfree s) ->
  exists s' L' fl', free_tail s o n = VOk s' 0 /\ inv s' L' fl' /\ lives L' = lives l1 ++ lives l2 /\ vsubs s' = vsubs s.
Proof.
  intros C F Nd D S Bd. pose proof (cok _ _ _ C _ (in_mid l1 _ l2)) as G. unfold gok in G. cbn in G.
  destruct (full_prev _ _ _ F) as (l0 & x & El1 & Ax); [discriminate|]. pose proof (Nd l0 x El1) as Nx.
  destruct (full_next _ _ _ F) as (y & l3 & -> & A); [discriminate|]. destruct (adj_next _ _ A) as [Ey Ny]; [discriminate|]. unfold bend in Ey. cbn in Ey.
  assert (Hy : In y (l1 ++ B o n KTmp :: y :: l3)) by (apply in_or_app; right; right; now left).
  pose proof (cok _ _ _ C _ Hy) as Gy. pose proof (fetch_hdr s _ fl y C Hy Ny) as Hh. rewrite Ey in Hh.
  unfold free_tail. cbv zeta. rewrite Hh, (isfree_hdr y Gy Ny), (isspecial_hdr y Gy Ny), (isused_hdr y Gy Ny).
  destruct (bk y) as [| | | | |w pf d] eqn:Ky; cbn [isF isX isU andb].
  - exfalso. unfold adj in A. cbn in A. tauto.
  - (* end marker *)
    assert (Ne : o + n =? vb s DVBUCKET = false).
    { apply Z.eqb_neq. destruct D as [(-> & _)|(a & m & D3 & D1 & D2)]; [lia|]. rewrite D1. intros E.
      assert (In (B a m KDv) (dvs (l1 ++ y :: l3))) as H by (rewrite D3; now left). apply filter_In in H as [H _].
      assert (H' : In (B a m KDv) (l1 ++ B o n KTmp :: y :: l3)) by (rewrite in_app_iff in *; cbn; tauto).
      assert (X := cinj _ _ _ C (B a m KDv) y H' Hy). cbn [ba] in X. rewrite <- X in Ky by lia. discriminate. }
    rewrite Ne. apply (finish_spec s l1 o n (y :: l3) fl C); auto.
    rewrite El1 in *. rewrite <- app_assoc in *. cbn [app] in *.
    apply (full_replace l0 [x; B o n (KUsed 0 false d0)] [x; B o n KFree] y y l3 F (sameb_refl _)). clear - Nx Ky. loc.
  - (* victim *)
    destruct y as [a' m k]. cbn [bk ba] in *. subst k a'.
    destruct D as [(D1 & D2 & D3)|(a & m' & D3 & D1 & D2)]; [rewrite dvs_app in D3; apply app_eq_nil in D3 as [_ D3]; discriminate|].
    rewrite dvs_app in D3. assert (X : dvs l1 = [] /\ dvs l3 = [] /\ B (o + n) m KDv = B a m' KDv).
    { change (dvs (B (o + n) m KDv :: l3)) with (B (o + n) m KDv :: dvs l3) in D3. destruct (dvs l1) as [|? [|? ?]]; cbn in D3; inversion D3; auto. }
    destruct X as (X1 & X2 & X3). injection X3 as X3 X4. rewrite <- X3 in D1. rewrite <- X4 in D2. clear D3. rewrite D1, D2, Z.eqb_refl.
    change (l1 ++ B o n KTmp :: B (o + n) m KDv :: l3) with (l1 ++ [B o n KTmp] ++ B (o + n) m KDv :: l3) in C. rewrite app_assoc in C.
    apply core_forget in C; [|discriminate]. rewrite <- app_assoc in C. cbn [app] in C. apply core_merge in C; [|reflexivity].
    apply (core_setb _ _ _ DVBUCKET o) in C; [|exact dvb_out]. apply (core_setb _ _ _ DVSIZEBUCKET (n + m)) in C; [|exact dvs_out].
    apply core_mkdv in C. eexists. exists (l1 ++ B o (n + m) KDv :: l3), fl. split; [reflexivity|]. split; [constructor|split].
    + exact C.
    + destruct (full_next (l1 ++ [B o n (KUsed 0 false d0)]) (B (o + n) m KDv) l3) as (z & l4 & -> & Az); [rewrite <- app_assoc; exact F|discriminate|].
      rewrite El1 in *. rewrite <- app_assoc in *. cbn [app] in *.
      apply (full_replace l0 [x; B o n (KUsed 0 false d0); B (o + n) m KDv] [x; B o (n + m) KDv] z z l4 F (sameb_refl _)). clear - Nx. loc.
    + right. exists o, (n + m). split; [|split; reflexivity]. rewrite dvs_app, X1. change (dvs (B o (n + m) KDv :: l3)) with (B o (n + m) KDv :: dvs l3). rewrite X2. reflexivity.
    + refine (subsok_ext s _ _ _ S _ _ _ _ _); try reflexivity; rewrite ?sts_app, ?ens_app; reflexivity.
    + rewrite lives_app. reflexivity.
    + reflexivity.
  - (* free block *)
    destruct y as [a' m k]. cbn [bk ba] in *. subst k a'. unfold hdr. cbn [bk bs]. unfold gok in Gy. cbn in Gy. rewrite getfree_free by lia.
    pose proof (Bd _ Hy) as Hb. pose proof (so_free _ _ S) as Fr. unfold bend in Hb. cbn in Hb.
    change (l1 ++ B o n KTmp :: B (o + n) m KFree :: l3) with (l1 ++ [B o n KTmp] ++ B (o + n) m KFree :: l3) in C. rewrite app_assoc in C.
    destruct (unlink_spec s _ (o + n) m l3 fl C) as (s1 & fl1 & U & C1 & O1); [apply idx_range; lia|]. rewrite U.
    rewrite <- app_assoc in C1. cbn [app] in C1. apply core_merge in C1; [|reflexivity].
    destruct (finish_spec s1 l1 o (n + m) l3 fl1 C1) as (s' & L' & fl' & P & I' & Lv & Vs).
    + destruct (full_next (l1 ++ [B o n (KUsed 0 false d0)]) (B (o + n) m KFree) l3) as (z & l4 & -> & Az); [rewrite <- app_assoc; exact F|discriminate|].
      rewrite El1 in *. rewrite <- app_assoc in *. cbn [app] in *.
      apply (full_replace l0 [x; B o n (KUsed 0 false d0); B (o + n) m KFree] [x; B o (n + m) KFree] z z l4 F (sameb_refl _)). clear - Nx. loc.
    + refine (others_dvok s _ _ _ O1 _ D). rewrite !dvs_app. reflexivity.
    + refine (others_subsok s _ _ _ O1 S _ _); rewrite ?sts_app, ?ens_app; reflexivity.
    + intros b Hb'. destruct O1 as (_ & -> & _). apply in_app_or in Hb' as [Hb'|[<-|Hb']].
      * apply Bd. apply in_or_app. now left.
      * unfold bend. cbn. lia.
      * apply Bd. apply in_or_app. right. right. now right.
    + exists s', L', fl'. split; [exact P|]. split; [exact I'|]. split; [rewrite Lv; reflexivity|]. rewrite Vs. apply (vsubs_others _ _ O1).
  - congruence.
  - (* used block *)
    assert (Pf : pf = false) by (unfold adj in A; rewrite Ky in A; cbn in A; tauto).
    rewrite <- Ky in Ny. pose proof (mark_prevfree_spec s (l1 ++ [B o n KTmp]) y l3 fl) as M. rewrite <- app_assoc in M. cbn [app] in M. specialize (M C Ny). cbv zeta in M.
    rewrite Ey, Hh, (isused_hdr y Gy Ny), Ky in M. cbn [isU] in M. destruct M as (C1 & O1 & _). rewrite <- app_assoc in C1. cbn [app] in C1.
    set (s1 := store s (o + n) _) in *.
    destruct (finish_spec s1 l1 o n (setpf true y :: l3) fl C1) as (s' & L' & fl' & P & I' & Lv & Vs).
    + rewrite El1 in *. rewrite <- app_assoc in *. cbn [app] in *.
      apply (full_replace l0 [x; B o n (KUsed 0 false d0)] [x; B o n KFree] y (setpf true y) l3 F (sameb_setpf _ _)). clear - Nx Ky. loc.
    + refine (others_dvok s _ _ _ O1 _ D). rewrite !dvs_app, dvs_setpf. reflexivity.
    + refine (others_subsok s _ _ _ O1 S _ _); rewrite ?sts_app, ?ens_app, ?sts_setpf, ?ens_setpf; reflexivity.
    + intros b Hb'. destruct O1 as (_ & -> & _). apply in_app_or in Hb' as [Hb'|[<-|[<-|Hb']]].
      * apply Bd. apply in_or_app. now left.
      * apply (Bd _ (in_mid _ _ _)).
      * unfold bend. rewrite setpf_ba, setpf_bs. apply (Bd y Hy).
      * apply Bd. apply in_or_app. right. right. now right.
    + exists s', L', fl'. split; [exact P|]. split; [exact I'|]. split; [rewrite Lv, !lives_cons, live1_setpf; reflexivity|]. rewrite Vs. apply (vsubs_others _ _ O1).
Qed.

Lemma free_onto_dv_spec s l0 a m n l2 fl w d : 
  core s (l0 ++ B a m KDv :: B (a + m) n (KUsed w false d) :: l2) fl -> full (l0 ++ B a m KDv :: B (a + m) n (KUsed w false d) :: l2) ->
  vb s DVBUCKET = a -> vb s DVSIZEBUCKET = m -> dvs l0 = [] -> dvs l2 = [] -> subsok s (l0 ++ l2) ->
  (forall b, In b l2 -> bend b <= vfree s) ->
  exists s' L' fl', free_onto_dv s n = VOk s' 0 /\ inv s' L' fl' /\ lives L' = lives l0 ++ lives l2 /\ vsubs s' = vsubs s.
Proof.
  intros C F Ea Em D1 D2 S Bd. 
  destruct (full_next (l0 ++ [B a m KDv]) (B (a + m) n (KUsed w false d)) l2) as (y & l3 & -> & A); [rewrite <- app_assoc; exact F|discriminate|].
  destruct (adj_next _ _ A) as [Ey Ny]; [discriminate|]. unfold bend in Ey. cbn in Ey.
  destruct (full_prev _ _ _ F) as (l00 & x & El0 & Ax); [discriminate|].
  pose proof (core_forget _ _ _ _ _ _ _ C ltac:(discriminate)) as C1.
  change (l0 ++ B a m KTmp :: B (a + m) n (KUsed w false d) :: y :: l3) with (l0 ++ [B a m KTmp] ++ B (a + m) n (KUsed w false d) :: y :: l3) in C1. rewrite app_assoc in C1.
  apply core_forget in C1; [|discriminate]. rewrite <- app_assoc in C1. cbn [app] in C1. apply core_merge in C1; [|reflexivity].
  assert (Hy : In y (l0 ++ B a (m + n) KTmp :: y :: l3)) by (apply in_or_app; right; right; now left).
  pose proof (cok _ _ _ C1 _ Hy) as Gy. pose proof (fetch_hdr s _ fl y C1 Hy Ny) as Hh. rewrite Ey in Hh.
  unfold free_onto_dv. cbv zeta. rewrite Ea, Em. replace (a + (n + m)) with (a + m + n) by lia. rewrite Hh, (isfree_hdr y Gy Ny). rewrite (Z.add_comm n m).
  destruct (isF (bk y)) eqn:Fy.
  - destruct y as [a' k ky]. cbn [bk ba] in *. destruct ky; try discriminate. subst a'. unfold hdr. cbn [bk bs]. unfold gok in Gy. cbn in Gy. rewrite getfree_free by lia.
    pose proof (Bd _ (or_introl eq_refl)) as Hb. pose proof (so_free _ _ S) as Fr. unfold bend in Hb. cbn in Hb.
    pose proof (cok _ _ _ C1 _ (in_mid l0 _ _)) as G. unfold gok in G. cbn in G.
    change (l0 ++ B a (m + n) KTmp :: B (a + m + n) k KFree :: l3) with (l0 ++ [B a (m + n) KTmp] ++ B (a + m + n) k KFree :: l3) in C1. rewrite app_assoc in C1.
    destruct (unlink_spec s _ (a + m + n) k l3 fl C1) as (s1 & fl1 & U & C2 & O1); [apply idx_range; lia|]. rewrite U.
    rewrite <- app_assoc in C2. cbn [app] in C2. apply core_merge in C2; [|lia].
    destruct (full_next (l0 ++ [B a m KDv; B (a + m) n (KUsed w false d)]) (B (a + m + n) k KFree) l3) as (z & l4 & -> & Az); [rewrite <- app_assoc; exact F|discriminate|].
    destruct (adj_next _ _ Az) as [Ez Nz]; [discriminate|]. unfold bend in Ez. cbn in Ez.
    change (l0 ++ B a (m + n + k) KTmp :: z :: l4) with (l0 ++ [B a (m + n + k) KTmp] ++ z :: l4) in C2. rewrite app_assoc in C2.
    destruct (mark_prevused_spec s1 _ z l4 fl1 C2 Nz) as (C3 & O3 & _). rewrite Ez in C3, O3. replace (a + m + n + k) with (a + (m + n + k)) in C3, O3 by lia.
    rewrite <- app_assoc in C3. cbn [app] in C3. set (s2 := mark_prevused s1 (a + (m + n + k))) in *. pose proof (others_trans _ _ _ O1 O3) as O.
    apply core_mkdv in C3. apply (core_setb _ _ _ DVSIZEBUCKET (m + n + k)) in C3; [|exact dvs_out].
    eexists. exists (l0 ++ B a (m + n + k) KDv :: setpf false z :: l4), fl1. split; [reflexivity|]. split; [constructor|split].
    + exact C3.
    + rewrite El0 in *. rewrite <- app_assoc in *. cbn [app] in *.
      apply (full_replace l00 [x; B a m KDv; B (a + m) n (KUsed w false d); B (a + m + n) k KFree] [x; B a (m + n + k) KDv] z _ l4 F (sameb_setpf _ _)). clear. loc.
    + right. exists a, (m + n + k). split; [|split; [|reflexivity]].
      * rewrite dvs_app, D1. change (dvs (B a (m + n + k) KDv :: setpf false z :: l4)) with (B a (m + n + k) KDv :: dvs (setpf false z :: l4)). rewrite dvs_setpf.
        change (dvs (B (a + m + n) k KFree :: z :: l4)) with (dvs (z :: l4)) in D2. rewrite D2. reflexivity.
      * destruct O as (_ & _ & _ & _ & O & _). cbn [setb vb store]. rewrite upd_other by discriminate. rewrite O. exact Ea.
    + destruct O as (_ & O4 & O5 & O6 & _). refine (subsok_ext s _ _ _ S _ _ _ _ _); try assumption; rewrite ?sts_app, ?ens_app; f_equal;
        [change (sts (setpf false z :: l4) = sts (z :: l4)); apply sts_setpf|change (ens (setpf false z :: l4) = ens (z :: l4)); apply ens_setpf].
    + rewrite lives_app, !lives_cons, live1_setpf. reflexivity.
    + destruct O as (_ & _ & _ & O & _). exact O.
  - apply core_mkdv in C1. apply (core_setb _ _ _ DVSIZEBUCKET (m + n)) in C1; [|exact dvs_out].
    eexists. exists (l0 ++ B a (m + n) KDv :: y :: l3), fl. split; [reflexivity|]. split; [constructor|split].
    + exact C1.
    + rewrite El0 in *. rewrite <- app_assoc in *. cbn [app] in *.
      apply (full_replace l00 [x; B a m KDv; B (a + m) n (KUsed w false d)] [x; B a (m + n) KDv] y y l3 F (sameb_refl _)).
      assert (Ndv : bk y <> KDv). { intros E. cbn in D2. unfold isDv in D2. rewrite E in D2. discriminate. }
      clear - Fy Ndv. loc.
    + right. exists a, (m + n). split; [|split; [|reflexivity]].
      * rewrite dvs_app, D1. change (dvs (B a (m + n) KDv :: y :: l3)) with (B a (m + n) KDv :: dvs (y :: l3)). rewrite D2. reflexivity.
      * cbn [setb vb store]. rewrite upd_other by discriminate. exact Ea.
    + refine (subsok_ext s _ _ _ S _ _ _ _ _); try reflexivity; rewrite ?sts_app, ?ens_app; reflexivity.
    + rewrite lives_app, !lives_cons. reflexivity.
    + reflexivity.
Qed.

Lemma free_spec s l1 a n w pf d l2 fl : inv s (l1 ++ B a n (KUsed w pf d) :: l2) fl ->
  exists s' L' fl', wg_free_object s a = VOk s' 0 /\ inv s' L' fl' /\ lives L' = lives l1 ++ lives l2 /\ vsubs s' = vsubs s.
Proof.
  intros I. destruct I as [C F D S]. set (b := B a n (KUsed w pf d)) in *. pose proof (in_mid l1 b l2) as Hb.
  pose proof (cok _ _ _ C b Hb) as Gb. pose proof (fetch_hdr s _ fl b C Hb ltac:(discriminate)) as Hh. cbn [ba b] in Hh.
  pose proof (last_end s _ fl C F S) as Bd. assert (G := Gb). unfold gok in G. cbn in G.
  unfold wg_free_object. cbv zeta. rewrite Hh, (isfree_hdr b Gb), (used_size_hdr b Gb), (prevfree_hdr b Gb) by discriminate. cbn [isF b bk bs].
  destruct (Z.ltb_spec n MIN_VARLENOBJ_SIZE) as [Hl|_]; [unfold MIN_VARLENOBJ_SIZE in Hl; lia|].
  destruct (full_prev _ _ _ F) as (l0 & x & El & Ax); [discriminate|]. subst l1. rewrite <- app_assoc in *. cbn [app] in *.
  assert (Hx : In x (l0 ++ x :: b :: l2)) by apply in_mid. pose proof (cok _ _ _ C x Hx) as Gx.
  assert (Ex : ba b = bend x /\ pf = isF (bk x)). { unfold adj in Ax. cbn [bk b] in Ax. destruct (bk x); intuition congruence. }
  destruct Ex as [Ex Ep]. unfold bend in Ex. cbn [ba b] in Ex.
  assert (Sub' : subsok s (l0 ++ x :: l2)).
  { refine (subsok_ext s _ _ _ S _ _ _ _ _); try reflexivity; rewrite ?sts_app, ?ens_app; reflexivity. }
  assert (Dv' : dvok s (l0 ++ x :: l2)).
  { unfold dvok in *. rewrite dvs_app in *. exact D. }
  destruct pf.
  - destruct x as [p m k]. cbn [bk ba bs] in *. destruct k; try discriminate. unfold gok in Gx. cbn in Gx.
    pose proof (cfix _ _ _ C _ Hx) as [X1 X2]. cbn [bk ba bs] in X1, X2. unfold fetch. replace (a - 8) with (p + m - 8) by lia. rewrite X2, getfree_free by lia.
    replace (a - m) with p by lia. rewrite X1. rewrite getfree_free by lia. rewrite Z.eqb_refl.
    assert (If : isfreeobject (m + 1) = true) by (unfold isfreeobject; rewrite land3; apply Z.eqb_eq; lia). rewrite If. cbn [negb orb].
    destruct (Bd _ Hx) as [_ B1]. pose proof (so_free _ _ S) as Fr. unfold bend in B1. cbn in B1.
    destruct (unlink_spec s l0 p m (b :: l2) fl C) as (s1 & fl1 & U & C1 & O1); [apply idx_range; lia|]. rewrite U.
    change (l0 ++ B p m KTmp :: b :: l2) with (l0 ++ [B p m KTmp] ++ b :: l2) in C1. rewrite app_assoc in C1. unfold b in C1. apply core_forget in C1; [|discriminate].
    rewrite <- app_assoc in C1. cbn [app] in C1. apply core_merge in C1; [|lia]. rewrite (Z.add_comm n m).
    destruct (free_tail_spec s1 l0 p (m + n) l2 fl1 d) as (s' & L' & fl' & P & I' & Lv & Vs).
    + exact C1.
    + destruct (full_next (l0 ++ [B p m KFree]) b l2) as (y & l3 & -> & Ay); [rewrite <- app_assoc; exact F|discriminate|].
      apply (full_replace l0 [B p m KFree; b] [B p (m + n) (KUsed 0 false d)] y y l3 F (sameb_refl _)). unfold b. clear. loc.
    + intros l00 z -> E. rewrite <- app_assoc in F. cbn [app] in F. destruct (full_next _ _ _ F) as (q & qs & Eq & Aq); [congruence|]. injection Eq as <- <-.
      unfold adj in Aq. rewrite E in Aq. cbn in Aq. intuition discriminate.
    + refine (others_dvok s _ _ _ O1 _ Dv'). rewrite !dvs_app. reflexivity.
    + refine (others_subsok s _ _ _ O1 Sub' _ _); rewrite ?sts_app, ?ens_app; reflexivity.
    + intros c Hc. destruct O1 as (_ & -> & _). apply in_app_or in Hc as [Hc|[<-|Hc]].
      * apply Bd. apply in_or_app. now left.
      * destruct (Bd b) as [_ Z]; [apply in_or_app; right; right; now left|]. unfold bend in *. cbn in *. lia.
      * apply Bd. apply in_or_app. right. right. now right.
    + exists s', L', fl'. split; [exact P|]. split; [exact I'|]. split; [|rewrite Vs; apply (vsubs_others _ _ O1)]. rewrite Lv, lives_app. cbn. rewrite app_nil_r. reflexivity.
  - destruct (bk x) eqn:Kx; try discriminate Ep.
    3: { (* victim before *)
      destruct x as [p m k]. cbn [bk ba bs] in *. subst k.
      destruct D as [(D1 & D2 & D3)|(a' & m' & D3 & D1 & D2)]; [rewrite dvs_app in D3; apply app_eq_nil in D3 as [_ D3]; discriminate|].
      rewrite dvs_app in D3. assert (X : dvs l0 = [] /\ dvs l2 = [] /\ B p m KDv = B a' m' KDv).
      { change (dvs (B p m KDv :: b :: l2)) with (B p m KDv :: dvs l2) in D3. destruct (dvs l0) as [|? [|? ?]]; cbn in D3; inversion D3; auto. }
      destruct X as (X1 & X2 & X3). injection X3 as X3 X4. rewrite <- X3 in D1. rewrite <- X4 in D2. rewrite D1, D2. destruct (Z.eqb_spec (p + m) a); [|lia].
      destruct (free_onto_dv_spec s l0 p m n l2 fl w d) as (s' & L' & fl' & P & I' & Lv & Vs); auto.
      - rewrite e. exact C.
      - rewrite e. exact F.
      - refine (subsok_ext s _ _ _ Sub' _ _ _ _ _); try reflexivity; rewrite ?sts_app, ?ens_app; reflexivity.
      - intros c Hc. apply Bd. apply in_or_app. right. right. now right.
      - exists s', L', fl'. split; [exact P|]. split; [exact I'|]. split; [|exact Vs]. rewrite Lv, lives_app. cbn. rewrite app_nil_r. reflexivity. }
    all: assert (Ne : vb s DVBUCKET + vb s DVSIZEBUCKET =? a = false) by
      (apply Z.eqb_neq; destruct D as [(-> & -> & _)|(a' & m' & D3 & D1 & D2)]; [lia|]; rewrite D1, D2; intros E;
       assert (In (B a' m' KDv) (dvs (l0 ++ x :: b :: l2))) as H by (rewrite D3; now left); apply filter_In in H as [H _];
       destruct (cdisj _ _ _ C _ x H Hx) as [Q|[Q|Q]]; [rewrite <- Q in Kx; discriminate|unfold bend in Q; cbn in Q; unfold gok in Gx; lia|];
       apply (cok _ _ _ C) in H; unfold gok, bend in *; cbn in *; lia).
    all: rewrite Ne; change (l0 ++ x :: b :: l2) with (l0 ++ [x] ++ b :: l2) in C, F; rewrite app_assoc in C, F;
      pose proof (core_forget _ _ _ _ _ _ _ C ltac:(discriminate)) as C1;
      destruct (free_tail_spec s (l0 ++ [x]) a n l2 fl d) as (s' & L' & fl' & P & I' & Lv & Vs);
      [exact C1
      |destruct (full_next _ _ _ F) as (y & l3 & -> & Ay); [discriminate|];
       apply (full_replace (l0 ++ [x]) [b] [B a n (KUsed 0 false d)] y y l3 F (sameb_refl _)); unfold b; clear; loc
      |intros l00 z Ez; apply app_inj_tail in Ez as [_ <-]; rewrite Kx; discriminate
      |rewrite <- app_assoc; exact Dv'
      |rewrite <- app_assoc; exact Sub'
      |intros c Hc; rewrite <- app_assoc in Hc; cbn [app] in Hc; apply in_app_or in Hc as [Hc|[<-|[<-|Hc]]];
        [apply Bd; apply in_or_app; now left|apply (Bd x Hx)|destruct (Bd b) as [_ Z]; [apply in_or_app; right; right; now left|exact Z]
        |apply Bd; apply in_or_app; right; right; now right]
      |exists s', L', fl'; split; [exact P|]; split; [exact I'|]; split; [exact Lv|exact Vs]].
Qed.

End WithRegion.
