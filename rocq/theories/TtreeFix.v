(** Height repair after an insertion and after a removal. *)
From Coq Require Import ZArith List Bool Lia Permutation.
From Verif Require Import Base EncodingModel CompareModel TtreeModel TtreeShape TtreeArr TtreeRotate.
Import ListNotations.
Open Scope Z_scope.
#[local] Ltac Zify.zify_post_hook ::= idtac.

Fixpoint ch (c : list frame) (h : Z) : Z :=
  match c with [] => h | FL _ r :: c' => ch c' (1 + Z.max h (ht r)) | FR l _ :: c' => ch c' (1 + Z.max (ht l) h) end.
Lemma ch_plug c : forall t, ht (plug c t) = ch c (ht t).
Proof. induction c as [|[] c IH]; intros t; cbn [plug ch]; [reflexivity| |]; now rewrite IH. Qed.
Lemma ch_mono c : forall h h', h <= h' -> ch c h <= ch c h'.
Proof. induction c as [|[] c IH]; intros h h' H; cbn [ch]; [exact H| |]; apply IH; lia. Qed.
Lemma ch_ge c : forall h, h <= ch c h.
Proof.
  induction c as [|[] c IH]; intros h; cbn [ch]; [lia| |].
  - specialize (IH (1 + Z.max h (ht r))). lia.
  - specialize (IH (1 + Z.max (ht l) h)). lia.
Qed.
Lemma ch_len c : forall h, h + Z.of_nat (length c) <= ch c h.
Proof.
  induction c as [|[] c IH]; intros h; cbn [ch length]; [lia| |].
  - specialize (IH (1 + Z.max h (ht r))). lia.
  - specialize (IH (1 + Z.max (ht l) h)). lia.
Qed.
Lemma ch_succ c : forall h, ch c (h + 1) <= ch c h + 1.
Proof.
  induction c as [|[] c IH]; intros h; cbn [ch]; [lia| |].
  - eapply Z.le_trans; [|apply IH]. apply ch_mono. lia.
  - eapply Z.le_trans; [|apply IH]. apply ch_mono. lia.
Qed.

Section K.
Variable key : Z -> Z.
Definition repaired (s s' : tt) (L : list Z) : Prop :=
  exists T, st s' 0 T /\ bal T /\ troot s' = addr T /\ ino T = L /\ keepV key s s' L /\ sameC s s'.

Lemma sameC_refl s : sameC s s. Proof. repeat split. Qed.
Lemma sameVall_refl s : sameVall s s. Proof. repeat split. Qed.
Lemma sameC_trans s1 s2 s3 : sameC s1 s2 -> sameC s2 s3 -> sameC s1 s3.
Proof. unfold sameC. intros (?&?&?&?) (?&?&?&?). repeat split; congruence. Qed.
Lemma repaired_trans s s1 s2 L : keepV key s s1 L -> sameC s s1 -> repaired s1 s2 L -> repaired s s2 L.
Proof.
  intros K C (T & A1 & A2 & A3 & A4 & A5 & A6). exists T.
  exact (conj A1 (conj A2 (conj A3 (conj A4 (conj (keepV_trans key _ _ _ _ K A5) (sameC_trans _ _ _ C A6)))))).
Qed.
Lemma repaired_now s T L : st s 0 T -> bal T -> troot s = addr T -> ino T = L -> repaired s s L.
Proof. intros. exists T. split; [assumption|]. split; [assumption|]. split; [assumption|]. split; [assumption|]. split; [now apply keepV_refl|apply sameC_refl]. Qed.
Lemma keepV_plug s s' c t : keepV key s s' (ino t) -> NoDup (ino (plug c t)) -> keepV key s s' (ino (plug c t)).
Proof.
  intros K N. rewrite ino_plug in *. apply (keepV_sub key s s' (ino t)); auto.
  - intros x Hx. rewrite !in_app_iff. auto.
  - exists (lctx c), (rctx c). reflexivity.
Qed.

(** Enter the height of the hole in the innermost frame and move the focus up. *)
Lemma up_FL s c t a r hi h v : st s a t -> t <> Lf -> cok s (FL a r :: c) (addr t) hi h ->
  NoDup (ino (plug (FL a r :: c) t)) -> v mod 256 = ht t ->
  let s1 := set_lh s a v in
  st s1 (caddr c) (Nd t a r) /\ cok s1 c a (1 + Z.max h (ht r)) (1 + Z.max h (ht r)).
Proof.
  intros H Hn C N Hv s1. cbn [cok] in C. destruct C as (A0 & A1 & A2 & A3 & A4 & A5 & A6 & A7 & A8 & A9).
  rewrite ino_plug in N. cbn [lctx rctx] in N. ndx N.
  split.
  - cbn [st]. unfold s1. prj. ux. repeat split; auto.
    + apply (st_same s); [exact H|]. intros x Hx. unfold sameS. prj. ux. repeat split.
    + apply (st_same s); [exact A6|]. intros x Hx. unfold sameS. prj. ux. repeat split.
  - apply (cok_same s); [exact A9| |reflexivity]. intros y Hy. unfold s1, sameS. prj.
    rewrite in_app_iff in Hy. destruct Hy as [Hy|Hy]; ux; repeat split.
Qed.
Lemma up_FR s c t a l hi h v : st s a t -> t <> Lf -> cok s (FR l a :: c) (addr t) hi h ->
  NoDup (ino (plug (FR l a :: c) t)) -> v mod 256 = ht t ->
  let s1 := set_rh s a v in
  st s1 (caddr c) (Nd l a t) /\ cok s1 c a (1 + Z.max (ht l) h) (1 + Z.max (ht l) h).
Proof.
  intros H Hn C N Hv s1. cbn [cok] in C. destruct C as (A0 & A1 & A2 & A3 & A4 & A5 & A6 & A7 & A8 & A9).
  rewrite ino_plug in N. cbn [lctx rctx] in N. repeat (rewrite <- app_assoc in N; cbn [app] in N). ndx N.
  split.
  - cbn [st]. unfold s1. prj. ux. repeat split; auto.
    + apply (st_same s); [exact A6|]. intros x Hx. unfold sameS. prj. ux. repeat split.
    + apply (st_same s); [exact H|]. intros x Hx. unfold sameS. prj. ux. repeat split.
  - apply (cok_same s); [exact A9| |reflexivity]. intros y Hy. unfold s1, sameS. prj.
    rewrite in_app_iff in Hy. destruct Hy as [Hy|Hy]; ux; repeat split.
Qed.
Lemma left_is s c t a l hi h : st s a t -> t <> Lf -> cok s (FR l a :: c) (addr t) hi h -> NoDup (ino (plug (FR l a :: c) t)) ->
  (hleft s a =? addr t) = false.
Proof.
  intros H Hn C N. cbn [cok] in C. destruct C as (A0 & A1 & -> & _). rewrite ino_plug in N. cbn [lctx rctx] in N.
  repeat (rewrite <- app_assoc in N; cbn [app] in N). ndx N.
  apply Z.eqb_neq. intros E. symmetry in E. revert E. pose proof (addr_in t Hn) as Ha. apply ne_addr; [exact (st_nz _ _ _ _ H Ha)|].
  intros Hi. eauto.
Qed.

Definition grown (t : tree) : Prop := match t with Lf => False | Nd Lf _ Lf => True | Nd l _ r => ht l <> ht r end.
Lemma st_par s p t : st s p t -> t <> Lf -> hpar s (addr t) = p.
Proof. destruct t; [easy|]. cbn [st addr]. tauto. Qed.

Lemma add_fix_ok c : forall n s t h, (length c < n)%nat ->
  st s (caddr c) t -> bal t -> grown t -> cok s c (addr t) h h -> ht t = h + 1 -> NoDup (ino (plug c t)) -> ch c (ht t) < 250 ->
  exists s', add_fix key n s (addr t) = Some s' /\ repaired s s' (ino (plug c t)).
Proof.
  induction c as [|f c IH]; intros n s t h Hn H B G C E N Hh; (destruct n as [|n]; [cbn [length] in Hn; lia|]);
    assert (Tn : t <> Lf) by (destruct t; [now cbn in G|discriminate]); cbn [add_fix]; rewrite (st_par _ _ _ H Tn).
  - cbn [caddr]. rewrite Z.eqb_refl. exists s. split; [reflexivity|]. cbn [plug caddr cok] in *. apply (repaired_now s t); auto.
  - pose proof (ht_nonneg t) as H0. pose proof (ch_ge c) as Cg.
    assert (C0 : caddr (f :: c) <> 0) by (apply (cok_caddr _ _ _ _ _ C); discriminate).
    destruct (Z.eqb_spec (caddr (f :: c)) 0); [contradiction|].
    (* the two kinds of frame give the same situation *)
    assert (STEP : exists s1 l a r h', (if hleft s (caddr (f :: c)) =? addr t then set_lh s (caddr (f :: c)) (hlh s (caddr (f :: c)) + 1)
        else set_rh s (caddr (f :: c)) (hrh s (caddr (f :: c)) + 1)) = s1 /\ a = caddr (f :: c) /\
        st s1 (caddr c) (Nd l a r) /\ cok s1 c a h' h' /\ plug (f :: c) t = plug c (Nd l a r) /\ bal l /\ bal r /\
        -2 <= ht l - ht r <= 2 /\ sameC s s1 /\ sameVall s s1 /\
        (ht l = ht r -> ht (Nd l a r) = h') /\ (ht l <> ht r -> ht (Nd l a r) = h' + 1) /\
        (ht l - ht r = 2 -> match l with Nd u _ v => ht u = ht v -> u = Lf /\ v = Lf | Lf => True end) /\
        (ht r - ht l = 2 -> match r with Nd u _ v => ht u = ht v -> u = Lf /\ v = Lf | Lf => True end) /\
        ch c (ht (Nd l a r)) < 250).
    { assert (GR : match t with Nd u _ v => ht u = ht v -> u = Lf /\ v = Lf | Lf => True end).
      { destruct t as [|u x v]; [exact I|]. cbn [grown] in G. destruct u, v; auto; intros; contradiction. }
      destruct f as [a r|l a].
      - pose proof (up_FL s c t a r h h (hlh s a + 1) H Tn C N) as U.
        cbn [cok] in C. destruct C as (A0 & A1 & A2 & A3 & A4 & A5 & A6 & A7 & A8 & A9). cbn [caddr ch ht] in *.
        rewrite A2, Z.eqb_refl. specialize (Cg (1 + Z.max (ht t) (ht r))).
        assert (V : (hlh s a + 1) mod 256 = ht t) by (rewrite A4, Z.mod_small by lia; lia).
        destruct (U V) as (U1 & U2). exists (set_lh s a (hlh s a + 1)), t, a, r, (1 + Z.max h (ht r)).
        split; [reflexivity|]. split; [reflexivity|]. split; [exact U1|]. split; [exact U2|]. split; [reflexivity|].
        split; [exact B|]. split; [exact A7|]. split; [lia|]. split; [repeat split|]. split; [repeat split|].
        split; [lia|]. split; [lia|]. split; [intros _; exact GR|]. split; [lia|]. exact Hh.
      - pose proof (up_FR s c t a l h h (hrh s a + 1) H Tn C N) as U.
        pose proof (left_is s c t a l h h H Tn C N) as LI. cbn [caddr]. rewrite LI.
        cbn [cok] in C. destruct C as (A0 & A1 & A2 & A3 & A4 & A5 & A6 & A7 & A8 & A9). cbn [caddr ch ht] in *.
        specialize (Cg (1 + Z.max (ht l) (ht t))). pose proof (ht_nonneg l).
        assert (V : (hrh s a + 1) mod 256 = ht t) by (rewrite A5, Z.mod_small by lia; lia).
        destruct (U V) as (U1 & U2). exists (set_rh s a (hrh s a + 1)), l, a, t, (1 + Z.max (ht l) h).
        split; [reflexivity|]. split; [reflexivity|]. split; [exact U1|]. split; [exact U2|]. split; [reflexivity|].
        split; [exact A7|]. split; [exact B|]. split; [lia|]. split; [repeat split|]. split; [repeat split|].
        split; [lia|]. split; [lia|]. split; [lia|]. split; [intros _; exact GR|]. exact Hh. }
    destruct STEP as (s1 & l & a & r & h' & -> & Ea & S1 & C1 & P1 & Bl & Br & Bb & Sc & Sv & Heq & Hne & Gl & Gr & Hh1).
    rewrite <- Ea. rewrite P1 in *. cbv zeta.
    assert (Bal : hlh s1 a - hrh s1 a = ht l - ht r) by (cbn [st] in S1; destruct S1 as (_ & _ & _ & _ & -> & -> & _); reflexivity).
    rewrite Bal. pose proof (ch_ge c (ht (Nd l a r))) as Cg'.
    assert (K1 : keepV key s s1 (ino (plug c (Nd l a r)))) by now apply keepV_refl.
    destruct (Z.eqb_spec (ht l - ht r) 0) as [Z0|Z0].
    + exists s1. split; [reflexivity|]. apply (repaired_trans s s1); auto.
      assert (Eh : h' = ht (Nd l a r)) by (symmetry; apply Heq; lia). rewrite Eh in C1.
      destruct (cok_plug s1 c (Nd l a r) S1 ltac:(cbn [bal]; repeat split; auto; lia) C1) as (T1 & T2 & T3).
      apply (repaired_now s1 (plug c (Nd l a r))); auto.
    + destruct (Z.ltb_spec 1 (ht l - ht r)) as [L|L]; cbn [orb].
      2: destruct (Z.ltb_spec (ht l - ht r) (-1)) as [L2|L2].
      3:{ rewrite <- Ea in *.
          destruct (IH n s1 (Nd l a r) h') as (s' & F1 & F2); auto.
          - cbn [length] in Hn. lia.
          - cbn [bal]. repeat split; auto; lia.
          - cbn [grown]. destruct l, r; auto; cbn [ht] in *; lia.
          - apply Hne. lia.
          - exists s'. split; [exact F1|]. apply (repaired_trans s s1); auto. }
      1,2: destruct (rotate_ok key s1 c l a r h' h' S1 C1 N Bl Br ltac:(lia) ltac:(lia))
          as (t' & R1 & R2 & R3 & R4 & R5 & R6 & R7 & R8 & R9 & R10 & R11);
        eexists; (split; [reflexivity|]);
        assert (E' : ht t' = h');
        [ rewrite R8; [rewrite Hne by lia; lia|] |].
      * destruct (Z.ltb_spec (ht r) (ht l)); [|lia]. destruct l as [|u x v]; [exact I|]. intros Eq.
        destruct (Gl ltac:(lia) Eq) as (-> & ->). cbn [ht] in *. pose proof (ht_nonneg r). lia.
      * rewrite E' in R5. rewrite <- E' in R5. destruct (cok_plug _ c t' R4 R3 R5) as (T1 & T2 & T3).
        assert (Ei : ino (plug c t') = ino (plug c (Nd l a r))) by (rewrite !ino_plug; now rewrite R1).
        apply (repaired_trans s s1); auto. exists (plug c t'). split; [exact T1|]. split; [exact T2|]. split; [exact T3|]. split; [exact Ei|].
        split; [|exact R10]. apply keepV_plug; auto.
      * destruct (Z.ltb_spec (ht r) (ht l)); [lia|]. destruct r as [|u x v]; [exact I|]. intros Eq.
        destruct (Gr ltac:(lia) Eq) as (-> & ->). cbn [ht] in *. pose proof (ht_nonneg l). lia.
      * rewrite E' in R5. rewrite <- E' in R5. destruct (cok_plug _ c t' R4 R3 R5) as (T1 & T2 & T3).
        assert (Ei : ino (plug c t') = ino (plug c (Nd l a r))) by (rewrite !ino_plug; now rewrite R1).
        apply (repaired_trans s s1); auto. exists (plug c t'). split; [exact T1|]. split; [exact T2|]. split; [exact T3|]. split; [exact Ei|].
        split; [|exact R10]. apply keepV_plug; auto.
Qed.

(** The removal loop at a subtree whose own heights are right. *)
Lemma remove_fix_bal c : forall n s t hi h, (2 * length c < n)%nat ->
  st s (caddr c) t -> t <> Lf -> bal t -> cok s c (addr t) hi h -> h - 1 <= ht t <= h -> NoDup (ino (plug c t)) -> ch c h < 250 ->
  exists s', remove_fix key n s (addr t) = Some s' /\ repaired s s' (ino (plug c t)).
Proof.
  induction c as [|f c IH]; intros n s t hi h Hn H Tn B C E N Hh; (destruct n as [|n]; [cbn [length] in Hn; lia|]);
    cbn [remove_fix]; pose proof (st_par _ _ _ H Tn) as Hp;
    (assert (Hb : hlh s (addr t) - hrh s (addr t) = match t with Lf => 0 | Nd l _ r => ht l - ht r end /\
        Z.max (hlh s (addr t)) (hrh s (addr t)) + 1 = ht t)
      by (destruct t; [easy|]; cbn [st addr ht] in *; destruct H as (_ & _ & _ & _ & -> & -> & _); split; lia));
    destruct Hb as (Hb & Hm); rewrite Hb;
    (assert (Bb : -1 <= match t with Lf => 0 | Nd l _ r => ht l - ht r end <= 1) by (destruct t; [easy|]; cbn [bal] in B; lia));
    (destruct (Z.ltb_spec 1 (match t with Lf => 0 | Nd l _ r => ht l - ht r end)); [lia|]);
    (destruct (Z.ltb_spec (match t with Lf => 0 | Nd l _ r => ht l - ht r end) (-1)); [lia|]); cbn [orb]; rewrite Hp.
  - cbn [caddr]. rewrite Z.eqb_refl. cbn [negb]. rewrite Hp. cbn [caddr]. rewrite Z.eqb_refl.
    exists s. split; [reflexivity|]. cbn [plug caddr cok] in *. apply (repaired_now s t); auto.
  - pose proof (ht_nonneg t) as Ht0.
    assert (C0 : caddr (f :: c) <> 0) by (apply (cok_caddr _ _ _ _ _ C); discriminate).
    destruct (Z.eqb_spec (caddr (f :: c)) 0); [contradiction|]. cbn [negb].
    assert (STEP : exists s1 l a r h', (if hleft s (caddr (f :: c)) =? addr t then set_lh s (caddr (f :: c)) (1 + Z.max (hlh s (addr t)) (hrh s (addr t)))
        else set_rh s (caddr (f :: c)) (1 + Z.max (hlh s (addr t)) (hrh s (addr t)))) = s1 /\ a = caddr (f :: c) /\
        st s1 (caddr c) (Nd l a r) /\ cok s1 c a h' h' /\ plug (f :: c) t = plug c (Nd l a r) /\ bal l /\ bal r /\
        -2 <= ht l - ht r <= 2 /\ sameC s s1 /\ sameVall s s1 /\ h' - 1 <= ht (Nd l a r) <= h' /\
        (ht l - ht r = 2 \/ ht r - ht l = 2 -> ht (Nd l a r) = h') /\ ch c h' < 250 /\ hpar s1 (addr t) = a).
    { replace (1 + Z.max (hlh s (addr t)) (hrh s (addr t))) with (ht t) by lia.
      pose proof (ch_ge c) as Cg. destruct f as [a r|l a].
      - pose proof (up_FL s c t a r hi h (ht t) H Tn C N) as U.
        cbn [cok] in C. destruct C as (A0 & A1 & A2 & A3 & A4 & A5 & A6 & A7 & A8 & A9). cbn [caddr ch ht] in *.
        rewrite A2, Z.eqb_refl. specialize (Cg (1 + Z.max h (ht r))).
        assert (V : ht t mod 256 = ht t) by (rewrite Z.mod_small by lia; lia).
        destruct (U V) as (U1 & U2). exists (set_lh s a (ht t)), t, a, r, (1 + Z.max h (ht r)).
        split; [reflexivity|]. split; [reflexivity|]. split; [exact U1|]. split; [exact U2|]. split; [reflexivity|].
        split; [exact B|]. split; [exact A7|]. split; [lia|]. split; [repeat split|]. split; [repeat split|].
        split; [lia|]. split; [lia|]. split; [exact Hh|exact Hp].
      - pose proof (up_FR s c t a l hi h (ht t) H Tn C N) as U.
        pose proof (left_is s c t a l hi h H Tn C N) as LI. cbn [caddr]. rewrite LI.
        cbn [cok] in C. destruct C as (A0 & A1 & A2 & A3 & A4 & A5 & A6 & A7 & A8 & A9). cbn [caddr ch ht] in *.
        specialize (Cg (1 + Z.max (ht l) h)). pose proof (ht_nonneg l).
        assert (V : ht t mod 256 = ht t) by (rewrite Z.mod_small by lia; lia).
        destruct (U V) as (U1 & U2). exists (set_rh s a (ht t)), l, a, t, (1 + Z.max (ht l) h).
        split; [reflexivity|]. split; [reflexivity|]. split; [exact U1|]. split; [exact U2|]. split; [reflexivity|].
        split; [exact A7|]. split; [exact B|]. split; [lia|]. split; [repeat split|]. split; [repeat split|].
        split; [lia|]. split; [lia|]. split; [exact Hh|exact Hp]. }
    destruct STEP as (s1 & l & a & r & h' & -> & Ea & S1 & C1 & P1 & Bl & Br & Bb1 & Sc & Sv & Hr & Hu & Hh1 & Hp1).
    rewrite Hp1. rewrite <- Ea in *. destruct (Z.eqb_spec a 0); [contradiction|]. rewrite P1 in *.
    assert (K1 : keepV key s s1 (ino (plug c (Nd l a r)))) by now apply keepV_refl.
    destruct (Z.leb_spec (-1) (ht l - ht r)) as [L1|L1]; [destruct (Z.leb_spec (ht l - ht r) 1) as [L2|L2]|].
    { destruct (IH n s1 (Nd l a r) h' h') as (s' & F1 & F2); auto; try discriminate.
      - cbn [length] in Hn. lia.
      - cbn [bal]. repeat split; auto; lia.
      - exists s'. split; [exact F1|]. apply (repaired_trans s s1); auto. }
    all: pose proof (ch_ge c h') as Cg'; destruct n as [|n]; [cbn [length] in Hn; lia|];
      destruct (rotate_ok key s1 c l a r h' h' S1 C1 N Bl Br ltac:(lia) ltac:(lia))
          as (t' & R1 & R2 & R3 & R4 & R5 & R6 & R7 & R8 & R9 & R10 & R11);
      assert (Ei : ino (plug c t') = ino (plug c (Nd l a r))) by (rewrite !ino_plug; now rewrite R1);
      set (s2 := db_rotate_ttree key s1 a (db_which_branch_causes_overweight s1 a)) in *;
      assert (Bal : hlh s1 a - hrh s1 a = ht l - ht r) by (cbn [st] in S1; destruct S1 as (_ & _ & _ & _ & -> & -> & _); reflexivity);
      (destruct (IH n s2 t' (ht t') h') as (s' & F1 & F2); auto;
        [cbn [length] in Hn; lia | rewrite Hu in R7 by lia; lia | rewrite Ei; exact N |]);
      exists s'; (split;
        [ cbn [remove_fix]; rewrite Bal;
          (assert (O : (1 <? ht l - ht r) || (ht l - ht r <? -1) = true)
            by (destruct (Z.ltb_spec 1 (ht l - ht r)), (Z.ltb_spec (ht l - ht r) (-1)); cbn [orb]; try reflexivity; lia));
          rewrite O; fold s2; rewrite R6;
          destruct (Z.eqb_spec (addr t') 0) as [Z0|_]; [|exact F1];
          exfalso; exact (st_nz _ _ _ _ R4 (addr_in t' R2) Z0)
        | apply (repaired_trans s s1); auto; rewrite <- Ei; apply (repaired_trans s1 s2); auto;
          rewrite Ei; apply keepV_plug; auto ]).
Qed.
(** Entry of the removal loop: the focus may be out of balance by two. *)
Lemma remove_fix_ok c n s l a r h : (2 * length c + 1 < n)%nat ->
  st s (caddr c) (Nd l a r) -> bal l -> bal r -> -2 <= ht l - ht r <= 2 -> cok s c a h h ->
  h - 1 <= ht (Nd l a r) <= h -> (ht l - ht r = 2 \/ ht r - ht l = 2 -> ht (Nd l a r) = h) ->
  NoDup (ino (plug c (Nd l a r))) -> ch c h < 250 ->
  exists s', remove_fix key n s a = Some s' /\ repaired s s' (ino (plug c (Nd l a r))).
Proof.
  intros Hn H Bl Br Bb C E Hu N Hh.
  destruct (Z.leb_spec (-1) (ht l - ht r)) as [L1|L1]; [destruct (Z.leb_spec (ht l - ht r) 1) as [L2|L2]|].
  { apply (remove_fix_bal c n s (Nd l a r) h h); auto; try discriminate; [lia|]. cbn [bal]. repeat split; auto; lia. }
  all: pose proof (ch_ge c h) as Cg'; destruct n as [|n]; [lia|];
    destruct (rotate_ok key s c l a r h h H C N Bl Br ltac:(lia) ltac:(lia))
          as (t' & R1 & R2 & R3 & R4 & R5 & R6 & R7 & R8 & R9 & R10 & R11);
    assert (Ei : ino (plug c t') = ino (plug c (Nd l a r))) by (rewrite !ino_plug; now rewrite R1);
    set (s2 := db_rotate_ttree key s a (db_which_branch_causes_overweight s a)) in *;
    assert (Bal : hlh s a - hrh s a = ht l - ht r) by (cbn [st] in H; destruct H as (_ & _ & _ & _ & -> & -> & _); reflexivity);
    (destruct (remove_fix_bal c n s2 t' (ht t') h) as (s' & F1 & F2); auto;
        [lia | rewrite Hu in R7 by lia; lia | rewrite Ei; exact N |]);
    exists s'; (split;
        [ cbn [remove_fix]; rewrite Bal;
          (assert (O : (1 <? ht l - ht r) || (ht l - ht r <? -1) = true)
            by (destruct (Z.ltb_spec 1 (ht l - ht r)), (Z.ltb_spec (ht l - ht r) (-1)); cbn [orb]; try reflexivity; lia));
          rewrite O; fold s2; rewrite R6;
          destruct (Z.eqb_spec (addr t') 0) as [Z0|_]; [|exact F1];
          exfalso; exact (st_nz _ _ _ _ R4 (addr_in t' R2) Z0)
        | rewrite <- Ei; apply (repaired_trans s s2); auto;
          rewrite Ei; apply keepV_plug; auto ]).
Qed.
End K.
