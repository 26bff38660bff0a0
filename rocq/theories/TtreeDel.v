(** Removal from the T-tree keeps the invariant and takes out exactly one row. *)
From Coq Require Import ZArith List Bool Lia Permutation Sorted.
From Verif Require Import Base EncodingModel CompareModel TtreeModel TtreeShape TtreeArr TtreeRotate TtreeFix TtreeOrd TtreeAdd.
Import ListNotations.
Open Scope Z_scope.
#[local] Ltac Zify.zify_post_hook ::= idtac.

Lemma root_in c : forall t, c <> [] -> In (addr (plug c t)) (lctx c ++ rctx c).
Proof.
  induction c as [|f c IH]; intros t H; [now elim H|]. destruct f as [a r|l a]; cbn [plug lctx rctx].
  - destruct c as [|f' c']; [cbn; auto|]. specialize (IH (Nd t a r) ltac:(discriminate)). rewrite in_app_iff in *. cbn [In]. rewrite in_app_iff. tauto.
  - destruct c as [|f' c']; [cbn; rewrite !in_app_iff; cbn; auto|]. specialize (IH (Nd l a t) ltac:(discriminate)). rewrite !in_app_iff in *. tauto.
Qed.

(** ** Unlinking a node from the chain *)
Definition sameT (s s' : tt) : Prop :=
  hpar s' = hpar s /\ hleft s' = hleft s /\ hright s' = hright s /\ hlh s' = hlh s /\ hrh s' = hrh s /\ troot s' = troot s /\ sameVall s s'.
Lemma unchain_T s x : sameT s (unchain s x).
Proof. unfold unchain. cbv zeta. destruct (hsucc s x =? 0); prj; destruct (_ =? 0); repeat split. Qed.
Lemma unchain_C s x l1 l2 : chain s (l1 ++ x :: l2) -> NoDup (l1 ++ x :: l2) -> ~ In 0 (l1 ++ x :: l2) -> chain (unchain s x) (l1 ++ l2).
Proof.
  intros C N Z. destruct (chain_at _ _ _ _ C) as (Cp & Cs).
  assert (X1 : last l1 0 <> x).
  { intros E. apply NoDup_remove_2 in N. destruct l1 as [|y l]; [cbn in E; apply Z; rewrite in_app_iff; cbn; auto|].
    apply N. rewrite in_app_iff. left. rewrite <- E. apply last_in. discriminate. }
  assert (X2 : hd 0 l2 <> x).
  { intros E. apply NoDup_remove_2 in N. destruct l2 as [|y l]; [cbn in E; apply Z; rewrite in_app_iff; cbn; auto|].
    cbn [hd] in E. subst. apply N. rewrite in_app_iff. cbn. auto. }
  apply (chain_delete s _ l1 x l2); auto; unfold unchain; cbv zeta; rewrite Cs, Cp.
  - intros y Hy. destruct (Z.eqb_spec (hd 0 l2) 0) as [E2|E2]; prj; rewrite ?upd_other by congruence; rewrite ?Cp, ?Cs;
      (destruct (Z.eqb_spec (last l1 0) 0) as [E1|E1]; prj; [rewrite E1; destruct (Z.eqb_spec y 0); reflexivity|]);
      (destruct (Z.eqb_spec y (last l1 0)) as [->|Hy']; [rewrite upd_same; destruct (Z.eqb_spec (last l1 0) 0); [contradiction|reflexivity]|now rewrite upd_other by assumption]).
  - intros y Hy. destruct (Z.eqb_spec (hd 0 l2) 0) as [E2|E2]; prj; rewrite ?upd_other by congruence; rewrite ?Cp, ?Cs;
      (destruct (Z.eqb_spec (last l1 0) 0) as [E1|E1]; prj);
      try (rewrite E2; destruct (Z.eqb_spec y 0); reflexivity);
      (destruct (Z.eqb_spec y (hd 0 l2)) as [->|Hy']; [rewrite upd_same; destruct (Z.eqb_spec (hd 0 l2) 0); [contradiction|reflexivity]|now rewrite upd_other by assumption]).
  - destruct (Z.eqb_spec (hd 0 l2) 0) as [E2|E2]; prj; rewrite ?upd_other by congruence; rewrite ?Cp, ?Cs;
      (destruct (Z.eqb_spec (last l1 0) 0) as [E1|E1]; prj; reflexivity).
  - destruct (Z.eqb_spec (hd 0 l2) 0) as [E2|E2]; prj; rewrite ?upd_other by congruence; rewrite ?Cp, ?Cs;
      (destruct (Z.eqb_spec (last l1 0) 0) as [E1|E1]; prj; reflexivity).
Qed.

Section Del.
Variables (cmp : Z -> Z -> Z) (dom : Z -> Prop).
Hypothesis KO : keyorder cmp dom.
Variable key : Z -> Z.
Notation lt := (lt cmp).
Notation le := (le cmp).
Notation rle := (rle cmp key).
Notation VL := (VL cmp dom key).
Notation TI := (TI cmp dom key).

(** ** Finding the row *)
Lemma find_slot_spec s node row m : forall i, let r := find_slot m s node row i in
  (r = -1 /\ forall j, i <= j < i + Z.of_nat m -> harr s node j <> row) \/ (i <= r < i + Z.of_nat m /\ harr s node r = row).
Proof.
  induction m as [|m IH]; intros i; cbn [find_slot].
  - left. split; [reflexivity|]. intros; lia.
  - destruct (Z.eqb_spec (harr s node i) row) as [E|E].
    + right. split; [lia|exact E].
    + cbv zeta in IH. destruct (IH (i + 1)) as [(A & B)|(A & B)].
      * left. split; [exact A|]. intros j Hj. destruct (Z.eq_dec j i) as [->|]; [exact E|]. apply B. lia.
      * right. split; [lia|exact B].
Qed.
Lemma find_row_spec s rec L : VL s L -> chain s L -> ~ In 0 L -> dom (key rec) -> forall l2 n l1 b,
  L = l1 ++ b :: l2 -> (length l2 < n)%nat ->
  exists a i, find_row cmp n s b (key rec) rec = Some (a, i) /\
  (i = -1 /\ ~ In rec (flat_map (rows s) (b :: l2)) \/ 0 <= i < hn s a /\ harr s a i = rec /\ In a L).
Proof.
  intros V C Z D. induction l2 as [|b2 l2 IH]; intros n l1 b EL Hn; (destruct n as [|n]; [lia|]); cbn [find_row].
  - assert (V' := V). rewrite EL in V'. destruct (VL_node cmp dom KO key _ _ _ _ V') as ((N & _) & _).
    pose proof (find_slot_spec s b rec (Z.to_nat (hn s b)) 0) as F. cbv zeta in F. rewrite Z2Nat.id, Z.add_0_l in F by lia.
    destruct F as [(F1 & F2)|(F1 & F2)].
    + rewrite F1. change (negb (-1 =? -1)) with false. cbv iota. rewrite EL in C. destruct (chain_at _ _ _ _ C) as (_ & ->). cbn [hd].
      rewrite Z.eqb_refl. do 2 eexists. split; [reflexivity|]. left. split; [reflexivity|]. cbn [flat_map]. rewrite app_nil_r.
      intros Hi. apply rowsf_in in Hi. destruct Hi as (j & Hj & E). exact (F2 j Hj E).
    + destruct (Z.eqb_spec (find_slot (Z.to_nat (hn s b)) s b rec 0) (-1)); [lia|]. cbn [negb]. do 2 eexists. split; [reflexivity|].
      right. split; [lia|]. split; [exact F2|]. rewrite EL, in_app_iff. cbn. auto.
  - assert (V' := V). rewrite EL in V'. destruct (VL_node cmp dom KO key _ _ _ _ V') as ((N & _) & _).
    pose proof (find_slot_spec s b rec (Z.to_nat (hn s b)) 0) as F. cbv zeta in F. rewrite Z2Nat.id, Z.add_0_l in F by lia.
    destruct F as [(F1 & F2)|(F1 & F2)].
    + rewrite F1. change (negb (-1 =? -1)) with false. cbv iota.
      assert (Nb : ~ In rec (rows s b)). { intros Hi. apply rowsf_in in Hi. destruct Hi as (j & Hj & E). exact (F2 j Hj E). }
      assert (C' := C). rewrite EL in C'. destruct (chain_at _ _ _ _ C') as (_ & ->). cbn [hd].
      destruct (Z.eqb_spec b2 0) as [->|_]; [elim Z; rewrite EL, in_app_iff; cbn; auto|].
      assert (EL2 : L = (l1 ++ [b]) ++ b2 :: l2) by (rewrite EL, <- app_assoc; reflexivity).
      assert (V2 := V). rewrite EL2 in V2. destruct (VL_node cmp dom KO key _ _ _ _ V2) as (_ & Dm2 & Dx2 & R2 & M2).
      destruct (Z.eqb_spec (cmp (hmin s b2) (key rec)) WG_GREATER) as [G|G].
      * do 2 eexists. split; [reflexivity|]. left. split; [reflexivity|]. change (flat_map (rows s) (b :: b2 :: l2)) with (rows s b ++ rows s b2 ++ flat_map (rows s) l2).
        rewrite !in_app_iff. intros [Hi|[Hi|Hi]]; [contradiction| |].
        -- destruct (R2 _ Hi) as (_ & Q & _). contradiction.
        -- destruct (right_rows cmp dom KO key _ _ _ _ V2 _ Hi) as (_ & Q). apply (le_trans cmp dom KO (hmin s b2) (hmax s b2) (key rec)); auto.
      * destruct (IH n _ b2 EL2 ltac:(cbn [length] in Hn; lia)) as (a & i & E & Q). exists a, i. split; [exact E|].
        destruct Q as [(-> & Q)|Q]; [left|right; exact Q]. split; [reflexivity|].
        change (flat_map (rows s) (b :: b2 :: l2)) with (rows s b ++ flat_map (rows s) (b2 :: l2)). rewrite in_app_iff. tauto.
    + destruct (Z.eqb_spec (find_slot (Z.to_nat (hn s b)) s b rec 0) (-1)); [lia|]. cbn [negb]. do 2 eexists. split; [reflexivity|].
      right. split; [lia|]. split; [exact F2|]. rewrite EL, in_app_iff. cbn. auto.
Qed.

(** ** Taking the slot out *)
Lemma take_slot_V s a i : node_ok key s a -> 0 <= i < hn s a ->
  let s' := take_slot key s a i in
  sameSC s s' /\ (forall x, x <> a -> sameV s s' x) /\ (hn s' a = 0 \/ node_ok key s' a) /\
  exists r1 r2, rows s a = r1 ++ harr s a i :: r2 /\ rows s' a = r1 ++ r2.
Proof.
  intros (N & E1 & E2) Hi. unfold take_slot. set (n := hn s a) in *. cbv zeta. prj.
  set (g := push_left (Z.to_nat (n - 1 - i)) i (harr s a)).
  set (s0 := set_n s a (n - 1)).
  set (s1 := if i <? n - 1 then set_arr s0 a g else s0).
  assert (Ea : forall j, 0 <= j < n - 1 -> harr s1 a j = if j <? i then harr s a j else harr s a (j + 1)).
  { intros j Hj. unfold s1, s0. destruct (Z.ltb_spec i (n - 1)) as [L|L]; prj.
    - rewrite Z.eqb_refl. unfold g. rewrite push_left_eq, Z2Nat.id by lia. destruct (Z.leb_spec i j), (Z.ltb_spec j i); try lia; cbn [andb]; try reflexivity.
      destruct (Z.ltb_spec j (i + (n - 1 - i))); [reflexivity|lia].
    - destruct (Z.ltb_spec j i); [reflexivity|lia]. }
  assert (En : hn s1 a = n - 1) by (unfold s1, s0; destruct (i <? n - 1); prj; ux; reflexivity).
  assert (Ei : hmin s1 = hmin s /\ hmax s1 = hmax s) by (unfold s1, s0; destruct (i <? n - 1); split; reflexivity).
  assert (SC : sameSC s s1) by (unfold s1, s0; destruct (i <? n - 1); repeat split).
  assert (SV : forall x, x <> a -> sameV s s1 x).
  { intros x Hx. apply Z.eqb_neq in Hx as Hx'. unfold sameV, s1, s0. destruct (i <? n - 1); prj; rewrite ?Hx'; ux; repeat split. }
  clearbody s1. clear s0 g. destruct Ei as (Ei1 & Ei2).
  match goal with |- sameSC s ?x /\ _ => set (s' := x) end.
  assert (Ea' : harr s' a = harr s1 a) by (unfold s'; destruct ((i =? n - 1) && _); [|destruct ((i =? 0) && _)]; reflexivity).
  assert (En' : hn s' a = n - 1) by (unfold s'; destruct ((i =? n - 1) && _); [|destruct ((i =? 0) && _)]; prj; exact En).
  split; [|split; [|split]].
  - apply (sameSC_trans s s1); [exact SC|]. unfold s'. destruct ((i =? n - 1) && _); [|destruct ((i =? 0) && _)]; repeat split.
  - intros x Hx. destruct (SV x Hx) as (V1 & V2 & V3 & V4). unfold sameV, s'. destruct ((i =? n - 1) && _); [|destruct ((i =? 0) && _)]; prj; ux; repeat split; assumption.
  - destruct (Z.eq_dec n 1) as [E|E]; [left; lia|right]. unfold node_ok. rewrite En', Ea'. split; [lia|].
    unfold s'. destruct (Z.eqb_spec (n - 1) 0); [lia|]. cbn [negb]. rewrite !andb_true_r.
    destruct (Z.eqb_spec i (n - 1)) as [F|F]; [|destruct (Z.eqb_spec i 0) as [F0|F0]]; prj; ux; rewrite ?Ei1, ?Ei2, ?En.
    + split; [|reflexivity]. rewrite Ea by lia. destruct (Z.ltb_spec 0 i); [exact E1|lia].
    + split; [reflexivity|]. rewrite Ea by lia. destruct (Z.ltb_spec (n - 1 - 1) i); [lia|]. rewrite E2. do 2 f_equal. lia.
    + rewrite !Ea by lia. destruct (Z.ltb_spec 0 i); [|lia]. destruct (Z.ltb_spec (n - 1 - 1) i); [lia|]. split; [exact E1|]. rewrite E2. do 2 f_equal. lia.
  - exists (rowsf (harr s a) i), (rowsf (fun j => harr s a (j + i + 1)) (n - i - 1)). split; [apply rowsf_split; lia|].
    unfold rows. rewrite Ea', En'. rewrite (rowsf_two _ (n - 1) i) by lia. f_equal.
    + apply rowsf_ext. intros j Hj. rewrite Ea by lia. destruct (Z.ltb_spec j i); [reflexivity|lia].
    + replace (n - 1 - i) with (n - i - 1) by lia. apply rowsf_ext. intros j Hj. rewrite Ea by lia. destruct (Z.ltb_spec (j + i) i); [lia|reflexivity].
Qed.
(** ** Taking the greatest lower bound *)
Lemma borrow_V s a : hpred s a <> a -> node_ok key s (hpred s a) -> (hn s a = 0 \/ node_ok key s a) ->
  (hn s a <? 5) && negb (hleft s a =? 0) && negb (hright s a =? 0) = true ->
  exists s', borrow key s a = (s', hpred s a) /\ sameSC s s' /\ (forall x, x <> a -> x <> hpred s a -> sameV s s' x) /\ node_ok key s' a /\
  (hn s' (hpred s a) = 0 \/ node_ok key s' (hpred s a)) /\ rows s' (hpred s a) ++ rows s' a = rows s (hpred s a) ++ rows s a.
Proof.
  intros Ne (Ng & Eg1 & Eg2) Oa Cd. unfold borrow. rewrite Cd. apply andb_true_iff in Cd. destruct Cd as (Cd & _). apply andb_true_iff in Cd. destruct Cd as (Cd & _).
  apply Z.ltb_lt in Cd. set (g := hpred s a) in *. cbv zeta. prj. set (n := hn s a) in *.
  assert (Hn0 : 0 <= n) by (destruct Oa as [->|(? & _)]; lia).
  set (ar := upd (push_right (Z.to_nat n) n (harr s a)) 0 (harr s g (hn s g - 1))).
  assert (Ar : ar 0 = harr s g (hn s g - 1) /\ forall j, 0 < j <= n -> ar j = harr s a (j - 1)).
  { unfold ar. split; [apply upd_same|]. intros j Hj. rewrite upd_other by lia. rewrite push_right_eq. rewrite Z2Nat.id by lia.
    destruct (Z.ltb_spec (n - n) j); [|lia]. destruct (Z.leb_spec j n); [|lia]. reflexivity. }
  destruct Ar as (Ar0 & Ar1). clearbody ar. rewrite !upd_same. eexists. split; [reflexivity|].
  apply Z.eqb_neq in Ne as Ne'.
  set (k := n + 1). set (m := hn s g). set (v := hmax s g).
  match goal with |- sameSC s ?x /\ _ => set (s' := x) end.
  assert (F : sameSC s s' /\ (forall x, x <> a -> x <> g -> sameV s s' x) /\ hn s' a = k /\ harr s' a = ar /\ hmin s' a = v /\
     hmax s' a = (if k =? 1 then v else hmax s a) /\ hn s' g = m - 1 /\ harr s' g = harr s g /\ hmin s' g = hmin s g /\
     hmax s' g = if negb (m - 1 =? 0) then key (harr s g (m - 1 - 1)) else v).
  { unfold s'. destruct (Z.eqb_spec k 1) as [E1|E1]; destruct (Z.eqb_spec (m - 1) 0) as [E2|E2]; prj;
      rewrite ?upd_same, ?(upd_other _ a _ g), ?(upd_other _ g _ a) by congruence; fold m; rewrite ?(proj2 (Z.eqb_eq (m - 1) 0) E2), ?(proj2 (Z.eqb_neq (m - 1) 0) E2); cbn [negb]; prj;
      rewrite ?Z.eqb_refl, ?Ne', ?(proj2 (Z.eqb_neq a g)) by congruence; rewrite ?upd_same, ?(upd_other _ a _ g), ?(upd_other _ g _ a) by congruence;
      (split; [repeat split|]);
      (split; [intros x Hx Hx2; unfold sameV; prj; apply Z.eqb_neq in Hx as Hx'; rewrite ?Hx'; rewrite ?upd_other by congruence; repeat split|]);
      repeat split; ux; reflexivity. }
  clearbody s'. destruct F as (F1 & F2 & F3 & F4 & F5 & F6 & F7 & F8 & F9 & F10).
  split; [exact F1|]. split; [exact F2|]. split; [|split].
  - unfold node_ok. rewrite F3, F4, F5, F6. split; [lia|]. split; [rewrite Ar0; exact Eg2|].
    destruct (Z.eqb_spec k 1) as [E1|E1]; [rewrite E1; change (1 - 1) with 0; rewrite Ar0; exact Eg2|].
    destruct Oa as [Oa|(_ & _ & Oa)]; [unfold n in *; lia|]. rewrite Oa. rewrite Ar1 by lia. unfold k. fold n. do 2 f_equal. lia.
  - destruct (Z.eq_dec m 1) as [E|E]; [left; lia|right]. unfold node_ok. rewrite F7, F8, F9, F10. fold m in Ng, Eg2. split; [lia|]. split; [exact Eg1|].
    destruct (Z.eqb_spec (m - 1) 0); [lia|]. reflexivity.
  - unfold rows. rewrite F7, F8, F3, F4. fold m. fold n in Ng. unfold k. rewrite (rowsf_ins (harr s a) ar n 0) by (auto; intros; lia).
    rewrite Ar0. fold m. rewrite (rowsf_0 _ 0) by lia. cbn [app]. fold n. fold m in Ng.
    assert (Xm : rowsf (harr s g) m = rowsf (harr s g) (m - 1) ++ [harr s g (m - 1)]) by (rewrite <- rowsf_snoc by lia; f_equal; lia).
    rewrite Xm. rewrite <- app_assoc. cbn [app]. do 2 f_equal. rewrite Z.sub_0_r. apply rowsf_ext. intros. f_equal. lia.
Qed.
Lemma shrink s f c t h n : cok s (f :: c) (addr t) (ht t) h -> st s (caddr (f :: c)) t -> bal t -> ht t = h - 1 ->
  NoDup (ino (plug (f :: c) t)) -> ch (f :: c) h < 250 -> (2 * length c + 1 < n)%nat ->
  exists s', remove_fix key n s (caddr (f :: c)) = Some s' /\ repaired key s s' (ino (plug (f :: c) t)).
Proof.
  intros C H B E N Hh Hn. pose proof (ht_nonneg t). destruct f as [a r|l a]; cbn [cok caddr plug ch] in *;
    destruct C as (A0 & A1 & A2 & A3 & A4 & A5 & A6 & A7 & A8 & A9).
  - apply (remove_fix_ok key c n s t a r (1 + Z.max h (ht r))); auto.
    + cbn [st]. repeat split; auto.
    + lia.
    + cbn [ht]. lia.
    + cbn [ht]. lia.
  - apply (remove_fix_ok key c n s l a t (1 + Z.max (ht l) h)); auto.
    + cbn [st]. repeat split; auto.
    + lia.
    + cbn [ht]. lia.
    + cbn [ht]. lia.
Qed.
Lemma drop_nonroot s f c x junk n : SH s (plug (f :: c) (Nd Lf x Lf)) -> hn s x = 0 -> (2 * length (ino (plug (f :: c) (Nd Lf x Lf))) + 1 < n)%nat ->
  exists s1, drop_leaf s x junk = (s1, caddr (f :: c)) /\ caddr (f :: c) <> 0 /\ hleft s1 x = 0 /\ hright s1 x = 0 /\
  chain s1 (lctx (f :: c) ++ rctx (f :: c)) /\ sameVall s s1 /\
  exists s', remove_fix key n s1 (caddr (f :: c)) = Some s' /\ repaired key s1 s' (lctx (f :: c) ++ rctx (f :: c)).
Proof.
  intros H N0 Hn. pose proof (SH_depth _ _ _ H) as Hd. pose proof (SH_ht _ _ H) as Hh. pose proof (SH_zero _ _ H) as Zz.
  destruct H as [H1 H2 H3 H4 H5 H6 H7]. destruct (plug_cok s _ _ H1 H4 H3) as (Hs & _ & C). cbn [addr ht] in C. change (1 + Z.max 0 0) with 1 in C.
  pose proof Hs as Hs'. cbn [st addr ht] in Hs'. destruct Hs' as (X0 & Xp & Xl & Xr & Xlh & Xrh & _ & _).
  pose proof (left_is s c (Nd Lf x Lf)) as LI.
  assert (H5' := H5). rewrite ino_plug in H5, H7, Zz. cbn [ino app] in H5, H7, Zz.
  assert (Nx : ~ In x (lctx (f :: c) ++ rctx (f :: c))) by now apply NoDup_remove_2 in H5.
  assert (Pi : In (caddr (f :: c)) (lctx (f :: c) ++ rctx (f :: c))) by (apply caddr_in; discriminate).
  assert (Ri : In (troot s) (lctx (f :: c) ++ rctx (f :: c))) by (rewrite H3; apply root_in; discriminate).
  assert (Px : caddr (f :: c) <> x) by (intros E; apply Nx; rewrite <- E; exact Pi).
  assert (Rx : x <> troot s) by (intros E; apply Nx; rewrite E; exact Ri).
  assert (P0 : caddr (f :: c) <> 0) by (apply (cok_caddr s (f :: c) x 1 1 C); discriminate).
  unfold drop_leaf. rewrite Xl, Xr, N0, Xp. change ((0 =? 0) && (0 =? 0) && (0 =? 0)) with true. cbv iota zeta.
  destruct (Z.eqb_spec (caddr (f :: c)) 0); [contradiction|].
  set (p := caddr (f :: c)) in *.
  set (s0 := if hleft s p =? x then set_lh (set_left s p 0) p 0 else set_rh (set_right s p 0) p 0).
  assert (F0 : hole_set s s0 (f :: c) 0 0 /\ (forall y, y <> p -> sameS s s0 y) /\ troot s0 = troot s /\ sameC s s0 /\ sameVall s s0).
  { unfold s0. destruct f as [a r|l a]; cbn [cok caddr] in *; unfold p in *.
    - destruct C as (A0 & A1 & A2 & A3 & A4 & A5 & _). rewrite A2, Z.eqb_refl. cbn [hole_set]. prj. ux. change (0 mod 256) with 0.
      split; [repeat split|]. split; [|repeat split]. intros y Hy. unfold sameS. prj. ux. repeat split.
    - assert (Tn : Nd Lf x Lf <> Lf) by discriminate. specialize (LI a l 1 1 Hs Tn). cbn [cok addr] in LI. rewrite (LI C H5').
      destruct C as (A0 & A1 & A2 & A3 & A4 & A5 & _). cbn [hole_set]. prj. ux. change (0 mod 256) with 0.
      split; [repeat split|]. split; [|repeat split]. intros y Hy. unfold sameS. prj. ux. repeat split. }
  clearbody s0. destruct F0 as (F1 & F2 & F3 & F4 & F5).
  pose proof (unchain_T s0 x) as (U1 & U2 & U3 & U4 & U5 & U6 & U7).
  assert (UC : chain (unchain s0 x) (lctx (f :: c) ++ rctx (f :: c))) by (apply unchain_C; [now apply (chain_sameC s)|exact H5|exact Zz]).
  set (s1 := unchain s0 x) in *. clearbody s1. rewrite U6, F3. destruct (Z.eqb_spec x (troot s)); [contradiction|]. cbn [negb].
  eexists. split; [reflexivity|]. split; [exact P0|]. unfold free_tnode.
  set (s2 := set_par s1 x junk).
  assert (G : forall y, y <> x -> sameS s0 s2 y).
  { intros y Hy. unfold sameS, s2. prj. ux. rewrite U1, U2, U3, U4, U5. repeat split. }
  assert (Gx : hleft s2 x = 0 /\ hright s2 x = 0).
  { unfold s2. prj. rewrite U2, U3. destruct (F2 x ltac:(congruence)) as (_ & -> & -> & _). auto. }
  destruct Gx as (Gl & Gr). split; [exact Gl|]. split; [exact Gr|]. split; [apply (chain_sameC s1); [repeat split|exact UC]|]. split.
  { destruct F5 as (? & ? & ? & ?), U7 as (? & ? & ? & ?). unfold sameVall, s2. prj. repeat split; congruence. }
  assert (Nd2 : NoDup (lctx (f :: c) ++ rctx (f :: c))) by now apply NoDup_remove_1 in H5.
  assert (C2 : cok s2 (f :: c) 0 0 1).
  { apply (cok_hole s s2 (f :: c) x 1 1 0 0 C).
    - destruct (G p Px) as (G1 & G2 & G3 & G4 & G5). destruct f as [a r|l a]; cbn [hole_set] in *; unfold p in *; cbn [caddr] in *; rewrite G1, G2, G3, G4, G5; exact F1.
    - intros y Hy Hyp. assert (Hyx : y <> x) by (intros ->; contradiction). destruct (G y Hyx) as (G1 & G2 & G3 & G4 & G5). destruct (F2 y Hyp) as (K1 & K2 & K3 & K4 & K5).
      unfold sameS. repeat split; congruence.
    - exact Nd2.
    - intros _. unfold s2. prj. congruence. }
  replace (lctx (f :: c) ++ rctx (f :: c)) with (ino (plug (f :: c) Lf)) by (rewrite ino_plug; reflexivity).
  apply (shrink s2 f c Lf 1 n C2).
  - exact I.
  - exact I.
  - reflexivity.
  - rewrite ino_plug. exact Nd2.
  - rewrite ch_plug in Hh. cbn [ht] in Hh. change (1 + Z.max 0 0) with 1 in Hh. lia.
  - cbn [length] in Hd. lia.
Qed.

(** ** Rows in order although one node may be empty *)
Definition near (s : tt) (L : list Z) (x : Z) : Prop :=
  Forall (fun y => y = x \/ node_ok key s y) L /\ (hn s x = 0 \/ node_ok key s x) /\
  StronglySorted rle (flat_map (rows s) L) /\ Forall (fun r => dom (key r)) (flat_map (rows s) L).
Lemma near_VL s L x : near s L x -> hn s x <> 0 -> VL s L.
Proof.
  intros (F & [E|O] & S2 & D) H; [contradiction|]. split; [|split; assumption]. rewrite Forall_forall in *. intros y Hy. destruct (F y Hy) as [->|]; assumption.
Qed.
Definition finished (s : tt) (T : tree) (s' : tt) : Prop :=
  exists T', TI s' T' /\ incl (ino T') (ino T) /\ cont s' T' = cont s T.
Lemma sameVall_V s s' x : sameVall s s' -> sameV s s' x.
Proof. intros (E1 & E2 & E3 & E4). unfold sameV. now rewrite E1, E2, E3, E4. Qed.

Lemma merge_none s x p junk : hleft s x = 0 -> hright s x = 0 -> merge_half s x p junk = Some (s, p).
Proof. intros E1 E2. unfold merge_half. rewrite E1, E2. reflexivity. Qed.
Lemma drop_none s x junk : hn s x <> 0 \/ hleft s x <> 0 \/ hright s x <> 0 -> drop_leaf s x junk = (s, 0).
Proof.
  intros H. unfold drop_leaf. destruct (Z.eqb_spec (hleft s x) 0), (Z.eqb_spec (hright s x) 0), (Z.eqb_spec (hn s x) 0); cbn [andb]; try reflexivity.
  exfalso. intuition.
Qed.
Lemma finish_leaf s c x junk n : SH s (plug c (Nd Lf x Lf)) -> near s (ino (plug c (Nd Lf x Lf))) x -> hn s x = 0 ->
  (2 * length (ino (plug c (Nd Lf x Lf))) + 1 < n)%nat ->
  exists s3 p s4 p4 s', drop_leaf s x junk = (s3, p) /\ merge_half s3 x p junk = Some (s4, p4) /\
    (if p4 =? 0 then Some s4 else remove_fix key n s4 p4) = Some s' /\ finished s (plug c (Nd Lf x Lf)) s'.
Proof.
  intros H Ne N0 Hn. destruct c as [|f c].
  - cbn [plug ino app] in *. destruct H as [H1 H2 H3 H4 H5 H6 H7]. pose proof H1 as H1'. cbn [st addr ht] in H1'. destruct H1' as (X0 & Xp & Xl & Xr & Xlh & Xrh & _).
    unfold drop_leaf. rewrite Xl, Xr, Xp, N0. change ((0 =? 0) && (0 =? 0) && (0 =? 0)) with true. change (0 =? 0) with true. cbv iota zeta.
    destruct (chain_at s [] x [] H7) as (Cp & Cs). cbn [last hd] in Cp, Cs.
    assert (Eu : unchain s x = set_minn (set_maxn s 0) 0). { unfold unchain. rewrite Cs, Cp. cbn [Z.eqb]. prj. rewrite Cp, Cs. reflexivity. }
    rewrite Eu. prj. rewrite H3. cbn [addr]. rewrite Z.eqb_refl. cbn [negb].
    eexists _, _, _, _, _. split; [reflexivity|]. rewrite merge_none by (prj; assumption). split; [reflexivity|]. rewrite Z.eqb_refl. split; [reflexivity|].
    match goal with |- finished _ _ ?q => set (s' := q) end.
    exists (Nd Lf x Lf). split; [split|split].
    + constructor; auto.
      * destruct H7 as (_ & _ & Ch). cbn [ino app]. split; [reflexivity|]. split; [reflexivity|]. exact Ch.
    + right. exists x. split; [reflexivity|]. unfold s'. prj. ux. split; [exact N0|]. split; reflexivity.
    + apply incl_refl.
    + unfold cont, rows, s'. prj. reflexivity.
  - pose proof (drop_nonroot s f c x junk n H N0 Hn) as (s1 & E1 & P0 & Xl & Xr & Ch & SV & s' & E2 & R).
    exists s1, (caddr (f :: c)), s1, (caddr (f :: c)), s'. split; [exact E1|]. split; [now apply merge_none|].
    destruct (Z.eqb_spec (caddr (f :: c)) 0); [contradiction|]. split; [exact E2|].
    destruct H as [H1 H2 H3 H4 H5 H6 H7]. destruct Ne as (Nf & _ & Ns & Nd').
    unfold finished, cont. rewrite ino_plug in *. cbn [ino app] in *. set (A := lctx (f :: c)) in *. set (B := rctx (f :: c)) in *.
    assert (Er : flat_map (rows s) (A ++ x :: B) = flat_map (rows s) (A ++ B)).
    { rewrite !flat_map_app. cbn [flat_map]. assert (rows s x = []) as -> by (unfold rows; now rewrite N0). reflexivity. }
    assert (Nx : ~ In x (A ++ B)) by now apply NoDup_remove_2 in H5.
    assert (EF : flat_map (rows s1) (A ++ B) = flat_map (rows s) (A ++ x :: B)).
    { rewrite Er. apply F_ext. intros y _. now apply sameVall_V. }
    destruct (TI_repaired cmp dom key s1 s' (A ++ B)) as (T' & HT & Ei & EC).
    + intros E. assert (Hi : In (caddr (f :: c)) (lctx (f :: c) ++ rctx (f :: c))) by (apply caddr_in; discriminate). fold A B in Hi. rewrite E in Hi. contradiction.
    + exact R.
    + now apply NoDup_remove_1 in H5.
    + rewrite Forall_forall in *. intros y Hy. apply H6. rewrite in_app_iff in *. cbn [In]. tauto.
    + exact Ch.
    + split; [|rewrite EF; split; assumption]. rewrite Forall_forall in *. intros y Hy. apply (sameV_ok key s); [now apply sameVall_V|].
      destruct (Nf y) as [->|]; [rewrite in_app_iff in *; cbn [In]; tauto|contradiction|assumption].
    + exists T'. split; [exact HT|]. rewrite Ei. split; [|rewrite EC; exact EF]. intros y Hy. rewrite in_app_iff in *. cbn [In]. tauto.
Qed.

(** ** Half-leaf swallowing its leaf *)
Lemma merge_tail s s1 c tx x ch A B junk n : SH s (plug c tx) -> near s (ino (plug c tx)) x -> addr tx = x -> tx <> Lf -> ht tx = 2 ->
  ino (plug c tx) = A ++ ch :: B -> A ++ B = lctx c ++ x :: rctx c -> ino tx = [ch; x] \/ ino tx = [x; ch] ->
  sameC s s1 -> troot s1 = troot s -> (forall y, y <> x -> sameS s s1 y) -> (forall y, y <> x -> sameV s s1 y) ->
  hpar s1 x = hpar s x -> hleft s1 x = 0 -> hright s1 x = 0 -> hlh s1 x = 0 -> hrh s1 x = 0 ->
  rows s1 x = flat_map (rows s) (ino tx) -> node_ok key s1 x -> (2 * length (ino (plug c tx)) + 1 < n)%nat ->
  let s3 := free_tnode (unchain s1 ch) ch junk in
  let p := hpar s3 x in
  exists s4 p4 s', (if p =? 0 then Some (s3, 0) else Some (if hleft s3 p =? x then set_lh s3 p 1 else set_rh s3 p 1, p)) = Some (s4, p4) /\
    (if p4 =? 0 then Some s4 else remove_fix key n s4 p4) = Some s' /\ finished s (plug c tx) s'.
Proof.
  intros H Ne Ex Tn Ht EL EL' Etx SC SR SS SV Xp Xl Xr Xlh Xrh Er Okx Hn s3 p.
  pose proof (SH_depth _ _ _ H) as Hd. pose proof (SH_ht _ _ H) as Hh. pose proof (SH_zero _ _ H) as Zz.
  destruct H as [H1 H2 H3 H4 H5 H6 H7]. destruct (plug_cok s _ _ H1 H4 H3) as (Hs & _ & C). rewrite Ex, Ht in C.
  assert (Hp0 : hpar s x = caddr c) by (rewrite <- Ex; now apply st_par).
  assert (x0 : x <> 0) by (rewrite <- Ex; apply (st_nz s _ tx _ Hs), addr_in, Tn).
  rewrite EL in H5, H6, H7, Zz.
  assert (Nc : ~ In ch (A ++ B)) by now apply NoDup_remove_2 in H5.
  assert (Nab : NoDup (A ++ B)) by now apply NoDup_remove_1 in H5.
  assert (cx : ch <> x) by (intros ->; apply Nc; rewrite EL', in_app_iff; cbn; auto).
  pose proof (unchain_T s1 ch) as (U1 & U2 & U3 & U4 & U5 & U6 & U7).
  assert (UC : chain (unchain s1 ch) (A ++ B)) by (apply unchain_C; [now apply (chain_sameC s)|exact H5|exact Zz]).
  unfold p, s3, free_tnode. clear p s3. set (s2 := unchain s1 ch) in *. clearbody s2. set (s3 := set_par s2 ch junk).
  assert (G : forall y, y <> ch -> sameS s1 s3 y).
  { intros y Hy. unfold sameS, s3. prj. ux. rewrite U1, U2, U3, U4, U5. repeat split. }
  assert (R3 : troot s3 = troot s) by (unfold s3; prj; congruence).
  assert (C3 : chain s3 (A ++ B)) by (apply (chain_sameC s2); [repeat split|exact UC]).
  assert (V3 : sameVall s1 s3) by (destruct U7 as (? & ? & ? & ?); unfold sameVall, s3; prj; repeat split; assumption).
  clearbody s3. clear s2 U1 U2 U3 U4 U5 U6 U7 UC.
  destruct (G x ltac:(congruence)) as (Gp & Gl & Gr & Glh & Grh). rewrite Gp, Xp, Hp0.
  assert (Ok3 : Forall (node_ok key s3) (A ++ B)).
  { rewrite Forall_forall. intros y Hy. apply (sameV_ok key s1); [now apply sameVall_V|]. destruct (Z.eq_dec y x) as [->|Hyx]; [exact Okx|].
    apply (sameV_ok key s); [auto|]. destruct Ne as (Nf & _). rewrite Forall_forall in Nf. destruct (Nf y) as [->|]; [|contradiction|assumption].
    rewrite EL. rewrite in_app_iff in *. cbn [In]. tauto. }
  assert (EF : flat_map (rows s3) (A ++ B) = cont s (plug c tx)).
  { unfold cont. rewrite EL', ino_plug. rewrite !flat_map_app. cbn [flat_map]. rewrite (sameV_rows s1 s3 x) by now apply sameVall_V. rewrite Er.
    assert (Hnx : forall y, In y (lctx c ++ rctx c) -> sameV s s3 y).
    { intros y Hy. assert (Hyx : y <> x) by (intros ->; rewrite EL' in Nab; now apply NoDup_remove_2 in Nab).
      destruct (SV y Hyx) as (? & ? & ? & ?), (sameVall_V s1 s3 y V3) as (? & ? & ? & ?). unfold sameV. repeat split; congruence. }
    rewrite (F_ext s s3 (lctx c)), (F_ext s s3 (rctx c)) by (intros; apply Hnx; rewrite in_app_iff; auto). reflexivity. }
  assert (VL3 : VL s3 (A ++ B)).
  { split; [exact Ok3|]. rewrite EF. destruct Ne as (_ & _ & Ns & Nd'). split; assumption. }
  assert (Oab : Forall okaddr (A ++ B)) by (rewrite Forall_app in *; destruct H6 as (Q1 & Q2); apply Forall_inv_tail in Q2; auto).
  assert (Ic : incl (A ++ B) (ino (plug c tx))) by (intros y Hy; rewrite EL; rewrite in_app_iff in *; cbn [In]; tauto).
  assert (Sx : forall s9, sameS s3 s9 x -> st s9 (caddr c) (Nd Lf x Lf)).
  { intros s9 (Q1 & Q2 & Q3 & Q4 & Q5). cbn [st addr ht]. repeat split; congruence. }
  destruct c as [|f c].
  - cbn [caddr]. rewrite Z.eqb_refl. exists s3, 0, s3. split; [reflexivity|]. rewrite Z.eqb_refl. split; [reflexivity|].
    cbn [lctx rctx app plug] in *. exists (Nd Lf x Lf). split; [split|split].
    + constructor; cbn [ino app addr]; rewrite <- ?EL'; auto.
      * apply Sx. repeat split.
      * discriminate.
      * rewrite R3, H3. exact Ex.
      * cbn. lia.
    + left. cbn [ino app]. rewrite <- EL'. exact VL3.
    + cbn [ino app]. rewrite <- EL'. exact Ic.
    + unfold cont at 1. cbn [ino app]. rewrite <- EL'. exact EF.
  - assert (P0 : caddr (f :: c) <> 0) by (apply (cok_caddr s (f :: c) x 2 2 C); discriminate).
    destruct (Z.eqb_spec (caddr (f :: c)) 0); [contradiction|]. set (p := caddr (f :: c)) in *.
    assert (Pi : In p (lctx (f :: c) ++ rctx (f :: c))) by (apply caddr_in; discriminate).
    assert (Nxc : ~ In x (lctx (f :: c) ++ rctx (f :: c))) by (rewrite EL' in Nab; now apply NoDup_remove_2 in Nab).
    assert (px : p <> x) by (intros E; apply Nxc; rewrite <- E; exact Pi).
    assert (Ncc : forall y, In y (lctx (f :: c) ++ rctx (f :: c)) -> y <> ch /\ y <> x).
    { intros y Hy. split; [|intros ->; contradiction]. intros ->. apply Nc. rewrite EL'. rewrite in_app_iff in *. cbn [In]. tauto. }
    assert (S3 : forall y, In y (lctx (f :: c) ++ rctx (f :: c)) -> sameS s s3 y).
    { intros y Hy. destruct (Ncc y Hy) as (Q1 & Q2). destruct (SS y Q2) as (? & ? & ? & ? & ?), (G y Q1) as (? & ? & ? & ? & ?). unfold sameS. repeat split; congruence. }
    assert (Cc3 : cok s3 (f :: c) x 2 2) by (apply (cok_same s); auto).
    assert (Nst : NoDup (lctx (f :: c) ++ x :: rctx (f :: c))) by (rewrite <- EL'; exact Nab).
    set (s4 := if hleft s3 p =? x then set_lh s3 p 1 else set_rh s3 p 1).
    assert (F4 : hole_set s3 s4 (f :: c) x 1 /\ (forall y, y <> p -> sameS s3 s4 y) /\ troot s4 = troot s3 /\ sameC s3 s4 /\ sameVall s3 s4).
    { unfold s4. pose proof (left_is s3 c (Nd Lf x Lf)) as LI. destruct f as [a r|l a]; cbn [cok caddr] in *; unfold p in *.
      - destruct Cc3 as (A0 & A1 & A2 & A3 & A4 & A5 & _). rewrite A2, Z.eqb_refl. cbn [hole_set]. prj. ux. change (1 mod 256) with 1.
        split; [repeat split; assumption|]. split; [|repeat split]. intros y Hy. unfold sameS. prj. ux. repeat split.
      - assert (Tn' : Nd Lf x Lf <> Lf) by discriminate. specialize (LI a l 2 2 (Sx s3 ltac:(repeat split)) Tn'). cbn [cok addr] in LI. rewrite LI; [|exact Cc3|rewrite ino_plug; exact Nst].
        destruct Cc3 as (A0 & A1 & A2 & A3 & A4 & A5 & _). cbn [hole_set]. prj. ux. change (1 mod 256) with 1.
        split; [repeat split; assumption|]. split; [|repeat split]. intros y Hy. unfold sameS. prj. ux. repeat split. }
    clearbody s4. destruct F4 as (F1 & F2 & F3 & F4 & F5).
    assert (Nl : NoDup (lctx (f :: c) ++ rctx (f :: c))) by now apply NoDup_remove_1 in Nst.
    assert (C4 : cok s4 (f :: c) x 1 2) by (apply (cok_hole s3 s4 (f :: c) x 2 2 x 1 Cc3 F1); auto).
    destruct (shrink s4 f c (Nd Lf x Lf) 2 n) as (s' & E' & R'); auto.
    + cbn. lia.
    + rewrite ino_plug. exact Nst.
    + rewrite ch_plug, Ht in Hh. lia.
    + cbn [length] in Hd. lia.
    + exists s4, p, s'. split; [reflexivity|]. destruct (Z.eqb_spec p 0); [contradiction|]. split; [exact E'|].
      assert (EI : ino (plug (f :: c) (Nd Lf x Lf)) = A ++ B) by (rewrite ino_plug, EL'; reflexivity). rewrite EI in R'.
      assert (EF4 : flat_map (rows s4) (A ++ B) = flat_map (rows s3) (A ++ B)) by (apply F_ext; intros; now apply sameVall_V).
      destruct (TI_repaired cmp dom key s4 s' (A ++ B)) as (T' & HT & Ei & EC); auto.
      * rewrite EL'. now destruct (lctx (f :: c)).
      * now apply (chain_sameC s3).
      * split; [|rewrite EF4; apply VL3]. apply (ok_ext key s3); [intros; now apply sameVall_V|exact Ok3].
      * exists T'. split; [exact HT|]. rewrite Ei. split; [exact Ic|]. unfold cont at 1. rewrite Ei, EC, EF4. exact EF.
Qed.
Lemma mid2 {A} (x y : list A) a b : x ++ a :: b :: y = (x ++ [a]) ++ b :: y.
Proof. now rewrite <- app_assoc. Qed.
Lemma finish_half_left s c ch x junk n : SH s (plug c (Nd (Nd Lf ch Lf) x Lf)) -> near s (ino (plug c (Nd (Nd Lf ch Lf) x Lf))) x ->
  (2 * length (ino (plug c (Nd (Nd Lf ch Lf) x Lf))) + 1 < n)%nat ->
  exists s4 p4 s', merge_half s x 0 junk = Some (s4, p4) /\
    (if p4 =? 0 then Some s4 else remove_fix key n s4 p4) = Some s' /\ finished s (plug c (Nd (Nd Lf ch Lf) x Lf)) s'.
Proof.
  intros H Ne Hn. pose proof (sh_nd _ _ H) as N.
  destruct (plug_cok s _ _ (sh_st _ _ H) (sh_bal _ _ H) (sh_root _ _ H)) as (Hs & _ & _). cbn [st addr ht] in Hs.
  destruct Hs as (X0 & Xp & Xl & Xr & Xlh & Xrh & (C0 & Cp & Cl & Cr & Clh & Crh & _) & _).
  assert (cx : ch <> x). { rewrite ino_plug in N. cbn [ino app] in N. apply nd_r in N. apply NoDup_cons_iff in N. destruct N as (Q & _). intros E. apply Q. rewrite E. cbn. auto. }
  assert (Okc : node_ok key s ch). { destruct Ne as (Nf & _). rewrite Forall_forall in Nf. destruct (Nf ch) as [E|]; [rewrite ino_plug; cbn [ino app]; rewrite in_app_iff; cbn; auto|contradiction|assumption]. }
  unfold merge_half. rewrite Xl, Xr, Z.eqb_refl. destruct (Z.eqb_spec ch 0); [contradiction|]. cbn [negb andb orb]. cbv zeta iota. rewrite Clh, Crh, Z.eqb_refl. cbn [negb andb]. cbv iota.
  change WG_TNODE_ARRAY_SIZE with 8. set (i := hn s x). set (nc := hn s ch). destruct (Z.leb_spec (i + nc) 8) as [L|L].
  - prj. set (ar := copy_up (Z.to_nat nc) 0 0 (harr s ch) (move_up (Z.to_nat i) (i - 1) nc (harr s x))).
    destruct Okc as (Nn & Ec1 & Ec2). fold nc in Nn, Ec2.
    assert (Hi : 0 <= i) by (destruct Ne as (_ & [E|(E & _)] & _); unfold i; lia).
    assert (Ar : (forall j, 0 <= j < nc -> ar j = harr s ch j) /\ (forall j, 0 <= j < i -> ar (j + nc) = harr s x j)).
    { unfold ar. split; intros j Hj; rewrite copy_up_eq, Z2Nat.id by lia.
      - destruct (Z.leb_spec (0 + 0) j); [|lia]. destruct (Z.ltb_spec j (0 + 0 + nc)); [|lia]. cbn [andb]. f_equal. lia.
      - destruct (Z.ltb_spec (j + nc) (0 + 0 + nc)); [lia|]. rewrite andb_false_r. rewrite move_up_eq, Z2Nat.id by lia.
        destruct (Z.ltb_spec (i - 1 - i + nc) (j + nc)); [|lia]. destruct (Z.leb_spec (j + nc) (i - 1 + nc)); [|lia]. cbn [andb]. f_equal. lia. }
    destruct Ar as (Ar1 & Ar2). clearbody ar.
    set (s0 := set_min (set_left (set_lh (set_arr (set_n s x (i + nc)) x ar) x 0) x 0) x (hmin s ch)).
    assert (Es0 : hmax s0 ch = hmax s ch) by reflexivity.
    set (s1 := if i =? 0 then set_max s0 x (hmax s ch) else s0).
    apply (merge_tail s s1 c (Nd (Nd Lf ch Lf) x Lf) x ch (lctx c) (x :: rctx c)); auto.
    + discriminate.
    + rewrite ino_plug. reflexivity.
    + unfold s1, s0. destruct (i =? 0); repeat split.
    + unfold s1, s0. destruct (i =? 0); reflexivity.
    + intros y Hy. unfold sameS, s1, s0. destruct (i =? 0); prj; ux; repeat split.
    + intros y Hy. unfold sameV, s1, s0. apply Z.eqb_neq in Hy as Hy'. destruct (i =? 0); prj; rewrite ?Hy'; ux; repeat split.
    + unfold s1, s0. destruct (i =? 0); reflexivity.
    + unfold s1, s0. destruct (i =? 0); prj; ux; reflexivity.
    + unfold s1, s0. destruct (i =? 0); prj; exact Xr.
    + unfold s1, s0. destruct (i =? 0); prj; ux; reflexivity.
    + unfold s1, s0. destruct (i =? 0); prj; exact Xrh.
    + cbn [ino app flat_map]. rewrite app_nil_r. unfold rows at 1. assert (hn s1 x = nc + i /\ harr s1 x = ar) as (-> & ->).
      { unfold s1, s0. destruct (i =? 0); prj; rewrite ?Z.eqb_refl; ux; split; reflexivity || lia. }
      rewrite rowsf_app by lia. f_equal; apply rowsf_ext; assumption.
    + unfold node_ok. assert (hn s1 x = i + nc /\ harr s1 x = ar /\ hmin s1 x = hmin s ch /\ hmax s1 x = if i =? 0 then hmax s ch else hmax s x) as (-> & -> & -> & ->).
      { unfold s1, s0. destruct (i =? 0); prj; rewrite ?Z.eqb_refl; ux; repeat split. }
      split; [lia|]. split; [rewrite Ar1 by lia; exact Ec1|]. destruct (Z.eqb_spec i 0) as [E|E].
      * rewrite E. rewrite Ar1 by lia. rewrite Ec2. do 2 f_equal.
      * destruct Ne as (_ & [E'|(_ & _ & E')] & _); [unfold i in E; contradiction|]. replace (i + nc - 1) with (i - 1 + nc) by lia. rewrite Ar2 by lia. exact E'.
  - exists s, 0, s. split; [reflexivity|]. rewrite Z.eqb_refl. split; [reflexivity|]. eexists. split; [|split; [apply incl_refl|reflexivity]].
    split; [exact H|]. left. apply (near_VL s _ x Ne). destruct Okc as (Q & _). unfold i, nc in *. lia.
Qed.
Lemma finish_half_right s c ch x junk n : SH s (plug c (Nd Lf x (Nd Lf ch Lf))) -> near s (ino (plug c (Nd Lf x (Nd Lf ch Lf)))) x ->
  (2 * length (ino (plug c (Nd Lf x (Nd Lf ch Lf)))) + 1 < n)%nat ->
  exists s4 p4 s', merge_half s x 0 junk = Some (s4, p4) /\
    (if p4 =? 0 then Some s4 else remove_fix key n s4 p4) = Some s' /\ finished s (plug c (Nd Lf x (Nd Lf ch Lf))) s'.
Proof.
  intros H Ne Hn. pose proof (sh_nd _ _ H) as N.
  destruct (plug_cok s _ _ (sh_st _ _ H) (sh_bal _ _ H) (sh_root _ _ H)) as (Hs & _ & _). cbn [st addr ht] in Hs.
  destruct Hs as (X0 & Xp & Xl & Xr & Xlh & Xrh & _ & (C0 & Cp & Cl & Cr & Clh & Crh & _)).
  assert (cx : ch <> x). { rewrite ino_plug in N. cbn [ino app] in N. apply nd_r in N. apply NoDup_cons_iff in N. destruct N as (Q & _). intros E. apply Q. rewrite E. cbn. auto. }
  assert (Okc : node_ok key s ch). { destruct Ne as (Nf & _). rewrite Forall_forall in Nf. destruct (Nf ch) as [E|]; [rewrite ino_plug; cbn [ino app]; rewrite in_app_iff; cbn; auto|contradiction|assumption]. }
  unfold merge_half. rewrite Xl, Xr, Z.eqb_refl. destruct (Z.eqb_spec ch 0); [contradiction|]. cbn [negb andb orb]. cbv zeta iota. rewrite Clh, Crh, Z.eqb_refl. cbn [negb andb]. cbv iota.
  change WG_TNODE_ARRAY_SIZE with 8. set (i := hn s x). set (nc := hn s ch). destruct (Z.leb_spec (i + nc) 8) as [L|L].
  - prj. set (ar := copy_up (Z.to_nat nc) 0 i (harr s ch) (harr s x)).
    destruct Okc as (Nn & Ec1 & Ec2). fold nc in Nn, Ec2.
    assert (Hi : 0 <= i) by (destruct Ne as (_ & [E|(E & _)] & _); unfold i; lia).
    assert (Ar : (forall j, 0 <= j < i -> ar j = harr s x j) /\ (forall j, 0 <= j < nc -> ar (j + i) = harr s ch j)).
    { unfold ar. split; intros j Hj; rewrite copy_up_eq, Z2Nat.id by lia.
      - destruct (Z.leb_spec (0 + i) j); [lia|]. reflexivity.
      - destruct (Z.leb_spec (0 + i) (j + i)); [|lia]. destruct (Z.ltb_spec (j + i) (0 + i + nc)); [|lia]. cbn [andb]. f_equal. lia. }
    destruct Ar as (Ar1 & Ar2). clearbody ar.
    set (s0 := set_max (set_right (set_rh (set_arr (set_n s x (i + nc)) x ar) x 0) x 0) x (hmax s ch)).
    set (s1 := if i =? 0 then set_min s0 x (hmin s ch) else s0).
    apply (merge_tail s s1 c (Nd Lf x (Nd Lf ch Lf)) x ch (lctx c ++ [x]) (rctx c)); auto.
    + discriminate.
    + rewrite ino_plug. cbn [ino app]. apply mid2.
    + now rewrite <- app_assoc.
    + unfold s1, s0. destruct (i =? 0); repeat split.
    + unfold s1, s0. destruct (i =? 0); reflexivity.
    + intros y Hy. unfold sameS, s1, s0. destruct (i =? 0); prj; ux; repeat split.
    + intros y Hy. unfold sameV, s1, s0. apply Z.eqb_neq in Hy as Hy'. destruct (i =? 0); prj; rewrite ?Hy'; ux; repeat split.
    + unfold s1, s0. destruct (i =? 0); reflexivity.
    + unfold s1, s0. destruct (i =? 0); prj; exact Xl.
    + unfold s1, s0. destruct (i =? 0); prj; ux; reflexivity.
    + unfold s1, s0. destruct (i =? 0); prj; exact Xlh.
    + unfold s1, s0. destruct (i =? 0); prj; ux; reflexivity.
    + cbn [ino app flat_map]. rewrite app_nil_r. unfold rows at 1. assert (hn s1 x = i + nc /\ harr s1 x = ar) as (-> & ->).
      { unfold s1, s0. destruct (i =? 0); prj; rewrite ?Z.eqb_refl; ux; split; reflexivity. }
      rewrite rowsf_app by lia. f_equal; apply rowsf_ext; assumption.
    + unfold node_ok. assert (hn s1 x = i + nc /\ harr s1 x = ar /\ hmax s1 x = hmax s ch /\ hmin s1 x = if i =? 0 then hmin s ch else hmin s x) as (-> & -> & -> & ->).
      { unfold s1, s0. destruct (i =? 0); prj; rewrite ?Z.eqb_refl; ux; repeat split. }
      split; [lia|]. split.
      * destruct (Z.eqb_spec i 0) as [E|E].
        -- replace 0 with (0 + i) by lia. rewrite Ar2 by lia. exact Ec1.
        -- destruct Ne as (_ & [E'|(_ & E' & _)] & _); [unfold i in E; contradiction|]. rewrite Ar1 by lia. exact E'.
      * replace (i + nc - 1) with (nc - 1 + i) by lia. rewrite Ar2 by lia. exact Ec2.
  - exists s, 0, s. split; [reflexivity|]. rewrite Z.eqb_refl. split; [reflexivity|]. eexists. split; [|split; [apply incl_refl|reflexivity]].
    split; [exact H|]. left. apply (near_VL s _ x Ne). destruct Okc as (Q & _). unfold i, nc in *. lia.
Qed.

Lemma ht0 t : ht t = 0 -> t = Lf.
Proof. destruct t as [|l a r]; [reflexivity|]. cbn [ht]. pose proof (ht_nonneg l). pose proof (ht_nonneg r). lia. Qed.
Lemma finish_ok s T x junk n : SH s T -> near s (ino T) x -> In x (ino T) -> (hn s x = 0 -> hleft s x = 0 \/ hright s x = 0) ->
  (2 * length (ino T) + 1 < n)%nat ->
  exists s3 p s4 p4 s', drop_leaf s x junk = (s3, p) /\ merge_half s3 x p junk = Some (s4, p4) /\
    (if p4 =? 0 then Some s4 else remove_fix key n s4 p4) = Some s' /\ finished s T s'.
Proof.
  intros H Ne Hx Hc Hn. apply in_split in Hx. destruct Hx as (l1 & l2 & EL).
  destruct (at_node _ _ _ _ _ H EL) as (c & l & r & -> & _ & _ & Hs & B & _). cbn [st bal] in Hs, B.
  destruct Hs as (X0 & Xp & Xl & Xr & Xlh & Xrh & Sl & Sr). destruct B as (Bl & Br & Bd).
  assert (Ad : forall p t, st s p t -> t <> Lf -> addr t <> 0) by (intros p t S1 T1 E; apply T1; now apply (st_lf key s p)).
  destruct l as [|ll la lr], r as [|rl ra rr].
  - destruct (Z.eq_dec (hn s x) 0) as [E|E]; [now apply finish_leaf|].
    exists s, 0, s, 0, s. split; [now apply drop_none; left|]. split; [now apply merge_none|]. rewrite Z.eqb_refl. split; [reflexivity|].
    eexists. split; [|split; [apply incl_refl|reflexivity]]. split; [exact H|]. left. now apply (near_VL s _ x).
  - cbn [ht] in Bd. pose proof (ht_nonneg rl). pose proof (ht_nonneg rr). assert (rl = Lf) as -> by (apply ht0; lia). assert (rr = Lf) as -> by (apply ht0; lia).
    cbn [addr] in *. destruct (finish_half_right s c ra x junk n H Ne Hn) as (s4 & p4 & s' & E1 & E2 & E3).
    exists s, 0, s4, p4, s'. split; [|auto]. apply drop_none. right. right. rewrite Xr. cbn [st] in Sr. tauto.
  - cbn [ht] in Bd. pose proof (ht_nonneg ll). pose proof (ht_nonneg lr). assert (ll = Lf) as -> by (apply ht0; lia). assert (lr = Lf) as -> by (apply ht0; lia).
    cbn [addr] in *. destruct (finish_half_left s c la x junk n H Ne Hn) as (s4 & p4 & s' & E1 & E2 & E3).
    exists s, 0, s4, p4, s'. split; [|auto]. apply drop_none. right. left. rewrite Xl. cbn [st] in Sl. tauto.
  - assert (L0 : hleft s x <> 0) by (rewrite Xl; apply (Ad x); [exact Sl|discriminate]).
    assert (R0 : hright s x <> 0) by (rewrite Xr; apply (Ad x); [exact Sr|discriminate]).
    assert (E : hn s x <> 0) by (intros E; destruct (Hc E); contradiction).
    exists s, 0, s, 0, s. split; [apply drop_none; auto|]. split.
    { unfold merge_half. destruct (Z.eqb_spec (hleft s x) 0), (Z.eqb_spec (hright s x) 0); try contradiction. reflexivity. }
    rewrite Z.eqb_refl. split; [reflexivity|]. eexists. split; [|split; [apply incl_refl|reflexivity]]. split; [exact H|]. left. now apply (near_VL s _ x).
Qed.

(** ** Removal *)
Definition removed (s : tt) (T : tree) (rec : Z) (s' : tt) (T' : tree) : Prop :=
  TI s' T' /\ incl (ino T') (ino T) /\ exists pre post, cont s T = pre ++ rec :: post /\ cont s' T' = pre ++ post.

Lemma take_finish s T rec a i junk n : SH s T -> VL s (ino T) -> In a (ino T) -> 0 <= i < hn s a -> harr s a i = rec -> (2 * length (ino T) + 1 < n)%nat ->
  exists s2 x s3 p s4 p4 s', borrow key (take_slot key s a i) a = (s2, x) /\ drop_leaf s2 x junk = (s3, p) /\ merge_half s3 x p junk = Some (s4, p4) /\
    (if p4 =? 0 then Some s4 else remove_fix key n s4 p4) = Some s' /\ exists T', removed s T rec s' T'.
Proof.
  intros H V Ha Hi Er Hn. pose proof V as (V1 & V2 & V3). assert (Ok : node_ok key s a) by (rewrite Forall_forall in V1; auto).
  destruct (take_slot_V s a i Ok Hi) as (A1 & A2 & A3 & r1 & r2 & R1 & R2). rewrite Er in R1.
  set (s1 := take_slot key s a i) in *. clearbody s1. assert (H1 := SH_same s s1 T H A1).
  apply in_split in Ha. destruct Ha as (l1 & l2 & EL).
  assert (Na : ~ In a (l1 ++ l2)) by (pose proof (sh_nd _ _ H) as N; rewrite EL in N; now apply NoDup_remove_2 in N).
  assert (SV1 : forall y, In y l1 -> sameV s s1 y) by (intros y Hy; apply A2; intros ->; apply Na; rewrite in_app_iff; auto).
  assert (SV2 : forall y, In y l2 -> sameV s s1 y) by (intros y Hy; apply A2; intros ->; apply Na; rewrite in_app_iff; auto).
  assert (C0 : cont s T = (flat_map (rows s) l1 ++ r1) ++ rec :: r2 ++ flat_map (rows s) l2).
  { unfold cont. rewrite EL, flat_map_app. cbn [flat_map]. rewrite R1. repeat (rewrite <- app_assoc; cbn [app]). reflexivity. }
  assert (C1 : cont s1 T = (flat_map (rows s) l1 ++ r1) ++ r2 ++ flat_map (rows s) l2).
  { unfold cont. rewrite EL, flat_map_app. cbn [flat_map]. rewrite R2, (F_ext s s1 l1), (F_ext s s1 l2) by assumption. repeat (rewrite <- app_assoc; cbn [app]). reflexivity. }
  assert (Ne : near s1 (ino T) a).
  { split; [|split; [exact A3|]].
    - rewrite Forall_forall in *. intros y Hy. destruct (Z.eq_dec y a) as [->|Hya]; [now left|]. right. apply (sameV_ok key s); auto.
    - change (flat_map (rows s1) (ino T)) with (cont s1 T). rewrite C1. change (flat_map (rows s) (ino T)) with (cont s T) in V2, V3. rewrite C0 in V2, V3. split; [now apply ss_remove in V2|].
      rewrite !Forall_app in *. destruct V3 as (Q1 & Q2). inversion Q2; subst. rewrite Forall_app in *. tauto. }
  assert (Fin : forall s2 x, SH s2 T -> near s2 (ino T) x -> In x (ino T) -> (hn s2 x = 0 -> hleft s2 x = 0 \/ hright s2 x = 0) -> cont s2 T = cont s1 T ->
    exists s3 p s4 p4 s', drop_leaf s2 x junk = (s3, p) /\ merge_half s3 x p junk = Some (s4, p4) /\
    (if p4 =? 0 then Some s4 else remove_fix key n s4 p4) = Some s' /\ exists T', removed s T rec s' T').
  { intros s2 x Q1 Q2 Q3 Q4 Q5. destruct (finish_ok s2 T x junk n Q1 Q2 Q3 Q4 Hn) as (s3 & p & s4 & p4 & s' & E1 & E2 & E3 & T' & HT & Hinc & EC).
    exists s3, p, s4, p4, s'. split; [exact E1|]. split; [exact E2|]. split; [exact E3|]. exists T'. split; [exact HT|]. split; [exact Hinc|].
    eexists _, _. split; [exact C0|]. rewrite EC, Q5. exact C1. }
  destruct ((hn s1 a <? 5) && negb (hleft s1 a =? 0) && negb (hright s1 a =? 0)) eqn:Cd.
  - destruct (at_node _ _ _ _ _ H1 EL) as (c & l & r & ET & El1 & El2 & Hst & _). cbn [st] in Hst. destruct Hst as (_ & _ & Bl & _ & _ & _ & Sl & _).
    assert (Ln : hleft s1 a <> 0) by (apply andb_true_iff in Cd; destruct Cd as (Cd & _); apply andb_true_iff in Cd; destruct Cd as (_ & Cd); now destruct (Z.eqb_spec (hleft s1 a) 0)).
    destruct (snoc_cases (ino l)) as [Ei|(li & g & Ei)].
    { destruct l as [|ll x lr]; [rewrite Bl in Ln; now elim Ln|]. cbn [ino] in Ei. now destruct (ino ll). }
    assert (Eg : l1 = (lctx c ++ li) ++ [g]) by (rewrite El1, Ei; now rewrite app_assoc). set (l1' := lctx c ++ li) in *. clearbody l1'.
    assert (ELg : ino T = l1' ++ g :: a :: l2) by (rewrite EL, Eg, <- app_assoc; reflexivity).
    assert (Cg : hpred s1 a = g). { pose proof (sh_chain _ _ H1) as C. rewrite EL in C. destruct (chain_at _ _ _ _ C) as (-> & _). rewrite Eg, last_app. reflexivity. }
    assert (ga : g <> a). { intros ->. apply Na. rewrite Eg, !in_app_iff. cbn. auto. }
    assert (Okg : node_ok key s1 g). { destruct Ne as (Nf & _). rewrite Forall_forall in Nf. destruct (Nf g) as [E|]; [rewrite ELg, in_app_iff; cbn; auto|contradiction|assumption]. }
    pose proof (last_right s1 a l li g Sl Ei) as Rg.
    destruct (borrow_V s1 a) as (s2 & E2 & B1 & B2 & B3 & B4 & B5); rewrite ?Cg; auto. rewrite Cg in *.
    exists s2, g. assert (Gn : ~ In g (l1' ++ l2)).
    { pose proof (sh_nd _ _ H) as N. rewrite ELg in N. apply NoDup_remove_2 in N. intros Hi'. apply N. rewrite in_app_iff in *. cbn [In]. tauto. }
    assert (SVa : forall y, In y (l1' ++ l2) -> sameV s1 s2 y).
    { intros y Hy. apply B2; [intros ->; apply Na; rewrite Eg; rewrite !in_app_iff in *; tauto|intros ->; contradiction]. }
    assert (C2 : cont s2 T = cont s1 T).
    { unfold cont. rewrite ELg, !flat_map_app. cbn [flat_map]. rewrite (F_ext s1 s2 l1'), (F_ext s1 s2 l2) by (intros; apply SVa; rewrite in_app_iff; auto).
      f_equal. rewrite !app_assoc. f_equal. exact B5. }
    destruct (Fin s2 g) as (s3 & p & s4 & p4 & s' & F1 & F2 & F3 & F4).
    + now apply (SH_same s1).
    + destruct Ne as (Nf & _ & Ns & Nd'). split; [|split; [exact B4|fold (cont s2 T); rewrite C2; split; assumption]].
      rewrite Forall_forall in *. intros y Hy. destruct (Z.eq_dec y g) as [->|Hyg]; [now left|]. right.
      destruct (Z.eq_dec y a) as [->|Hya]; [exact B3|]. apply (sameV_ok key s1); [now apply B2|]. destruct (Nf y Hy); [contradiction|assumption].
    + rewrite ELg, in_app_iff. cbn. auto.
    + intros _. right. destruct B1 as (_ & _ & -> & _). exact Rg.
    + exact C2.
    + exists s3, p, s4, p4, s'. auto.
  - assert (Eb : borrow key s1 a = (s1, a)) by (unfold borrow; now rewrite Cd). exists s1, a.
    destruct (Fin s1 a) as (s3 & p & s4 & p4 & s' & F1 & F2 & F3 & F4); auto.
    + rewrite EL, in_app_iff. cbn. auto.
    + intros E0. rewrite E0 in Cd. change (0 <? 5) with true in Cd. destruct (Z.eqb_spec (hleft s1 a) 0); [now left|]. destruct (Z.eqb_spec (hright s1 a) 0); [now right|]. discriminate Cd.
    + exists s3, p, s4, p4, s'. auto.
Qed.

Theorem remove_ok s T rec junk fuel : TI s T -> dom (key rec) -> (2 * length (ino T) + 1 < fuel)%nat ->
  exists s' rc, ttree_remove_row cmp key fuel s rec junk = Some (s', rc) /\
  ((In rec (cont s T) /\ rc = 0 /\ exists T', removed s T rec s' T') \/ (~ In rec (cont s T) /\ (rc = -2 \/ rc = -3) /\ s' = s)).
Proof.
  intros (H & HV) D Hf. unfold ttree_remove_row.
  assert (Tz : addr T <> 0). { intros E. apply (sh_nz _ _ H). apply (st_lf key s 0); [apply (sh_st _ _ H)|exact E]. }
  rewrite (sh_root _ _ H). destruct (Z.eqb_spec (addr T) 0); [contradiction|].
  destruct HV as [V|Nr].
  - destruct (leftmost_ok cmp dom KO key s (key rec) (ino T) V D T 0 fuel [] [] 0 (sh_st _ _ H) (sh_nz _ _ H)) as (b & res & -> & l1 & l2 & EL & R); auto.
    { now rewrite app_nil_r. }
    { pose proof (ht_len T). lia. }
    assert (V' := V). rewrite EL in V'. destruct (VL_app cmp dom key _ _ _ V') as (Va & Vb).
    assert (Lo : forall L, VL s L -> Forall (below cmp s (key rec)) L -> ~ In rec (flat_map (rows s) L)).
    { intros L HL F Hi. pose proof (below_rows cmp dom KO key s (key rec) L HL D F rec Hi) as Q. unfold TtreeOrd.lt in Q. rewrite (ko_refl _ _ KO _ D) in Q. discriminate. }
    assert (Up : forall L, VL s L -> Forall (above cmp s (key rec)) L -> ~ In rec (flat_map (rows s) L)).
    { intros L HL F Hi. pose proof (above_rows cmp dom KO key s (key rec) L HL D F rec Hi) as Q. unfold TtreeOrd.lt in Q. rewrite (ko_refl _ _ KO _ D) in Q. discriminate. }
    destruct res.
    + destruct R as (R1 & R2 & R3).
      destruct (find_row_spec s rec (ino T) V (sh_chain _ _ H) (SH_zero _ _ H) D l2 fuel l1 b EL) as (a & i & -> & Q).
      { rewrite EL, app_length in Hf. cbn [length] in Hf. lia. }
      destruct Q as [(-> & Q)|(Q1 & Q2 & Q3)].
      * change (-1 =? -1) with true. cbv iota. exists s, (-3). split; [reflexivity|]. right. split; [|auto].
        unfold cont. rewrite EL, flat_map_app, in_app_iff. intros [Hi|Hi]; [exact (Lo l1 Va R3 Hi)|contradiction].
      * destruct (Z.eqb_spec i (-1)); [lia|].
        destruct (take_finish s T rec a i junk fuel H V Q3 Q1 Q2 Hf) as (s2 & x & s3 & p & s4 & p4 & s' & E1 & E2 & E3 & E4 & E5).
        rewrite E1, E2, E3. exists s', 0. split; [destruct (p4 =? 0); [now injection E4 as ->|now rewrite E4]|]. left. split; [|auto].
        unfold cont. apply in_flat_map. exists a. split; [exact Q3|]. rewrite <- Q2. apply rowsf_in. exists i. auto.
    + destruct R as (R1 & R2 & R3). exists s, (-2). split; [reflexivity|]. right. split; [|auto].
      unfold cont. rewrite EL, flat_map_app, in_app_iff. intros [Hi|Hi]; [exact (Lo l1 Va R1 Hi)|exact (Up (b :: l2) Vb R2 Hi)].
    + destruct R as (R1 & R2 & R3). exists s, (-2). split; [reflexivity|]. right. split; [|auto].
      assert (EL' : ino T = (l1 ++ [b]) ++ l2) by (rewrite EL, <- app_assoc; reflexivity). assert (V'' := V). rewrite EL' in V''. destruct (VL_app cmp dom key _ _ _ V'') as (Va' & Vb').
      unfold cont. rewrite EL', flat_map_app, in_app_iff. intros [Hi|Hi]; [exact (Lo _ Va' R1 Hi)|exact (Up l2 Vb' R2 Hi)].
  - assert (X : exists bt, wg_search_ttree_leftmost cmp fuel s (addr T) (key rec) 0 = Some (addr T, bt) /\ bt <> REALLY_BOUNDING_NODE).
    { destruct Nr as (a & -> & _ & Mi & Ma). pose proof (sh_st _ _ H) as S0. cbn [st addr] in *. destruct S0 as (A0 & A1 & A2 & A3 & _).
      destruct fuel as [|f]; [lia|]. cbn [wg_search_ttree_leftmost]. rewrite Mi, Ma, A2, A3. cbn [negb andb Z.eqb].
      pose proof (ko_ill _ _ KO _ D) as Ill. destruct (ko_tri _ _ KO (key rec) WG_ILLEGAL) as [E|[E|E]]; rewrite ?E in *.
      - exists DEAD_END_LEFT_NOT_BOUNDING. split; [reflexivity|discriminate].
      - now elim Ill.
      - exists DEAD_END_RIGHT_NOT_BOUNDING. split; [reflexivity|discriminate]. }
    destruct X as (bt & -> & Hbt). assert (Ec : ~ In rec (cont s T)).
    { destruct Nr as (a & -> & N0 & _). unfold cont. cbn [ino app flat_map]. rewrite app_nil_r. unfold rows. rewrite N0. easy. }
    destruct bt; [now elim Hbt| |]; exists s, (-2); (split; [reflexivity|]); right; auto.
Qed.
End Del.
