(** Rows of a node and the array loops of the T-tree in closed form. *)
From Coq Require Import ZArith List Bool Lia Permutation.
From Verif Require Import Base EncodingModel CompareModel TtreeModel TtreeShape.
Import ListNotations.
Open Scope Z_scope.
#[local] Ltac Zify.zify_post_hook ::= idtac.

Lemma copy_up_eq k : forall j d src dst x, copy_up k j d src dst x =
  if (j + d <=? x) && (x <? j + d + Z.of_nat k) then src (x - d) else dst x.
Proof.
  induction k as [|k IH]; intros j d src dst x; cbn [copy_up].
  - destruct (Z.leb_spec (j + d) x), (Z.ltb_spec x (j + d + Z.of_nat 0)); cbn [andb]; try reflexivity; lia.
  - rewrite IH. unfold upd.
    destruct (Z.leb_spec (j + 1 + d) x), (Z.ltb_spec x (j + 1 + d + Z.of_nat k)), (Z.leb_spec (j + d) x),
      (Z.ltb_spec x (j + d + Z.of_nat (S k))), (Z.eqb_spec x (j + d)); cbn [andb]; try reflexivity; try lia; f_equal; lia.
Qed.
Lemma push_right_eq k : forall j a x, push_right k j a x =
  if (j - Z.of_nat k <? x) && (x <=? j) then a (x - 1) else a x.
Proof.
  induction k as [|k IH]; intros j a x; cbn [push_right].
  - destruct (Z.ltb_spec (j - Z.of_nat 0) x), (Z.leb_spec x j); cbn [andb]; try reflexivity; lia.
  - rewrite IH. unfold upd.
    destruct (Z.ltb_spec (j - 1 - Z.of_nat k) x), (Z.leb_spec x (j - 1)), (Z.ltb_spec (j - Z.of_nat (S k)) x),
      (Z.leb_spec x j), (Z.eqb_spec x j), (Z.eqb_spec (x - 1) j); cbn [andb]; try reflexivity; try lia; f_equal; lia.
Qed.
Lemma push_left_eq k : forall j a x, push_left k j a x =
  if (j <=? x) && (x <? j + Z.of_nat k) then a (x + 1) else a x.
Proof.
  induction k as [|k IH]; intros j a x; cbn [push_left].
  - destruct (Z.leb_spec j x), (Z.ltb_spec x (j + Z.of_nat 0)); cbn [andb]; try reflexivity; lia.
  - rewrite IH. unfold upd.
    destruct (Z.leb_spec (j + 1) x), (Z.ltb_spec x (j + 1 + Z.of_nat k)), (Z.leb_spec j x),
      (Z.ltb_spec x (j + Z.of_nat (S k))), (Z.eqb_spec x j), (Z.eqb_spec (x + 1) j); cbn [andb]; try reflexivity; try lia; f_equal; lia.
Qed.
Lemma move_up_eq k : forall j d a x, 0 <= d -> move_up k j d a x =
  if (j - Z.of_nat k + d <? x) && (x <=? j + d) then a (x - d) else a x.
Proof.
  induction k as [|k IH]; intros j d a x D; cbn [move_up].
  - destruct (Z.ltb_spec (j - Z.of_nat 0 + d) x), (Z.leb_spec x (j + d)); cbn [andb]; try reflexivity; lia.
  - rewrite IH by exact D. unfold upd.
    destruct (Z.ltb_spec (j - 1 - Z.of_nat k + d) x), (Z.leb_spec x (j - 1 + d)), (Z.ltb_spec (j - Z.of_nat (S k) + d) x),
      (Z.leb_spec x (j + d)), (Z.eqb_spec x (j + d)), (Z.eqb_spec (x - d) (j + d)); cbn [andb]; try reflexivity; try lia; f_equal; lia.
Qed.

Definition rowsf (f : Z -> Z) (n : Z) : list Z := map (fun i => f (Z.of_nat i)) (seq 0 (Z.to_nat n)).
Lemma rowsf_ext f g n : (forall i, 0 <= i < n -> f i = g i) -> rowsf f n = rowsf g n.
Proof. intros H. apply map_ext_in. intros i Hi. apply in_seq in Hi. apply H. lia. Qed.
Lemma rowsf_app f m n : 0 <= m -> 0 <= n -> rowsf f (m + n) = rowsf f m ++ rowsf (fun i => f (i + m)) n.
Proof.
  intros Hm Hn. unfold rowsf. rewrite Z2Nat.inj_add by lia. rewrite seq_app, map_app. f_equal.
  cbn [Nat.add]. rewrite <- (Nat.add_0_r (Z.to_nat m)) at 1. generalize 0%nat.
  induction (Z.to_nat n) as [|k IH]; intros q; [reflexivity|]. cbn [seq map]. f_equal.
  - f_equal. lia.
  - rewrite <- (IH (S q)). f_equal. f_equal. lia.
Qed.
Lemma rowsf_0 f n : n <= 0 -> rowsf f n = [].
Proof. intros H. unfold rowsf. replace (Z.to_nat n) with 0%nat by lia. reflexivity. Qed.
Lemma rowsf_1 f : rowsf f 1 = [f 0].
Proof. reflexivity. Qed.
Lemma rowsf_cons f n : 0 <= n -> rowsf f (1 + n) = f 0 :: rowsf (fun i => f (i + 1)) n.
Proof. intros H. now rewrite rowsf_app by lia. Qed.
Lemma rowsf_snoc f n : 0 <= n -> rowsf f (n + 1) = rowsf f n ++ [f n].
Proof. intros H. rewrite rowsf_app by lia. now rewrite rowsf_1. Qed.
Lemma rowsf_length f n : length (rowsf f n) = Z.to_nat n.
Proof. unfold rowsf. now rewrite map_length, seq_length. Qed.
Lemma rowsf_in f n x : In x (rowsf f n) <-> exists i, 0 <= i < n /\ f i = x.
Proof.
  unfold rowsf. rewrite in_map_iff. split.
  - intros (i & E & Hi). apply in_seq in Hi. exists (Z.of_nat i). split; [lia|exact E].
  - intros (i & Hi & E). exists (Z.to_nat i). rewrite Z2Nat.id by lia. split; [exact E|]. apply in_seq. lia.
Qed.
Lemma rowsf_split f n i : 0 <= i < n -> rowsf f n = rowsf f i ++ f i :: rowsf (fun j => f (j + i + 1)) (n - i - 1).
Proof.
  intros H. replace n with (i + (1 + (n - i - 1))) at 1 by lia. rewrite rowsf_app by lia. f_equal.
  rewrite rowsf_cons by lia. f_equal. apply rowsf_ext. intros j Hj. f_equal. lia.
Qed.

Definition rows (s : tt) (a : Z) : list Z := rowsf (harr s a) (hn s a).
Definition sameV (s s' : tt) (x : Z) : Prop :=
  hn s' x = hn s x /\ harr s' x = harr s x /\ hmin s' x = hmin s x /\ hmax s' x = hmax s x.
Lemma sameV_rows s s' x : sameV s s' x -> rows s' x = rows s x.
Proof. intros (E1 & E2 & _). unfold rows. now rewrite E1, E2. Qed.

Section K.
Variable key : Z -> Z.
Definition node_ok (s : tt) (a : Z) : Prop :=
  1 <= hn s a <= 8 /\ hmin s a = key (harr s a 0) /\ hmax s a = key (harr s a (hn s a - 1)).
Lemma sameV_ok s s' x : sameV s s' x -> node_ok s x -> node_ok s' x.
Proof. intros (E1 & E2 & E3 & E4). unfold node_ok. now rewrite E1, E2, E3, E4. Qed.

Lemma special_lr_V s b e : b <> e -> node_ok s b -> node_ok s e ->
  let s' := special_lr key s b e in
  (forall x, x <> b -> x <> e -> sameV s s' x) /\
  (rows s' b ++ rows s' e = rows s b ++ rows s e /\ node_ok s' b /\ node_ok s' e) /\
  (hleft s e <> 0 \/ hright s e <> 0 -> s' = s).
Proof.
  intros Hne Ob Oe. unfold special_lr.
  destruct (Z.eqb_spec (hn s e) 1) as [N1|N1]; cbn [andb].
  2:{ repeat split; auto; try apply Ob; apply Oe. }
  destruct (Z.eqb_spec (hright s e) 0) as [N2|N2]; cbn [andb].
  2:{ repeat split; auto; try apply Ob; apply Oe. }
  destruct (Z.eqb_spec (hleft s e) 0) as [N3|N3]; cbn [andb].
  2:{ repeat split; auto; try apply Ob; apply Oe. }
  destruct (Z.eqb_spec (hn s b) WG_TNODE_ARRAY_SIZE) as [N4|N4].
  2:{ repeat split; auto; try apply Ob; apply Oe. }
  unfold WG_TNODE_ARRAY_SIZE in *.
  assert (X1 : (b =? e) = false) by now apply Z.eqb_neq.
  assert (X2 : (e =? b) = false) by (apply Z.eqb_neq; congruence).
  prj. split; [|split; [split|]].
  - intros x Hb He. unfold sameV. prj. rewrite !upd_other by assumption.
    apply Z.eqb_neq in He. rewrite He. repeat split.
  - unfold rows. prj. rewrite X1, Z.eqb_refl. rewrite upd_same, upd_other, upd_same by congruence.
    rewrite N1, N4. reflexivity.
  - unfold node_ok. prj. rewrite ?X1, ?X2, ?Z.eqb_refl. rewrite !upd_same.
    rewrite !(upd_other _ b _ e), !(upd_other _ e _ b), !upd_same by congruence.
    destruct Ob as (_ & Ob1 & _). destruct Oe as (_ & _ & Oe2). rewrite N1 in Oe2. rewrite N4. repeat split; try lia; auto.
  - intros [X|X]; contradiction.
Qed.
Lemma special_rl_V s b e : b <> e -> node_ok s b -> node_ok s e ->
  let s' := special_rl key s b e in
  (forall x, x <> b -> x <> e -> sameV s s' x) /\
  (rows s' e ++ rows s' b = rows s e ++ rows s b /\ node_ok s' b /\ node_ok s' e) /\
  (hleft s e <> 0 \/ hright s e <> 0 -> s' = s).
Proof.
  intros Hne Ob Oe. unfold special_rl.
  destruct (Z.eqb_spec (hn s e) 1) as [N1|N1]; cbn [andb].
  2:{ repeat split; auto; try apply Ob; apply Oe. }
  destruct (Z.eqb_spec (hright s e) 0) as [N2|N2]; cbn [andb].
  2:{ repeat split; auto; try apply Ob; apply Oe. }
  destruct (Z.eqb_spec (hleft s e) 0) as [N3|N3]; cbn [andb].
  2:{ repeat split; auto; try apply Ob; apply Oe. }
  destruct (Z.eqb_spec (hn s b) WG_TNODE_ARRAY_SIZE) as [N4|N4].
  2:{ repeat split; auto; try apply Ob; apply Oe. }
  unfold WG_TNODE_ARRAY_SIZE in *.
  assert (X1 : (b =? e) = false) by now apply Z.eqb_neq.
  assert (X2 : (e =? b) = false) by (apply Z.eqb_neq; congruence).
  prj. split; [|split; [split|]].
  - intros x Hb He. unfold sameV. prj. rewrite !upd_other by assumption.
    apply Z.eqb_neq in He, Hb. rewrite He, Hb. repeat split.
  - unfold rows. prj. rewrite ?X1, ?X2, ?Z.eqb_refl. rewrite !upd_same.
    rewrite !(upd_other _ b _ e), !(upd_other _ e _ b), ?upd_same by congruence.
    rewrite N1, N4. reflexivity.
  - unfold node_ok. prj. rewrite ?X1, ?X2, ?Z.eqb_refl. rewrite !upd_same.
    rewrite !(upd_other _ b _ e), !(upd_other _ e _ b), ?upd_same by congruence.
    destruct Ob as (_ & _ & Ob1). destruct Oe as (_ & Oe1 & _). rewrite N4 in *. change (8 - 1) with 7 in *. change (1 - 1) with 0. rewrite ?upd_same. repeat split; try lia; auto.
  - intros [X|X]; contradiction.
Qed.
End K.
