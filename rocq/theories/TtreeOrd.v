(** Key order, node chain and searches of the T-tree. *)
From Coq Require Import ZArith List Bool Lia Permutation Sorted.
From Verif Require Import Base EncodingModel CompareModel TtreeModel TtreeShape TtreeArr TtreeRotate TtreeFix.
Import ListNotations.
Open Scope Z_scope.
#[local] Ltac Zify.zify_post_hook ::= idtac.

(** The comparison is a total preorder on the keys that occur, and no such key
    compares equal to the mark of an empty root. *)
Record keyorder (cmp : Z -> Z -> Z) (dom : Z -> Prop) : Prop := {
  ko_refl : forall a, dom a -> cmp a a = WG_EQUAL;
  ko_flip : forall a b, dom a -> dom b -> cmp a b = WG_LESSTHAN <-> cmp b a = WG_GREATER;
  ko_eq : forall a b, dom a -> dom b -> cmp a b = WG_EQUAL <-> cmp b a = WG_EQUAL;
  ko_tri : forall a b, cmp a b = WG_LESSTHAN \/ cmp a b = WG_EQUAL \/ cmp a b = WG_GREATER;
  ko_trans : forall a b c, dom a -> dom b -> dom c -> cmp a b <> WG_GREATER -> cmp b c <> WG_GREATER ->
     cmp a c <> WG_GREATER /\ (cmp a b = WG_LESSTHAN \/ cmp b c = WG_LESSTHAN -> cmp a c = WG_LESSTHAN);
  ko_ill : forall a, dom a -> cmp a WG_ILLEGAL <> WG_EQUAL }.

(** ** Sorted lists *)
Section Sort.
Context {A : Type} (R : A -> A -> Prop).
Lemma ss_app (x y : list A) : StronglySorted R (x ++ y) <->
  StronglySorted R x /\ StronglySorted R y /\ (forall a b, In a x -> In b y -> R a b).
Proof.
  induction x as [|a x IH]; cbn [app].
  - split; [intros H; split; [constructor|split; [exact H|easy]]|tauto].
  - split.
    + intros H. inversion H as [|? ? H1 H2]; subst. apply IH in H1. destruct H1 as (X1 & X2 & X3). rewrite Forall_app in H2.
      destruct H2 as (F1 & F2). rewrite Forall_forall in F2. split; [now constructor|]. split; [exact X2|].
      intros u v [<-|Hu] Hv; auto.
    + intros (H & Hy & Hc). inversion H as [|? ? H1 H2]; subst. constructor.
      * apply IH. split; [exact H1|]. split; [exact Hy|]. intros u v Hu Hv. apply Hc; [now right|exact Hv].
      * rewrite Forall_app. split; [exact H2|]. rewrite Forall_forall. intros v Hv. apply Hc; [now left|exact Hv].
Qed.
Lemma ss_insert x y k : StronglySorted R (x ++ y) -> (forall a, In a x -> R a k) -> (forall b, In b y -> R k b) ->
  StronglySorted R (x ++ k :: y).
Proof.
  intros H Hx Hy. apply ss_app in H. destruct H as (H1 & H2 & H3). apply ss_app. split; [exact H1|]. split.
  - constructor; [exact H2|]. rewrite Forall_forall. exact Hy.
  - intros a b Ha [<-|Hb]; auto.
Qed.
Lemma ss_remove x y k : StronglySorted R (x ++ k :: y) -> StronglySorted R (x ++ y).
Proof.
  intros H. apply ss_app in H. destruct H as (H1 & H2 & H3). inversion H2; subst. apply ss_app. split; [exact H1|].
  split; [assumption|]. intros a b Ha Hb. apply H3; [exact Ha|now right].
Qed.
End Sort.

(** ** Chain of nodes *)
Fixpoint chn (s : tt) (p : Z) (L : list Z) (q : Z) : Prop :=
  match L with [] => True | a :: L' => hpred s a = p /\ hsucc s a = hd q L' /\ chn s a L' q end.
Definition chain (s : tt) (L : list Z) : Prop := tminn s = hd 0 L /\ tmaxn s = last L 0 /\ chn s 0 L 0.
Lemma hd_app (A B : list Z) q : hd q (A ++ B) = hd (hd q B) A.
Proof. now destruct A. Qed.
Lemma last_cons (a : Z) L p : last (a :: L) p = last L a.
Proof. revert a p. induction L as [|b L IH]; intros a p; [reflexivity|]. change (last (a :: b :: L) p) with (last (b :: L) p). rewrite IH. symmetry. apply IH. Qed.
Lemma last_app (A B : list Z) p : last (A ++ B) p = last B (last A p).
Proof. revert p. induction A as [|a A IH]; intros p; [reflexivity|]. cbn [app]. rewrite !last_cons. apply IH. Qed.
Lemma last_in (L : list Z) p : L <> [] -> In (last L p) L.
Proof.
  revert p. induction L as [|a L IH]; intros p H; [now elim H|]. rewrite last_cons. destruct L as [|b L]; [now left|]. right. apply IH. discriminate.
Qed.
Lemma chn_app s p A B q : chn s p (A ++ B) q <-> chn s p A (hd q B) /\ chn s (last A p) B q.
Proof.
  revert p. induction A as [|a A IH]; intros p; cbn [app chn]; [tauto|]. rewrite IH, hd_app, last_cons. tauto.
Qed.
Lemma chn_ext s s' p L q : (forall x, In x L -> hsucc s' x = hsucc s x /\ hpred s' x = hpred s x) -> chn s p L q -> chn s' p L q.
Proof.
  revert p. induction L as [|a L IH]; intros p F H; [exact I|]. cbn [chn] in *. destruct (F a ltac:(now left)) as (-> & ->).
  destruct H as (H1 & H2 & H3). repeat split; auto. apply IH; [|exact H3]. intros x Hx. apply F. now right.
Qed.
Lemma chain_ext s s' L : (forall x, In x L -> hsucc s' x = hsucc s x /\ hpred s' x = hpred s x) ->
  tminn s' = tminn s -> tmaxn s' = tmaxn s -> chain s L -> chain s' L.
Proof. intros F E1 E2 (H1 & H2 & H3). unfold chain. rewrite E1, E2. split; [exact H1|]. split; [exact H2|]. now apply (chn_ext s). Qed.
Lemma chain_sameC s s' L : sameC s s' -> chain s L -> chain s' L.
Proof. intros (E1 & E2 & E3 & E4). apply chain_ext; auto. intros. now rewrite E1, E2. Qed.
Lemma chain_at s l1 a l2 : chain s (l1 ++ a :: l2) -> hpred s a = last l1 0 /\ hsucc s a = hd 0 l2.
Proof. intros (_ & _ & H). apply chn_app in H. cbn [chn] in H. tauto. Qed.

Lemma snoc_cases (L : list Z) : L = [] \/ exists A b, L = A ++ [b].
Proof. induction L as [|b A _] using rev_ind; [now left|right; eauto]. Qed.
(** Put a node between [l1] and [l2]. *)
Lemma chain_insert s s' l1 x l2 : chain s (l1 ++ l2) -> NoDup (l1 ++ x :: l2) -> ~ In 0 (l1 ++ x :: l2) ->
  hpred s' x = last l1 0 -> hsucc s' x = hd 0 l2 ->
  (forall y, y <> x -> hsucc s' y = if (y =? last l1 0) && negb (y =? 0) then x else hsucc s y) ->
  (forall y, y <> x -> hpred s' y = if (y =? hd 0 l2) && negb (y =? 0) then x else hpred s y) ->
  tminn s' = (if last l1 0 =? 0 then x else tminn s) -> tmaxn s' = (if hd 0 l2 =? 0 then x else tmaxn s) ->
  chain s' (l1 ++ x :: l2).
Proof.
  intros (H1 & H2 & H3) N Z Ep Es Fs Fp Em Ex.
  assert (Nz : forall y, In y l1 \/ In y l2 -> y <> 0) by (intros y Hy ->; apply Z; rewrite in_app_iff; cbn [In]; tauto).
  assert (Nx : forall y, In y l1 \/ In y l2 -> y <> x).
  { intros y Hy ->. apply NoDup_remove_2 in N. apply N. rewrite in_app_iff. tauto. }
  apply chn_app in H3. destruct H3 as (C1 & C2).
  assert (D : forall y, In y l1 -> In y l2 -> False).
  { intros y A B. apply NoDup_remove_1 in N. exact (nd_dis _ _ N y A B). }
  split; [|split].
  - rewrite Em. destruct l1 as [|b l1']; [reflexivity|]. rewrite last_cons. cbn [app hd] in *.
    destruct (Z.eqb_spec (last l1' b) 0) as [E|_]; [|exact H1].
    exfalso. rewrite <- (last_cons b l1' 0) in E. apply (Nz (last (b :: l1') 0)); [left; apply last_in; discriminate|exact E].
  - rewrite Ex. rewrite last_app, last_cons. destruct l2 as [|b l2']; [reflexivity|]. cbn [hd].
    destruct (Z.eqb_spec b 0) as [E|_]; [exfalso; apply (Nz b); [right; now left|exact E]|].
    rewrite H2, last_app, !last_cons. reflexivity.
  - apply chn_app. cbn [hd chn]. repeat split; auto.
    + destruct (snoc_cases l1) as [->|(A & b & ->)]; [exact I|].
      rewrite last_app in *. cbn [last] in *. apply chn_app in C1. apply chn_app. cbn [chn hd] in *. destruct C1 as (C1 & C1a & C1b & _).
      assert (Nb : NoDup (A ++ [b])) by exact (nd_l _ _ N).
      assert (bne : b <> x) by (apply Nx; left; rewrite in_app_iff; cbn; auto).
      assert (b0 : b <> 0) by (apply Nz; left; rewrite in_app_iff; cbn; auto).
      assert (bl2 : forall y, In y (A ++ [b]) -> (y =? hd 0 l2) && negb (y =? 0) = false).
      { intros y Hy. destruct (Z.eqb_spec y (hd 0 l2)) as [E|_]; [|reflexivity]. destruct l2 as [|c l2']; [cbn [hd] in E; subst; reflexivity|].
        cbn [hd] in E. subst. exfalso. apply (D c Hy). now left. }
      repeat split.
      * apply (chn_ext s); [|exact C1]. intros y Hy. assert (y <> x) by (apply Nx; left; rewrite in_app_iff; auto).
        rewrite Fs, Fp by assumption. rewrite bl2 by (rewrite in_app_iff; auto).
        destruct (Z.eqb_spec y b) as [->|_]; [|split; reflexivity]. exfalso. apply (nd_dis _ _ Nb b Hy). now left.
      * rewrite Fp by assumption. rewrite bl2 by (rewrite in_app_iff; cbn; auto). exact C1a.
      * rewrite Fs by assumption. rewrite Z.eqb_refl. destruct (Z.eqb_spec b 0); [contradiction|reflexivity].
    + destruct l2 as [|b l2']; [exact I|]. cbn [chn hd] in *. destruct C2 as (C2a & C2b & C2).
      assert (bne : b <> x) by (apply Nx; cbn; auto). assert (b0 : b <> 0) by (apply Nz; cbn; auto).
      assert (Nb : NoDup (b :: l2')) by (apply NoDup_remove_1 in N; exact (nd_r _ _ N)).
      assert (bl1 : forall y, In y (b :: l2') -> (y =? last l1 0) && negb (y =? 0) = false).
      { intros y Hy. destruct (Z.eqb_spec y (last l1 0)) as [E|_]; [|reflexivity].
        destruct l1 as [|c l1']; [cbn [last] in E; subst; reflexivity|].
        exfalso. apply (D y); [rewrite E; apply last_in; discriminate|exact Hy]. }
      repeat split.
      * rewrite Fp by assumption. rewrite Z.eqb_refl. destruct (Z.eqb_spec b 0); [contradiction|reflexivity].
      * rewrite Fs by assumption. rewrite bl1 by now left. exact C2b.
      * apply (chn_ext s); [|exact C2]. intros y Hy. assert (y <> x) by (apply Nx; cbn; auto).
        rewrite Fs, Fp by assumption. rewrite bl1 by now right.
        destruct (Z.eqb_spec y b) as [->|_]; [|split; reflexivity]. exfalso. inversion Nb; contradiction.
Qed.
(** Take a node out of the chain. *)
Lemma chain_delete s s' l1 x l2 : chain s (l1 ++ x :: l2) -> NoDup (l1 ++ x :: l2) -> ~ In 0 (l1 ++ x :: l2) ->
  (forall y, y <> x -> hsucc s' y = if (y =? last l1 0) && negb (y =? 0) then hd 0 l2 else hsucc s y) ->
  (forall y, y <> x -> hpred s' y = if (y =? hd 0 l2) && negb (y =? 0) then last l1 0 else hpred s y) ->
  tminn s' = (if last l1 0 =? 0 then hd 0 l2 else tminn s) -> tmaxn s' = (if hd 0 l2 =? 0 then last l1 0 else tmaxn s) ->
  chain s' (l1 ++ l2).
Proof.
  intros (H1 & H2 & H3) N Z Fs Fp Em Ex.
  assert (Nz : forall y, In y l1 \/ In y l2 -> y <> 0) by (intros y Hy ->; apply Z; rewrite in_app_iff; cbn [In]; tauto).
  assert (Nx : forall y, In y l1 \/ In y l2 -> y <> x).
  { intros y Hy ->. apply NoDup_remove_2 in N. apply N. rewrite in_app_iff. tauto. }
  apply chn_app in H3. cbn [chn hd] in H3. destruct H3 as (C1 & Cx1 & Cx2 & C2).
  assert (D : forall y, In y l1 -> In y l2 -> False).
  { intros y A B. apply NoDup_remove_1 in N. exact (nd_dis _ _ N y A B). }
  split; [|split].
  - rewrite Em. destruct l1 as [|b l1']; [reflexivity|]. rewrite last_cons. cbn [app hd] in *.
    destruct (Z.eqb_spec (last l1' b) 0) as [E|_]; [|exact H1].
    exfalso. rewrite <- (last_cons b l1' 0) in E. apply (Nz (last (b :: l1') 0)); [left; apply last_in; discriminate|exact E].
  - rewrite Ex. rewrite last_app. destruct l2 as [|b l2']; [reflexivity|]. cbn [hd].
    destruct (Z.eqb_spec b 0) as [E|_]; [exfalso; apply (Nz b); [right; now left|exact E]|].
    rewrite H2, last_app, !last_cons. reflexivity.
  - apply chn_app. split.
    + destruct (snoc_cases l1) as [->|(A & b & ->)]; [exact I|].
      rewrite last_app in *. cbn [last] in *. apply chn_app in C1. apply chn_app. cbn [chn hd] in *. destruct C1 as (C1 & C1a & C1b & _).
      assert (Nb : NoDup (A ++ [b])) by exact (nd_l _ _ N).
      assert (bne : b <> x) by (apply Nx; left; rewrite in_app_iff; cbn; auto).
      assert (b0 : b <> 0) by (apply Nz; left; rewrite in_app_iff; cbn; auto).
      assert (bl2 : forall y, In y (A ++ [b]) -> (y =? hd 0 l2) && negb (y =? 0) = false).
      { intros y Hy. destruct (Z.eqb_spec y (hd 0 l2)) as [E|_]; [|reflexivity]. destruct l2 as [|c l2']; [cbn [hd] in E; subst; reflexivity|].
        cbn [hd] in E. subst. exfalso. apply (D c Hy). now left. }
      repeat split.
      * apply (chn_ext s); [|exact C1]. intros y Hy. assert (y <> x) by (apply Nx; left; rewrite in_app_iff; auto).
        rewrite Fs, Fp by assumption. rewrite bl2 by (rewrite in_app_iff; auto).
        destruct (Z.eqb_spec y b) as [->|_]; [|split; reflexivity]. exfalso. apply (nd_dis _ _ Nb b Hy). now left.
      * rewrite Fp by assumption. rewrite bl2 by (rewrite in_app_iff; cbn; auto). exact C1a.
      * rewrite Fs by assumption. rewrite Z.eqb_refl. destruct (Z.eqb_spec b 0); [contradiction|reflexivity].
    + destruct l2 as [|b l2']; [exact I|]. cbn [chn hd] in *. destruct C2 as (C2a & C2b & C2).
      assert (bne : b <> x) by (apply Nx; cbn; auto). assert (b0 : b <> 0) by (apply Nz; cbn; auto).
      assert (Nb : NoDup (b :: l2')) by (apply NoDup_remove_1 in N; exact (nd_r _ _ N)).
      assert (bl1 : forall y, In y (b :: l2') -> (y =? last l1 0) && negb (y =? 0) = false).
      { intros y Hy. destruct (Z.eqb_spec y (last l1 0)) as [E|_]; [|reflexivity].
        destruct l1 as [|c l1']; [cbn [last] in E; subst; reflexivity|].
        exfalso. apply (D y); [rewrite E; apply last_in; discriminate|exact Hy]. }
      repeat split.
      * rewrite Fp by assumption. rewrite Z.eqb_refl. destruct (Z.eqb_spec b 0); [contradiction|reflexivity].
      * rewrite Fs by assumption. rewrite bl1 by now left. exact C2b.
      * apply (chn_ext s); [|exact C2]. intros y Hy. assert (y <> x) by (apply Nx; cbn; auto).
        rewrite Fs, Fp by assumption. rewrite bl1 by now right.
        destruct (Z.eqb_spec y b) as [->|_]; [|split; reflexivity]. exfalso. inversion Nb; contradiction.
Qed.

(** ** Order of nodes and rows *)
Section Ord.
Variables (cmp : Z -> Z -> Z) (dom : Z -> Prop).
Hypothesis KO : keyorder cmp dom.
Variable key : Z -> Z.
Definition lt a b := cmp a b = WG_LESSTHAN.
Definition le a b := cmp a b <> WG_GREATER.
Definition rle (x y : Z) : Prop := le (key x) (key y).

Lemma cmp_vals a b : cmp a b = -1 \/ cmp a b = 0 \/ cmp a b = 1.
Proof. exact (ko_tri _ _ KO a b). Qed.
Lemma le_refl a : dom a -> le a a.
Proof. intros H. unfold le. rewrite (ko_refl _ _ KO a H). discriminate. Qed.
Lemma lt_le a b : lt a b -> le a b.
Proof. unfold lt, le. intros ->. discriminate. Qed.
Lemma le_trans a b c : dom a -> dom b -> dom c -> le a b -> le b c -> le a c.
Proof. intros A B C H1 H2. exact (proj1 (ko_trans _ _ KO a b c A B C H1 H2)). Qed.
Lemma lt_le_trans a b c : dom a -> dom b -> dom c -> lt a b -> le b c -> lt a c.
Proof. intros A B C H1 H2. apply (ko_trans _ _ KO a b c A B C (lt_le _ _ H1) H2). now left. Qed.
Lemma le_lt_trans a b c : dom a -> dom b -> dom c -> le a b -> lt b c -> lt a c.
Proof. intros A B C H1 H2. apply (ko_trans _ _ KO a b c A B C H1 (lt_le _ _ H2)). now right. Qed.
Lemma not_lt_le a b : dom a -> dom b -> cmp a b <> WG_LESSTHAN -> le b a.
Proof. intros A B H E. apply H, (ko_flip _ _ KO); auto. Qed.
Lemma gt_lt a b : dom a -> dom b -> cmp a b = WG_GREATER -> lt b a.
Proof. intros A B H. apply (ko_flip _ _ KO); auto. Qed.
Lemma lt_not_le a b : dom a -> dom b -> lt a b -> le b a -> False.
Proof. intros A B H1 H2. apply H2, (ko_flip _ _ KO); auto. Qed.

(** Nodes in chain order: filled, bounds right, rows in key order. *)
Definition VL (s : tt) (L : list Z) : Prop :=
  Forall (node_ok key s) L /\ StronglySorted rle (flat_map (rows s) L) /\ Forall (fun x => dom (key x)) (flat_map (rows s) L).

Lemma VL_app s A B : VL s (A ++ B) -> VL s A /\ VL s B.
Proof.
  intros (H1 & H2 & H3). rewrite flat_map_app in *. apply Forall_app in H1, H3. apply ss_app in H2. unfold VL. tauto.
Qed.
Lemma row_first s a : 1 <= hn s a -> In (harr s a 0) (rows s a).
Proof. intros H. apply rowsf_in. exists 0. split; [lia|reflexivity]. Qed.
Lemma row_last s a : 1 <= hn s a -> In (harr s a (hn s a - 1)) (rows s a).
Proof. intros H. apply rowsf_in. exists (hn s a - 1). split; [lia|reflexivity]. Qed.
Lemma VL_node s A a B : VL s (A ++ a :: B) -> node_ok key s a /\ dom (hmin s a) /\ dom (hmax s a) /\
  (forall x, In x (rows s a) -> dom (key x) /\ le (hmin s a) (key x) /\ le (key x) (hmax s a)) /\ le (hmin s a) (hmax s a).
Proof.
  intros (H1 & H2 & H3). apply Forall_app in H1. destruct H1 as (_ & H1). inversion H1 as [|? ? Ok _]; subst.
  rewrite flat_map_app in *. cbn [flat_map] in *. apply Forall_app in H3. destruct H3 as (_ & H3). apply Forall_app in H3. destruct H3 as (H3 & _).
  apply ss_app in H2. destruct H2 as (_ & H2 & _). apply ss_app in H2. destruct H2 as (H2 & _ & _).
  rewrite Forall_forall in H3. pose proof Ok as (N & E1 & E2).
  assert (Df : dom (hmin s a)) by (rewrite E1; apply H3, row_first; lia).
  assert (Dl : dom (hmax s a)) by (rewrite E2; apply H3, row_last; lia).
  assert (F : forall x, In x (rows s a) -> dom (key x) /\ le (hmin s a) (key x) /\ le (key x) (hmax s a)).
  { intros x Hx. split; [auto|]. split.
    - rewrite E1. assert (X : rows s a = harr s a 0 :: rowsf (fun i => harr s a (i + 1)) (hn s a - 1)).
      { unfold rows. replace (hn s a) with (1 + (hn s a - 1)) at 1 by lia. apply rowsf_cons. lia. }
      pose proof (H3 (harr s a 0) (row_first s a ltac:(lia))). rewrite X in Hx, H2. destruct Hx as [<-|Hx]; [now apply le_refl|].
      inversion H2 as [|? ? _ F]; subst. rewrite Forall_forall in F. now apply F.
    - rewrite E2. assert (X : rows s a = rowsf (harr s a) (hn s a - 1) ++ [harr s a (hn s a - 1)]).
      { unfold rows. replace (hn s a) with (hn s a - 1 + 1) at 1 by lia. apply rowsf_snoc. lia. }
      pose proof (H3 (harr s a (hn s a - 1)) (row_last s a ltac:(lia))). rewrite X in Hx, H2. rewrite in_app_iff in Hx.
      destruct Hx as [Hx|[<-|[]]]; [|now apply le_refl]. apply ss_app in H2. destruct H2 as (_ & _ & F). apply F; [exact Hx|now left]. }
  repeat split; auto; try lia; try apply F; auto.
  rewrite E2. apply F, row_last. lia.
Qed.
Lemma VL_pair s L a b A B C : VL s L -> L = A ++ a :: B ++ b :: C -> le (hmax s a) (hmin s b).
Proof.
  intros H ->. pose proof (VL_node _ _ _ _ H) as (Oa & _). rewrite app_comm_cons, app_assoc in H.
  pose proof (VL_node _ _ _ _ H) as (Ob & _). destruct H as (_ & H & _). rewrite flat_map_app in H. apply ss_app in H.
  destruct H as (_ & _ & H). destruct Oa as (Na & _ & ->). destruct Ob as (Nb & -> & _). apply H.
  - rewrite flat_map_app. cbn [flat_map]. rewrite !in_app_iff. right. left. apply row_last. lia.
  - cbn [flat_map]. rewrite in_app_iff. left. apply row_first. lia.
Qed.
Lemma VL_dom s L a : VL s L -> In a L -> dom (hmin s a) /\ dom (hmax s a) /\ le (hmin s a) (hmax s a).
Proof. intros H Ha. apply in_split in Ha. destruct Ha as (A & B & ->). pose proof (VL_node _ _ _ _ H). tauto. Qed.

Definition below (s : tt) (k x : Z) : Prop := lt (hmax s x) k.
Definition above (s : tt) (k x : Z) : Prop := lt k (hmin s x).
(** Everything left of a node whose minimum is not above [k] ... *)
Lemma above_right s k A a B : VL s (A ++ a :: B) -> dom k -> above s k a -> Forall (above s k) B.
Proof.
  intros H D Ha. rewrite Forall_forall. intros b Hb. apply in_split in Hb. destruct Hb as (B1 & B2 & ->).
  pose proof (VL_pair _ _ a b A B1 B2 H eq_refl) as P.
  destruct (VL_dom s _ a H ltac:(rewrite in_app_iff; cbn; auto)) as (D1 & D2 & D3).
  destruct (VL_dom s _ b H ltac:(rewrite in_app_iff; cbn; rewrite in_app_iff; cbn; auto)) as (D4 & _).
  unfold above in *. apply (lt_le_trans k (hmax s a)); auto. apply (lt_le_trans k (hmin s a)); auto.
Qed.
Lemma below_left s k A a B : VL s (A ++ a :: B) -> dom k -> below s k a -> Forall (below s k) A.
Proof.
  intros H D Ha. rewrite Forall_forall. intros b Hb. apply in_split in Hb. destruct Hb as (B1 & B2 & ->).
  rewrite <- app_assoc in H. cbn [app] in H.
  pose proof (VL_pair _ _ b a B1 B2 B H eq_refl) as P.
  destruct (VL_dom s _ a H ltac:(rewrite in_app_iff; cbn; rewrite in_app_iff; cbn; auto)) as (D1 & D2 & D3).
  destruct (VL_dom s _ b H ltac:(rewrite in_app_iff; cbn; auto)) as (D4 & D5 & _).
  unfold below in *. apply (le_lt_trans (hmax s b) (hmin s a)); auto. apply (le_lt_trans (hmin s a) (hmax s a)); auto.
Qed.

(** ** Searches *)
Definition rm_spec (s : tt) (k : Z) (L : list Z) (b : Z) (res : bound) : Prop :=
  exists l1 l2, L = l1 ++ b :: l2 /\
  match res with
  | REALLY_BOUNDING_NODE => le (hmin s b) k /\ le k (hmax s b) /\ Forall (above s k) l2
  | DEAD_END_LEFT_NOT_BOUNDING => Forall (below s k) l1 /\ Forall (above s k) (b :: l2) /\ hleft s b = 0
  | DEAD_END_RIGHT_NOT_BOUNDING => Forall (below s k) (l1 ++ [b]) /\ Forall (above s k) l2 /\ hright s b = 0
  end.
Definition lm_spec (s : tt) (k : Z) (L : list Z) (b : Z) (res : bound) : Prop :=
  exists l1 l2, L = l1 ++ b :: l2 /\
  match res with
  | REALLY_BOUNDING_NODE => le (hmin s b) k /\ le k (hmax s b) /\ Forall (below s k) l1
  | DEAD_END_LEFT_NOT_BOUNDING => Forall (below s k) l1 /\ Forall (above s k) (b :: l2) /\ hleft s b = 0
  | DEAD_END_RIGHT_NOT_BOUNDING => Forall (below s k) (l1 ++ [b]) /\ Forall (above s k) l2 /\ hright s b = 0
  end.

Lemma rightmost_ok s k L : VL s L -> dom k -> forall t p n A B rb,
  st s p t -> t <> Lf -> L = A ++ ino t ++ B -> (Z.to_nat (ht t) <= n)%nat -> Forall (above s k) B ->
  (A = [] /\ rb = 0 \/ exists A', A = A' ++ [rb] /\ rb <> 0 /\ le (hmin s rb) k) ->
  exists b res, wg_search_ttree_rightmost cmp n s (addr t) k rb = Some (b, res) /\ rm_spec s k L b res.
Proof.
  intros HV Dk. induction t as [|l IHl a r IHr]; intros p n A B rb H Tn EL Hn HB HA; [now elim Tn|].
  cbn [st addr ht ino] in *. destruct H as (A0 & A1 & A2 & A3 & A4 & A5 & Hl & Hr).
  pose proof (ht_nonneg l). pose proof (ht_nonneg r).
  destruct n as [|n]; [lia|]. cbn [wg_search_ttree_rightmost]. rewrite A2, A3.
  assert (Da : dom (hmin s a) /\ dom (hmax s a) /\ le (hmin s a) (hmax s a)).
  { apply (VL_dom s L); [exact HV|]. rewrite EL. rewrite !in_app_iff. cbn. auto. }
  destruct Da as (Da1 & Da2 & Da3).
  destruct (Z.eqb_spec (cmp k (hmin s a)) WG_LESSTHAN) as [C|C].
  - assert (AB : Forall (above s k) (a :: ino r ++ B)).
    { constructor; [exact C|]. apply (above_right s k (A ++ ino l) a); auto. rewrite EL in HV. repeat (rewrite <- app_assoc in *; cbn [app] in *). exact HV. }
    destruct (Z.eqb_spec (addr l) 0) as [El|El]; cbn [negb].
    + assert (l = Lf) as ->. { destruct l; [reflexivity|]. cbn [addr st] in *. tauto. } cbn [ino app addr] in *.
      destruct HA as [(-> & ->)|(A' & -> & Hrb & Hm)].
      * rewrite Z.eqb_refl. cbn [negb andb]. exists a, DEAD_END_LEFT_NOT_BOUNDING. split; [reflexivity|].
        exists [], (ino r ++ B). split; [exact EL|]. repeat split; auto.
      * destruct (Z.eqb_spec rb 0); [contradiction|]. cbn [negb andb]. rewrite <- app_assoc in EL. cbn [app] in EL.
        destruct (Z.eqb_spec (cmp k (hmax s rb)) WG_GREATER) as [G|G]; cbn [negb].
        -- exists a, DEAD_END_LEFT_NOT_BOUNDING. split; [reflexivity|]. exists (A' ++ [rb]), (ino r ++ B). split; [rewrite <- app_assoc; exact EL|].
           assert (Hrb' : below s k rb). { unfold below. apply gt_lt; auto. apply (VL_dom s L); [exact HV|]. rewrite EL, in_app_iff; cbn; auto. }
           repeat split; auto. apply Forall_app. split; [|constructor; auto]. rewrite EL in HV. exact (below_left s k A' rb _ HV Dk Hrb').
        -- exists rb, REALLY_BOUNDING_NODE. split; [reflexivity|]. exists A', (a :: ino r ++ B). split; [exact EL|]. repeat split; auto.
    + apply (IHl a n A (a :: ino r ++ B) rb); auto.
      * intros ->. now apply El.
      * rewrite EL. repeat (rewrite <- app_assoc; cbn [app]). reflexivity.
      * lia.
  - assert (Ha : le (hmin s a) k) by (apply not_lt_le; auto).
    destruct (Z.eqb_spec (addr r) 0) as [Er|Er]; cbn [negb].
    + assert (r = Lf) as ->. { destruct r; [reflexivity|]. cbn [addr st] in *. tauto. } cbn [ino app addr] in *.
      rewrite <- app_assoc in EL. cbn [app] in EL.
      destruct (Z.eqb_spec (cmp k (hmax s a)) WG_GREATER) as [G|G]; cbn [negb].
      * exists a, DEAD_END_RIGHT_NOT_BOUNDING. split; [reflexivity|]. exists (A ++ ino l), B. split; [rewrite <- app_assoc; exact EL|].
        assert (Hb' : below s k a) by (unfold below; apply gt_lt; auto).
        repeat split; auto. apply Forall_app. split; [|constructor; auto]. rewrite EL, app_assoc in HV. exact (below_left s k _ a _ HV Dk Hb').
      * exists a, REALLY_BOUNDING_NODE. split; [reflexivity|]. exists (A ++ ino l), B. split; [rewrite <- app_assoc; exact EL|]. repeat split; auto.
    + apply (IHr a n (A ++ ino l ++ [a]) B a); auto.
      * intros ->. now apply Er.
      * rewrite EL. repeat (rewrite <- app_assoc; cbn [app]). reflexivity.
      * lia.
      * right. exists (A ++ ino l). split; [now rewrite app_assoc|auto].
Qed.
Lemma leftmost_ok s k L : VL s L -> dom k -> forall t p n A B lb,
  st s p t -> t <> Lf -> L = A ++ ino t ++ B -> (Z.to_nat (ht t) <= n)%nat -> Forall (below s k) A ->
  (B = [] /\ lb = 0 \/ exists B', B = lb :: B' /\ lb <> 0 /\ le k (hmax s lb)) ->
  exists b res, wg_search_ttree_leftmost cmp n s (addr t) k lb = Some (b, res) /\ lm_spec s k L b res.
Proof.
  intros HV Dk. induction t as [|l IHl a r IHr]; intros p n A B lb H Tn EL Hn HA HB; [now elim Tn|].
  cbn [st addr ht ino] in *. destruct H as (A0 & A1 & A2 & A3 & A4 & A5 & Hl & Hr).
  pose proof (ht_nonneg l). pose proof (ht_nonneg r).
  destruct n as [|n]; [lia|]. cbn [wg_search_ttree_leftmost]. rewrite A2, A3.
  assert (Da : dom (hmin s a) /\ dom (hmax s a) /\ le (hmin s a) (hmax s a)).
  { apply (VL_dom s L); [exact HV|]. rewrite EL. rewrite !in_app_iff. cbn. auto. }
  destruct Da as (Da1 & Da2 & Da3).
  assert (EL' : L = (A ++ ino l) ++ a :: ino r ++ B) by (rewrite EL; repeat (rewrite <- app_assoc; cbn [app]); reflexivity).
  destruct (Z.eqb_spec (cmp k (hmax s a)) WG_GREATER) as [C|C].
  - assert (Hb' : below s k a) by (unfold below; apply gt_lt; auto).
    assert (AB : Forall (below s k) ((A ++ ino l) ++ [a])).
    { apply Forall_app. split; [|constructor; auto]. rewrite EL' in HV. exact (below_left s k _ a _ HV Dk Hb'). }
    destruct (Z.eqb_spec (addr r) 0) as [Er|Er]; cbn [negb].
    + assert (r = Lf) as ->. { destruct r; [reflexivity|]. cbn [addr st] in *. tauto. } cbn [ino app addr] in *.
      destruct HB as [(-> & ->)|(B' & -> & Hlb & Hm)].
      * rewrite Z.eqb_refl. cbn [negb andb]. exists a, DEAD_END_RIGHT_NOT_BOUNDING. split; [reflexivity|].
        exists (A ++ ino l), []. split; [exact EL'|]. repeat split; auto.
      * destruct (Z.eqb_spec lb 0); [contradiction|]. cbn [negb andb].
        destruct (VL_dom s L lb HV ltac:(rewrite EL', in_app_iff; cbn; auto)) as (Dl1 & Dl2 & Dl3).
        destruct (Z.eqb_spec (cmp k (hmin s lb)) WG_LESSTHAN) as [G|G]; cbn [negb].
        -- exists a, DEAD_END_RIGHT_NOT_BOUNDING. split; [reflexivity|]. exists (A ++ ino l), (lb :: B'). split; [exact EL'|].
           repeat split; auto. constructor; [exact G|]. apply (above_right s k ((A ++ ino l) ++ [a]) lb); auto.
           rewrite EL' in HV. rewrite <- app_assoc. exact HV.
        -- exists lb, REALLY_BOUNDING_NODE. split; [reflexivity|]. exists ((A ++ ino l) ++ [a]), B'. split; [rewrite <- app_assoc; exact EL'|].
           repeat split; auto. apply not_lt_le; auto.
    + apply (IHr a n ((A ++ ino l) ++ [a]) B lb); auto.
      * intros ->. now apply Er.
      * rewrite EL'. rewrite <- (app_assoc (A ++ ino l)). reflexivity.
      * lia.
  - destruct (Z.eqb_spec (addr l) 0) as [El|El]; cbn [negb].
    + assert (l = Lf) as ->. { destruct l; [reflexivity|]. cbn [addr st] in *. tauto. } cbn [ino app addr] in *. rewrite app_nil_r in EL'.
      destruct (Z.eqb_spec (cmp k (hmin s a)) WG_LESSTHAN) as [G|G]; cbn [negb].
      * exists a, DEAD_END_LEFT_NOT_BOUNDING. split; [reflexivity|]. exists A, (ino r ++ B). split; [exact EL'|].
        repeat split; auto. constructor; [exact G|]. apply (above_right s k A a); auto. rewrite <- EL'. exact HV.
      * exists a, REALLY_BOUNDING_NODE. split; [reflexivity|]. exists A, (ino r ++ B). split; [exact EL'|]. repeat split; auto.
        apply not_lt_le; auto.
    + apply (IHl a n A (a :: ino r ++ B) a); auto.
      * intros ->. now apply El.
      * rewrite EL'. rewrite <- app_assoc. reflexivity.
      * lia.
      * right. exists (ino r ++ B). auto.
Qed.
End Ord.
