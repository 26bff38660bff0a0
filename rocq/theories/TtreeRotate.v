(** Rotations keep the in-order sequence, restore balance and keep the shape fields right. *)
From Coq Require Import ZArith List Bool Lia Permutation.
From Verif Require Import Base EncodingModel CompareModel TtreeModel TtreeShape TtreeArr.
Import ListNotations.
Open Scope Z_scope.
#[local] Ltac Zify.zify_post_hook ::= idtac.

Ltac dsj F :=
  lazymatch type of F with
  | forall z, _ -> In z (?y1 ++ ?y2) -> False =>
      let F1 := fresh "D" in let F2 := fresh "D" in
      pose proof (fun z h k => F z h (in_or_app y1 y2 z (or_introl k))) as F1;
      pose proof (fun z h k => F z h (in_or_app y1 y2 z (or_intror k))) as F2; clear F; dsj F1; dsj F2
  | forall z, In z ?x -> In z (?a :: ?y) -> False =>
      let F1 := fresh "D" in let F2 := fresh "D" in
      assert (F1 : ~ In a x) by exact (fun h => F a h (in_eq a y));
      pose proof (fun z h k => F z h (in_cons a z y k)) as F2; clear F; dsj F2
  | forall z, In z ?x -> In z [] -> False => clear F
  | _ => idtac
  end.
Ltac dnn F :=
  lazymatch type of F with
  | ~ In ?a (?y1 ++ ?y2) =>
      let F1 := fresh "D" in let F2 := fresh "D" in
      assert (F1 : ~ In a y1) by exact (fun k => F (in_or_app y1 y2 a (or_introl k)));
      assert (F2 : ~ In a y2) by exact (fun k => F (in_or_app y1 y2 a (or_intror k))); clear F; dnn F1; dnn F2
  | ~ In ?a (?b :: ?y) =>
      let F1 := fresh "D" in let F2 := fresh "D" in
      assert (F1 : a <> b) by (intros ->; exact (F (in_eq b y)));
      assert (F2 : ~ In a y) by exact (fun k => F (in_cons b a y k)); clear F; dnn F2
  | ~ In ?a [] => clear F
  | _ => idtac
  end.
(** Take a NoDup hypothesis apart into pairwise disjointness facts. *)
Ltac ndx N :=
  lazymatch type of N with
  | NoDup (?x ++ ?y) =>
      let F := fresh "D" in let M := fresh "N" in
      pose proof (nd_l x y N) as M; pose proof (nd_dis x y N) as F; apply nd_r in N; dsj F; ndx N
  | NoDup (?a :: ?y) =>
      let F := fresh "D" in
      pose proof (proj1 (proj1 (NoDup_cons_iff a y) N)) as F; apply NoDup_cons_iff, proj2 in N; dnn F; ndx N
  | _ => idtac
  end.
Ltac neq := first [assumption | congruence | (let E := fresh in intro E; subst; contradiction) |
  (let E := fresh in intro E; subst; eauto; fail)].
Ltac ux := repeat first [rewrite upd_same | rewrite upd_other by neq].

Section K.
Variable key : Z -> Z.

Lemma special_lr_S s bb ee : hpar (special_lr key s bb ee) = hpar s /\ hleft (special_lr key s bb ee) = hleft s /\
  hright (special_lr key s bb ee) = hright s /\ hlh (special_lr key s bb ee) = hlh s /\ hrh (special_lr key s bb ee) = hrh s /\
  troot (special_lr key s bb ee) = troot s /\ hsucc (special_lr key s bb ee) = hsucc s /\ hpred (special_lr key s bb ee) = hpred s /\
  tminn (special_lr key s bb ee) = tminn s /\ tmaxn (special_lr key s bb ee) = tmaxn s.
Proof. unfold special_lr. destruct (_ && _); repeat split. Qed.
Lemma special_rl_S s bb ee : hpar (special_rl key s bb ee) = hpar s /\ hleft (special_rl key s bb ee) = hleft s /\
  hright (special_rl key s bb ee) = hright s /\ hlh (special_rl key s bb ee) = hlh s /\ hrh (special_rl key s bb ee) = hrh s /\
  troot (special_rl key s bb ee) = troot s /\ hsucc (special_rl key s bb ee) = hsucc s /\ hpred (special_rl key s bb ee) = hpred s /\
  tminn (special_rl key s bb ee) = tminn s /\ tmaxn (special_rl key s bb ee) = tmaxn s.
Proof. unfold special_rl. destruct (_ && _); repeat split. Qed.

(** Writes that do not touch the shape of a subtree except its parent link. *)
Lemma sub_move s s' p p' t : st s p t -> NoDup (ino t) ->
  (forall x, In x (ino t) -> hleft s' x = hleft s x /\ hright s' x = hright s x /\ hlh s' x = hlh s x /\ hrh s' x = hrh s x /\
     (hpar s' x = if x =? addr t then p' else hpar s x)) -> st s' p' t.
Proof.
  intros H N F. apply (st_frame s s' p p' t H); auto.
  - intros x Hx. destruct (F x Hx) as (? & ? & ? & ? & _). auto.
  - intros x Hx Hn. destruct (F x Hx) as (_ & _ & _ & _ & E). rewrite E. now destruct (Z.eqb_spec x (addr t)).
  - intros Hn. destruct t; [now elim Hn|]. cbn [addr]. destruct (F a ltac:(cbn [ino]; rewrite in_app_iff; cbn; auto)) as (_ & _ & _ & _ & E).
    rewrite E. cbn [addr]. now rewrite Z.eqb_refl.
Qed.

Definition untouched (s s' : tt) (L : list Z) : Prop :=
  (forall y, ~ In y L -> sameS s s' y) /\ troot s' = troot s /\ hsucc s' = hsucc s /\ hpred s' = hpred s /\
  tminn s' = tminn s /\ tmaxn s' = tmaxn s.
Definition tst (s : tt) (t : tree) : Prop := exists p, st s p t.
Definition small (h : Z) : Prop := 0 <= h < 250.

Lemma setpar_if s e a : (if e =? 0 then s else set_par s e a) =
  TT (if e =? 0 then hpar s else upd (hpar s) e a) (hmax s) (hmin s) (hn s) (hlh s) (hrh s) (harr s) (hleft s) (hright s) (hsucc s) (hpred s) (troot s) (tminn s) (tmaxn s).
Proof. destruct (e =? 0); [now destruct s|reflexivity]. Qed.
Lemma par_if (f : Z -> Z) e a x : x <> 0 -> (if e =? 0 then f else upd f e a) x = if x =? e then a else f x.
Proof.
  intros H. destruct (Z.eqb_spec e 0) as [->|]; [now destruct (Z.eqb_spec x 0)|]. reflexivity.
Qed.
Lemma st_nz s p t x : st s p t -> In x (ino t) -> x <> 0.
Proof.
  revert p. induction t as [|l IHl a r IHr]; intros p H Hx; [easy|]. cbn [st ino] in *. rewrite in_app_iff in Hx. cbn [In] in Hx.
  destruct H as (A0 & _ & _ & _ & _ & _ & Hl & Hr). destruct Hx as [Hx|[<-|Hx]]; eauto.
Qed.
Lemma addr_in t : t <> Lf -> In (addr t) (ino t).
Proof. destruct t; [easy|]. intros _. cbn [addr ino]. rewrite in_app_iff; cbn; auto. Qed.
Lemma ne_addr (x : Z) t : x <> 0 -> ~ In x (ino t) -> x <> addr t.
Proof. intros H N ->. destruct t; [now apply H|]. apply N, addr_in. discriminate. Qed.


Lemma par_out (f : Z -> Z) e a y : ~ In y (ino e) -> (if addr e =? 0 then f else upd f (addr e) a) y = f y.
Proof.
  intros H. destruct (Z.eqb_spec (addr e) 0) as [_|E]; [reflexivity|]. apply upd_other. intros ->. apply H, addr_in.
  intros ->. now apply E.
Qed.
Lemma par_in (f : Z -> Z) e a y : (forall z, In z (ino e) -> z <> 0) -> In y (ino e) ->
  (if addr e =? 0 then f else upd f (addr e) a) y = if y =? addr e then a else f y.
Proof. intros Z H. apply par_if. auto. Qed.

Ltac pux := repeat first [rewrite upd_same | rewrite upd_other by neq | rewrite par_out by neq].
Ltac same := let x := fresh "x" in let Hx := fresh "Hx" in intros x Hx; unfold sameS; prj; pux; repeat split.
Ltac moved := let x := fresh "x" in let Hx := fresh "Hx" in intros x Hx; prj; pux; rewrite par_in by assumption; repeat split.
Ltac sml := rewrite !Z.mod_small by (rewrite ?Z.mod_small by lia; lia).
Ltac mem := rewrite ?in_app_iff; cbn [In]; rewrite ?in_app_iff; cbn [In]; rewrite ?in_app_iff; cbn [In]; tauto.
Ltac out := let y := fresh "y" in let Hy := fresh "Hy" in intros y Hy; repeat rewrite <- app_assoc in Hy; cbn [app] in Hy; dnn Hy; unfold sameS; prj; pux; repeat split.

Lemma rot_LL s p d b e a r : st s p (Nd (Nd d b e) a r) -> NoDup (ino (Nd (Nd d b e) a r)) ->
  ht (Nd (Nd d b e) a r) < 250 ->
  exists s1, rotate_case key s a LL_CASE = (s1, b) /\ tst s1 (Nd d b (Nd e a r)) /\ hpar s1 a = b /\
    untouched s s1 (ino (Nd (Nd d b e) a r)) /\ hn s1 = hn s /\ harr s1 = harr s /\ hmin s1 = hmin s /\ hmax s1 = hmax s.
Proof.
  intros H N B. cbn [rotate_case].
  pose proof (fun x => st_nz _ _ _ x H) as NZ.
  cbn [st addr ht ino] in *. destruct H as (A0 & A1 & A2 & A3 & A4 & A5 & (B0 & B1 & B2 & B3 & B4 & B5 & Hd & He) & Hr).
  pose proof (ht_nonneg d); pose proof (ht_nonneg e); pose proof (ht_nonneg r).
  repeat rewrite <- app_assoc in *. cbn [app] in *. ndx N.
  assert (NZe : forall x, In x (ino e) -> x <> 0) by (intros; apply NZ; mem).
  rewrite A2, B3. rewrite setpar_if. eexists. split; [reflexivity|]. prj.
  split; [|split; [pux; reflexivity|split; [|repeat split]]].
  - exists (hpar s b). cbn [st addr ht]. prj. pux. rewrite A5, B5. sml.
    repeat split; try assumption; try lia.
    + apply (st_same s); [exact Hd|]. same.
    + apply (sub_move s _ b); [exact He|assumption|]. moved.
    + apply (st_same s); [exact Hr|]. same.
  - split; [|repeat split]. out.
Qed.
Lemma rot_RR s p l a d c e : st s p (Nd l a (Nd d c e)) -> NoDup (ino (Nd l a (Nd d c e))) ->
  ht (Nd l a (Nd d c e)) < 250 ->
  exists s1, rotate_case key s a RR_CASE = (s1, c) /\ tst s1 (Nd (Nd l a d) c e) /\ hpar s1 a = c /\
    untouched s s1 (ino (Nd l a (Nd d c e))) /\ hn s1 = hn s /\ harr s1 = harr s /\ hmin s1 = hmin s /\ hmax s1 = hmax s.
Proof.
  intros H N B. cbn [rotate_case].
  pose proof (fun x => st_nz _ _ _ x H) as NZ.
  cbn [st addr ht ino] in *. destruct H as (A0 & A1 & A2 & A3 & A4 & A5 & Hl & (B0 & B1 & B2 & B3 & B4 & B5 & Hd & He)).
  pose proof (ht_nonneg d); pose proof (ht_nonneg e); pose proof (ht_nonneg l).
  repeat rewrite <- app_assoc in *. cbn [app] in *. ndx N.
  assert (NZe : forall x, In x (ino d) -> x <> 0) by (intros; apply NZ; mem).
  rewrite A3, B2. rewrite setpar_if. eexists. split; [reflexivity|]. prj.
  split; [|split; [pux; reflexivity|split; [|repeat split]]].
  - exists (hpar s c). cbn [st addr ht]. prj. pux. rewrite A4, B4. sml. rewrite (Z.max_comm (ht d) (ht l)).
    repeat split; try assumption; try lia.
    + apply (st_same s); [exact Hl|]. same.
    + apply (sub_move s _ c); [exact Hd|assumption|]. moved.
    + apply (st_same s); [exact He|]. same.
  - split; [|repeat split]. out.
Qed.

Lemma rot_LR s p d b f e g a r : st s p (Nd (Nd d b (Nd f e g)) a r) -> NoDup (ino (Nd (Nd d b (Nd f e g)) a r)) ->
  ht (Nd (Nd d b (Nd f e g)) a r) < 250 ->
  exists s0 s1, hn s0 = hn s /\ harr s0 = harr s /\ hmin s0 = hmin s /\ hmax s0 = hmax s /\
    hleft s0 e = addr f /\ hright s0 e = addr g /\
    (hn s1 = hn (special_lr key s0 b e) /\ harr s1 = harr (special_lr key s0 b e) /\
     hmin s1 = hmin (special_lr key s0 b e) /\ hmax s1 = hmax (special_lr key s0 b e)) /\
    rotate_case key s a LR_CASE = (s1, e) /\ tst s1 (Nd (Nd d b f) e (Nd g a r)) /\ hpar s1 a = e /\
    untouched s s1 (ino (Nd (Nd d b (Nd f e g)) a r)).
Proof.
  intros H N B. cbn [rotate_case].
  pose proof (fun x => st_nz _ _ _ x H) as NZ.
  cbn [st addr ht ino] in *.
  destruct H as (A0 & A1 & A2 & A3 & A4 & A5 & (B0 & B1 & B2 & B3 & B4 & B5 & Hd & (E0 & E1 & E2 & E3 & E4 & E5 & Hf & Hg)) & Hr).
  pose proof (ht_nonneg d); pose proof (ht_nonneg f); pose proof (ht_nonneg g); pose proof (ht_nonneg r).
  repeat (rewrite <- app_assoc in *; cbn [app] in *). ndx N.
  assert (NZf : forall x, In x (ino f) -> x <> 0) by (intros; apply NZ; mem).
  assert (NZg : forall x, In x (ino g) -> x <> 0) by (intros; apply NZ; mem).
  rewrite A2, B3. rewrite !setpar_if. prj. pux. rewrite E2, E3, E4, E5.
  match goal with |- context [special_lr key ?S b e] => set (s0 := S) end.
  destruct (special_lr_S s0 b e) as (S1 & S2 & S3 & S4 & S5 & S6 & S7 & S8 & S9 & S10).
  exists s0. eexists. do 4 (split; [reflexivity|]).
  split; [unfold s0; prj; pux; exact E2|]. split; [unfold s0; prj; pux; exact E3|].
  split; [|split; [reflexivity|]]; [repeat split|].
  remember (special_lr key s0 b e) as sp eqn:Esp. clear Esp. unfold s0 in *. clear s0. cbn [hpar hleft hright hlh hrh troot hsucc hpred tminn tmaxn set_par set_left set_right set_lh set_rh] in *.
  split; [|split; [prj; pux; reflexivity|]].
  - exists (hpar s e). cbn [st addr ht]. prj. rewrite S1, S2, S3, S4, S5. pux. rewrite ?B4, ?A5.
    rewrite ?(Z.mod_small (ht f)), ?(Z.mod_small (ht g)) by lia. sml.
    rewrite (Z.max_comm (ht f)), (Z.max_comm (ht r)).
    repeat split; try assumption; try lia.
    + apply (st_same s); [exact Hd|]. intros x Hx. unfold sameS. prj. rewrite S1, S2, S3, S4, S5. pux. repeat split.
    + apply (sub_move s _ e); [exact Hf|assumption|]. intros x Hx. prj. rewrite S1, S2, S3, S4, S5. pux. rewrite par_in by assumption. pux. repeat split.
    + apply (sub_move s _ e); [exact Hg|assumption|]. intros x Hx. prj. rewrite S1, S2, S3, S4, S5. pux. rewrite par_in by assumption. pux. repeat split.
    + apply (st_same s); [exact Hr|]. intros x Hx. unfold sameS. prj. rewrite S1, S2, S3, S4, S5. pux. repeat split.
  - split; [|prj; auto 10]. intros y Hy. repeat (rewrite <- app_assoc in Hy; cbn [app] in Hy). dnn Hy. unfold sameS. prj.
    rewrite S1, S2, S3, S4, S5. pux. repeat split.
Qed.
Lemma rot_RL s p l a f e g b d : st s p (Nd l a (Nd (Nd f e g) b d)) -> NoDup (ino (Nd l a (Nd (Nd f e g) b d))) ->
  ht (Nd l a (Nd (Nd f e g) b d)) < 250 ->
  exists s0 s1, hn s0 = hn s /\ harr s0 = harr s /\ hmin s0 = hmin s /\ hmax s0 = hmax s /\
    hleft s0 e = addr f /\ hright s0 e = addr g /\
    (hn s1 = hn (special_rl key s0 b e) /\ harr s1 = harr (special_rl key s0 b e) /\
     hmin s1 = hmin (special_rl key s0 b e) /\ hmax s1 = hmax (special_rl key s0 b e)) /\
    rotate_case key s a RL_CASE = (s1, e) /\ tst s1 (Nd (Nd l a f) e (Nd g b d)) /\ hpar s1 a = e /\
    untouched s s1 (ino (Nd l a (Nd (Nd f e g) b d))).
Proof.
  intros H N B. cbn [rotate_case].
  pose proof (fun x => st_nz _ _ _ x H) as NZ.
  cbn [st addr ht ino] in *.
  destruct H as (A0 & A1 & A2 & A3 & A4 & A5 & Hl & (B0 & B1 & B2 & B3 & B4 & B5 & (E0 & E1 & E2 & E3 & E4 & E5 & Hf & Hg) & Hd)).
  pose proof (ht_nonneg d); pose proof (ht_nonneg f); pose proof (ht_nonneg g); pose proof (ht_nonneg l).
  repeat (rewrite <- app_assoc in *; cbn [app] in *). ndx N.
  assert (NZf : forall x, In x (ino f) -> x <> 0) by (intros; apply NZ; mem).
  assert (NZg : forall x, In x (ino g) -> x <> 0) by (intros; apply NZ; mem).
  rewrite A3, B2. rewrite !setpar_if. prj. pux. rewrite E2, E3, E4, E5.
  match goal with |- context [special_rl key ?S b e] => set (s0 := S) end.
  destruct (special_rl_S s0 b e) as (S1 & S2 & S3 & S4 & S5 & S6 & S7 & S8 & S9 & S10).
  exists s0. eexists. do 4 (split; [reflexivity|]).
  split; [unfold s0; prj; pux; exact E2|]. split; [unfold s0; prj; pux; exact E3|].
  split; [|split; [reflexivity|]]; [repeat split|].
  remember (special_rl key s0 b e) as sp eqn:Esp. clear Esp. unfold s0 in *. clear s0. cbn [hpar hleft hright hlh hrh troot hsucc hpred tminn tmaxn set_par set_left set_right set_lh set_rh] in *.
  split; [|split; [prj; pux; reflexivity|]].
  - exists (hpar s e). cbn [st addr ht]. prj. rewrite S1, S2, S3, S4, S5. pux. rewrite ?B5, ?A4.
    rewrite ?(Z.mod_small (ht f)), ?(Z.mod_small (ht g)) by lia. sml.
    rewrite (Z.max_comm (ht f)), (Z.max_comm (ht d)).
    repeat split; try assumption; try lia.
    + apply (st_same s); [exact Hl|]. intros x Hx. unfold sameS. prj. rewrite S1, S2, S3, S4, S5. pux. repeat split.
    + apply (sub_move s _ e); [exact Hf|assumption|]. intros x Hx. prj. rewrite S1, S2, S3, S4, S5. pux. rewrite par_in by assumption. pux. repeat split.
    + apply (sub_move s _ e); [exact Hg|assumption|]. intros x Hx. prj. rewrite S1, S2, S3, S4, S5. pux. rewrite par_in by assumption. pux. repeat split.
    + apply (st_same s); [exact Hd|]. intros x Hx. unfold sameS. prj. rewrite S1, S2, S3, S4, S5. pux. repeat split.
  - split; [|prj; auto 10]. intros y Hy. repeat (rewrite <- app_assoc in Hy; cbn [app] in Hy). dnn Hy. unfold sameS. prj.
    rewrite S1, S2, S3, S4, S5. pux. repeat split.
Qed.

Definition gp_fix (s : tt) (root r grandparent : Z) : tt :=
  if grandparent =? 0 then set_root (set_par s r 0) r
  else
    let s := set_par s r grandparent in
    if hleft s grandparent =? root then
      set_lh (set_left s grandparent r) grandparent (Z.max (hlh s r) (hrh s r) + 1)
    else
      set_rh (set_right s grandparent r) grandparent (Z.max (hlh s r) (hrh s r) + 1).
Lemma cok_caddr s c x hi h : cok s c x hi h -> c <> [] -> caddr c <> 0.
Proof. clear key. destruct c as [|[]]; cbn [cok caddr]; [intros _ E; now elim E|tauto|tauto]. Qed.
Definition sameC (s s' : tt) : Prop :=
  hsucc s' = hsucc s /\ hpred s' = hpred s /\ tminn s' = tminn s /\ tmaxn s' = tmaxn s.
Definition sameVall (s s' : tt) : Prop :=
  hn s' = hn s /\ harr s' = harr s /\ hmin s' = hmin s /\ hmax s' = hmax s.
Lemma gp_fix_ok s c t a hi h : tst s t -> t <> Lf -> cok s c a hi h -> NoDup (ino (plug c t)) -> In a (ino t) -> ht t < 250 ->
  let s' := gp_fix s a (addr t) (caddr c) in
  st s' (caddr c) t /\ cok s' c (addr t) (ht t) h /\ sameC s s' /\ sameVall s s' /\
  (forall x, In x (ino t) -> x <> addr t -> hpar s' x = hpar s x) /\
  (c <> [] -> troot s' = troot s).
Proof.
  intros (p & H) Hn C N Ha B s'. rewrite ino_plug in N.
  assert (N1 : NoDup (ino t)) by (apply nd_r, nd_l in N; exact N).
  assert (N2 : NoDup (lctx c ++ rctx c)).
  { assert (P : Permutation (lctx c ++ ino t ++ rctx c) (ino t ++ lctx c ++ rctx c)) by apply Permutation_app_swap_app.
    apply (Permutation_NoDup P) in N. exact (nd_r _ _ N). }
  assert (D : forall x, In x (ino t) -> In x (lctx c ++ rctx c) -> False).
  { assert (P : Permutation (lctx c ++ ino t ++ rctx c) (ino t ++ lctx c ++ rctx c)) by apply Permutation_app_swap_app.
    apply (Permutation_NoDup P) in N. exact (nd_dis _ _ N). }
  pose proof (addr_in t Hn) as Hr.
  assert (Ht : Z.max (hlh s (addr t)) (hrh s (addr t)) + 1 = ht t).
  { destruct t as [|l b r]; [easy|]. cbn [st addr ht] in *. destruct H as (_ & _ & _ & _ & -> & -> & _). lia. }
  pose proof (ht_nonneg t) as H0.
  assert (Es : s' = gp_fix s a (addr t) (caddr c)) by reflexivity. clearbody s'. unfold gp_fix in Es.
  destruct c as [|f c].
  - cbn [caddr] in Es. rewrite Z.eqb_refl in Es. subst s'. split.
    + apply (sub_move s _ p); [exact H|exact N1|]. intros x Hx. prj. cbn [caddr]. repeat split.
    + split; [reflexivity|]. split; [repeat split|]. split; [repeat split|]. split; [|now intros E].
      intros x _ Hx. prj. ux. reflexivity.
  - set (g := caddr (f :: c)) in *.
    assert (G0 : g <> 0) by (apply (cok_caddr s _ a hi h C); discriminate).
    assert (Gi : In g (lctx (f :: c) ++ rctx (f :: c))) by (apply caddr_in; discriminate).
    assert (Gt : forall x, In x (ino t) -> x <> g) by (intros x Hx ->; eauto).
    destruct (Z.eqb_spec g 0) as [|_]; [contradiction|]. cbv zeta in Es. cbn [set_par hleft hlh hrh] in Es.
    rewrite Ht in Es.
    assert (Gl : (hleft s g =? a) = match f with FL _ _ => true | FR _ _ => false end).
    { destruct f as [x r|l x]; cbn [cok] in C; unfold g; cbn [caddr].
      - destruct C as (_ & _ & -> & _). apply Z.eqb_refl.
      - destruct C as (_ & _ & -> & _). apply Z.eqb_neq. intros E. symmetry in E. revert E. apply ne_addr.
        + exact (st_nz s p t a H Ha).
        + intros Hi. apply (D a Ha). cbn [lctx rctx]. rewrite !in_app_iff. auto. }
    rewrite Gl in Es.
    split; [|split; [|split; [|split; [|split]]]].
    + apply (sub_move s _ p); [exact H|exact N1|]. intros x Hx. pose proof (Gt x Hx).
      destruct f; subst s'; prj; ux; repeat split.
    + apply (cok_hole s _ _ a hi h); [exact C| | |exact N2|].
      * pose proof (Gt _ Hr) as Gr. assert (Gr' : g <> addr t) by congruence.
        destruct f; subst s'; cbn [hole_set]; unfold g in *; cbn [caddr] in *; prj; ux; rewrite Z.mod_small by lia; repeat split.
      * intros y Hy Hyg. fold g in Hyg. assert (y <> addr t) by (intros ->; eauto).
        destruct f; subst s'; unfold sameS; prj; ux; repeat split.
      * destruct f; subst s'; reflexivity.
    + destruct f; subst s'; repeat split.
    + destruct f; subst s'; repeat split.
    + intros x Hx Hxr. destruct f; subst s'; prj; ux; reflexivity.
    + destruct f; subst s'; reflexivity.
Qed.

Lemma flat_map_ext_in {A B} (f g : A -> list B) l : (forall x, In x l -> f x = g x) -> flat_map f l = flat_map g l.
Proof. induction l as [|a l IH]; intros H; [reflexivity|]. cbn [flat_map]. rewrite H by now left. rewrite IH; auto. intros; apply H; now right. Qed.
(** Values of a subtree survive: same rows in order, nodes stay in order, others untouched. *)
Definition keepV (s s' : tt) (L : list Z) : Prop :=
  (forall x, ~ In x L -> sameV s s' x) /\
  (Forall (node_ok key s) L -> Forall (node_ok key s') L /\ flat_map (rows s') L = flat_map (rows s) L).
Lemma keepV_refl s s' L : sameVall s s' -> keepV s s' L.
Proof.
  intros (E1 & E2 & E3 & E4). assert (V : forall x, sameV s s' x) by (intros x; unfold sameV; now rewrite E1, E2, E3, E4).
  split; [auto|]. intros F. split.
  - rewrite Forall_forall in *. intros x Hx. apply (sameV_ok key s); auto.
  - apply flat_map_ext_in. intros x _. apply sameV_rows; auto.
Qed.
Lemma keepV_sub s s' L L' : incl L L' -> keepV s s' L -> (exists A B, L' = A ++ L ++ B) -> NoDup L' -> keepV s s' L'.
Proof.
  intros I (K1 & K2) (A & B & ->) N. split.
  - intros x Hx. apply K1. intros Hi. apply Hx. rewrite !in_app_iff. auto.
  - intros F. rewrite !Forall_app in F. destruct F as (FA & FL & FB). destruct (K2 FL) as (K3 & K4).
    assert (OA : forall x, In x A -> sameV s s' x).
    { intros x Hx. apply K1. intros Hi. apply (nd_dis _ _ N x Hx). rewrite in_app_iff; auto. }
    assert (OB : forall x, In x B -> sameV s s' x).
    { intros x Hx. apply K1. intros Hi. apply nd_r in N. apply (nd_dis _ _ N x Hi Hx). }
    split.
    + rewrite !Forall_app. split; [|split; [exact K3|]]; rewrite Forall_forall in *; intros x Hx; apply (sameV_ok key s); auto.
    + rewrite !flat_map_app. rewrite K4. f_equal; [|f_equal]; apply flat_map_ext_in; intros x Hx; apply sameV_rows; auto.
Qed.
Lemma keepV_trans s s1 s2 L : keepV s s1 L -> keepV s1 s2 L -> keepV s s2 L.
Proof.
  intros (A1 & A2) (B1 & B2). split.
  - intros x Hx. destruct (A1 x Hx) as (?&?&?&?), (B1 x Hx) as (?&?&?&?). unfold sameV. repeat split; congruence.
  - intros F. destruct (A2 F) as (F1 & E1). destruct (B2 F1) as (F2 & E2). split; [exact F2|congruence].
Qed.

Lemma rotate_ok s c l a r hi h : let t := Nd l a r in
  st s (caddr c) t -> cok s c a hi h -> NoDup (ino (plug c t)) -> bal l -> bal r ->
  ht l - ht r = 2 \/ ht r - ht l = 2 -> ht t < 250 ->
  let s' := db_rotate_ttree key s a (db_which_branch_causes_overweight s a) in
  exists t', ino t' = ino t /\ t' <> Lf /\ bal t' /\ st s' (caddr c) t' /\ cok s' c (addr t') (ht t') h /\
    hpar s' a = addr t' /\ ht t - 1 <= ht t' <= ht t /\
    (match (if ht r <? ht l then l else r) with Nd u _ v => ht u <> ht v | Lf => True end -> ht t' = ht t - 1) /\
    keepV s s' (ino t) /\ sameC s s' /\ (c <> [] -> troot s' = troot s).
Proof.
  intros t H C N Bl Br Bd Hh s'.
  assert (Nt : NoDup (ino t)) by (rewrite ino_plug in N; apply nd_r, nd_l in N; exact N).
  (* what each case has to provide *)
  assert (FIN : forall ov t' s1, db_which_branch_causes_overweight s a = ov -> rotate_case key s a ov = (s1, addr t') ->
    tst s1 t' -> t' <> Lf -> ino t' = ino t -> hpar s1 a = addr t' -> a <> addr t' -> untouched s s1 (ino t) -> keepV s s1 (ino t) ->
    bal t' -> ht t - 1 <= ht t' <= ht t ->
    (match (if ht r <? ht l then l else r) with Nd u _ v => ht u <> ht v | Lf => True end -> ht t' = ht t - 1) ->
    exists t', ino t' = ino t /\ t' <> Lf /\ bal t' /\ st s' (caddr c) t' /\ cok s' c (addr t') (ht t') h /\
    hpar s' a = addr t' /\ ht t - 1 <= ht t' <= ht t /\
    (match (if ht r <? ht l then l else r) with Nd u _ v => ht u <> ht v | Lf => True end -> ht t' = ht t - 1) /\
    keepV s s' (ino t) /\ sameC s s' /\ (c <> [] -> troot s' = troot s)).
  { intros ov t' s1 Eo Er T1 Tn Ti Tp Ta (U1 & U2 & U3 & U4 & U5 & U6) K B1 B2 B3.
    assert (Es : s' = gp_fix s1 a (addr t') (caddr c)).
    { unfold s', db_rotate_ttree. rewrite Eo, Er. cbv zeta. unfold gp_fix.
      unfold t in H. cbn [st] in H. destruct H as (_ & -> & _). reflexivity. }
    clearbody s'. subst s'. rewrite ino_plug in N.
    assert (P : Permutation (lctx c ++ ino t ++ rctx c) (ino t ++ lctx c ++ rctx c)) by apply Permutation_app_swap_app.
    pose proof (Permutation_NoDup P N) as N'.
    assert (C1 : cok s1 c a hi h).
    { apply (cok_same s); [exact C| |exact U2]. intros y Hy. apply U1. intros Hi. exact (nd_dis _ _ N' y Hi Hy). }
    pose proof (gp_fix_ok s1 c t' a hi h T1 Tn C1 ltac:(rewrite ino_plug, Ti; exact N) ltac:(rewrite Ti; unfold t; cbn [ino]; rewrite in_app_iff; cbn; auto) ltac:(lia)) as (G1 & G2 & G3 & G4 & G5 & G6).
    destruct G3 as (G3a & G3b & G3c & G3d).
    exists t'. split; [exact Ti|]. split; [exact Tn|]. split; [exact B1|]. split; [exact G1|]. split; [exact G2|].
    split; [rewrite G5; [exact Tp|rewrite Ti; unfold t; cbn [ino]; rewrite in_app_iff; cbn; auto|exact Ta]|].
    split; [exact B2|]. split; [exact B3|]. split; [|split].
    - apply (keepV_trans s s1); [exact K|]. apply keepV_refl. exact G4.
    - unfold sameC. repeat split; congruence.
    - intros Hc. rewrite G6 by exact Hc. exact U2. }
  pose proof H as H'. unfold t in H'. cbn [st] in H'. destruct H' as (A0 & A1 & A2 & A3 & A4 & A5 & Hl & Hr).
  pose proof (ht_nonneg l) as Pl. pose proof (ht_nonneg r) as Pr.
  assert (EQ : forall ov, (if hrh s a <? hlh s a then
    let child := hleft s a in if hrh s child <=? hlh s child then LL_CASE else LR_CASE
  else
    let child := hright s a in if hrh s child <? hlh s child then RL_CASE else RR_CASE) = ov -> db_which_branch_causes_overweight s a = ov) by (intros ov E; exact E).
  rewrite A2, A3, A4, A5 in EQ. cbv zeta in EQ.
  destruct Bd as [Bd|Bd].
  - destruct (Z.ltb_spec (ht r) (ht l)) as [_|]; [|lia].
    destruct l as [|d b e]; [cbn [ht] in *; lia|].
    cbn [addr st] in EQ, Hl. destruct Hl as (B0 & B1 & B2 & B3 & B4 & B5 & Hd & He). rewrite B4, B5 in EQ.
    cbn [bal] in Bl. destruct Bl as (Bdd & Be & Bde). pose proof (ht_nonneg d); pose proof (ht_nonneg e).
    destruct (Z.leb_spec (ht e) (ht d)) as [L|L].
    + destruct (rot_LL s _ d b e a r H Nt Hh) as (s1 & R1 & R2 & R3 & R4 & R5).
      apply (FIN _ (Nd d b (Nd e a r)) s1 (EQ _ eq_refl) R1 R2); try discriminate; try exact R3; try exact R4.
      * unfold t. cbn [ino]. now rewrite <- app_assoc.
      * cbn [addr]. unfold t in Nt. cbn [ino] in Nt. repeat (rewrite <- app_assoc in *; cbn [app] in *). ndx Nt. congruence.
      * apply keepV_refl. exact R5.
      * cbn [bal ht]. unfold t in *. cbn [ht] in *. repeat split; auto; lia.
      * unfold t. cbn [ht] in *. lia.
      * unfold t. cbn [ht] in *. lia.
    + destruct e as [|f e g]; [cbn [ht] in *; lia|].
      destruct (rot_LR s _ d b f e g a r H Nt Hh) as (s0 & s1 & V1 & V2 & V3 & V4 & L1 & L2 & (W1 & W2 & W3 & W4) & R1 & R2 & R3 & R4).
      pose proof (ht_nonneg f); pose proof (ht_nonneg g).
      cbn [bal] in Be. destruct Be as (Bf & Bg & Bfg).
      apply (FIN _ (Nd (Nd d b f) e (Nd g a r)) s1 (EQ _ eq_refl) R1 R2); try discriminate; try exact R3; try exact R4.
      * unfold t. cbn [ino]. repeat (rewrite <- app_assoc; cbn [app]). reflexivity.
      * cbn [addr]. unfold t in Nt. cbn [ino] in Nt. repeat (rewrite <- app_assoc in *; cbn [app] in *). ndx Nt. congruence.
      * clear FIN. assert (Nbe : b <> e).
        { unfold t in Nt. cbn [ino] in Nt. repeat (rewrite <- app_assoc in *; cbn [app] in *). ndx Nt. congruence. }
        assert (V0 : sameVall s s0) by exact (conj V1 (conj V2 (conj V3 V4))).
        assert (VW : sameVall (special_lr key s0 b e) s1) by exact (conj W1 (conj W2 (conj W3 W4))).
        apply (keepV_trans s s0); [now apply keepV_refl|]. apply (keepV_trans s0 (special_lr key s0 b e)); [|now apply keepV_refl].
        split.
        -- intros x Hx. unfold t in Hx. cbn [ino] in Hx. repeat (rewrite <- app_assoc in Hx; cbn [app] in Hx). dnn Hx.
           unfold special_lr. destruct (_ && _); [|repeat split]. unfold sameV. prj. ux.
           destruct (Z.eqb_spec x e); [congruence|]. repeat split.
        -- intros F. rewrite Forall_forall in F.
           assert (Ob : node_ok key s0 b) by (apply F; unfold t; cbn [ino]; repeat (rewrite <- app_assoc; cbn [app]); rewrite in_app_iff; cbn; auto).
           assert (Oe : node_ok key s0 e) by (apply F; unfold t; cbn [ino]; repeat (rewrite <- app_assoc; cbn [app]); rewrite in_app_iff; cbn; rewrite in_app_iff; cbn; auto).
           destruct (special_lr_V key s0 b e Nbe Ob Oe) as (S1 & (S2 & S3 & S4) & S5). split.
           ++ rewrite Forall_forall. intros x Hx. destruct (Z.eq_dec x b) as [->|]; [exact S3|]. destruct (Z.eq_dec x e) as [->|]; [exact S4|].
              apply (sameV_ok key s0); auto.
           ++ destruct f as [|f1 f2 f3]; [|rewrite S5; [reflexivity|left; rewrite L1; cbn [addr]; cbn [st] in He; tauto]].
              destruct g as [|g1 g2 g3]; [|rewrite S5; [reflexivity|right; rewrite L2; cbn [addr]; cbn [st] in He; tauto]].
              unfold t in *. cbn [ino] in *. repeat (rewrite <- app_assoc in *; cbn [app] in *).
              rewrite !flat_map_app. cbn [flat_map]. rewrite !app_assoc. rewrite <- (app_assoc _ (rows _ b) (rows _ e)). rewrite S2.
              rewrite <- !app_assoc. clear - Nt S1. ndx Nt. f_equal; [|f_equal; f_equal; f_equal].
              ** apply flat_map_ext_in. intros x Hx. apply sameV_rows, S1; neq.
              ** apply sameV_rows, S1; neq.
              ** apply flat_map_ext_in. intros x Hx. apply sameV_rows, S1; neq.
      * cbn [bal ht]. unfold t in *. cbn [ht] in *. repeat split; auto; lia.
      * unfold t. cbn [ht] in *. lia.
      * unfold t. cbn [ht] in *. lia.
  - destruct (Z.ltb_spec (ht r) (ht l)) as [|_]; [lia|].
    destruct r as [|e b d]; [cbn [ht] in *; lia|].
    cbn [addr st] in EQ, Hr. destruct Hr as (B0 & B1 & B2 & B3 & B4 & B5 & He & Hd). rewrite B4, B5 in EQ.
    cbn [bal] in Br. destruct Br as (Be & Bdd & Bde). pose proof (ht_nonneg d); pose proof (ht_nonneg e).
    destruct (Z.ltb_spec (ht d) (ht e)) as [L|L].
    + destruct e as [|f e g]; [cbn [ht] in *; lia|].
      destruct (rot_RL s _ l a f e g b d H Nt Hh) as (s0 & s1 & V1 & V2 & V3 & V4 & L1 & L2 & (W1 & W2 & W3 & W4) & R1 & R2 & R3 & R4).
      pose proof (ht_nonneg f); pose proof (ht_nonneg g).
      cbn [bal] in Be. destruct Be as (Bf & Bg & Bfg).
      apply (FIN _ (Nd (Nd l a f) e (Nd g b d)) s1 (EQ _ eq_refl) R1 R2); try discriminate; try exact R3; try exact R4.
      * unfold t. cbn [ino]. repeat (rewrite <- app_assoc; cbn [app]). reflexivity.
      * cbn [addr]. unfold t in Nt. cbn [ino] in Nt. repeat (rewrite <- app_assoc in *; cbn [app] in *). ndx Nt. congruence.
      * clear FIN. assert (Nbe : b <> e).
        { unfold t in Nt. cbn [ino] in Nt. repeat (rewrite <- app_assoc in *; cbn [app] in *). ndx Nt. congruence. }
        assert (V0 : sameVall s s0) by exact (conj V1 (conj V2 (conj V3 V4))).
        assert (VW : sameVall (special_rl key s0 b e) s1) by exact (conj W1 (conj W2 (conj W3 W4))).
        apply (keepV_trans s s0); [now apply keepV_refl|]. apply (keepV_trans s0 (special_rl key s0 b e)); [|now apply keepV_refl].
        split.
        -- intros x Hx. unfold t in Hx. cbn [ino] in Hx. repeat (rewrite <- app_assoc in Hx; cbn [app] in Hx). dnn Hx.
           unfold special_rl. destruct (_ && _); [|repeat split]. unfold sameV. prj. ux.
           destruct (Z.eqb_spec x b); [congruence|]. destruct (Z.eqb_spec x e); [congruence|]. repeat split.
        -- intros F. rewrite Forall_forall in F.
           assert (Ob : node_ok key s0 b) by (apply F; unfold t; cbn [ino]; repeat (rewrite <- app_assoc; cbn [app]); mem).
           assert (Oe : node_ok key s0 e) by (apply F; unfold t; cbn [ino]; repeat (rewrite <- app_assoc; cbn [app]); mem).
           destruct (special_rl_V key s0 b e Nbe Ob Oe) as (S1 & (S2 & S3 & S4) & S5). split.
           ++ rewrite Forall_forall. intros x Hx. destruct (Z.eq_dec x b) as [->|]; [exact S3|]. destruct (Z.eq_dec x e) as [->|]; [exact S4|].
              apply (sameV_ok key s0); auto.
           ++ destruct f as [|f1 f2 f3]; [|rewrite S5; [reflexivity|left; rewrite L1; cbn [addr]; cbn [st] in He; tauto]].
              destruct g as [|g1 g2 g3]; [|rewrite S5; [reflexivity|right; rewrite L2; cbn [addr]; cbn [st] in He; tauto]].
              unfold t in *. cbn [ino] in *. repeat (rewrite <- app_assoc in *; cbn [app] in *).
              rewrite !flat_map_app. cbn [flat_map]. rewrite (app_assoc (rows _ e) (rows _ b)). rewrite S2.
              rewrite <- !app_assoc. clear - Nt S1. ndx Nt. f_equal; [|f_equal; [|f_equal; f_equal]].
              ** apply flat_map_ext_in. intros x Hx. apply sameV_rows, S1; neq.
              ** apply sameV_rows, S1; neq.
              ** apply flat_map_ext_in. intros x Hx. apply sameV_rows, S1; neq.
      * cbn [bal ht]. unfold t in *. cbn [ht] in *. repeat split; auto; lia.
      * unfold t. cbn [ht] in *. lia.
      * unfold t. cbn [ht] in *. lia.
    + destruct (rot_RR s _ l a e b d H Nt Hh) as (s1 & R1 & R2 & R3 & R4 & R5).
      apply (FIN _ (Nd (Nd l a e) b d) s1 (EQ _ eq_refl) R1 R2); try discriminate; try exact R3; try exact R4.
      * unfold t. cbn [ino]. now rewrite <- app_assoc.
      * cbn [addr]. unfold t in Nt. cbn [ino] in Nt. repeat (rewrite <- app_assoc in *; cbn [app] in *). ndx Nt. congruence.
      * apply keepV_refl. exact R5.
      * cbn [bal ht]. unfold t in *. cbn [ht] in *. repeat split; auto; lia.
      * unfold t. cbn [ht] in *. lia.
      * unfold t. cbn [ht] in *. lia.
Qed.
End K.
