(** Shape of a T-tree: the nodes as a binary tree of addresses. *)
From Coq Require Import ZArith List Bool Lia Permutation.
From Verif Require Import Base EncodingModel CompareModel TtreeModel.
Import ListNotations.
Open Scope Z_scope.
#[local] Ltac Zify.zify_post_hook ::= idtac.

Ltac prj := cbn [hpar hmax hmin hn hlh hrh harr hleft hright hsucc hpred troot tminn tmaxn
  set_par set_max set_min set_n set_lh set_rh set_arr set_left set_right set_succ set_pred set_root set_minn set_maxn].


Inductive tree := Lf | Nd (l : tree) (a : Z) (r : tree).
Definition addr (t : tree) : Z := match t with Lf => 0 | Nd _ a _ => a end.
Fixpoint ht (t : tree) : Z := match t with Lf => 0 | Nd l _ r => 1 + Z.max (ht l) (ht r) end.
Fixpoint ino (t : tree) : list Z := match t with Lf => [] | Nd l a r => ino l ++ a :: ino r end.
Fixpoint bal (t : tree) : Prop :=
  match t with Lf => True | Nd l _ r => bal l /\ bal r /\ -1 <= ht l - ht r <= 1 end.

Fixpoint st (s : tt) (p : Z) (t : tree) : Prop :=
  match t with
  | Lf => True
  | Nd l a r => a <> 0 /\ hpar s a = p /\ hleft s a = addr l /\ hright s a = addr r /\
                hlh s a = ht l /\ hrh s a = ht r /\ st s a l /\ st s a r
  end.

Inductive frame := FL (a : Z) (r : tree) | FR (l : tree) (a : Z).
Definition caddr (c : list frame) : Z :=
  match c with [] => 0 | FL a _ :: _ => a | FR _ a :: _ => a end.
Fixpoint plug (c : list frame) (t : tree) : tree :=
  match c with [] => t | FL a r :: c' => plug c' (Nd t a r) | FR l a :: c' => plug c' (Nd l a t) end.
Fixpoint lctx (c : list frame) : list Z :=
  match c with [] => [] | FL _ _ :: c' => lctx c' | FR l a :: c' => lctx c' ++ ino l ++ [a] end.
Fixpoint rctx (c : list frame) : list Z :=
  match c with [] => [] | FL a r :: c' => a :: ino r ++ rctx c' | FR _ _ :: c' => rctx c' end.
(** [hi]: height written in the innermost frame; [h]: height the outer frames reckon with. *)
Fixpoint cok (s : tt) (c : list frame) (x hi h : Z) : Prop :=
  match c with
  | [] => troot s = x
  | FL a r :: c' => a <> 0 /\ hpar s a = caddr c' /\ hleft s a = x /\ hright s a = addr r /\
                    hlh s a = hi /\ hrh s a = ht r /\ st s a r /\ bal r /\ -1 <= h - ht r <= 1 /\
                    cok s c' a (1 + Z.max h (ht r)) (1 + Z.max h (ht r))
  | FR l a :: c' => a <> 0 /\ hpar s a = caddr c' /\ hleft s a = addr l /\ hright s a = x /\
                    hlh s a = ht l /\ hrh s a = hi /\ st s a l /\ bal l /\ -1 <= ht l - h <= 1 /\
                    cok s c' a (1 + Z.max (ht l) h) (1 + Z.max (ht l) h)
  end.

Lemma nd_l {A} (x y : list A) : NoDup (x ++ y) -> NoDup x.
Proof. induction x as [|a x IH]; cbn [app]; intros H; [constructor|]. inversion H; subst. constructor; [rewrite in_app_iff in *; tauto|auto]. Qed.
Lemma nd_r {A} (x y : list A) : NoDup (x ++ y) -> NoDup y.
Proof. induction x as [|a x IH]; cbn [app]; intros H; [exact H|]. inversion H; auto. Qed.
Lemma nd_dis {A} (x y : list A) : NoDup (x ++ y) -> forall a, In a x -> In a y -> False.
Proof.
  induction x as [|b x IH]; cbn [app]; intros H a Ha Hy; [easy|]. inversion H; subst.
  destruct Ha as [->|Ha]; [rewrite in_app_iff in *; tauto|eauto].
Qed.
Lemma ht_nonneg t : 0 <= ht t.
Proof. induction t; cbn [ht]; lia. Qed.
Lemma ino_plug c : forall t, ino (plug c t) = lctx c ++ ino t ++ rctx c.
Proof.
  induction c as [|f c IH]; intros t; cbn [plug lctx rctx]; [now rewrite app_nil_r|].
  destruct f; rewrite IH; cbn [ino]; repeat rewrite <- app_assoc; reflexivity.
Qed.
Lemma caddr_in c : c <> [] -> In (caddr c) (lctx c ++ rctx c).
Proof.
  destruct c as [|[]]; intros H; [now elim H| |]; cbn [caddr lctx rctx]; rewrite !in_app_iff; cbn [In]; auto.
Qed.

(** ** Shape depends on the shape fields only *)
Definition sameS (s s' : tt) (x : Z) : Prop :=
  hpar s' x = hpar s x /\ hleft s' x = hleft s x /\ hright s' x = hright s x /\
  hlh s' x = hlh s x /\ hrh s' x = hrh s x.
Lemma st_frame s s' p p' t :
  st s p t ->
  (forall x, In x (ino t) -> hleft s' x = hleft s x /\ hright s' x = hright s x /\ hlh s' x = hlh s x /\ hrh s' x = hrh s x) ->
  (forall x, In x (ino t) -> x <> addr t -> hpar s' x = hpar s x) ->
  (t <> Lf -> hpar s' (addr t) = p') -> NoDup (ino t) -> st s' p' t.
Proof.
  revert p p'. induction t as [|l IHl a r IHr]; intros p p' H F P Q N; cbn [st]; [exact I|].
  cbn [st] in H. destruct H as (A0 & A1 & A2 & A3 & A4 & A5 & Hl & Hr). cbn [ino addr] in *.
  destruct (F a ltac:(rewrite in_app_iff; cbn; auto)) as (F1 & F2 & F3 & F4).
  assert (Nl : NoDup (ino l)) by (exact (nd_l _ _ N)).
  assert (Nr : NoDup (ino r)) by (apply NoDup_remove_1 in N; exact (nd_r _ _ N)).
  assert (Na : ~ In a (ino l ++ ino r)) by (apply NoDup_remove_2; exact N).
  rewrite in_app_iff in Na.
  repeat split; try congruence; try (apply Q; discriminate).
  - apply (IHl a a Hl); auto.
    + intros x Hx. apply F. rewrite in_app_iff; auto.
    + intros x Hx _. apply P; [rewrite in_app_iff; auto|intros ->; auto].
    + intros Hn. rewrite P; [| |].
      * destruct l; [now elim Hn|]. cbn [st addr] in *. tauto.
      * rewrite in_app_iff. left. destruct l; [now elim Hn|]. cbn [ino addr]. rewrite in_app_iff; cbn; auto.
      * intros E. apply Na. left. rewrite <- E. destruct l; [now elim Hn|]. cbn [ino addr]. rewrite in_app_iff; cbn; auto.
  - apply (IHr a a Hr); auto.
    + intros x Hx. apply F. rewrite in_app_iff; cbn; auto.
    + intros x Hx _. apply P; [rewrite in_app_iff; cbn; auto|intros ->; auto].
    + intros Hn. rewrite P; [| |].
      * destruct r; [now elim Hn|]. cbn [st addr] in *. tauto.
      * rewrite in_app_iff. right. right. destruct r; [now elim Hn|]. cbn [ino addr]. rewrite in_app_iff; cbn; auto.
      * intros E. apply Na. right. rewrite <- E. destruct r; [now elim Hn|]. cbn [ino addr]. rewrite in_app_iff; cbn; auto.
Qed.
Lemma st_same s s' p t : st s p t -> (forall x, In x (ino t) -> sameS s s' x) -> st s' p t.
Proof.
  revert p. induction t as [|l IHl a r IHr]; intros p H F; [exact I|]. cbn [st ino] in *.
  destruct H as (A0 & A1 & A2 & A3 & A4 & A5 & Hl & Hr).
  destruct (F a ltac:(rewrite in_app_iff; cbn; auto)) as (F0 & F1 & F2 & F3 & F4).
  repeat split; try congruence.
  - apply IHl; [exact Hl|]. intros x Hx. apply F. rewrite in_app_iff; auto.
  - apply IHr; [exact Hr|]. intros x Hx. apply F. rewrite in_app_iff; cbn; auto.
Qed.
Lemma cok_same s s' c : forall x hi h, cok s c x hi h -> (forall y, In y (lctx c ++ rctx c) -> sameS s s' y) ->
  troot s' = troot s -> cok s' c x hi h.
Proof.
  induction c as [|f c IH]; intros x hi h H F T; cbn [cok] in *; [congruence|].
  destruct f as [a r|l a]; destruct H as (A0 & A1 & A2 & A3 & A4 & A5 & A6 & A7 & A8 & A9); cbn [lctx rctx] in F.
  - destruct (F a ltac:(rewrite in_app_iff; cbn; auto)) as (F0 & F1 & F2 & F3 & F4).
    repeat split; try congruence; try lia.
    + apply (st_same s); [exact A6|]. intros y Hy. apply F. rewrite in_app_iff; cbn. rewrite in_app_iff. auto.
    + apply IH; [exact A9| |exact T]. intros y Hy. apply F. rewrite in_app_iff in *; cbn. rewrite in_app_iff. tauto.
  - destruct (F a ltac:(rewrite !in_app_iff; cbn; auto)) as (F0 & F1 & F2 & F3 & F4).
    repeat split; try congruence; try lia.
    + apply (st_same s); [exact A6|]. intros y Hy. apply F. rewrite !in_app_iff; auto.
    + apply IH; [exact A9| |exact T]. intros y Hy. apply F. rewrite !in_app_iff in *; tauto.
Qed.
(** Replace what the innermost frame says about its hole. *)
Definition hole_set (s s' : tt) (c : list frame) (x hi : Z) : Prop :=
  match c with
  | [] => troot s' = x
  | FL a _ :: _ => hpar s' a = hpar s a /\ hleft s' a = x /\ hright s' a = hright s a /\ hlh s' a = hi /\ hrh s' a = hrh s a
  | FR _ a :: _ => hpar s' a = hpar s a /\ hleft s' a = hleft s a /\ hright s' a = x /\ hlh s' a = hlh s a /\ hrh s' a = hi
  end.
Lemma cok_hole s s' c x hi h x' hi' : cok s c x hi h -> hole_set s s' c x' hi' ->
  (forall y, In y (lctx c ++ rctx c) -> y <> caddr c -> sameS s s' y) ->
  NoDup (lctx c ++ rctx c) ->
  (c <> [] -> troot s' = troot s) -> cok s' c x' hi' h.
Proof.
  intros H W F N T. destruct c as [|f c]; [exact W|]. specialize (T ltac:(discriminate)).
  cbn [cok hole_set caddr lctx rctx] in *.
  destruct f as [a r|l a]; destruct H as (A0 & A1 & A2 & A3 & A4 & A5 & A6 & A7 & A8 & A9);
    destruct W as (W0 & W1 & W2 & W3 & W4).
  - apply NoDup_remove_2 in N. rewrite in_app_iff, in_app_iff in N.
    repeat split; try congruence; try lia.
    + apply (st_same s); [exact A6|]. intros y Hy. apply F; [rewrite in_app_iff; cbn; rewrite in_app_iff; auto|intros ->; auto].
    + apply (cok_same s); [exact A9| |exact T]. intros y Hy. apply F.
      * rewrite in_app_iff in *; cbn; rewrite in_app_iff; tauto.
      * intros ->. rewrite in_app_iff in Hy. tauto.
  - repeat rewrite <- app_assoc in N. cbn [app] in N. rewrite app_assoc in N. apply NoDup_remove_2 in N.
    rewrite !in_app_iff in N. repeat split; try congruence; try lia.
    + apply (st_same s); [exact A6|]. intros y Hy. apply F; [rewrite !in_app_iff; auto|intros ->; auto].
    + apply (cok_same s); [exact A9| |exact T]. intros y Hy. apply F.
      * rewrite !in_app_iff in *; tauto.
      * intros ->. rewrite in_app_iff in Hy. tauto.
Qed.
(** A context that reckons with the right height gives a well-formed tree. *)
Lemma cok_plug s c : forall t, st s (caddr c) t -> bal t -> cok s c (addr t) (ht t) (ht t) ->
  st s 0 (plug c t) /\ bal (plug c t) /\ troot s = addr (plug c t).
Proof.
  induction c as [|f c IH]; intros t H B C; cbn [plug caddr cok] in *; [auto|].
  destruct f as [a r|l a]; destruct C as (A0 & A1 & A2 & A3 & A4 & A5 & A6 & A7 & A8 & A9); apply IH;
    cbn [st bal ht addr]; repeat split; auto; lia.
Qed.
Lemma plug_cok s c : forall t, st s 0 (plug c t) -> bal (plug c t) -> troot s = addr (plug c t) ->
  st s (caddr c) t /\ bal t /\ cok s c (addr t) (ht t) (ht t).
Proof.
  induction c as [|f c IH]; intros t H B R; cbn [plug caddr cok] in *; [auto|].
  destruct f as [a r|l a]; apply IH in H; auto; cbn [st bal ht addr] in H; destruct H as (H & H' & H'');
    repeat split; try tauto; lia.
Qed.
(** Every node of a tree is in focus of some context. *)
Lemma focus t a : In a (ino t) -> exists c l r, t = plug c (Nd l a r).
Proof.
  assert (G : forall t, In a (ino t) -> forall c0, exists c l r, plug c0 t = plug c (Nd l a r)).
  { clear t. induction t as [|l IHl b r IHr]; cbn [ino]; [easy|]. intros H c0. rewrite in_app_iff in H. cbn [In] in H.
    destruct H as [H|[->|H]].
    - destruct (IHl H (FL b r :: c0)) as (c & l' & r' & E). exists c, l', r'. exact E.
    - now exists c0, l, r.
    - destruct (IHr H (FR l b :: c0)) as (c & l' & r' & E). exists c, l', r'. exact E. }
  intros H. exact (G t H []).
Qed.
(** ** Height bound *)
Lemma ht_size t : bal t -> 2 ^ (ht t / 2) <= Z.of_nat (length (ino t)) + 1.
Proof.
  assert (G : forall n t, ht t <= Z.of_nat n -> bal t -> 2 ^ (ht t / 2) <= Z.of_nat (length (ino t)) + 1).
  { induction n as [|n IH]; intros u Hn B.
    - destruct u as [|l a r]; cbn [ht ino length] in *; [cbn; lia|]. pose proof (ht_nonneg l). lia.
    - destruct u as [|l a r]; cbn [ht ino length bal] in *; [cbn; lia|].
      destruct B as (Bl & Br & Bb). rewrite app_length. cbn [length].
      pose proof (ht_nonneg l). pose proof (ht_nonneg r).
      pose proof (IH l ltac:(lia) Bl) as Il. pose proof (IH r ltac:(lia) Br) as Ir.
      set (m := Z.max (ht l) (ht r)) in *.
      destruct (Z.eq_dec m 0) as [M|M]; [rewrite M; cbn; lia|].
      assert (P : forall h, m - 1 <= h -> 2 ^ ((m - 1) / 2) <= 2 ^ (h / 2)).
      { intros h Hh. apply Z.pow_le_mono_r; [lia|]. apply Z.div_le_mono; lia. }
      pose proof (P (ht l) ltac:(lia)). pose proof (P (ht r) ltac:(lia)).
      replace ((1 + m) / 2) with ((m - 1) / 2 + 1).
      2:{ replace (1 + m) with (m - 1 + 1 * 2) by lia. rewrite Z.div_add by lia. lia. }
      rewrite Z.pow_add_r; [change (2 ^ 1) with 2; lia| |lia]. apply Z.div_pos; lia. }
  intros B. apply (G (Z.to_nat (ht t))); [|exact B]. rewrite Z2Nat.id; [lia|apply ht_nonneg].
Qed.
Definition okaddr (a : Z) : Prop := 0 < a < 2 ^ 63.
Lemma nodup_bound (L : list Z) n : 0 <= n -> NoDup L -> (forall x, In x L -> 0 < x < n) -> Z.of_nat (length L) <= n.
Proof.
  intros Hn N F. rewrite <- (Z2Nat.id n Hn). apply inj_le. rewrite <- (map_length Z.to_nat).
  rewrite <- (seq_length (Z.to_nat n) 0). apply NoDup_incl_length.
  - clear Hn. induction N as [|x L Hx N IH]; cbn [map]; constructor.
    + rewrite in_map_iff. intros (y & E & Hy). apply Hx.
      pose proof (F x ltac:(cbn; auto)). pose proof (F y ltac:(cbn; auto)).
      replace x with y; [exact Hy|]. apply Z2Nat.inj in E; lia.
    + apply IH. intros y Hy. apply F. now right.
  - intros k Hk. rewrite in_map_iff in Hk. destruct Hk as (y & <- & Hy). specialize (F y Hy). apply in_seq. lia.
Qed.
Lemma ht_bound t : bal t -> NoDup (ino t) -> Forall okaddr (ino t) -> ht t < 128.
Proof.
  intros B N F. pose proof (ht_size t B) as S1. pose proof (ht_nonneg t).
  pose proof (nodup_bound (ino t) (2 ^ 63) ltac:(lia) N) as S2.
  rewrite Forall_forall in F. specialize (S2 F).
  assert (E : 2 ^ (ht t / 2) < 2 ^ 64) by (change (2 ^ 64) with (2 * 2 ^ 63); lia).
  apply Z.pow_lt_mono_r_iff in E; [|lia|lia].
  destruct (Z.lt_ge_cases (ht t) 128) as [|G]; [assumption|].
  pose proof (Z.div_le_mono 128 (ht t) 2 ltac:(lia) G) as G2. change (128 / 2) with 64 in G2. lia.
Qed.
