(** Lemmas on the maintenance of T-tree indexes. *)
From Coq Require Import ZArith List Bool Lia Permutation.
From Verif Require Import Base EncodingModel CompareModel TtreeModel TtreeOrd TtreeReach TtreeProps RecordModel RecordProofs IndexMaintModel.
Import ListNotations.
Open Scope Z_scope.
#[local] Ltac Zify.zify_post_hook ::= idtac.

Lemma F2_impl {A B} (P Q : A -> B -> Prop) : (forall a b, P a b -> Q a b) -> forall l l', Forall2 P l l' -> Forall2 Q l l'.
Proof. intros I l l' H. induction H; constructor; auto. Qed.

(** * Walks over lists of indexes *)
Definition keeps_shape (act : idx -> option (idx * Z)) : Prop :=
  forall x x' c, act x = Some (x', c) -> x_col x' = x_col x /\ x_tmpl x' = x_tmpl x /\ (c = 0 \/ c = -2).

Definition done (sel : idx -> bool) (act : idx -> option (idx * Z)) (x x' : idx) : Prop :=
  if sel x then act x = Some (x', 0) else x' = x.

Lemma walk_done sel act : forall l l', walk sel act l = Some (l', 0) -> Forall2 (done sel act) l l'.
Proof.
  induction l as [|x l IH]; intros l' E; cbn [walk] in E.
  - injection E as <-. constructor.
  - destruct (sel x) eqn:Es.
    + destruct (act x) as [[x' c]|] eqn:Ea; [|discriminate]. destruct (Z.eqb_spec c 0) as [-> | N]; cbn [negb] in E; [|congruence].
      destruct (walk sel act l) as [[l1 c]|]; [|discriminate]. injection E as <- ->. constructor; [|now apply IH]. unfold done. now rewrite Es.
    + destruct (walk sel act l) as [[l1 c]|]; [|discriminate]. injection E as <- ->. constructor; [|now apply IH]. unfold done. now rewrite Es.
Qed.
Lemma walk_code sel act : keeps_shape act -> forall l l' c, walk sel act l = Some (l', c) -> c = 0 \/ c = -2.
Proof.
  intros K. induction l as [|x l IH]; intros l' c E; cbn [walk] in E.
  - injection E as <- <-. now left.
  - destruct (sel x).
    + destruct (act x) as [[x' c1]|] eqn:Ea; [|discriminate]. destruct (Z.eqb_spec c1 0) as [-> | N]; cbn [negb] in E.
      * destruct (walk sel act l) as [[l1 c2]|]; [|discriminate]. injection E as <- <-. eauto.
      * injection E as <- <-. now apply (K x x').
    + destruct (walk sel act l) as [[l1 c2]|]; [|discriminate]. injection E as <- <-. eauto.
Qed.

(** Two walks over disjoint lists are one. *)
Lemma done_two sel1 sel2 act : keeps_shape act -> (forall x y, x_col x = x_col y -> x_tmpl x = x_tmpl y -> sel2 x = sel2 y) ->
  forall l l1 l2, Forall (fun x => sel1 x = true -> sel2 x = false) l ->
  Forall2 (done sel1 act) l l1 -> Forall2 (done sel2 act) l1 l2 -> Forall2 (done (fun x => sel1 x || sel2 x) act) l l2.
Proof.
  intros K C l l1 l2 F A. revert l2. induction A as [|x x1 l l1 D A IH]; intros l2 B; inversion B as [|? x2 ? l2' D2 B']; subst; [constructor|].
  apply Forall_cons_iff in F as (Fx & F). constructor; [|now apply IH]. unfold done in *.
  destruct (sel1 x) eqn:S1; cbn [orb].
  - destruct (K _ _ _ D) as (K1 & K2 & _). rewrite (C x1 x) in D2 by congruence. rewrite (Fx eq_refl) in D2. now subst.
  - subst x1. destruct (sel2 x); assumption.
Qed.

Lemma columns_done act : keeps_shape act -> forall n i l l', columns_loop n i act l = Some (l', 0) ->
  Forall2 (done (fun x => (i <=? x_col x) && (x_col x <? i + Z.of_nat n)) act) l l'.
Proof.
  intros K. induction n as [|n IH]; intros i l l' E; cbn [columns_loop] in E.
  - injection E as <-. induction l as [|x l IHl]; constructor; [|assumption]. unfold done.
    destruct (Z.leb_spec i (x_col x)), (Z.ltb_spec (x_col x) (i + Z.of_nat 0)); cbn [andb]; try reflexivity. lia.
  - destruct (walk (on_column i) act l) as [[l1 c]|] eqn:Ew; [|discriminate]. destruct (Z.eqb_spec c 0) as [-> | N]; cbn [negb] in E; [|congruence].
    apply walk_done in Ew. apply IH in E.
    assert (B : Forall2 (done (fun x => on_column i x || ((i + 1 <=? x_col x) && (x_col x <? i + 1 + Z.of_nat n))) act) l l').
    { apply (done_two _ _ act K) with (l1 := l1); [intros x y -> _; reflexivity| |assumption|assumption].
      apply Forall_forall. intros x _. unfold on_column. destruct (Z.eqb_spec (x_col x) i); [|discriminate]. intros _.
      destruct (Z.leb_spec (i + 1) (x_col x)); [lia|reflexivity]. }
    eapply F2_impl; [|exact B]. intros x x'. unfold done, on_column.
    replace ((x_col x =? i) || (i + 1 <=? x_col x) && (x_col x <? i + 1 + Z.of_nat n)) with ((i <=? x_col x) && (x_col x <? i + Z.of_nat (S n))); [auto|].
    destruct (Z.eqb_spec (x_col x) i), (Z.leb_spec i (x_col x)), (Z.leb_spec (i + 1) (x_col x)), (Z.ltb_spec (x_col x) (i + Z.of_nat (S n))), (Z.ltb_spec (x_col x) (i + 1 + Z.of_nat n));
      cbn [orb andb]; try reflexivity; lia.
Qed.
Lemma columns_code act : keeps_shape act -> forall n i l l' c, columns_loop n i act l = Some (l', c) -> c = 0 \/ c = -2.
Proof.
  intros K. induction n as [|n IH]; intros i l l' c E; cbn [columns_loop] in E; [injection E as <- <-; now left|].
  destruct (walk (on_column i) act l) as [[l1 c1]|] eqn:Ew; [|discriminate]. destruct (Z.eqb_spec c1 0) as [-> | N]; cbn [negb] in E; [eauto|].
  injection E as <- <-. now apply (walk_code _ _ K _ _ _ Ew).
Qed.

(** * One tree *)
Section Tree.
Context {V : Type} (cmp : rmap -> V -> Z -> Z -> Z) (dom : rmap -> V -> Z -> Prop).

Definition holds (m : rmap) (v : V) (x : idx) (G : list Z) : Prop :=
  treach (cmp m v) (dom m v) (x_tree x) (key m (x_col x)) (Some G).

Lemma holds_walk m v x G : holds m v x G -> exists n W, walk_chain n (x_tree x) (tminn (x_tree x)) = Some W /\ Permutation W G.
Proof.
  intros H. pose proof (treach_ko _ _ _ _ _ H) as KO. destruct (C21_index_contents _ _ KO _ _ _ H) as (W & P & _ & E).
  exists (S (length G)), W. split; [apply E; lia|exact P].
Qed.

Definition good_alloc (alloc : tt -> Z) : Prop := forall s, alloc s = 0 \/ 0 < alloc s < 2 ^ 63 /\ ~ in_index s (alloc s).

Lemma add_row_holds fuel alloc m v x G o x' : holds m v x G -> dom m v (key m (x_col x) o) -> good_alloc alloc ->
  add_row cmp fuel alloc m v x o = Some (x', 0) -> holds m v x' (o :: G).
Proof.
  unfold add_row. intros H D A E. destruct (ttree_add_row _ _ _ _ _ _) as [[t rc]|] eqn:Et; [|discriminate]. injection E as <- Hc.
  destruct (Z.eqb_spec rc 0) as [-> | N]; [|discriminate]. unfold holds, with_tree in *. cbn [x_tree x_col].
  exact (tr_add _ _ _ _ _ _ _ _ _ _ H D (A (x_tree x)) Et).
Qed.
Lemma remove_row_holds fuel junk m v x G o x' c : holds m v x G -> In o G -> dom m v (key m (x_col x) o) ->
  remove_row cmp fuel junk m v x o = Some (x', c) -> c = 0 /\ holds m v x' (remove_one o G).
Proof.
  unfold remove_row. intros H Hi D E. destruct (ttree_remove_row _ _ _ _ _ _) as [[t rc]|] eqn:Et; [|discriminate]. injection E as <- <-.
  destruct (holds_walk _ _ _ _ H) as (n & W & EW & P). pose proof (treach_ko _ _ _ _ _ H) as KO.
  destruct (C21_remove_succeeds _ _ KO _ _ _ o junk n W H D EW) as (s' & f & Ef); [eapply Permutation_in; [apply Permutation_sym, P|exact Hi]|].
  assert (rc = 0).
  { apply (remove_row_mono _ _ fuel (Nat.max fuel f)) in Et; [|lia]. specialize (Ef (Nat.max fuel f) ltac:(lia)). congruence. }
  subst rc. split; [reflexivity|]. unfold holds, with_tree in *. cbn [x_tree x_col].
  exact (tr_remove _ _ _ _ _ _ _ _ _ _ H D Et).
Qed.
Lemma view_holds m v m' v' x G : holds m v x G -> keyorder (cmp m' v') (dom m' v') ->
  (forall o, In o G -> key m' (x_col x) o = key m (x_col x) o /\ dom m' v' (key m (x_col x) o)) ->
  (forall a b, In a G -> In b G -> cmp m' v' (key m (x_col x) a) (key m (x_col x) b) = cmp m v (key m (x_col x) a) (key m (x_col x) b)) ->
  holds m' v' x G.
Proof.
  intros H KO K C. destruct (holds_walk _ _ _ _ H) as (n & W & EW & P). unfold holds in *.
  eapply tr_other; [exact H|exact EW|exact KO| |].
  - intros o Ho. apply K. now apply (Permutation_in o P).
  - intros a b Ha Hb. apply C; now apply (Permutation_in _ P).
Qed.
Lemma with_tree_shape fuel alloc junk m v o : keeps_shape (fun x => add_row cmp fuel alloc m v x o) /\ keeps_shape (fun x => remove_row cmp fuel junk m v x o).
Proof.
  split; intros x x' c E; [unfold add_row in E|unfold remove_row in E].
  - destruct (ttree_add_row _ _ _ _ _ _) as [[t rc]|]; [|discriminate]. injection E as <- <-. repeat split. destruct (rc =? 0); auto.
  - destruct (ttree_remove_row _ _ _ _ _ _) as [[t rc]|]; [|discriminate]. injection E as <- <-. repeat split. destruct (rc <? -2); auto.
Qed.
Lemma in_remove_one o p G : NoDup G -> In p (remove_one o G) <-> In p G /\ p <> o.
Proof.
  induction G as [|y G IH]; intros ND; cbn [remove_one In]; [tauto|]. inversion ND as [|? ? Ny ND']; subst. specialize (IH ND').
  destruct (Z.eqb_spec y o) as [-> | N].
  - split; [|intros ([-> | H] & Np); [contradiction|assumption]]. intros H. split; [now right|]. intros ->. contradiction.
  - cbn [In]. rewrite IH. split; [|tauto]. intros [-> | (H & Np)]; auto.
Qed.
Lemma remove_one_nodup o G : NoDup G -> NoDup (remove_one o G).
Proof.
  induction G as [|y G IH]; intros ND; cbn [remove_one]; [constructor|]. inversion ND as [|? ? Ny ND']; subst. specialize (IH ND').
  destruct (y =? o); [assumption|]. constructor; [|assumption]. intros H. apply in_remove_one in H; [tauto|assumption].
Qed.
End Tree.

Lemma F2_forall {A B} (R : A -> B -> Prop) (P : A -> Prop) (Q : B -> Prop) : (forall a b, P a -> R a b -> Q b) ->
  forall l l', Forall P l -> Forall2 R l l' -> Forall Q l'.
Proof.
  intros H l l' F A0. induction A0 as [|a b l l' Hab A0 IH]; [constructor|]. apply Forall_cons_iff in F as (Fa & F).
  constructor; eauto.
Qed.
Lemma field_in r c : 0 <= c < reclen r -> In (field r c) (r_fields r).
Proof. intros H. unfold field. apply nth_In. unfold reclen in H. lia. Qed.

(** * The state *)
Section Inv.
Context {V : Type} (cmp : rmap -> V -> Z -> Z -> Z) (dom : rmap -> V -> Z -> Prop) (v_ref v_free : V -> Z -> V).

Definition held (m : rmap) (x : Z) : Prop := exists p r, m p = Some r /\ In x (r_fields r).
Definition tval (l : list idx) (e : Z) : Prop := exists x t, In x l /\ x_tmpl x = Some t /\ In e t /\ fixed_value e = true.
(** The values of the match record of an index are among those of the list. *)
Definition tin (l : list idx) (x : idx) : Prop := forall t e, x_tmpl x = Some t -> In e t -> fixed_value e = true -> tval l e.
Definition unreferenced (m : rmap) (o : Z) : Prop := forall p r, m p = Some r -> ~ In o (r_fields r).
Definition keeps (m : rmap) (l : list idx) (v v' : V) : Prop :=
  forall x y, held m x \/ tval l x -> held m y \/ tval l y -> cmp m v' x y = cmp m v x y /\ (dom m v x -> dom m v' x).
Definition written (raw : Z -> option (list Z)) (c o : Z) : Prop := match raw o with None => True | Some cs => In c cs end.
Definition expected (m : rmap) (v : V) (raw : Z -> option (list Z)) (x : idx) (o : Z) : Prop :=
  exists r, m o = Some r /\ is_special_record r = false /\ x_col x < reclen r /\ MATCH_TEMPLATE cmp m v x r = true /\ written raw (x_col x) o.

(** What is fixed when an index is made. *)
Record shape (m : rmap) (v : V) (x : idx) : Prop := {
  sh_col : 0 <= x_col x <= MAX_INDEXED_FIELDNR;
  sh_own : fixes x (x_col x) = false;
  sh_len : forall t, x_tmpl x = Some t -> Z.of_nat (length t) <= MAX_INDEXED_FIELDNR + 1;
  sh_val : forall t e, x_tmpl x = Some t -> In e t -> fixed_value e = true -> is_record_ref e = false /\ dom m v e
}.
(** The index holds the rows satisfying [E], each once. *)
Definition rows (m : rmap) (v : V) (x : idx) (E : Z -> Prop) : Prop :=
  exists G, holds cmp dom m v x G /\ NoDup G /\ forall o, In o G <-> E o.

Record Inv (m : rmap) (v : V) (l : list idx) (raw : Z -> option (list Z)) : Prop := {
  i_ri : RI m;
  i_dom : forall x, held m x -> dom m v x;
  i_shape : Forall (shape m v) l;
  i_rows : Forall (fun x => rows m v x (expected m v raw x)) l;
  i_raw : (exists x, In x l /\ x_tmpl x <> None) -> forall o, m o <> None -> raw o = None
}.

Hypothesis H_order : forall m v, keyorder (cmp m v) (dom m v).
Hypothesis H_zero : forall m v, dom m v 0.
Hypothesis H_frame : forall m m' v (P : Z -> Prop),
  (forall x, P x -> is_record_ref x = true -> data_of m' x = data_of m x /\ forall r f, m x = Some r -> In f (r_fields r) -> P f) ->
  forall x y, P x -> P y -> cmp m' v x y = cmp m v x y /\ (dom m v x -> dom m' v x).

Lemma frame_all m m' v : (forall p, data_of m' p = data_of m p) -> forall x y, cmp m' v x y = cmp m v x y /\ (dom m v x -> dom m' v x).
Proof. intros D x y. apply (H_frame m m' v (fun _ => True)); auto. Qed.

Lemma unref m o r : RI m -> m o = Some r -> r_back r = [] -> unreferenced m o.
Proof.
  intros (L & B) E Eb p q Ep H. specialize (B o p (L o ltac:(congruence))). unfold backs, refs in B. rewrite E, Ep, Eb in B.
  apply cnt_in in H. change (cnt [] p) with 0 in B. lia.
Qed.
Lemma unref_none m o : RI m -> is_record_ref o = true -> m o = None -> unreferenced m o.
Proof. intros R L E p q Ep H. destruct (RI_live m p q o R Ep H L) as (c & Ec). congruence. Qed.

(** Changing an unreferenced record does not change the comparison of held values. *)
Lemma frame_held m m' v o : RI m -> unreferenced m o -> (forall p, p <> o -> data_of m' p = data_of m p) ->
  forall x y, (held m x \/ is_record_ref x = false) -> (held m y \/ is_record_ref y = false) ->
  cmp m' v x y = cmp m v x y /\ (dom m v x -> dom m' v x).
Proof.
  intros R U D x y Hx Hy.
  assert (HP : forall z, held m z \/ is_record_ref z = false -> is_record_ref z = false \/ held m z /\ z <> o).
  { intros z [(p & r & Ep & Hz) | Hz]; [right|now left]. split; [exists p, r; auto|]. intros ->. now apply (U p r). }
  apply (H_frame m m' v (fun z => is_record_ref z = false \/ held m z /\ z <> o)); [|now apply HP|now apply HP].
  intros z [Hz | (Hz & Nz)] Rz; [congruence|]. split; [now apply D|]. intros r f Er Hf. apply HP. left. now exists z, r.
Qed.

Lemma match_fields_eq m v m' v' : forall t fs fs', length fs = length fs' ->
  (forall j, (j < length t)%nat -> (j < length fs)%nat -> fixed_value (nth j t 0) = true ->
    (cmp m' v' (nth j t 0) (nth j fs' 0) =? WG_EQUAL) = (cmp m v (nth j t 0) (nth j fs 0) =? WG_EQUAL)) ->
  match_fields cmp m' v' t fs' = match_fields cmp m v t fs.
Proof.
  induction t as [|e t IH]; intros fs fs' L H; [reflexivity|]. destruct fs as [|f fs], fs' as [|f' fs']; try discriminate; [reflexivity|].
  cbn [match_fields]. rewrite (IH fs fs'); [|now injection L|].
  - destruct (fixed_value e) eqn:Fe; [|reflexivity]. specialize (H O). cbn [nth length] in H. rewrite H by (auto; lia). reflexivity.
  - intros j H1 H2. apply (H (S j)); cbn [length]; lia.
Qed.
Lemma match_eq m v m' v' x r r' : length (r_fields r) = length (r_fields r') ->
  (forall t j, x_tmpl x = Some t -> (j < length t)%nat -> (j < length (r_fields r))%nat -> fixed_value (nth j t 0) = true ->
    nth j (r_fields r') 0 = nth j (r_fields r) 0 /\
    cmp m' v' (nth j t 0) (nth j (r_fields r) 0) = cmp m v (nth j t 0) (nth j (r_fields r) 0)) ->
  MATCH_TEMPLATE cmp m' v' x r' = MATCH_TEMPLATE cmp m v x r.
Proof.
  intros L H. unfold MATCH_TEMPLATE. destruct (x_tmpl x) as [t|]; [|reflexivity]. unfold reclen. rewrite L.
  destruct (_ <? _); [reflexivity|]. apply match_fields_eq; [assumption|]. intros j H1 H2 F. destruct (H t j eq_refl H1 H2 F) as (-> & ->). reflexivity.
Qed.

(** ** Moving an index to a new state of records and values *)
Section Move.
Variables (m m' : rmap) (v v' : V) (o : Z) (l : list idx) (raw raw' : Z -> option (list Z)).
Hypotheses (R : RI m) (U : unreferenced m o) (D : forall p, p <> o -> data_of m' p = data_of m p)
  (K : keeps m' l v v') (Dm : forall x, held m x -> dom m v x) (Dm' : forall x, held m' x -> dom m' v' x).

Lemma cmp_moved x y : (held m x \/ is_record_ref x = false) -> (held m y \/ is_record_ref y = false) ->
  (held m' x \/ tval l x) -> (held m' y \/ tval l y) -> cmp m' v' x y = cmp m v x y.
Proof. intros A B A' B'. destruct (K x y A' B') as (-> & _). now apply (frame_held m m' v o). Qed.

Lemma held_moved p x : p <> o -> (exists r, m p = Some r /\ In x (r_fields r)) -> held m' x.
Proof.
  intros N (r & E & H). specialize (D p N). unfold data_of in D. rewrite E in D. destruct (m' p) as [r'|] eqn:E'; [|discriminate].
  injection D as D1 D2. exists p, r'. split; [assumption|]. now rewrite D2.
Qed.
Lemma key_moved p c : p <> o -> key m' c p = key m c p.
Proof.
  intros N. specialize (D p N). unfold data_of, key in *. destruct (m p) as [r|], (m' p) as [r'|]; try discriminate; [|reflexivity].
  injection D as D1 D2. unfold field. now rewrite D2.
Qed.

Lemma shape_moved x : tin l x -> shape m v x -> shape m' v' x.
Proof.
  intros I [A B C E]. split; auto. intros t e Et He Fe. destruct (E t e Et He Fe) as (Ne & De). split; [assumption|].
  assert (T : tval l e) by (now apply (I t e)).
  destruct (K e e (or_intror T) (or_intror T)) as (_ & H). apply H. now apply (frame_held m m' v o R U D e e (or_intror Ne) (or_intror Ne)).
Qed.

Lemma rows_moved x E : 0 <= x_col x -> rows m v x E ->
  (forall p, E p -> exists r, m p = Some r /\ x_col x < reclen r) ->
  (forall r, E o -> m o = Some r -> exists r', m' o = Some r' /\ reclen r' = reclen r /\ field r' (x_col x) = field r (x_col x)) ->
  rows m' v' x E.
Proof.
  intros C (G & H & ND & HG) Hr Ho. exists G. split; [|auto].
  assert (Hk : forall p, In p G -> held m (key m (x_col x) p) /\ held m' (key m (x_col x) p) /\ key m' (x_col x) p = key m (x_col x) p).
  { intros p Hp. apply HG in Hp. destruct (Hr p Hp) as (r & Er & Lr). unfold key at 1 2 4. rewrite Er.
    split; [exists p, r; split; [assumption|]; apply field_in; lia|].
    destruct (Z.eq_dec p o) as [-> | N].
    - destruct (Ho r Hp Er) as (r' & Er' & Lr' & Fr). unfold key. rewrite Er'. split; [|assumption].
      exists o, r'. split; [assumption|]. rewrite <- Fr. apply field_in. lia.
    - split; [apply (held_moved p); [assumption|exists r; split; [assumption|apply field_in; lia]]|].
      rewrite key_moved by assumption. unfold key. now rewrite Er. }
  apply (view_holds cmp dom m v m' v' x G H (H_order m' v')).
  - intros p Hp. destruct (Hk p Hp) as (A & B & ->). split; [reflexivity|]. now apply Dm'.
  - intros a b Ha Hb. destruct (Hk a Ha) as (A & B & _), (Hk b Hb) as (A2 & B2 & _). apply cmp_moved; auto.
Qed.

Lemma expected_moved x p : tin l x -> shape m v x -> p <> o -> raw' p = raw p -> expected m' v' raw' x p <-> expected m v raw x p.
Proof.
  intros I Sh N Ew. pose proof (D p N) as Dp. unfold data_of in Dp. unfold expected, written. rewrite Ew.
  destruct (m p) as [r|] eqn:E, (m' p) as [r'|] eqn:E'; try discriminate.
  2:{ split; intros (q & Eq & _); discriminate. }
  injection Dp as D1 D2.
  assert (M : MATCH_TEMPLATE cmp m' v' x r' = MATCH_TEMPLATE cmp m v x r).
  { apply match_eq; [congruence|]. intros t j Et Hj Hf Fv. split; [congruence|].
    assert (In (nth j t 0) t) by (apply nth_In; lia). assert (In (nth j (r_fields r) 0) (r_fields r)) by (apply nth_In; lia).
    apply cmp_moved.
    - right. eapply sh_val; eauto.
    - left. exists p, r. auto.
    - right. apply (I t); auto.
    - left. exists p, r'. split; [assumption|]. now rewrite D2. }
  assert (Sp : is_special_record r' = is_special_record r) by (unfold is_special_record; congruence).
  assert (Ln : reclen r' = reclen r) by (unfold reclen; congruence).
  split; intros (q & Eq & A & B & C & W); injection Eq as <-.
  - exists r. rewrite <- Sp, <- Ln, <- M. auto.
  - exists r'. rewrite Sp, Ln, M. auto.
Qed.
(** The same for the changed record, if the index does not look at the column changed. *)
Lemma expected_moved_o x i r r' : tin l x -> shape m v x -> m o = Some r -> m' o = Some r' -> r_meta r' = r_meta r ->
  length (r_fields r) = length (r_fields r') -> (forall j, j <> i -> 0 <= j -> field r' j = field r j) ->
  (is_special_record r = true \/ x_col x <> i /\ fixes x i = false) ->
  (written raw' (x_col x) o <-> written raw (x_col x) o \/ x_col x = i) ->
  expected m' v' raw' x o <-> expected m v raw x o.
Proof.
  intros I Sh E E' Em L F Ca W. unfold expected. rewrite E, E'.
  assert (Sp : is_special_record r' = is_special_record r) by (unfold is_special_record; congruence).
  assert (Ln : reclen r' = reclen r) by (unfold reclen; congruence).
  destruct Ca as [Sp1 | (N & Fx)].
  { split; intros (q & Eq & A & _); injection Eq as <-; congruence. }
  assert (M : MATCH_TEMPLATE cmp m' v' x r' = MATCH_TEMPLATE cmp m v x r).
  { apply match_eq; [congruence|]. intros t j Et Hj Hf Fv.
    assert (Nj : Z.of_nat j <> i).
    { intros <-. unfold fixes in Fx. rewrite Et in Fx. rewrite Nat2Z.id, Fv in Fx.
      destruct (Z.leb_spec 0 (Z.of_nat j)), (Z.ltb_spec (Z.of_nat j) (Z.of_nat (length t))); try lia; discriminate. }
    pose proof (F (Z.of_nat j) Nj ltac:(lia)) as Fj. unfold field in Fj. rewrite Nat2Z.id in Fj. split; [assumption|].
    assert (In (nth j t 0) t) by (apply nth_In; lia). assert (In (nth j (r_fields r) 0) (r_fields r)) by (apply nth_In; lia).
    apply cmp_moved.
    - right. eapply sh_val; eauto.
    - left. exists o, r. auto.
    - right. apply (I t); auto.
    - left. exists o, r'. split; [assumption|]. rewrite <- Fj. apply nth_In. lia. }
  split; intros (q & Eq & A & B & C & Wq); injection Eq as <-.
  - exists r. rewrite <- Sp, <- Ln, <- M. repeat split; auto. apply W in Wq. tauto.
  - exists r'. rewrite Sp, Ln, M. repeat split; auto. apply W. tauto.
Qed.
End Move.

(** ** Adding and removing a row *)
Lemma add_rows fuel alloc m v x E o x' : rows m v x E -> ~ E o -> dom m v (key m (x_col x) o) -> good_alloc alloc ->
  add_row cmp fuel alloc m v x o = Some (x', 0) -> rows m v x' (fun p => p = o \/ E p).
Proof.
  intros (G & H & ND & HG) N D A Ea. exists (o :: G). split; [now apply (add_row_holds cmp dom fuel alloc m v x G o x')|].
  split; [constructor; [|assumption]; now rewrite HG|]. intros p. cbn [In]. rewrite HG. intuition congruence.
Qed.
Lemma remove_rows fuel junk m v x E o x' : rows m v x E -> dom m v (key m (x_col x) o) ->
  remove_row cmp fuel junk m v x o = Some (x', 0) -> rows m v x' (fun p => E p /\ p <> o).
Proof.
  intros (G & H & ND & HG) D Er.
  destruct (in_dec Z.eq_dec o G) as [Hi | Hn].
  - destruct (remove_row_holds cmp dom fuel junk m v x G o x' 0 H Hi D Er) as (_ & H').
    exists (remove_one o G). split; [assumption|]. split; [now apply remove_one_nodup|]. intros p. rewrite in_remove_one by assumption. now rewrite HG.
  - unfold remove_row in Er. destruct (ttree_remove_row _ _ _ _ _ _) as [[t rc]|] eqn:Et; [|discriminate].
    assert (Ex : x' = with_tree x t) by congruence. assert (Ec : (if rc <? -2 then -2 else 0) = 0) by congruence. subst x'. clear Er.
    destruct (holds_walk _ _ _ _ _ _ H) as (n & W & EW & P).
    destruct (C21_remove_absent _ _ (H_order m v) _ _ _ o junk n W H D EW) as (rc' & f & Rc & Ef).
    + intros Hw. apply Hn. now apply (Permutation_in o P).
    + assert (Er : ttree_remove_row (cmp m v) (key m (x_col x)) (Nat.max fuel f) (x_tree x) o junk = Some (t, rc)) by (apply (remove_row_mono _ _ fuel); [lia|exact Et]).
      rewrite Ef in Er by lia. assert (rc' = rc) by congruence. assert (t = x_tree x) by congruence. subst rc' t.
      exists G. split; [|split; [assumption|]].
      * destruct x; exact H.
      * intros p. rewrite HG. split; [|tauto]. intros Hp. split; [assumption|]. intros ->. now apply Hn, HG.
Qed.

(** ** One call *)
Lemma tin_in l x : In x l -> tin l x.
Proof. intros I t e Et He Fe. exists x, t. auto. Qed.
Lemma tin_shape l x x' : x_tmpl x' = x_tmpl x -> tin l x -> tin l x'.
Proof. intros E H t e Et. rewrite E in Et. now apply H. Qed.
Lemma rows_ext m v x x' E E' : x_tree x' = x_tree x -> x_col x' = x_col x -> (forall p, E p <-> E' p) -> rows m v x E -> rows m v x' E'.
Proof. intros T C H (G & A & B & D). exists G. unfold holds in *. rewrite T, C. split; [assumption|]. split; [assumption|]. intros p. now rewrite D. Qed.
Lemma match_shape m v x x' r : x_tmpl x' = x_tmpl x -> MATCH_TEMPLATE cmp m v x' r = MATCH_TEMPLATE cmp m v x r.
Proof. intros E. unfold MATCH_TEMPLATE. now rewrite E. Qed.
Lemma expected_shape m v raw x x' p : x_col x' = x_col x -> x_tmpl x' = x_tmpl x -> expected m v raw x' p <-> expected m v raw x p.
Proof. intros C T. unfold expected. rewrite C. split; intros (r & H); exists r; [rewrite <- (match_shape m v x x' r T)|rewrite (match_shape m v x x' r T)]; auto. Qed.
Lemma fixes_shape x x' c : x_tmpl x' = x_tmpl x -> fixes x' c = fixes x c.
Proof. intros E. unfold fixes. now rewrite E. Qed.
Lemma shape_shape m v x x' : x_col x' = x_col x -> x_tmpl x' = x_tmpl x -> shape m v x -> shape m v x'.
Proof. intros C T [A B L W]. split; rewrite ?C, ?T; auto. now rewrite (fixes_shape x x'). Qed.

(** The indexes concerned by a change of column [i] of the record. *)
Definition tch (r : rec) (i : Z) (x : idx) : bool := negb (is_special_record r) && (on_column i x || fixes x i).

Lemma if_suits_shape row m v o r : (forall m v o, keeps_shape (fun x => row m v x o)) -> keeps_shape (if_suits cmp row m v o r).
Proof.
  intros K x x' c. unfold if_suits. destruct (_ && _); [apply K|]. intros E. injection E as <- <-. auto.
Qed.
Lemma done_refl (sel : idx -> bool) act l : (forall x, In x l -> sel x = false) -> Forall2 (done sel act) l l.
Proof.
  induction l as [|x l IH]; intros H; constructor; [|apply IH; intros y Hy; apply H; now right].
  unfold done. now rewrite (H x (or_introl eq_refl)).
Qed.
Lemma field_done row m v m0 v0 l o i r r' l' c : (forall m v o, keeps_shape (fun x => row m v x o)) ->
  Forall (shape m0 v0) l -> m o = Some r' -> is_special_record r' = is_special_record r -> reclen r' = reclen r -> 0 <= i < reclen r ->
  (if indexed ix_any l r i then index_field cmp row m v l o i else Some (l, 0)) = Some (l', c) -> -1 <= c ->
  Forall2 (done (tch r i) (if_suits cmp row m v o r')) l l'.
Proof.
  intros K Sh E Sp Ln Hi Ec Hc. unfold indexed, tch in *. destruct (is_special_record r) eqn:Es; cbn [negb andb] in *.
  { injection Ec as <- <-. now apply done_refl. }
  destruct (Z.leb_spec i MAX_INDEXED_FIELDNR) as [Li | Li]; cbn [andb] in Ec.
  2:{ injection Ec as <- <-. apply done_refl. intros x Hx. rewrite Forall_forall in Sh. destruct (Sh x Hx) as [A _ C _].
      unfold on_column, fixes. destruct (Z.eqb_spec (x_col x) i); [lia|]. cbn [orb]. destruct (x_tmpl x) as [t|]; [|reflexivity].
      specialize (C t eq_refl). destruct (Z.ltb_spec i (Z.of_nat (length t))); [lia|]. now rewrite andb_false_r. }
  destruct (ix_any l i) eqn:Ei.
  2:{ injection Ec as <- <-. apply done_refl. intros x Hx. destruct (on_column i x || fixes x i) eqn:F; [|reflexivity].
      assert (ix_any l i = true) by (apply existsb_exists; eauto). congruence. }
  unfold index_field in Ec. rewrite E, Sp, Ln in Ec. destruct (Z.ltb_spec MAX_INDEXED_FIELDNR i); [lia|]. destruct (Z.leb_spec (reclen r) i); [lia|]. cbn [orb] in Ec.
  pose proof (if_suits_shape row m v o r' K) as Ki.
  destruct (walk (on_column i) _ l) as [[l1 c1]|] eqn:E1; [|discriminate].
  destruct (walk_code _ _ Ki _ _ _ E1) as [-> | ->]; cbn [Z.eqb negb] in Ec; [|injection Ec as <- <-; lia].
  destruct (walk_code _ _ Ki _ _ _ Ec) as [-> | ->]; [|lia].
  apply walk_done in E1. apply walk_done in Ec.
  apply (done_two _ _ _ Ki) with (l1 := l1); auto.
  - intros x y _ T. now apply fixes_shape.
  - eapply Forall_impl; [|exact Sh]. intros x [_ B _ _] Hx. unfold on_column in Hx. apply Z.eqb_eq in Hx. now rewrite <- Hx.
Qed.

(** The rows after the removals. *)
Lemma stage1 fuel junk m v raw o r i x x1 : (forall x, held m x -> dom m v x) -> m o = Some r -> shape m v x ->
  rows m v x (expected m v raw x) -> done (tch r i) (if_suits cmp (remove_row cmp fuel junk) m v o r) x x1 ->
  x_col x1 = x_col x /\ x_tmpl x1 = x_tmpl x /\ rows m v x1 (fun p => expected m v raw x1 p /\ (tch r i x1 = true -> p <> o)).
Proof.
  intros Dm E Sh Hr Hd. unfold done in Hd.
  destruct (tch r i x) eqn:T.
  2:{ subst x1. repeat split. eapply rows_ext; [reflexivity|reflexivity| |exact Hr]. intros p. rewrite T. intuition discriminate. }
  destruct (if_suits_shape (remove_row cmp fuel junk) m v o r (fun m v o => proj2 (with_tree_shape cmp fuel (fun _ => 0) junk m v o)) _ _ _ Hd) as (C1 & T1 & _).
  split; [assumption|]. split; [assumption|].
  assert (T' : tch r i x1 = true) by (unfold tch, on_column in *; now rewrite C1, (fixes_shape x x1 i T1)).
  unfold if_suits in Hd. destruct (Z.ltb_spec (x_col x) (reclen r)) as [L | L]; cbn [andb] in Hd.
  2:{ injection Hd as <-. eapply rows_ext; [reflexivity|reflexivity| |exact Hr]. intros p. split; [|tauto]. intros Hp. split; [assumption|].
      intros _ ->. destruct Hp as (q & Eq & _ & Lq & _). rewrite E in Eq. injection Eq as <-. lia. }
  destruct (MATCH_TEMPLATE cmp m v x r) eqn:M.
  2:{ injection Hd as <-. eapply rows_ext; [reflexivity|reflexivity| |exact Hr]. intros p. split; [|tauto]. intros Hp. split; [assumption|].
      intros _ ->. destruct Hp as (q & Eq & _ & _ & Mq & _). rewrite E in Eq. injection Eq as <-. congruence. }
  apply (remove_rows fuel junk m v x (expected m v raw x)) in Hd; [|exact Hr|].
  - eapply rows_ext; [reflexivity|reflexivity| |exact Hd]. intros p. rewrite (expected_shape m v raw x x1 p C1 T1), T'. tauto.
  - apply Dm. exists o, r. split; [assumption|]. unfold key. rewrite E. apply field_in. destruct Sh as [A _ _ _]. lia.
Qed.

Definition mark (raw : Z -> option (list Z)) (o i : Z) (p : Z) : option (list Z) :=
  if p =? o then option_map (cons i) (raw p) else raw p.

(** The rows after the record has been changed and the insertions. *)
Lemma stage2 fuel alloc m m2 v v' l raw o r r2 i data x x2 :
  RI m -> unreferenced m o -> (forall p, p <> o -> data_of m2 p = data_of m p) -> keeps m2 l v v' ->
  (forall x, held m2 x -> dom m2 v' x) -> good_alloc alloc ->
  m o = Some r -> m2 o = Some r2 -> r_meta r2 = r_meta r -> r_fields r2 = set_nth (r_fields r) (Z.to_nat i) data -> 0 <= i < reclen r ->
  (x_tmpl x <> None -> raw o = None) ->
  shape m v x -> tin l x -> rows m v x (fun p => expected m v raw x p /\ (tch r i x = true -> p <> o)) ->
  done (tch r i) (if_suits cmp (add_row cmp fuel alloc) m2 v' o r2) x x2 ->
  x_col x2 = x_col x /\ x_tmpl x2 = x_tmpl x /\ shape m2 v' x2 /\ rows m2 v' x2 (expected m2 v' (mark raw o i) x2).
Proof.
  intros R U D K Dm2 A E E2 Em Ef Hi Hraw Sh Ti Hr Hd.
  assert (Hlen : length (r_fields r) = length (r_fields r2)) by now rewrite Ef, set_nth_length.
  assert (Hln : reclen r2 = reclen r) by (unfold reclen; congruence).
  assert (Hf : forall j, j <> i -> 0 <= j -> field r2 j = field r j).
  { intros j Nj Hj. unfold field. rewrite Ef. apply nth_set_nth_other. lia. }
  pose proof (shape_moved m m2 v v' o l R U D K x Ti Sh) as Sh2.
  assert (Hp : forall p, p <> o -> expected m2 v' (mark raw o i) x p <-> expected m v raw x p).
  { intros p Np. apply (expected_moved m m2 v v' o l raw (mark raw o i) R U D K x p Ti Sh Np). unfold mark. now destruct (Z.eqb_spec p o). }
  assert (Hm : rows m2 v' x (fun p => expected m v raw x p /\ (tch r i x = true -> p <> o))).
  { apply (rows_moved m m2 v v' o l R U D K Dm2 x _ (proj1 (sh_col _ _ _ Sh)) Hr).
    - intros p ((q & Eq & _ & Lq & _) & _). eauto.
    - intros q (Hq & Nt) Eq. rewrite E in Eq. injection Eq as <-. exists r2. split; [assumption|]. split; [assumption|].
      destruct Hq as (q & Eq & Sq & _ & _ & _). rewrite E in Eq. injection Eq as <-.
      apply Hf; [|apply (sh_col _ _ _ Sh)]. intros Ei. unfold tch, on_column in Nt. rewrite Sq, Ei, Z.eqb_refl in Nt. now apply Nt. }
  assert (Hw : written (mark raw o i) (x_col x) o <-> written raw (x_col x) o \/ x_col x = i).
  { unfold written, mark. rewrite Z.eqb_refl. destruct (raw o) as [cs|]; cbn [option_map In]; intuition congruence. }
  unfold done in Hd. destruct (tch r i x) eqn:T.
  2:{ subst x2. repeat (split; [assumption || reflexivity|]). eapply rows_ext; [reflexivity|reflexivity| |exact Hm].
      intros p. destruct (Z.eq_dec p o) as [-> | Np].
      - rewrite (expected_moved_o m m2 v v' o l raw (mark raw o i) R U D K x i r r2 Ti Sh E E2 Em Hlen Hf); [intuition discriminate| |assumption].
        unfold tch, on_column in T. destruct (is_special_record r); [now left|]. right. cbn [negb andb] in T. apply orb_false_iff in T as (T1 & T2).
        split; [now apply Z.eqb_neq|assumption].
      - rewrite (Hp p Np). intuition discriminate. }
  destruct (if_suits_shape (add_row cmp fuel alloc) m2 v' o r2 (fun m v o => proj1 (with_tree_shape cmp fuel alloc 0 m v o)) _ _ _ Hd) as (C1 & T1 & _).
  split; [assumption|]. split; [assumption|]. split; [now apply (shape_shape m2 v' x)|].
  assert (Sp : is_special_record r2 = false).
  { unfold tch in T. apply andb_true_iff in T as (T & _). apply negb_true_iff in T. unfold is_special_record in *. now rewrite Em. }
  assert (W2 : written (mark raw o i) (x_col x) o).
  { apply Hw. unfold tch, on_column in T. apply andb_true_iff in T as (_ & T). apply orb_true_iff in T as [T | T].
    - right. now apply Z.eqb_eq.
    - left. unfold written. rewrite Hraw; [exact I|]. intros N. unfold fixes in T. rewrite N in T. discriminate T. }
  unfold if_suits in Hd. rewrite Hln in Hd. destruct (Z.ltb_spec (x_col x) (reclen r)) as [L | L]; cbn [andb] in Hd.
  2:{ injection Hd as <-. eapply rows_ext; [reflexivity|reflexivity| |exact Hm]. intros p.
      destruct (Z.eq_dec p o) as [-> | Np]; [|rewrite (Hp p Np); tauto]. split; [intros (_ & N); now destruct (N eq_refl)|].
      intros (q & Eq & _ & Lq & _). rewrite E2 in Eq. injection Eq as <-. lia. }
  destruct (MATCH_TEMPLATE cmp m2 v' x r2) eqn:M.
  2:{ injection Hd as <-. eapply rows_ext; [reflexivity|reflexivity| |exact Hm]. intros p.
      destruct (Z.eq_dec p o) as [-> | Np]; [|rewrite (Hp p Np); tauto]. split; [intros (_ & N); now destruct (N eq_refl)|].
      intros (q & Eq & _ & _ & Mq & _). rewrite E2 in Eq. injection Eq as <-. congruence. }
  apply (add_rows fuel alloc m2 v' x _ o x2 Hm) in Hd; [|tauto| |assumption].
  - eapply rows_ext; [reflexivity|reflexivity| |exact Hd]. intros p. cbn beta. rewrite (expected_shape m2 v' (mark raw o i) x x2 p C1 T1).
    destruct (Z.eq_dec p o) as [-> | Np]; [|rewrite (Hp p Np); tauto]. split; [|now left]. intros _.
    exists r2. split; [assumption|]. split; [assumption|]. split; [lia|]. auto.
  - apply Dm2. exists o, r2. split; [assumption|]. unfold key. rewrite E2. apply field_in. pose proof (sh_col _ _ _ Sh). lia.
Qed.

(** ** The same fields, other chains of referring records *)
Section Same.
Variables (m m' : rmap) (D : forall p, data_of m' p = data_of m p).
Lemma same_held x : held m' x <-> held m x.
Proof.
  unfold held. split; intros (p & r & E & H); specialize (D p); unfold data_of in D; rewrite E in D.
  - destruct (m p) as [q|] eqn:Eq; [|discriminate]. injection D as D1 D2. exists p, q. split; [assumption|congruence].
  - destruct (m' p) as [q|] eqn:Eq; [|discriminate]. injection D as D1 D2. exists p, q. split; [assumption|congruence].
Qed.
Lemma same_cmp v x y : cmp m' v x y = cmp m v x y.
Proof. now apply frame_all. Qed.
Lemma same_dom v x : dom m' v x <-> dom m v x.
Proof. split; intros H; [apply (proj2 (frame_all m' m v (fun p => eq_sym (D p)) x x))|apply (proj2 (frame_all m m' v D x x))]; assumption. Qed.
Lemma same_keeps l v v' : keeps m' l v v' -> keeps m l v v'.
Proof.
  intros K x y Hx Hy. rewrite <- !same_held in *. destruct (K x y Hx Hy) as (A & B).
  rewrite <- (same_cmp v'), <- (same_cmp v), <- (same_dom v), <- (same_dom v'). auto.
Qed.
Lemma same_match v x r : MATCH_TEMPLATE cmp m' v x r = MATCH_TEMPLATE cmp m v x r.
Proof. apply match_eq; [reflexivity|]. intros. split; [reflexivity|apply same_cmp]. Qed.
Lemma same_expected v raw x p : expected m' v raw x p <-> expected m v raw x p.
Proof.
  unfold expected. pose proof (D p) as Dp. unfold data_of in Dp. destruct (m p) as [r|] eqn:E, (m' p) as [r'|] eqn:E'; try discriminate.
  2:{ split; intros (q & Eq & _); discriminate. }
  injection Dp as D1 D2.
  assert (Sp : is_special_record r' = is_special_record r) by (unfold is_special_record; congruence).
  assert (Ln : reclen r' = reclen r) by (unfold reclen; congruence).
  assert (M : MATCH_TEMPLATE cmp m v x r' = MATCH_TEMPLATE cmp m v x r) by (unfold MATCH_TEMPLATE; now rewrite Ln, D2).
  split; intros (q & Eq & A & B & C & W); injection Eq as <-.
  - exists r. rewrite same_match, M in C. rewrite Sp in A. rewrite Ln in B. auto.
  - exists r'. rewrite same_match, M, Sp, Ln. auto.
Qed.
Lemma same_shape v x : shape m v x -> shape m' v x.
Proof. intros [A B C E]. split; auto. intros t e Et He Fe. rewrite same_dom. eauto. Qed.
Lemma same_rows v raw x : (forall x, held m x -> dom m v x) -> 0 <= x_col x -> rows m v x (expected m v raw x) -> rows m' v x (expected m' v raw x).
Proof.
  intros Dm C (G & H & ND & HG). exists G. split; [|split; [assumption|intros o; rewrite HG; now rewrite same_expected]].
  assert (Hk : forall o, key m' (x_col x) o = key m (x_col x) o).
  { intros o. pose proof (D o) as Dp. unfold data_of, key in *. destruct (m o) as [r|], (m' o) as [r'|]; try discriminate; [|reflexivity].
    injection Dp as D1 D2. unfold field. now rewrite D2. }
  apply (view_holds cmp dom m v m' v x G H (H_order m' v)).
  - intros o Ho. split; [apply Hk|]. apply same_dom. apply Dm. apply HG in Ho. destruct Ho as (r & E & _ & L & _).
    exists o, r. split; [assumption|]. unfold key. rewrite E. apply field_in. lia.
  - intros a b _ _. apply same_cmp.
Qed.
End Same.

(** ** wg_set_field and wg_set_new_field *)
Notation set_field fuel alloc junk := (wg_set_field ix_any ix_tab (wg_index_add_field cmp fuel alloc) (wg_index_del_field cmp fuel junk) v_ref v_free).
Notation set_new_field fuel alloc := (wg_set_new_field ix_any ix_tab (wg_index_add_field cmp fuel alloc) v_ref).

Lemma set_core fuel alloc m m2 m3 v v' l l1 l2 raw o r r2 i data :
  Inv m v l raw -> unreferenced m o -> m o = Some r -> 0 <= i < reclen r -> good_alloc alloc ->
  (forall p, p <> o -> data_of m2 p = data_of m p) -> m2 o = Some r2 -> r_meta r2 = r_meta r -> r_fields r2 = set_nth (r_fields r) (Z.to_nat i) data ->
  (forall p, data_of m3 p = data_of m2 p) -> RI m3 -> keeps m3 l v v' -> dom m3 v' data ->
  Forall (fun x => shape m v x /\ tin l x /\ (x_tmpl x <> None -> exists y, In y l /\ x_tmpl y <> None) /\
                   rows m v x (fun p => expected m v raw x p /\ (tch r i x = true -> p <> o))) l1 ->
  Forall2 (done (tch r i) (if_suits cmp (add_row cmp fuel alloc) m2 v' o r2)) l1 l2 ->
  Inv m3 v' l2 (mark raw o i).
Proof.
  intros [R Dm _ _ Rw] U E Hi A D E2 Em Ef D3 R3 K3 Dd F1 F2.
  assert (K : keeps m2 l v v') by (apply (same_keeps m2 m3 D3); exact K3).
  assert (Dm2 : forall x, held m2 x -> dom m2 v' x).
  { intros x Hx. destruct Hx as (p & q & Ep & Hq).
    assert (Hc : x = data \/ held m x).
    { destruct (Z.eq_dec p o) as [-> | Np].
      - rewrite E2 in Ep. injection Ep as <-. rewrite Ef in Hq. apply set_nth_in in Hq as [-> | Hq]; [now left|right; exists o, r; auto].
      - right. specialize (D p Np). unfold data_of in D. rewrite Ep in D. destruct (m p) as [q'|] eqn:Eq; [|discriminate].
        injection D as D1 D2. exists p, q'. split; [assumption|congruence]. }
    destruct Hc as [-> | Hc]; [now apply (same_dom m2 m3 D3)|].
    assert (Hh : held m2 x) by (exists p, q; auto).
    apply (K x x (or_introl Hh) (or_introl Hh)). apply (frame_held m m2 v o R U D x x (or_introl Hc) (or_introl Hc)). now apply Dm. }
  assert (F3 : Forall (fun x => (x_tmpl x <> None -> exists y, In y l /\ x_tmpl y <> None) /\ shape m2 v' x /\ rows m2 v' x (expected m2 v' (mark raw o i) x)) l2).
  { eapply F2_forall; [|exact F1|exact F2]. intros x x2 (Sh & Ti & Tm & Hr) Hd.
    destruct (stage2 fuel alloc m m2 v v' l raw o r r2 i data x x2 R U D K Dm2 A E E2 Em Ef Hi) as (C1 & T1 & Sh2 & Hr2); auto.
    - intros Nt. apply Rw; [auto|]. congruence.
    - split; [rewrite T1; exact Tm|]. auto. }
  split; [exact R3| | | |].
  - intros x Hx. apply (same_dom m2 m3 D3). apply Dm2. now apply (same_held m2 m3 D3).
  - eapply Forall_impl; [|exact F3]. intros x (_ & Sh & _). now apply (same_shape m2 m3 D3).
  - eapply Forall_impl; [|exact F3]. intros x (_ & Sh & Hr). apply (same_rows m2 m3 D3); auto. apply (sh_col _ _ _ Sh).
  - intros (x & Hx & Nt) p Hp. rewrite Forall_forall in F3. destruct (F3 x Hx) as (Tm & _). unfold mark.
    assert (Hm : m p <> None).
    { destruct (Z.eq_dec p o) as [-> | Np]; [congruence|]. specialize (D p Np). specialize (D3 p). rewrite D in D3. unfold data_of in D3.
      destruct (m p); [discriminate|]. destruct (m3 p); [discriminate|]. contradiction. }
    rewrite (Rw (Tm Nt) p Hm). now destruct (p =? o).
Qed.

Lemma unlink_data m o old m1 :
  (if is_record_ref old then
     match m old with
     | None => None
     | Some ch => match unlink o (r_back ch) with
                  | None => Some None
                  | Some b => Some (Some (rput m old (Some (with_back ch b))))
                  end
     end
   else Some (Some m)) = Some (Some m1) -> forall p, data_of m1 p = data_of m p.
Proof.
  intros E p. destruct (is_record_ref old); [|injection E as <-; reflexivity]. destruct (m old) as [ch|] eqn:Ec; [|discriminate].
  destruct (unlink o (r_back ch)); [|discriminate]. injection E as <-. now apply data_back.
Qed.
Lemma store_data m m1 o r r1 i data : (forall p, data_of m1 p = data_of m p) -> m o = Some r -> m1 o = Some r1 ->
  r_meta r1 = r_meta r /\ r_fields r1 = r_fields r /\
  forall p, data_of (rput m1 o (Some (with_field r1 i data))) p =
    if p =? o then Some (r_meta r, set_nth (r_fields r) (Z.to_nat i) data) else data_of m p.
Proof.
  intros D E E1. pose proof (D o) as Do. unfold data_of in Do. rewrite E, E1 in Do. injection Do as Dm Df.
  split; [assumption|]. split; [assumption|]. intros p. unfold data_of. destruct (Z.eqb_spec p o) as [-> | N].
  - rewrite rput_same. cbn. now rewrite Dm, Df.
  - rewrite rput_other by assumption. apply D.
Qed.

Lemma set_field_Inv fuel alloc junk l m v raw o r i data cell d' c : Inv m v l raw -> m o = Some r -> r_back r = [] -> good_alloc alloc ->
  (is_record_ref data = true -> m data <> None) ->
  set_field fuel alloc junk (RDB m l v) o i data cell = Some (d', c) -> c <> -3 ->
  keeps (d_rec d') l v (d_val d') -> dom (d_rec d') (d_val d') data ->
  Inv (d_rec d') (d_val d') (d_ix d') (if c =? 0 then if field r i =? data then raw else mark raw o i else raw).
Proof.
  intros IV E Eb A G Es Nc K Dd. pose proof IV as [R Dm Shp Rws Rw].
  unfold wg_set_field in Es. cbn [d_rec d_ix d_val] in Es. rewrite E in Es.
  destruct (field_ok r i) eqn:F; cbn [negb] in Es; [|injection Es as <- <-; exact IV].
  assert (Hi : 0 <= i < reclen r).
  { unfold field_ok in F. destruct (Z.ltb_spec i 0), (Z.leb_spec (reclen r) i); cbn in F; try discriminate. lia. }
  destruct (Z.eqb_spec (field r i) data) as [Ed | Nd]; [injection Es as <- <-; exact IV|].
  match type of Es with match ?e with _ => _ end = _ => destruct e as [[l1 c1]|] eqn:E1 end; [|discriminate].
  destruct (Z.ltb_spec c1 (-1)) as [L1 | L1]; [injection Es as <- <-; contradiction|]. rewrite Eb in Es. cbn [chain Z.eqb negb] in Es.
  match type of Es with match ?e with _ => _ end = _ => destruct e as [[m1|]|] eqn:E2 end; [| |discriminate].
  2:{ exfalso. destruct (is_record_ref (field r i)) eqn:Ro; [|discriminate]. destruct (m (field r i)) as [ch|] eqn:Ech; [|discriminate].
      destruct (unlink o (r_back ch)) eqn:Eu; [discriminate|]. apply unlink_none in Eu. destruct R as (L & B).
      specialize (B (field r i) o Ro). unfold backs, refs in B. rewrite Ech, E in B.
      pose proof (field_in r i Hi) as Hin. apply cnt_in in Hin. lia. }
  set (v' := if isptr (field r i) then _ else _) in Es.
  destruct (m1 o) as [r1|] eqn:Er1; [|discriminate].
  match type of Es with match ?e with _ => _ end = _ => destruct e as [[l2 c2]|] eqn:E3 end; [|discriminate].
  destruct (Z.ltb_spec c2 (-1)) as [L2 | L2]; [injection Es as <- <-; contradiction|].
  destruct (add_backlink _ o data cell) as [m3|] eqn:Ab; [|discriminate].
  injection Es as <- <-. cbn [d_rec d_ix d_val Z.eqb] in *.
  destruct (RI_set m o r i data cell m1 m3 R E F G E2) as (r1' & Er1' & H3). rewrite Er1 in Er1'. injection Er1' as <-.
  destruct (H3 Ab) as (R3 & D3).
  destruct (store_data m m1 o r r1 i data (unlink_data m o _ m1 E2) E Er1) as (Mm & Mf & D2).
  set (m2 := rput m1 o (Some (with_field r1 i data))) in *.
  assert (Er2 : m2 o = Some (with_field r1 i data)) by apply rput_same.
  assert (F1 : Forall2 (done (tch r i) (if_suits cmp (remove_row cmp fuel junk) m v o r)) l l1).
  { apply (field_done (remove_row cmp fuel junk) m v m v l o i r r l1 c1); auto. intros; apply (with_tree_shape cmp fuel alloc junk). }
  assert (F1' : Forall (fun x => shape m v x /\ tin l x /\ (x_tmpl x <> None -> exists y, In y l /\ x_tmpl y <> None) /\
                   rows m v x (fun p => expected m v raw x p /\ (tch r i x = true -> p <> o))) l1).
  { apply (F2_forall (done (tch r i) (if_suits cmp (remove_row cmp fuel junk) m v o r)) (fun x => In x l /\ shape m v x /\ rows m v x (expected m v raw x))) with (l := l); [| |exact F1].
    - intros x x1 (Ix & Sx & Rx) Hd. destruct (stage1 fuel junk m v raw o r i x x1 Dm E Sx Rx Hd) as (C1 & T1 & R1).
      split; [now apply (shape_shape m v x)|]. split; [apply (tin_shape l x); [assumption|now apply tin_in]|]. split; [|assumption].
      rewrite T1. intros Nt. exists x. auto.
    - apply Forall_forall. intros x Hx. rewrite Forall_forall in Shp, Rws. auto. }
  apply (set_core fuel alloc m m2 m3 v v' l l1 l2 raw o r (with_field r1 i data) i data IV); auto.
  - now apply (unref m o r).
  - intros p Np. rewrite D2. now destruct (Z.eqb_spec p o).
  - cbn [with_field r_fields]. now rewrite Mf.
  - intros p. now rewrite D3, D2.
  - apply (field_done (add_row cmp fuel alloc) m2 v' m v l1 o i r (with_field r1 i data) l2 c2); auto.
    + intros; apply (with_tree_shape cmp fuel alloc junk).
    + eapply Forall_impl; [|exact F1']. intros x (H & _). exact H.
    + unfold is_special_record. cbn [with_field r_meta]. now rewrite Mm.
    + unfold reclen. cbn [with_field r_fields]. now rewrite set_nth_length, Mf.
Qed.

Lemma set_new_field_Inv fuel alloc l m v raw o r cs i data cell d' c : Inv m v l raw -> m o = Some r -> r_back r = [] -> good_alloc alloc ->
  (is_record_ref data = true -> m data <> None) -> data <> o -> raw o = Some cs -> ~ In i cs ->
  set_new_field fuel alloc (RDB m l v) o i data cell = Some (d', c) -> c <> -3 ->
  keeps (d_rec d') l v (d_val d') -> dom (d_rec d') (d_val d') data ->
  Inv (d_rec d') (d_val d') (d_ix d') (if c =? 0 then mark raw o i else raw).
Proof.
  intros IV E Eb A G No Ec Ni Es Nc K Dd. pose proof IV as [R Dm Shp Rws Rw].
  unfold wg_set_new_field in Es. cbn [d_rec d_ix d_val] in Es. rewrite E in Es.
  destruct (field_ok r i) eqn:F; cbn [negb] in Es; [|injection Es as <- <-; exact IV].
  assert (Hi : 0 <= i < reclen r).
  { unfold field_ok in F. destruct (Z.ltb_spec i 0), (Z.leb_spec (reclen r) i); cbn in F; try discriminate. lia. }
  destruct (Z.eqb_spec (field r i) 0) as [Z0 | NZ]; cbn [negb] in Es; [|injection Es as <- <-; exact IV].
  set (v' := if Z.land data 7 =? 4 then _ else _) in Es.
  match type of Es with match ?e with _ => _ end = _ => destruct e as [[l2 c2]|] eqn:E3 end; [|discriminate].
  destruct (Z.ltb_spec c2 (-1)) as [L2 | L2]; [injection Es as <- <-; contradiction|].
  destruct (add_backlink _ o data cell) as [m3|] eqn:Ab; [|discriminate].
  destruct (RI_set m o r i data cell m m3 R E F G) as (r1' & Er1' & H3); [now rewrite Z0|]. rewrite E in Er1'. injection Er1' as <-.
  destruct (H3 Ab) as (R3 & D3). pose proof (unref m o r R E Eb) as U.
  destruct (store_data m m o r r i data (fun p => eq_refl) E E) as (_ & _ & D2).
  set (m2 := rput m o (Some (with_field r i data))) in *.
  assert (Er2 : m2 o = Some (with_field r i data)) by apply rput_same.
  assert (Er3 : m3 o = Some (with_field r i data)).
  { unfold add_backlink in Ab. destruct (is_record_ref data); [|injection Ab as <-; exact Er2].
    destruct (m2 data) as [ch|]; [|discriminate]. destruct cell; [|discriminate]. injection Ab as <-. rewrite rput_other by congruence. exact Er2. }
  rewrite Er3 in Es. cbn [with_field r_back] in Es. rewrite Eb in Es. cbn [chain Z.eqb negb] in Es. injection Es as <- <-. cbn [d_rec d_ix d_val Z.eqb] in *.
  assert (Nt : forall x, In x l -> x_tmpl x = None).
  { intros x Hx. destruct (x_tmpl x) eqn:Et; [|reflexivity]. exfalso.
    assert (raw o = None) by (apply Rw; [exists x; split; [assumption|congruence]|congruence]). congruence. }
  apply (set_core fuel alloc m m2 m3 v v' l l l2 raw o r (with_field r i data) i data IV); auto.
  - intros p Np. rewrite D2. now destruct (Z.eqb_spec p o).
  - intros p. now rewrite D3, D2.
  - apply Forall_forall. intros x Hx. rewrite Forall_forall in Shp, Rws. split; [auto|]. split; [now apply tin_in|]. split; [eauto|].
    eapply rows_ext; [reflexivity|reflexivity| |exact (Rws x Hx)]. intros p. split; [|tauto]. intros Hp. split; [assumption|].
    intros T ->. unfold tch, on_column, fixes in T. rewrite (Nt x Hx) in T. rewrite orb_false_r in T. apply andb_true_iff in T as (_ & T).
    apply Z.eqb_eq in T. destruct Hp as (q & _ & _ & _ & _ & W). unfold written in W. rewrite Ec, T in W. contradiction.
  - apply (field_done (add_row cmp fuel alloc) m2 v' m v l o i r (with_field r i data) l2 c2); auto.
    + intros; apply (with_tree_shape cmp fuel alloc 0).
    + unfold reclen. cbn [with_field r_fields]. now rewrite set_nth_length.
Qed.

(** ** Creating and deleting records *)
Definition fresh (raw : Z -> option (list Z)) (o : Z) (w : option (list Z)) (p : Z) : option (list Z) := if p =? o then w else raw p.

Lemma create_moved m v l raw o n : Inv m v l raw -> is_record_ref o = true -> m o = None ->
  let m2 := rput m o (Some (Rec 0 (repeat 0 n) [])) in
  RI m2 /\ unreferenced m o /\ (forall p, p <> o -> data_of m2 p = data_of m p) /\ (forall x, held m2 x -> dom m2 v x) /\
  Forall (fun x => shape m2 v x /\ rows m2 v x (expected m v raw x) /\ forall w p, p <> o -> expected m2 v (fresh raw o w) x p <-> expected m v raw x p) l.
Proof.
  intros [R Dm Shp Rws Rw] Ho E m2. pose proof (unref_none m o R Ho E) as U.
  assert (D : forall p, p <> o -> data_of m2 p = data_of m p).
  { intros p Np. unfold data_of, m2. now rewrite rput_other. }
  assert (Dm2 : forall x, held m2 x -> dom m2 v x).
  { intros x (p & r & Ep & Hx). destruct (Z.eq_dec p o) as [-> | Np].
    - unfold m2 in Ep. rewrite rput_same in Ep. injection Ep as <-. cbn [r_fields] in Hx. apply repeat_spec in Hx. subst x. apply H_zero.
    - unfold m2 in Ep. rewrite rput_other in Ep by assumption. assert (Hh : held m x) by (exists p, r; auto).
      apply (frame_held m m2 v o R U D x x (or_introl Hh) (or_introl Hh)). now apply Dm. }
  split; [now apply RI_create|]. split; [assumption|]. split; [assumption|]. split; [assumption|].
  assert (K : keeps m2 l v v) by (intros x y _ _; auto).
  apply Forall_forall. intros x Hx. rewrite Forall_forall in Shp, Rws.
  split; [|split].
  - apply (shape_moved m m2 v v o l R U D K x (tin_in l x Hx)). now apply Shp.
  - apply (rows_moved m m2 v v o l R U D K Dm2 x _ (proj1 (sh_col _ _ _ (Shp x Hx))) (Rws x Hx)).
    + intros p (q & Eq & _ & Lq & _). eauto.
    + intros r _ Er. congruence.
  - intros w p Np. apply (expected_moved m m2 v v o l raw (fresh raw o w) R U D K x p (tin_in l x Hx) (Shp x Hx) Np).
    unfold fresh. now destruct (Z.eqb_spec p o).
Qed.

Lemma raw_record_Inv l m v raw o len d' x : Inv m v l raw -> is_record_ref o = true -> m o = None -> (forall y, In y l -> x_tmpl y = None) ->
  wg_create_raw_record (RDB m l v) len o = (d', x) ->
  Inv (d_rec d') (d_val d') (d_ix d') (if x =? 0 then raw else fresh raw o (Some [])).
Proof.
  intros IV Ho E Nt Es. unfold wg_create_raw_record in Es. destruct (len <? 0); [injection Es as <- <-; exact IV|].
  destruct (Z.eqb_spec o 0) as [-> | No]; injection Es as <- <-; [exact IV|]. cbn [d_rec d_ix d_val].
  destruct (Z.eqb_spec o 0); [contradiction|].
  destruct (create_moved m v l raw o (Z.to_nat len) IV Ho E) as (R2 & U & D & Dm2 & F).
  split; auto.
  - eapply Forall_impl; [|exact F]. intros y (H & _). exact H.
  - eapply Forall_impl; [|exact F]. intros y (_ & H & Hx). eapply rows_ext; [reflexivity|reflexivity| |exact H].
    intros p. destruct (Z.eq_dec p o) as [-> | Np]; [|now rewrite Hx]. split.
    + intros (q & Eq & _). congruence.
    + intros (q & _ & _ & _ & _ & W). unfold written, fresh in W. rewrite Z.eqb_refl in W. contradiction.
  - intros (y & Hy & Ny). now destruct (Ny (Nt y Hy)).
Qed.

Definition in_cols (n : nat) (x : idx) : bool := (0 <=? x_col x) && (x_col x <? 0 + Z.of_nat n).
Lemma rec_done row m v l o r l' c : (forall m v o, keeps_shape (fun x => row m v x o)) -> m o = Some r -> is_special_record r = false ->
  index_rec cmp row m v l o = Some (l', c) -> -1 <= c ->
  Forall2 (done (in_cols (Nat.min (length (r_fields r)) (Z.to_nat (MAX_INDEXED_FIELDNR + 1)))) (fun x => if MATCH_TEMPLATE cmp m v x r then row m v x o else Some (x, 0))) l l'.
Proof.
  intros K E Sp Ei Hc. unfold index_rec in Ei. rewrite E, Sp in Ei.
  assert (Ka : keeps_shape (fun x => if MATCH_TEMPLATE cmp m v x r then row m v x o else Some (x, 0))).
  { intros x x' c'. destruct (MATCH_TEMPLATE cmp m v x r); [apply K|]. intros Q. injection Q as <- <-. auto. }
  destruct (columns_code _ Ka _ _ _ _ _ Ei) as [-> | ->]; [|lia]. now apply columns_done.
Qed.
Lemma in_cols_iff m v r x : shape m v x ->
  in_cols (Nat.min (length (r_fields r)) (Z.to_nat (MAX_INDEXED_FIELDNR + 1))) x = true <-> x_col x < reclen r.
Proof.
  intros [A _ _ _]. unfold in_cols, reclen, MAX_INDEXED_FIELDNR in *. rewrite andb_true_iff, Z.leb_le, Z.ltb_lt. lia.
Qed.

Lemma create_Inv fuel alloc l m v raw o len d' x : Inv m v l raw -> is_record_ref o = true -> m o = None -> good_alloc alloc ->
  wg_create_record (wg_index_add_rec cmp fuel alloc) (RDB m l v) len o = Some (d', x) -> x <> 0 ->
  Inv (d_rec d') (d_val d') (d_ix d') (fresh raw o None).
Proof.
  intros IV Ho E A Es Nx. unfold wg_create_record, wg_create_raw_record in Es. cbn [d_rec d_ix d_val] in Es.
  destruct (len <? 0); [cbn in Es; injection Es as <- <-; contradiction|].
  destruct (Z.eqb_spec o 0) as [-> | No]; [cbn in Es; injection Es as <- <-; contradiction|].
  destruct (Z.eqb_spec o 0) as [? | _]; [contradiction|]. cbn [d_rec d_ix d_val] in Es.
  destruct (create_moved m v l raw o (Z.to_nat len) IV Ho E) as (R2 & U & D & Dm2 & F).
  set (m2 := rput m o _) in *.
  destruct (wg_index_add_rec cmp fuel alloc m2 v l o) as [[l' c]|] eqn:Ei; [|discriminate].
  injection Es as <- Ex. cbn [d_rec d_ix d_val]. destruct (Z.ltb_spec c (-1)) as [Lc | Lc]; [congruence|].
  set (r2 := Rec 0 (repeat 0 (Z.to_nat len)) []) in *.
  assert (Er2 : m2 o = Some r2) by apply rput_same.
  assert (F2 : Forall2 (done (in_cols (Nat.min (length (r_fields r2)) (Z.to_nat (MAX_INDEXED_FIELDNR + 1)))) (fun x => if MATCH_TEMPLATE cmp m2 v x r2 then add_row cmp fuel alloc m2 v x o else Some (x, 0))) l l').
  { apply (rec_done (add_row cmp fuel alloc) m2 v l o r2 l' c); auto. intros; apply (with_tree_shape cmp fuel alloc 0). }
  pose proof IV as [_ _ _ _ Rw].
  assert (F3 : Forall (fun x => (x_tmpl x <> None -> exists y, In y l /\ x_tmpl y <> None) /\ shape m2 v x /\ rows m2 v x (expected m2 v (fresh raw o None) x)) l').
  { apply (F2_forall (done (in_cols (Nat.min (length (r_fields r2)) (Z.to_nat (MAX_INDEXED_FIELDNR + 1)))) (fun x => if MATCH_TEMPLATE cmp m2 v x r2 then add_row cmp fuel alloc m2 v x o else Some (x, 0)))
             (fun x => In x l /\ shape m2 v x /\ rows m2 v x (expected m v raw x) /\ forall w p, p <> o -> expected m2 v (fresh raw o w) x p <-> expected m v raw x p)) with (l := l); [| |exact F2].
    2:{ apply Forall_forall. intros y Hy. rewrite Forall_forall in F. destruct (F y Hy) as (H1 & H2 & H3). auto. }
    intros y y' (Iy & Sy & Ry & Hy) Hd. unfold done in Hd.
    assert (No' : ~ expected m v raw y o) by (intros (q & Eq & _); congruence).
    pose proof (in_cols_iff m2 v r2 y Sy) as Hc.
    destruct (in_cols _ y) eqn:Ec.
    2:{ subst y'. split; [eauto|]. split; [assumption|]. eapply rows_ext; [reflexivity|reflexivity| |exact Ry].
        intros p. destruct (Z.eq_dec p o) as [-> | Np]; [|now rewrite Hy]. split; [contradiction|].
        intros (q & Eq & _ & Lq & _). rewrite Er2 in Eq. injection Eq as <-. apply Hc in Lq. discriminate. }
    destruct (MATCH_TEMPLATE cmp m2 v y r2) eqn:M.
    2:{ injection Hd as <-. split; [eauto|]. split; [assumption|]. eapply rows_ext; [reflexivity|reflexivity| |exact Ry].
        intros p. destruct (Z.eq_dec p o) as [-> | Np]; [|now rewrite Hy]. split; [contradiction|].
        intros (q & Eq & _ & _ & Mq & _). rewrite Er2 in Eq. injection Eq as <-. congruence. }
    destruct (proj1 (with_tree_shape cmp fuel alloc 0 m2 v o) _ _ _ Hd) as (C1 & T1 & _).
    split; [rewrite T1; eauto|]. split; [now apply (shape_shape m2 v y)|].
    apply (add_rows fuel alloc m2 v y _ o y' Ry No') in Hd; [| |assumption].
    - eapply rows_ext; [reflexivity|reflexivity| |exact Hd]. intros p. cbn beta. rewrite (expected_shape m2 v (fresh raw o None) y y' p C1 T1).
      destruct (Z.eq_dec p o) as [-> | Np]; [|rewrite Hy by assumption; tauto]. split; [|now left]. intros _.
      exists r2. split; [assumption|]. split; [reflexivity|]. split; [now apply Hc|]. split; [assumption|]. unfold written, fresh. now rewrite Z.eqb_refl.
    - apply Dm2. exists o, r2. split; [assumption|]. unfold key. rewrite Er2. apply field_in. pose proof (sh_col _ _ _ Sy).
      assert (x_col y < reclen r2) by now apply Hc. lia. }
  split; auto.
  - eapply Forall_impl; [|exact F3]. intros y H. apply H.
  - eapply Forall_impl; [|exact F3]. intros y H. apply H.
  - intros (y & Hy & Ny) p Hp. rewrite Forall_forall in F3. destruct (F3 y Hy) as (Tm & _). unfold fresh.
    destruct (Z.eqb_spec p o) as [-> | Np]; [reflexivity|]. apply (Rw (Tm Ny)). unfold m2 in Hp. now rewrite rput_other in Hp.
Qed.

Lemma delete_Inv fuel junk l m v raw o d' c : Inv m v l raw ->
  wg_delete_record (wg_index_del_rec cmp fuel junk) v_free (RDB m l v) o true = Some (d', c) -> c <> -3 ->
  keeps (d_rec d') l v (d_val d') -> Inv (d_rec d') (d_val d') (d_ix d') raw.
Proof.
  intros IV Es Nc K. pose proof IV as [R Dm Shp Rws Rw]. unfold wg_delete_record in Es. cbn [d_rec d_ix d_val] in Es.
  destruct (m o) as [r|] eqn:E; [|discriminate]. destruct (r_back r) as [|b bs] eqn:Eb; [|injection Es as <- <-; exact IV].
  match type of Es with match ?e with _ => _ end = _ => destruct e as [[l1 c1]|] eqn:E1 end; [|discriminate].
  destruct (Z.ltb_spec c1 (-1)) as [L1 | L1]; [injection Es as <- <-; contradiction|].
  destruct (delete_ok v_free m v o r R E Eb) as (m' & v' & E' & D' & R').
  rewrite E' in Es. cbn [Z.eqb negb] in Es. injection Es as <- <-. cbn [d_rec d_ix d_val] in *.
  set (m2 := rput m' o None) in *. pose proof (unref m o r R E Eb) as U.
  assert (D : forall p, p <> o -> data_of m2 p = data_of m p).
  { intros p Np. unfold m2, data_of at 1. rewrite rput_other by assumption. apply D'. }
  assert (Eo : m2 o = None) by apply rput_same.
  assert (Hh : forall x, held m2 x -> held m x).
  { intros x (p & q & Ep & Hx). assert (Np : p <> o) by congruence. specialize (D p Np). unfold data_of in D. rewrite Ep in D.
    destruct (m p) as [q'|] eqn:Eq; [|discriminate]. injection D as D1 D2. exists p, q'. split; [assumption|congruence]. }
  assert (Dm2 : forall x, held m2 x -> dom m2 v' x).
  { intros x Hx. apply (K x x (or_introl Hx) (or_introl Hx)). pose proof (Hh x Hx) as H.
    apply (frame_held m m2 v o R U D x x (or_introl H) (or_introl H)). now apply Dm. }
  assert (F1 : Forall (fun x => tin l x /\ (x_tmpl x <> None -> exists y, In y l /\ x_tmpl y <> None) /\ shape m v x /\ rows m v x (fun p => expected m v raw x p /\ p <> o)) l1).
  { destruct (is_special_record r) eqn:Sp.
    - injection E1 as <- <-. apply Forall_forall. intros x Hx. rewrite Forall_forall in Shp, Rws. split; [now apply tin_in|]. split; [eauto|]. split; [auto|].
      eapply rows_ext; [reflexivity|reflexivity| |exact (Rws x Hx)]. intros p. split; [|tauto]. intros Hp. split; [assumption|]. intros ->.
      destruct Hp as (q & Eq & Sq & _). congruence.
    - assert (F1 : Forall2 (done (in_cols (Nat.min (length (r_fields r)) (Z.to_nat (MAX_INDEXED_FIELDNR + 1)))) (fun x => if MATCH_TEMPLATE cmp m v x r then remove_row cmp fuel junk m v x o else Some (x, 0))) l l1).
      { apply (rec_done (remove_row cmp fuel junk) m v l o r l1 c1); auto. intros; apply (with_tree_shape cmp fuel (fun _ => 0) junk). }
      apply (F2_forall (done (in_cols (Nat.min (length (r_fields r)) (Z.to_nat (MAX_INDEXED_FIELDNR + 1)))) (fun x => if MATCH_TEMPLATE cmp m v x r then remove_row cmp fuel junk m v x o else Some (x, 0)))
               (fun x => In x l /\ shape m v x /\ rows m v x (expected m v raw x))) with (l := l); [| |exact F1].
      2:{ apply Forall_forall. intros x Hx. rewrite Forall_forall in Shp, Rws. auto. }
      intros y y' (Iy & Sy & Ry) Hd. unfold done in Hd. pose proof (in_cols_iff m v r y Sy) as Hc.
      destruct (in_cols _ y) eqn:Ec.
      2:{ subst y'. split; [now apply tin_in|]. split; [eauto|]. split; [assumption|]. eapply rows_ext; [reflexivity|reflexivity| |exact Ry].
          intros p. split; [|tauto]. intros Hp. split; [assumption|]. intros ->. destruct Hp as (q & Eq & _ & Lq & _). rewrite E in Eq. injection Eq as <-. apply Hc in Lq. discriminate. }
      destruct (MATCH_TEMPLATE cmp m v y r) eqn:M.
      2:{ injection Hd as <-. split; [now apply tin_in|]. split; [eauto|]. split; [assumption|]. eapply rows_ext; [reflexivity|reflexivity| |exact Ry].
          intros p. split; [|tauto]. intros Hp. split; [assumption|]. intros ->. destruct Hp as (q & Eq & _ & _ & Mq & _). rewrite E in Eq. injection Eq as <-. congruence. }
      destruct (proj2 (with_tree_shape cmp fuel (fun _ => 0) junk m v o) _ _ _ Hd) as (C1 & T1 & _).
      split; [apply (tin_shape l y); [assumption|now apply tin_in]|]. split; [rewrite T1; eauto|]. split; [now apply (shape_shape m v y)|].
      apply (remove_rows fuel junk m v y (expected m v raw y)) in Hd; [|exact Ry|].
      + eapply rows_ext; [reflexivity|reflexivity| |exact Hd]. intros p. cbn beta. now rewrite (expected_shape m v raw y y' p C1 T1).
      + apply Dm. exists o, r. split; [assumption|]. unfold key. rewrite E. apply field_in. pose proof (sh_col _ _ _ Sy).
        assert (x_col y < reclen r) by now apply Hc. lia. }
  split; auto.
  - eapply Forall_impl; [|exact F1]. intros x (Ti & _ & Sh & _). apply (shape_moved m m2 v v' o l R U D K x Ti Sh).
  - eapply Forall_impl; [|exact F1]. intros x (Ti & _ & Sh & Hr).
    assert (Hr2 : rows m2 v' x (fun p => expected m v raw x p /\ p <> o)).
    { apply (rows_moved m m2 v v' o l R U D K Dm2 x _ (proj1 (sh_col _ _ _ Sh)) Hr).
      - intros p ((q & Eq & _ & Lq & _) & _). eauto.
      - intros q (_ & N). contradiction. }
    eapply rows_ext; [reflexivity|reflexivity| |exact Hr2]. intros p. cbn beta. destruct (Z.eq_dec p o) as [-> | Np].
    + split; [tauto|]. intros (q & Eq & _). congruence.
    + rewrite (expected_moved m m2 v v' o l raw raw R U D K x p Ti Sh Np eq_refl). tauto.
  - intros (x & Hx & Nt) p Hp. rewrite Forall_forall in F1. destruct (F1 x Hx) as (_ & Tm & _). apply (Rw (Tm Nt)).
    assert (Np : p <> o) by congruence. specialize (D p Np). unfold data_of in D. destruct (m p); [discriminate|]. destruct (m2 p); [discriminate|]. contradiction.
Qed.

(** ** Creating an index *)
Lemma fill_rows fuel alloc m v : (forall x, held m x -> dom m v x) -> good_alloc alloc -> forall scan x x' E,
  0 <= x_col x -> NoDup scan -> (forall o, In o scan -> m o <> None /\ ~ E o) -> rows m v x E ->
  fill cmp fuel alloc m v x scan = Some (x', true) ->
  x_col x' = x_col x /\ x_tmpl x' = x_tmpl x /\
  rows m v x' (fun p => E p \/ In p scan /\ exists r, m p = Some r /\ x_col x < reclen r /\ MATCH_TEMPLATE cmp m v x r = true).
Proof.
  intros Dm A. induction scan as [|o scan IH]; intros x x' E C ND Hs Hr Ef; cbn [fill] in Ef.
  - injection Ef as <-. split; [reflexivity|]. split; [reflexivity|]. eapply rows_ext; [reflexivity|reflexivity| |exact Hr]. intros p. cbn [In]. tauto.
  - inversion ND as [|? ? No ND']; subst. destruct (Hs o (or_introl eq_refl)) as (Lo & Eo). destruct (m o) as [r|] eqn:Er; [|contradiction].
    assert (Hs' : forall p, In p scan -> m p <> None /\ ~ E p) by (intros p Hp; apply Hs; now right).
    destruct (Z.leb_spec (reclen r) (x_col x)) as [L | L].
    { destruct (IH x x' E C ND' Hs' Hr Ef) as (C1 & T1 & R1). split; [assumption|]. split; [assumption|].
      eapply rows_ext; [reflexivity|reflexivity| |exact R1]. intros p. cbn [In]. split; [tauto|]. intros [H | ([-> | H] & q & Eq & Lq & Mq)]; [tauto| |right; eauto].
      rewrite Er in Eq. injection Eq as <-. lia. }
    destruct (MATCH_TEMPLATE cmp m v x r) eqn:M.
    2:{ destruct (IH x x' E C ND' Hs' Hr Ef) as (C1 & T1 & R1). split; [assumption|]. split; [assumption|].
      eapply rows_ext; [reflexivity|reflexivity| |exact R1]. intros p. cbn [In]. split; [tauto|]. intros [H | ([-> | H] & q & Eq & Lq & Mq)]; [tauto| |right; eauto].
      rewrite Er in Eq. injection Eq as <-. congruence. }
    destruct (add_row cmp fuel alloc m v x o) as [[x1 c]|] eqn:Ea; [|discriminate].
    destruct (fill cmp fuel alloc m v x1 scan) as [[x2 b]|] eqn:E2; [|discriminate]. injection Ef as <- Eb.
    apply andb_true_iff in Eb as (Ec & ->). apply Z.eqb_eq in Ec. subst c.
    destruct (proj1 (with_tree_shape cmp fuel alloc 0 m v o) _ _ _ Ea) as (C1 & T1 & _).
    apply (add_rows fuel alloc m v x E o x1 Hr Eo) in Ea; [| |assumption].
    2:{ apply Dm. exists o, r. split; [assumption|]. unfold key. rewrite Er. apply field_in. lia. }
    destruct (IH x1 x2 (fun p => p = o \/ E p)) as (C2 & T2 & R2); auto; [lia| |].
    { intros p Hp. destruct (Hs' p Hp) as (L1 & L2). split; [assumption|]. intros [-> | H]; contradiction. }
    split; [congruence|]. split; [congruence|]. eapply rows_ext; [reflexivity|reflexivity| |exact R2]. intros p. cbn [In]. rewrite C1. split.
    + intros [[-> | H] | (H & q & Eq & Lq & Mq)].
      * right. split; [now left|]. exists r. auto.
      * now left.
      * right. split; [now right|]. exists q. rewrite (match_shape m v x x1 q T1) in Mq. auto.
    + intros [H | ([-> | H] & q & Eq & Lq & Mq)].
      * left. now right.
      * left. now left.
      * right. split; [assumption|]. exists q. rewrite (match_shape m v x x1 q T1). auto.
Qed.

Lemma index_Inv fuel alloc l1 l2 m v raw col tmpl t0 root scan x : Inv m v (l1 ++ l2) raw ->
  (forall o, m o <> None -> raw o = None) -> good_alloc alloc -> 0 < root < 2 ^ 63 ->
  NoDup scan -> (forall o, In o scan <-> exists r, m o = Some r /\ is_special_record r = false) ->
  0 <= col <= MAX_INDEXED_FIELDNR -> fixes (IX col tmpl t0) col = false ->
  (forall t, tmpl = Some t -> Z.of_nat (length t) <= MAX_INDEXED_FIELDNR + 1 /\ forall e, In e t -> fixed_value e = true -> is_record_ref e = false /\ dom m v e) ->
  create_ttree_index cmp fuel alloc m v col tmpl t0 root scan = Some (x, true) ->
  Inv m v (l1 ++ x :: l2) raw.
Proof.
  intros [R Dm Shp Rws Rw] Hraw A Hroot ND Hs Hc Hf Ht Ef. unfold create_ttree_index in Ef.
  set (x0 := IX col tmpl (ttree_init t0 root)) in *.
  assert (R0 : rows m v x0 (fun _ => False)).
  { exists []. split; [|split; [constructor|intros o; cbn [In]; tauto]]. unfold holds, x0. cbn [x_tree x_col]. now apply tr_init. }
  destruct (fill_rows fuel alloc m v Dm A scan x0 x (fun _ => False)) as (C1 & T1 & R1); auto; [apply Hc| |].
  { intros o Ho. split; [|tauto]. apply Hs in Ho as (r & -> & _). discriminate. }
  assert (Sh : shape m v x).
  { apply (shape_shape m v x0); [assumption|assumption|]. split; auto.
    - intros t Et. apply (Ht t Et).
    - intros t e Et He Fe. now apply (Ht t Et). }
  split; auto.
  - apply Forall_app in Shp as (S1 & S2). apply Forall_app. split; [assumption|]. now constructor.
  - apply Forall_app in Rws as (S1 & S2). apply Forall_app. split; [assumption|]. constructor; [|assumption].
    eapply rows_ext; [reflexivity|reflexivity| |exact R1]. intros p. cbn beta. unfold expected. rewrite C1. split.
    + intros [[] | (Hp & r & Er & Lr & Mr)]. exists r. apply Hs in Hp as (r' & Er' & Sr). rewrite Er in Er'. injection Er' as <-.
      rewrite (match_shape m v x0 x r T1). repeat split; auto. unfold written. rewrite Hraw; [exact I|congruence].
    + intros (r & Er & Sr & Lr & Mr & _). right. split; [apply Hs; eauto|]. exists r. rewrite <- (match_shape m v x0 x r T1). auto.
Qed.
Lemma drop_Inv l1 l2 m v raw x : Inv m v (l1 ++ x :: l2) raw -> Inv m v (l1 ++ l2) raw.
Proof.
  intros [R Dm Shp Rws Rw]. split; auto.
  - apply Forall_app in Shp as (S1 & S2). apply Forall_cons_iff in S2 as (_ & S2). apply Forall_app. auto.
  - apply Forall_app in Rws as (S1 & S2). apply Forall_cons_iff in S2 as (_ & S2). apply Forall_app. auto.
  - intros (y & Hy & Ny). apply Rw. exists y. split; [|assumption]. apply in_app_iff in Hy. apply in_app_iff. cbn [In]. tauto.
Qed.

(** ** Changes of the values, of a raw record's meta word, and the end of filling in *)
Lemma value_Inv l m v v' raw : Inv m v l raw -> keeps m l v v' -> Inv m v' l raw.
Proof.
  intros [R Dm Shp Rws Rw] K.
  assert (Dm2 : forall x, held m x -> dom m v' x) by (intros x Hx; apply (K x x (or_introl Hx) (or_introl Hx)); now apply Dm).
  split; auto.
  - apply Forall_forall. intros x Hx. rewrite Forall_forall in Shp. destruct (Shp x Hx) as [A B C E]. split; auto.
    intros t e Et He Fe. destruct (E t e Et He Fe) as (N & De). split; [assumption|].
    assert (T : tval l e) by (exists x, t; auto). now apply (K e e (or_intror T) (or_intror T)).
  - apply Forall_forall. intros x Hx. rewrite Forall_forall in Shp, Rws. destruct (Rws x Hx) as (G & H & ND & HG).
    assert (Hk : forall p, In p G -> held m (key m (x_col x) p)).
    { intros p Hp. apply HG in Hp as (r & Er & _ & Lr & _). exists p, r. split; [assumption|]. unfold key. rewrite Er. apply field_in. pose proof (sh_col _ _ _ (Shp x Hx)). lia. }
    exists G. split; [|split; [assumption|]].
    + apply (view_holds cmp dom m v m v' x G H (H_order m v')); auto.
      intros a b Ha Hb. apply K; left; auto.
    + intros p. rewrite HG. unfold expected.
      assert (M : forall r, m p = Some r -> MATCH_TEMPLATE cmp m v' x r = MATCH_TEMPLATE cmp m v x r).
      { intros r Er. apply match_eq; [reflexivity|]. intros t j Et Hj Hf Fv. split; [reflexivity|].
        assert (In (nth j t 0) t) by (apply nth_In; lia). assert (In (nth j (r_fields r) 0) (r_fields r)) by (apply nth_In; lia).
        apply K; [right; exists x, t; auto|left; exists p, r; auto]. }
      split; intros (r & Er & H'); exists r; [rewrite (M r Er)|rewrite (M r Er) in H']; auto.
Qed.
Lemma meta_Inv l m v raw o r meta : Inv m v l raw -> m o = Some r -> r_back r = [] -> raw o = Some [] ->
  Inv (rput m o (Some (Rec meta (r_fields r) (r_back r)))) v l raw.
Proof.
  intros [R Dm Shp Rws Rw] E Eb Eraw. pose proof (unref m o r R E Eb) as U. set (m2 := rput m o _) in *.
  assert (D : forall p, p <> o -> data_of m2 p = data_of m p) by (intros p Np; unfold data_of, m2; now rewrite rput_other).
  assert (Eo : m2 o = Some (Rec meta (r_fields r) (r_back r))) by apply rput_same.
  assert (K : keeps m2 l v v) by (intros x y _ _; auto).
  assert (Hh : forall x, held m2 x -> held m x).
  { intros x (p & q & Ep & Hx). destruct (Z.eq_dec p o) as [-> | Np].
    - rewrite Eo in Ep. injection Ep as <-. exists o, r. auto.
    - unfold m2 in Ep. rewrite rput_other in Ep by assumption. exists p, q. auto. }
  assert (Dm2 : forall x, held m2 x -> dom m2 v x).
  { intros x Hx. pose proof (Hh x Hx) as H. apply (frame_held m m2 v o R U D x x (or_introl H) (or_introl H)). now apply Dm. }
  split; auto.
  - destruct R as (H1 & H2). split.
    + intros x Hx. apply H1. destruct (Z.eq_dec x o) as [-> | Nx]; [congruence|]. unfold m2 in Hx. now rewrite rput_other in Hx.
    + intros c p Hc. specialize (H2 c p Hc). unfold backs, refs, m2 in *.
      destruct (Z.eq_dec c o) as [-> | Nc], (Z.eq_dec p o) as [-> | Np];
        rewrite ?rput_same, ?(rput_other _ o _ _ Np), ?(rput_other _ o _ _ Nc); cbn [r_back r_fields];
        rewrite ?E in H2; exact H2.
  - apply Forall_forall. intros x Hx. rewrite Forall_forall in Shp. apply (shape_moved m m2 v v o l R U D K x (tin_in l x Hx)). auto.
  - apply Forall_forall. intros x Hx. rewrite Forall_forall in Shp, Rws.
    assert (N : forall m' : rmap, ~ expected m' v raw x o) by (intros m' (q & _ & _ & _ & _ & W); unfold written in W; rewrite Eraw in W; contradiction).
    assert (Hr : rows m2 v x (expected m v raw x)).
    { apply (rows_moved m m2 v v o l R U D K Dm2 x _ (proj1 (sh_col _ _ _ (Shp x Hx))) (Rws x Hx)).
      - intros p (q & Eq & _ & Lq & _). eauto.
      - intros q Hq. now destruct (N m Hq). }
    eapply rows_ext; [reflexivity|reflexivity| |exact Hr]. intros p. destruct (Z.eq_dec p o) as [-> | Np].
    + split; intros H; now destruct (N _ H).
    + now rewrite (expected_moved m m2 v v o l raw raw R U D K x p (tin_in l x Hx) (Shp x Hx) Np eq_refl).
  - intros Hx p Hp. apply (Rw Hx). destruct (Z.eq_dec p o) as [-> | Np]; [congruence|]. unfold m2 in Hp. now rewrite rput_other in Hp.
Qed.
Lemma promote_Inv l m v raw o r cs : Inv m v l raw -> m o = Some r -> raw o = Some cs -> (forall c, 0 <= c < reclen r -> In c cs) ->
  Inv m v l (fresh raw o None).
Proof.
  intros [R Dm Shp Rws Rw] E Er Hc. split; auto.
  - apply Forall_forall. intros x Hx. rewrite Forall_forall in Shp, Rws.
    eapply rows_ext; [reflexivity|reflexivity| |exact (Rws x Hx)]. intros p. unfold expected, written, fresh.
    destruct (Z.eqb_spec p o) as [-> | Np]; [|tauto]. split; intros (q & Eq & H1 & H2 & H3 & H4); exists q; repeat split; auto.
    rewrite E in Eq. injection Eq as <-. rewrite Er. apply Hc. pose proof (sh_col _ _ _ (Shp x Hx)). lia.
  - intros Hx p Hp. unfold fresh. destruct (p =? o); [reflexivity|]. now apply Rw.
Qed.
End Inv.
