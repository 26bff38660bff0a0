(** Proofs about conjunctive queries. *)
From Coq Require Import ZArith List Bool Lia Permutation.
From Verif Require Import Base EncodingModel CompareModel CompareProps TtreeModel TtreeOrd TtreeAdd TtreeReach TtreeProps RangeModel RangeProofs QueryModel.
Import ListNotations.
Open Scope Z_scope.
#[local] Ltac Zify.zify_post_hook ::= idtac.

Lemma filter_filter {A} (f g : A -> bool) l : filter f (filter g l) = filter (fun x => g x && f x) l.
Proof. induction l as [|x l IH]; [reflexivity|]. cbn [filter]. destruct (g x); cbn [filter andb]; [destruct (f x); congruence|exact IH]. Qed.
Lemma filter_perm {A} (f : A -> bool) l l' : Permutation l l' -> Permutation (filter f l) (filter f l').
Proof.
  induction 1 as [|x l l' P IH|x y l|l l' l'' P IH Q IH']; cbn [filter]; auto.
  - destruct (f x); auto.
  - destruct (f x), (f y); auto. apply perm_swap.
  - etransitivity; eauto.
Qed.
Lemma filter_eq {A} (f g : A -> bool) l : (forall x, In x l -> f x = g x) -> filter f l = filter g l.
Proof.
  induction l as [|x l IH]; intros H; [reflexivity|]. cbn [filter]. rewrite (H x) by now left. rewrite IH; [reflexivity|]. intros y Hy. apply H. now right.
Qed.

Section Q.
Variable db : qdb.
Notation cs := (d_cs db).
Notation cmp := (WG_COMPARE (d_cs db)).
Variable ok : Z -> Prop.
Hypothesis KO : keyorder cmp ok.

(** ** Conditions as part of a range *)
Definition low_part (x : Z) (a : qarg) : bool :=
  if (a_cond a =? WG_COND_EQUAL) || (a_cond a =? WG_COND_GTEQUAL) then negb (cmp x (a_val a) =? WG_LESSTHAN)
  else if a_cond a =? WG_COND_GREATER then cmp x (a_val a) =? WG_GREATER else true.
Definition high_part (x : Z) (a : qarg) : bool :=
  if (a_cond a =? WG_COND_EQUAL) || (a_cond a =? WG_COND_LTEQUAL) then negb (cmp x (a_val a) =? WG_GREATER)
  else if a_cond a =? WG_COND_LESSTHAN then cmp x (a_val a) =? WG_LESSTHAN else true.
Definition ne_part (x : Z) (a : qarg) : bool :=
  if a_cond a =? WG_COND_NOT_EQUAL then negb (cmp x (a_val a) =? WG_EQUAL) else true.

Lemma check_parts x a : check_cond db x a = low_part x a && high_part x a && ne_part x a.
Proof.
  destruct a as [c cond w]. unfold check_cond, low_part, high_part, ne_part, WG_COND_EQUAL, WG_COND_LESSTHAN, WG_COND_GREATER, WG_COND_LTEQUAL, WG_COND_GTEQUAL, WG_COND_NOT_EQUAL. cbn [a_cond a_val].
  destruct (Z.eqb_spec cond 1) as [->|]; [cbn; destruct (ko_tri _ _ KO x w) as [E|[E|E]]; rewrite E; reflexivity|].
  destruct (Z.eqb_spec cond 4) as [->|]; [cbn; now rewrite ?andb_true_r|].
  destruct (Z.eqb_spec cond 8) as [->|]; [cbn; now rewrite ?andb_true_r|].
  destruct (Z.eqb_spec cond 16) as [->|]; [cbn; now rewrite ?andb_true_r|].
  destruct (Z.eqb_spec cond 32) as [->|]; [cbn; now rewrite ?andb_true_r|].
  destruct (Z.eqb_spec cond 2) as [->|]; reflexivity.
Qed.

Notation lo k i x := (lo_b cmp (fun v : Z => v) k i x).
Notation hi k i x := (hi_b cmp (fun v : Z => v) k i x).

Lemma cmp_eq_r x v w : ok x -> ok v -> ok w -> cmp v w = WG_EQUAL -> cmp x v = cmp x w.
Proof.
  intros Dx Dv Dw E. destruct (ko_tri _ _ KO x v) as [H|[H|H]]; rewrite H; symmetry.
  - apply (ko_trans _ _ KO x v w); auto; [rewrite H|rewrite E]; discriminate.
  - destruct (ko_trans _ _ KO x v w Dx Dv Dw) as (A & _); [rewrite H; discriminate|rewrite E; discriminate|].
    apply (ko_eq _ _ KO) in E; auto. apply (ko_eq _ _ KO) in H; auto.
    destruct (ko_trans _ _ KO w v x Dw Dv Dx) as (B & _); [rewrite E; discriminate|rewrite H; discriminate|].
    destruct (ko_tri _ _ KO x w) as [F|[F|F]]; [|exact F|now elim A]. exfalso. apply B. now apply (ko_flip _ _ KO).
  - apply (ko_flip _ _ KO); auto. apply (ko_flip _ _ KO) in H; auto. apply (ko_eq _ _ KO) in E; auto.
    apply (ko_trans _ _ KO w v x); auto; [rewrite E|rewrite H]; discriminate.
Qed.
(** [v < w]: at most [v] means less than [w]; at least [w] means greater than [v]. *)
Lemma cmp_lt_r x v w : ok x -> ok v -> ok w -> cmp v w = WG_LESSTHAN ->
  (cmp x v <> WG_GREATER -> cmp x w = WG_LESSTHAN) /\ (cmp x w <> WG_LESSTHAN -> cmp x v = WG_GREATER).
Proof.
  intros Dx Dv Dw E. assert (A : cmp x v <> WG_GREATER -> cmp x w = WG_LESSTHAN).
  { intros H. apply (ko_trans _ _ KO x v w); auto. rewrite E. discriminate. }
  split; [exact A|]. intros H. destruct (ko_tri _ _ KO x v) as [F|[F|F]]; [| |exact F]; exfalso; apply H, A; rewrite F; discriminate.
Qed.

(** The tighter of two lower bounds. *)
Lemma lo_tighter v iv w iw x : ok x -> ok v -> ok w ->
  (if (if iw : bool then cmp v w =? WG_LESSTHAN else negb (cmp v w =? WG_GREATER)) then lo w iw x else lo v iv x) = lo v iv x && lo w iw x.
Proof.
  intros Dx Dv Dw. unfold lo_b. rewrite (proj2 (Z.eqb_neq v _) (dom_ill _ _ KO v Dv)), (proj2 (Z.eqb_neq w _) (dom_ill _ _ KO w Dw)). cbn [orb].
  destruct (ko_tri _ _ KO v w) as [E|[E|E]].
  - destruct (cmp_lt_r x v w Dx Dv Dw E) as (A & B). rewrite E. destruct (ko_tri _ _ KO x v) as [F|[F|F]], (ko_tri _ _ KO x w) as [G|[G|G]]; rewrite F, G in *; destruct iv, iw; cbn; try reflexivity;
      exfalso; revert A B; cbn; intros A B; try (now specialize (A ltac:(discriminate))); try (now specialize (B ltac:(discriminate))).
  - pose proof (cmp_eq_r x v w Dx Dv Dw E) as G. rewrite E, G. destruct (ko_tri _ _ KO x w) as [F|[F|F]]; rewrite F; destruct iv, iw; reflexivity.
  - apply (ko_flip _ _ KO) in E; auto. destruct (cmp_lt_r x w v Dx Dw Dv E) as (A & B). apply (ko_flip _ _ KO) in E; auto. rewrite E.
    destruct (ko_tri _ _ KO x v) as [F|[F|F]], (ko_tri _ _ KO x w) as [G|[G|G]]; rewrite F, G in *; destruct iv, iw; cbn; try reflexivity;
      exfalso; revert A B; cbn; intros A B; try (now specialize (A ltac:(discriminate))); try (now specialize (B ltac:(discriminate))).
Qed.
Lemma hi_tighter v iv w iw x : ok x -> ok v -> ok w ->
  (if (if iw : bool then cmp v w =? WG_GREATER else negb (cmp v w =? WG_LESSTHAN)) then hi w iw x else hi v iv x) = hi v iv x && hi w iw x.
Proof.
  intros Dx Dv Dw. unfold hi_b. rewrite (proj2 (Z.eqb_neq v _) (dom_ill _ _ KO v Dv)), (proj2 (Z.eqb_neq w _) (dom_ill _ _ KO w Dw)). cbn [orb].
  destruct (ko_tri _ _ KO v w) as [E|[E|E]].
  - destruct (cmp_lt_r x v w Dx Dv Dw E) as (A & B). rewrite E. destruct (ko_tri _ _ KO x v) as [F|[F|F]], (ko_tri _ _ KO x w) as [G|[G|G]]; rewrite F, G in *; destruct iv, iw; cbn; try reflexivity;
      exfalso; revert A B; cbn; intros A B; try (now specialize (A ltac:(discriminate))); try (now specialize (B ltac:(discriminate))).
  - pose proof (cmp_eq_r x v w Dx Dv Dw E) as G. rewrite E, G. destruct (ko_tri _ _ KO x w) as [F|[F|F]]; rewrite F; destruct iv, iw; reflexivity.
  - apply (ko_flip _ _ KO) in E; auto. destruct (cmp_lt_r x w v Dx Dw Dv E) as (A & B). apply (ko_flip _ _ KO) in E; auto. rewrite E.
    destruct (ko_tri _ _ KO x v) as [F|[F|F]], (ko_tri _ _ KO x w) as [G|[G|G]]; rewrite F, G in *; destruct iv, iw; cbn; try reflexivity;
      exfalso; revert A B; cbn; intros A B; try (now specialize (A ltac:(discriminate))); try (now specialize (B ltac:(discriminate))).
Qed.

(** ** Bounds *)
(** What the collected bounds say after the arguments [pre]. *)
Record bounds_inv (col : Z) (pre : list qarg) (b : qbounds) : Prop := {
  bi_s : b_start b = WG_ILLEGAL \/ ok (b_start b);
  bi_e : b_end b = WG_ILLEGAL \/ ok (b_end b);
  bi_lo : forall x, ok x -> lo (b_start b) (b_sincl b) x = forallb (fun a => negb (a_col a =? col) || low_part x a) pre;
  bi_hi : forall x, ok x -> hi (b_end b) (b_eincl b) x = forallb (fun a => negb (a_col a =? col) || high_part x a) pre;
  bi_sx : b_start b <> WG_ILLEGAL -> b_sincl b = false -> In (QA col WG_COND_GREATER (b_start b)) pre;
  bi_ex : b_end b <> WG_ILLEGAL -> b_eincl b = false -> In (QA col WG_COND_LESSTHAN (b_end b)) pre;
  bi_full : b_full b = false -> forall x, forallb (fun a => negb (a_col a =? col) || ne_part x a) pre = true }.

Lemma forallb_snoc {A} (f : A -> bool) l x : forallb f (l ++ [x]) = forallb f l && f x.
Proof. rewrite forallb_app. cbn. now rewrite andb_true_r. Qed.

(** A new lower bound [w], inclusive or not. *)
Lemma lo_step v iv w iw x : v = WG_ILLEGAL \/ ok v -> ok w -> ok x ->
  (if (v =? WG_ILLEGAL) || (if iw : bool then cmp v w =? WG_LESSTHAN else negb (cmp v w =? WG_GREATER)) then lo w iw x else lo v iv x) = lo v iv x && lo w iw x.
Proof.
  intros [->|Dv] Dw Dx; [cbn; reflexivity|]. rewrite (proj2 (Z.eqb_neq v _) (dom_ill _ _ KO v Dv)). cbn [orb]. now apply lo_tighter.
Qed.
Lemma hi_step v iv w iw x : v = WG_ILLEGAL \/ ok v -> ok w -> ok x ->
  (if (v =? WG_ILLEGAL) || (if iw : bool then cmp v w =? WG_GREATER else negb (cmp v w =? WG_LESSTHAN)) then hi w iw x else hi v iv x) = hi v iv x && hi w iw x.
Proof.
  intros [->|Dv] Dw Dx; [cbn; reflexivity|]. rewrite (proj2 (Z.eqb_neq v _) (dom_ill _ _ KO v Dv)). cbn [orb]. now apply hi_tighter.
Qed.
Lemma lo_low w i x : ok w -> lo w i x = (if i then negb (cmp x w =? WG_LESSTHAN) else cmp x w =? WG_GREATER).
Proof. intros D. unfold lo_b. rewrite (proj2 (Z.eqb_neq w _) (dom_ill _ _ KO w D)). reflexivity. Qed.
Lemma hi_high w i x : ok w -> hi w i x = (if i then negb (cmp x w =? WG_GREATER) else cmp x w =? WG_LESSTHAN).
Proof. intros D. unfold hi_b. rewrite (proj2 (Z.eqb_neq w _) (dom_ill _ _ KO w D)). reflexivity. Qed.

Lemma bounds_step col pre b a : ok (a_val a) -> bounds_inv col pre b -> bounds_inv col (pre ++ [a]) (bound_step db col b a).
Proof.
  intros Dw [B1 B2 B3 B4 B5 B6 B7]. destruct a as [c cond w]. cbn [a_val] in Dw. unfold bound_step. cbn [a_col a_cond a_val].
  destruct (Z.eqb_spec c col) as [->|Hc]; cbn [negb].
  2:{ constructor; auto; intros; rewrite ?forallb_snoc; cbn [a_col]; rewrite ?(proj2 (Z.eqb_neq c col) Hc); cbn [negb orb]; rewrite ?andb_true_r; auto; rewrite in_app_iff; auto. }
  cbv zeta. unfold WG_COND_EQUAL, WG_COND_LESSTHAN, WG_COND_GREATER, WG_COND_LTEQUAL, WG_COND_GTEQUAL, WG_COND_NOT_EQUAL.
  destruct b as [sb eb si ei fu]. cbn [b_start b_end b_sincl b_eincl b_full] in *.
  assert (Lo : forall iw, (forall x, ok x -> low_part x (QA col cond w) = lo w iw x) ->
     let b' := if (sb =? WG_ILLEGAL) || (if iw : bool then cmp sb w =? WG_LESSTHAN else negb (cmp sb w =? WG_GREATER)) then (w, iw) else (sb, si) in
     forall x, ok x -> lo (fst b') (snd b') x = forallb (fun a => negb (a_col a =? col) || low_part x a) (pre ++ [QA col cond w])).
  { intros iw E b' x Dx. rewrite forallb_snoc. cbn [a_col]. rewrite Z.eqb_refl. cbn [negb orb]. rewrite E, <- B3, <- (lo_step sb si w iw x) by auto.
    unfold b'. match goal with |- context [if ?c then _ else _] => destruct c end; reflexivity. }
  assert (Hi : forall iw, (forall x, ok x -> high_part x (QA col cond w) = hi w iw x) ->
     let b' := if (eb =? WG_ILLEGAL) || (if iw : bool then cmp eb w =? WG_GREATER else negb (cmp eb w =? WG_LESSTHAN)) then (w, iw) else (eb, ei) in
     forall x, ok x -> hi (fst b') (snd b') x = forallb (fun a => negb (a_col a =? col) || high_part x a) (pre ++ [QA col cond w])).
  { intros iw E b' x Dx. rewrite forallb_snoc. cbn [a_col]. rewrite Z.eqb_refl. cbn [negb orb]. rewrite E, <- B4, <- (hi_step eb ei w iw x) by auto.
    unfold b'. match goal with |- context [if ?c then _ else _] => destruct c end; reflexivity. }
  assert (Ls : (forall x, low_part x (QA col cond w) = true) -> forall x, ok x -> lo sb si x = forallb (fun a => negb (a_col a =? col) || low_part x a) (pre ++ [QA col cond w])).
  { intros E x Dx. rewrite forallb_snoc. cbn [a_col]. rewrite Z.eqb_refl. cbn [negb orb]. now rewrite E, andb_true_r, B3. }
  assert (Hs : (forall x, high_part x (QA col cond w) = true) -> forall x, ok x -> hi eb ei x = forallb (fun a => negb (a_col a =? col) || high_part x a) (pre ++ [QA col cond w])).
  { intros E x Dx. rewrite forallb_snoc. cbn [a_col]. rewrite Z.eqb_refl. cbn [negb orb]. now rewrite E, andb_true_r, B4. }
  assert (Ne : (forall x, ne_part x (QA col cond w) = true) -> fu = false -> forall x, forallb (fun a => negb (a_col a =? col) || ne_part x a) (pre ++ [QA col cond w]) = true).
  { intros E Ef x. rewrite forallb_snoc. cbn [a_col]. rewrite Z.eqb_refl. cbn [negb orb]. rewrite E, B7; auto. }
  assert (Is : sb <> WG_ILLEGAL -> si = false -> In (QA col WG_COND_GREATER sb) (pre ++ [QA col cond w])) by (intros; rewrite in_app_iff; auto).
  assert (Ie : eb <> WG_ILLEGAL -> ei = false -> In (QA col WG_COND_LESSTHAN eb) (pre ++ [QA col cond w])) by (intros; rewrite in_app_iff; auto).
  destruct (Z.eqb_spec cond 1) as [->|].
  { pose proof (Lo true (fun x _ => eq_sym (lo_low w true x Dw))) as L. pose proof (Hi true (fun x _ => eq_sym (hi_high w true x Dw))) as H. cbv zeta in L, H.
    specialize (Ne (fun _ => eq_refl)). cbn [b_start b_end b_sincl b_eincl b_full].
    destruct ((sb =? WG_ILLEGAL) || (cmp sb w =? WG_LESSTHAN)); cbn [b_start b_end b_sincl b_eincl b_full fst snd] in *;
      (destruct ((eb =? WG_ILLEGAL) || (cmp eb w =? WG_GREATER)); cbn [b_start b_end b_sincl b_eincl b_full fst snd] in *; constructor; cbn [b_start b_end b_sincl b_eincl b_full]; auto; discriminate). }
  destruct (Z.eqb_spec cond 4) as [->|].
  { specialize (Ls (fun _ => eq_refl)). pose proof (Hi false (fun x _ => eq_sym (hi_high w false x Dw))) as H. cbv zeta in H. specialize (Ne (fun _ => eq_refl)).
    destruct ((eb =? WG_ILLEGAL) || negb (cmp eb w =? WG_LESSTHAN)); cbn [b_start b_end b_sincl b_eincl b_full fst snd] in *; constructor; cbn [b_start b_end b_sincl b_eincl b_full]; auto.
    intros _ _. rewrite in_app_iff. right. now left. }
  destruct (Z.eqb_spec cond 8) as [->|].
  { specialize (Hs (fun _ => eq_refl)). pose proof (Lo false (fun x _ => eq_sym (lo_low w false x Dw))) as L. cbv zeta in L. specialize (Ne (fun _ => eq_refl)).
    destruct ((sb =? WG_ILLEGAL) || negb (cmp sb w =? WG_GREATER)); cbn [b_start b_end b_sincl b_eincl b_full fst snd] in *; constructor; cbn [b_start b_end b_sincl b_eincl b_full]; auto.
    intros _ _. rewrite in_app_iff. right. now left. }
  destruct (Z.eqb_spec cond 16) as [->|].
  { specialize (Ls (fun _ => eq_refl)). pose proof (Hi true (fun x _ => eq_sym (hi_high w true x Dw))) as H. cbv zeta in H. specialize (Ne (fun _ => eq_refl)).
    destruct ((eb =? WG_ILLEGAL) || (cmp eb w =? WG_GREATER)); cbn [b_start b_end b_sincl b_eincl b_full fst snd] in *; constructor; cbn [b_start b_end b_sincl b_eincl b_full]; auto. discriminate. }
  destruct (Z.eqb_spec cond 32) as [->|].
  { specialize (Hs (fun _ => eq_refl)). pose proof (Lo true (fun x _ => eq_sym (lo_low w true x Dw))) as L. cbv zeta in L. specialize (Ne (fun _ => eq_refl)).
    destruct ((sb =? WG_ILLEGAL) || (cmp sb w =? WG_LESSTHAN)); cbn [b_start b_end b_sincl b_eincl b_full fst snd] in *; constructor; cbn [b_start b_end b_sincl b_eincl b_full]; auto. discriminate. }
  destruct (Z.eqb_spec cond 2) as [->|].
  { specialize (Ls (fun _ => eq_refl)). specialize (Hs (fun _ => eq_refl)). constructor; cbn [b_start b_end b_sincl b_eincl b_full]; auto. discriminate. }
  assert (P : forall x, low_part x (QA col cond w) = true /\ high_part x (QA col cond w) = true /\ ne_part x (QA col cond w) = true).
  { intros x. unfold low_part, high_part, ne_part. cbn [a_cond a_val]. unfold WG_COND_EQUAL, WG_COND_LESSTHAN, WG_COND_GREATER, WG_COND_LTEQUAL, WG_COND_GTEQUAL, WG_COND_NOT_EQUAL.
    rewrite !(proj2 (Z.eqb_neq cond _)) by assumption. auto. }
  constructor; cbn [b_start b_end b_sincl b_eincl b_full]; auto; [apply Ls|apply Hs|apply Ne]; apply P.
Qed.
Lemma bounds_ok col args : Forall (fun a => ok (a_val a)) args -> bounds_inv col args (bounds db col args).
Proof.
  intros F. unfold bounds. assert (G : forall l pre b, Forall (fun a => ok (a_val a)) l -> bounds_inv col pre b -> bounds_inv col (pre ++ l) (fold_left (bound_step db col) l b)).
  { clear F. induction l as [|a l IH]; intros pre b F B; cbn [fold_left]; [now rewrite app_nil_r|]. replace (pre ++ a :: l) with ((pre ++ [a]) ++ l) by now rewrite <- app_assoc.
    apply IH; [now apply Forall_inv_tail in F|]. apply bounds_step; [now apply Forall_inv in F|exact B]. }
  apply (G args []); [exact F|]. constructor; cbn; auto; intros H; now elim H.
Qed.

(** ** The checks of a row *)
Lemma check_forallb rec args : check_arglist db rec args = forallb (fun a => (a_col a <? wrap32 (wg_get_record_len cs rec)) && check_cond db (wg_get_field cs rec (a_col a)) a) args.
Proof.
  induction args as [|a args IH]; [reflexivity|]. cbn [check_arglist forallb]. rewrite IH. destruct (a_col a <? wrap32 (wg_get_record_len cs rec)), (check_cond db (wg_get_field cs rec (a_col a)) a); reflexivity.
Qed.
Lemma forallb_and {A} (f g : A -> bool) l : forallb (fun a => f a && g a) l = forallb f l && forallb g l.
Proof. induction l as [|a l IH]; [reflexivity|]. cbn [forallb]. rewrite IH. destruct (f a), (g a), (forallb f l), (forallb g l); reflexivity. Qed.
Lemma forallb_eq {A} (f g : A -> bool) l : (forall a, In a l -> f a = g a) -> forallb f l = forallb g l.
Proof.
  induction l as [|a l IH]; intros H; [reflexivity|]. cbn [forallb]. rewrite (H a) by now left. rewrite IH; [reflexivity|]. intros. apply H. now right.
Qed.
Lemma forallb_filter {A} (f g : A -> bool) l : forallb f (filter g l) = forallb (fun a => negb (g a) || f a) l.
Proof. induction l as [|a l IH]; [reflexivity|]. cbn [filter forallb]. destruct (g a); cbn [forallb negb orb andb]; [now rewrite IH|exact IH]. Qed.

(** Range and remaining conditions together are the conditions. *)
Lemma range_check col args rec : Forall (fun a => ok (a_val a)) args -> ok (wg_get_field cs rec col) -> col < wrap32 (wg_get_record_len cs rec) ->
  let b := bounds db col args in
  lo (b_start b) (b_sincl b) (wg_get_field cs rec col) && hi (b_end b) (b_eincl b) (wg_get_field cs rec col) &&
  check_arglist db rec (if b_full b then args else filter (fun a => negb (a_col a =? col)) args) = check_arglist db rec args.
Proof.
  intros F D Hc b. destruct (bounds_ok col args F) as [_ _ B3 B4 _ _ B7]. fold b in B3, B4, B7. rewrite (B3 _ D), (B4 _ D). rewrite !check_forallb. destruct (b_full b) eqn:Ef.
  - rewrite <- !forallb_and. apply forallb_eq. intros a _. rewrite check_parts. destruct (Z.eqb_spec (a_col a) col) as [->|_]; cbn [negb orb andb]; [|reflexivity].
    destruct (low_part (wg_get_field cs rec col) a), (high_part (wg_get_field cs rec col) a), (ne_part (wg_get_field cs rec col) a), (col <? wrap32 (wg_get_record_len cs rec)); reflexivity.
  - specialize (B7 eq_refl (wg_get_field cs rec col)). rewrite forallb_filter.
    transitivity (forallb (fun a => negb (a_col a =? col) || low_part (wg_get_field cs rec col) a) args && forallb (fun a => negb (a_col a =? col) || high_part (wg_get_field cs rec col) a) args
      && forallb (fun a => negb (a_col a =? col) || ne_part (wg_get_field cs rec col) a) args && forallb (fun a => negb (negb (a_col a =? col)) || (a_col a <? wrap32 (wg_get_record_len cs rec)) && check_cond db (wg_get_field cs rec (a_col a)) a) args);
      [rewrite B7, andb_true_r; reflexivity|].
    rewrite <- !forallb_and. apply forallb_eq. intros a _. rewrite check_parts. destruct (Z.eqb_spec (a_col a) col) as [->|_]; cbn [negb orb andb]; [|reflexivity].
    rewrite (proj2 (Z.ltb_lt _ _) Hc). cbn [andb]. now rewrite andb_true_r.
Qed.

(** ** The chosen index *)
Definition usable (args : list qarg) (ix : qindex) : Prop :=
  match ix_tmpl ix with None => True | Some t => exists sc, fst (template_score db args t 0 sc) = true end.
Lemma pick_index_ok args l : forall score id score', pick_index db args l score = (id, score') -> id = 0 \/ exists ix, In ix l /\ ix_type ix = WG_INDEX_TYPE_TTREE /\ usable args ix /\ id = wrap32 (ix_id ix).
Proof.
  induction l as [|ix l IH]; intros score id score' E; cbn [pick_index] in E; [injection E as <- <-; now left|].
  assert (Next : forall sc, pick_index db args l sc = (id, score') -> id = 0 \/ exists ix', In ix' (ix :: l) /\ ix_type ix' = WG_INDEX_TYPE_TTREE /\ usable args ix' /\ id = wrap32 (ix_id ix')).
  { intros sc En. destruct (IH _ _ _ En) as [|(ix' & H1 & H2)]; [now left|right]. exists ix'. split; [now right|exact H2]. }
  destruct (Z.eqb_spec (ix_type ix) WG_INDEX_TYPE_TTREE) as [Et|]; [|eauto]. destruct (ix_tmpl ix) as [t|] eqn:Em.
  - destruct (template_score db args t 0 score) as (o & sc) eqn:Es. destruct o; [|eauto]. injection E as <- <-. right. exists ix. split; [now left|]. split; [exact Et|].
    split; [|reflexivity]. unfold usable. rewrite Em. exists score. now rewrite Es.
  - injection E as <- <-. right. exists ix. split; [now left|]. split; [exact Et|]. split; [|reflexivity]. unfold usable. now rewrite Em.
Qed.
Lemma best_column_ok args sc : forall ms mrc id col id', best_column db args sc ms mrc id = (col, id') ->
  (col, id') = (mrc, id) \/ exists s0, In (col, s0) sc /\ (id' = 0 \/ exists ix, In ix (d_index db col) /\ ix_type ix = WG_INDEX_TYPE_TTREE /\ usable args ix /\ id' = wrap32 (ix_id ix)).
Proof.
  induction sc as [|(c & s0) sc IH]; intros ms mrc id col id' E; cbn [best_column] in E; [left; congruence|].
  destruct (if c <=? MAX_INDEXED_FIELDNR then pick_index db args (d_index db c) s0 else (0, s0)) as (i & s1) eqn:Ep.
  assert (Pi : i = 0 \/ exists ix, In ix (d_index db c) /\ ix_type ix = WG_INDEX_TYPE_TTREE /\ usable args ix /\ i = wrap32 (ix_id ix)).
  { destruct (c <=? MAX_INDEXED_FIELDNR); [now apply pick_index_ok in Ep|injection Ep as <- <-; now left]. }
  cbv zeta in E. destruct (ms <? (if i =? 0 then 0 else s1)).
  - apply IH in E. destruct E as [E|(s2 & H1 & H2)].
    + injection E as -> ->. right. exists s0. split; [now left|exact Pi].
    + right. exists s2. split; [now right|exact H2].
  - apply IH in E. destruct E as [E|(s2 & H1 & H2)]; [now left|]. right. exists s2. split; [now right|exact H2].
Qed.
Lemma add_score_in sc c d col s0 : In (col, s0) (add_score sc c d) -> col = c \/ exists s1, In (col, s1) sc.
Proof.
  induction sc as [|(c' & x) sc IH]; cbn [add_score]; [intros [E|[]]; injection E as <- _; now left|].
  destruct (Z.eqb_spec c' c) as [->|]; (intros [E|H]; [injection E as <- _|]); auto.
  - right. exists s0. now right.
  - right. exists x. now left.
  - destruct (IH H) as [|(s1 & H1)]; [now left|right]. exists s1. now right.
Qed.
Lemma column_scores_in args col s0 : In (col, s0) (column_scores args) -> exists a, In a args /\ a_col a = col.
Proof.
  unfold column_scores. assert (G : forall l sc, In (col, s0) (fold_left (fun sc a => add_score sc (a_col a) (arg_score a)) l sc) -> (exists a, In a l /\ a_col a = col) \/ exists s1, In (col, s1) sc).
  { induction l as [|a l IH]; intros sc H; cbn [fold_left] in H; [right; eauto|]. destruct (IH _ H) as [(a' & H1 & H2)|(s1 & H1)]; [left; exists a'; split; [now right|exact H2]|].
    apply add_score_in in H1. destruct H1 as [->|]; [left; exists a; split; [now left|reflexivity]|now right]. }
  intros H. destruct (G args [] H) as [|(? & [])]. assumption.
Qed.

(** ** Templates *)
Lemma fixes_ok args j enc : forall m, fixes db args j enc m = Some true -> m = true \/ exists a, In a args /\ a_col a = j /\ a_cond a = WG_COND_EQUAL /\ cmp enc (a_val a) = WG_EQUAL.
Proof.
  induction args as [|a args IH]; intros m E; cbn [fixes] in E; [left; congruence|]. destruct (Z.eqb_spec (a_col a) j) as [Ej|].
  - destruct (Z.eqb_spec (a_cond a) WG_COND_EQUAL) as [Ec|]; [|discriminate]. destruct (Z.eqb_spec (cmp enc (a_val a)) WG_EQUAL) as [Ev|]; [|discriminate]. right. exists a. split; [now left|auto].
  - destruct (IH _ E) as [|(a' & H1 & H2)]; [now left|right]. exists a'. split; [now right|exact H2].
Qed.
Lemma template_ok args tmpl : forall j sc, fst (template_score db args tmpl j sc) = true -> forall i, (i < length tmpl)%nat -> encoded_type (words cs) (nth i tmpl 0) <> WG_VARTYPE ->
  exists a, In a args /\ a_col a = j + Z.of_nat i /\ a_cond a = WG_COND_EQUAL /\ cmp (nth i tmpl 0) (a_val a) = WG_EQUAL.
Proof.
  induction tmpl as [|enc tmpl IH]; intros j sc E i Hi Hv; [cbn in Hi; lia|]. cbn [template_score] in E. destruct i as [|i]; cbn [nth length] in *.
  - rewrite (proj2 (Z.eqb_neq _ _) Hv) in E. cbn [negb] in E. destruct (fixes db args j enc false) as [[]|] eqn:Ef; try discriminate.
    apply fixes_ok in Ef. destruct Ef as [|(a & H1 & H2 & H3)]; [discriminate|]. exists a. rewrite Z.add_0_r. auto.
  - replace (j + Z.of_nat (S i)) with (j + 1 + Z.of_nat i) by lia. destruct (negb (encoded_type (words cs) enc =? WG_VARTYPE)).
    + destruct (fixes db args j enc false) as [[]|]; try discriminate. apply (IH _ _ E); [lia|exact Hv].
    + apply (IH _ _ E); [lia|exact Hv].
Qed.
Lemma match_fields_ok tmpl rec : forall i, match_fields cs tmpl rec i = true <->
  forall k, (k < length tmpl)%nat -> encoded_type (words cs) (nth k tmpl 0) <> WG_VARTYPE -> cmp (nth k tmpl 0) (wg_get_field cs rec (i + Z.of_nat k)) = WG_EQUAL.
Proof.
  induction tmpl as [|enc tmpl IH]; intros i; cbn [match_fields length]; [split; [intros; lia|reflexivity]|].
  destruct (Z.eqb_spec (encoded_type (words cs) enc) WG_VARTYPE) as [Ev|Ev]; cbn [negb andb].
  - rewrite IH. split.
    + intros H [|k] Hk Hn; cbn [nth] in *; [now elim Hn|]. replace (i + Z.of_nat (S k)) with (i + 1 + Z.of_nat k) by lia. apply H; [lia|exact Hn].
    + intros H k Hk Hn. replace (i + 1 + Z.of_nat k) with (i + Z.of_nat (S k)) by lia. apply (H (S k)); [lia|exact Hn].
  - destruct (Z.eqb_spec (cmp enc (wg_get_field cs rec i)) WG_EQUAL) as [Ec|Ec]; cbn [negb].
    + rewrite IH. split.
      * intros H [|k] Hk Hn; cbn [nth] in *; [now rewrite Z.add_0_r|]. replace (i + Z.of_nat (S k)) with (i + 1 + Z.of_nat k) by lia. apply H; [lia|exact Hn].
      * intros H k Hk Hn. replace (i + 1 + Z.of_nat k) with (i + Z.of_nat (S k)) by lia. apply (H (S k)); [lia|exact Hn].
    + split; [discriminate|]. intros H. exfalso. apply Ec. rewrite <- (Z.add_0_r i). apply (H 0%nat); [lia|exact Ev].
Qed.

(** ** Fetching *)
Lemma fetch_scan_ok args : forall rest, fetch_scan db rest args =
  match filter (fun r => check_arglist db r args) rest with [] => (None, []) | r :: _ => (Some r, snd (fetch_scan db rest args)) end /\
  filter (fun r => check_arglist db r args) (snd (fetch_scan db rest args)) = tl (filter (fun r => check_arglist db r args) rest).
Proof.
  induction rest as [|r rest IH]; [split; reflexivity|]. cbn [fetch_scan filter]. destruct (check_arglist db r args) eqn:E; [split; reflexivity|exact IH].
Qed.
Lemma fetch_rows_scan args : forall n rest, (length (filter (fun r => check_arglist db r args) rest) <= n)%nat -> fetch_rows db n (QScan rest args) = Some (filter (fun r => check_arglist db r args) rest).
Proof.
  induction n as [|n IH]; intros rest Hn; cbn [fetch_rows wg_fetch]; destruct (fetch_scan_ok args rest) as (E1 & E2); destruct (fetch_scan db rest args) as (o & rest') eqn:E; cbn [snd] in *;
    (destruct (filter (fun r => check_arglist db r args) rest) as [|r l] eqn:Ef; injection E1 as ->; [reflexivity|]); cbn [length tl] in *; [lia|].
  rewrite IH by (rewrite E2; lia). now rewrite E2.
Qed.
Lemma fetch_rows_tree col s args : forall n q, fetch_rows db n (QTree col s q args) = fetch_all n (fun r => check_arglist db r args) s q.
Proof.
  induction n as [|n IH]; intros q; cbn [fetch_rows wg_fetch fetch_all]; destruct (fetch_ttree _ (fun rec => check_arglist db rec args) s q) as [([r|] & q')|]; try reflexivity. now rewrite IH.
Qed.
End Q.
