(** Positions in a T-tree index and what the searches say about them. *)
From Coq Require Import ZArith List Bool Lia Permutation Sorted.
From Verif Require Import Base EncodingModel CompareModel TtreeModel TtreeShape TtreeArr TtreeRotate TtreeFix TtreeOrd TtreeAdd TtreeDel TtreeReach.
Import ListNotations.
Open Scope Z_scope.
#[local] Ltac Zify.zify_post_hook ::= idtac.

(** Slot [i] of node [a]: rows [P] come before, rows [Q] from there on. *)
Definition at_pos (s : tt) (L : list Z) (a i : Z) (P Q : list Z) : Prop :=
  exists A B, L = A ++ a :: B /\ 0 <= i < hn s a /\ P = flat_map (rows s) A ++ rowsf (harr s a) i /\
  Q = rowsf (fun j => harr s a (j + i)) (hn s a - i) ++ flat_map (rows s) B.

Lemma rowsf_length f n : length (rowsf f n) = Z.to_nat n.
Proof. unfold rowsf. now rewrite map_length, seq_length. Qed.
Lemma pos_cat s L a i P Q : at_pos s L a i P Q -> flat_map (rows s) L = P ++ Q.
Proof.
  intros (A & B & -> & Hi & -> & ->). rewrite flat_map_app. cbn [flat_map]. unfold rows at 2. rewrite (rowsf_two (harr s a) (hn s a) i) by lia.
  now rewrite <- !app_assoc.
Qed.
Lemma pos_head s L a i P Q : at_pos s L a i P Q -> exists Q', Q = harr s a i :: Q'.
Proof.
  intros (A & B & _ & Hi & _ & ->). replace (hn s a - i) with (1 + (hn s a - i - 1)) by lia. rewrite rowsf_cons by lia. cbn [app Z.add]. eexists. reflexivity.
Qed.
(** A position has one meaning ... *)
Lemma pos_unique s L a i P Q P' Q' : NoDup L -> at_pos s L a i P Q -> at_pos s L a i P' Q' -> P = P' /\ Q = Q'.
Proof.
  intros N (A & B & E & _ & -> & ->) (A' & B' & E' & _ & -> & ->). rewrite E in N, E'. destruct (nodup_split A B A' B' a N E') as (-> & ->). auto.
Qed.
(** ... and every number of rows is before one position only. *)
Lemma split_tri (A A' B B' : list Z) a b : A ++ a :: B = A' ++ b :: B' ->
  (exists C, A' = A ++ a :: C /\ B = C ++ b :: B') \/ (A = A' /\ a = b) \/ (exists C, A = A' ++ b :: C /\ B' = C ++ a :: B).
Proof.
  revert A'. induction A as [|x A IH]; intros A' E; destruct A' as [|y A']; cbn [app] in E.
  - injection E as -> ->. right. left. auto.
  - injection E as -> ->. left. exists A'. auto.
  - injection E as -> <-. right. right. exists A. auto.
  - injection E as -> E. destruct (IH A' E) as [(C & -> & ->)|[(-> & ->)|(C & -> & ->)]]; [left; exists C; auto|right; left; auto|right; right; exists C; auto].
Qed.
Lemma rows_length s a : length (rows s a) = Z.to_nat (hn s a).
Proof. apply rowsf_length. Qed.
Lemma pos_inj s L a i b j P Q P' Q' : at_pos s L a i P Q -> at_pos s L b j P' Q' -> length P = length P' -> a = b /\ i = j.
Proof.
  intros (A & B & E & Hi & -> & _) (A' & B' & E' & Hj & -> & _) EL. rewrite E in E'. rewrite !app_length, !rowsf_length in EL.
  destruct (split_tri _ _ _ _ _ _ E') as [(C & -> & _)|[(-> & ->)|(C & -> & _)]].
  - rewrite flat_map_app in EL. cbn [flat_map] in EL. rewrite !app_length, rows_length in EL. lia.
  - split; [reflexivity|]. lia.
  - rewrite flat_map_app in EL. cbn [flat_map] in EL. rewrite !app_length, rows_length in EL. lia.
Qed.
(** End not before start. *)
Lemma pos_after s L co cs eo es P Q P1 Q1 : NoDup L -> ~ In 0 L -> chain s L -> at_pos s L co cs P Q -> at_pos s L eo es P1 Q1 -> (length P <= length P1)%nat ->
  ~ (eo = co /\ es < cs) /\ eo <> hpred s co.
Proof.
  intros N Z0 C (A & B & E & Hi & -> & _) (A' & B' & E' & Hj & -> & _) EL. rewrite E in N, E', C. rewrite !app_length, !rowsf_length in EL. split.
  - intros (-> & Hl). destruct (nodup_split A B A' B' co N E') as (-> & ->). lia.
  - destruct (chain_at _ _ _ _ C) as (-> & _). intros Ee. destruct (snoc_cases A) as [->|(A2 & g & ->)].
    + cbn [last] in Ee. apply Z0. rewrite E, E', <- Ee, in_app_iff. cbn. auto.
    + rewrite last_app in Ee. cbn [last] in Ee. subst g. rewrite <- app_assoc in N, E'. cbn [app] in N, E'.
      destruct (nodup_split A2 (co :: B) A' B' eo N E') as (-> & _).
      rewrite flat_map_app in EL. cbn [flat_map] in EL. rewrite app_nil_r, !app_length, rows_length in EL. lia.
Qed.
(** End just before start. *)
Lemma pos_before s L co cs eo es P Q P1 Q1 : NoDup L -> chain s L -> Forall (fun a => 1 <= hn s a) L -> at_pos s L co cs P Q -> at_pos s L eo es P1 Q1 ->
  length P = S (length P1) -> (eo = co /\ es < cs) \/ (eo <> co /\ eo = hpred s co).
Proof.
  intros N C F (A & B & E & Hi & -> & _) (A' & B' & E' & Hj & -> & _) EL. rewrite E in N, E', C. rewrite !app_length, !rowsf_length in EL.
  destruct (split_tri _ _ _ _ _ _ E') as [(D & -> & _)|[(-> & ->)|(D & -> & _)]].
  - rewrite flat_map_app in EL. cbn [flat_map] in EL. rewrite !app_length, rows_length in EL. lia.
  - left. split; [reflexivity|]. lia.
  - right. rewrite flat_map_app in EL. cbn [flat_map] in EL. rewrite !app_length, rows_length in EL.
    assert (D = []) as ->.
    { destruct D as [|d D]; [reflexivity|exfalso]. rewrite E, Forall_app in F. destruct F as (F & _). rewrite Forall_app in F. destruct F as (_ & F). apply Forall_inv_tail, Forall_inv in F.
      cbn [flat_map] in EL. rewrite app_length, rows_length in EL. lia. }
    destruct (chain_at _ _ _ _ C) as (-> & _). rewrite last_app. cbn [last]. split; [|reflexivity]. intros ->.
    apply NoDup_remove_2 in N. apply N. rewrite !in_app_iff. cbn. auto.
Qed.
(** The next position. *)
Lemma pos_next s L a i P y Q : chain s L -> Forall (fun a => 1 <= hn s a) L -> at_pos s L a i P (y :: Q) -> Q <> [] ->
  at_pos s L (if hn s a <=? i + 1 then hsucc s a else a) (if hn s a <=? i + 1 then 0 else i + 1) (P ++ [y]) Q.
Proof.
  intros C F Hp Qn. destruct (pos_head _ _ _ _ _ _ Hp) as (Q' & EQ). injection EQ as Ey _. clear Q'. subst y.
  destruct Hp as (A & B & E & Hi & EP & EQ). destruct (Z.leb_spec (hn s a) (i + 1)) as [Hl|Hl].
  - assert (i = hn s a - 1) as -> by lia. replace (hn s a - (hn s a - 1)) with (0 + 1) in EQ by lia. rewrite rowsf_snoc in EQ by lia. cbn in EQ. injection EQ as EQ.
    rewrite E in C. destruct (chain_at _ _ _ _ C) as (_ & ->). destruct B as [|b B]; [now elim Qn|]. cbn [hd].
    exists (A ++ [a]), B. rewrite E, <- app_assoc. split; [reflexivity|]. rewrite E, Forall_app in F. destruct F as (_ & F). apply Forall_inv_tail, Forall_inv in F.
    split; [lia|]. split.
    + rewrite EP, flat_map_app. cbn [flat_map rowsf Z.to_nat seq map]. rewrite !app_nil_r, <- app_assoc. f_equal.
      unfold rows. symmetry. replace (hn s a) with (hn s a - 1 + 1) at 1 by lia. apply rowsf_snoc. lia.
    + rewrite EQ. cbn [flat_map]. f_equal. rewrite Z.sub_0_r. apply rowsf_ext. intros. f_equal. lia.
  - exists A, B. split; [exact E|]. split; [lia|]. split.
    + rewrite EP, <- app_assoc. f_equal. now rewrite rowsf_snoc by lia.
    + replace (hn s a - i) with (1 + (hn s a - (i + 1))) in EQ by lia. rewrite rowsf_cons in EQ by lia. cbn [app] in EQ. injection EQ as EQ. rewrite EQ. f_equal.
      apply rowsf_ext. intros. f_equal. lia.
Qed.

(** ** Slot searches *)
Section Pos.
Variables (cmp : Z -> Z -> Z) (dom : Z -> Prop).
Hypothesis KO : keyorder cmp dom.
Variable key : Z -> Z.
Notation VL := (VL cmp dom key).
Notation lt := (lt cmp).
Notation le := (le cmp).
Lemma tnode_first_spec s b k m : forall i, 0 <= i -> let r := tnode_first cmp key m s b k i in
  (r = -1 /\ forall j, i <= j < i + Z.of_nat m -> lt (key (harr s b j)) k) \/
  (i <= r < i + Z.of_nat m /\ cmp (key (harr s b r)) k <> WG_LESSTHAN /\ forall j, i <= j < r -> lt (key (harr s b j)) k).
Proof.
  induction m as [|m IH]; intros i Hi r; unfold r; clear r; cbn [tnode_first]; [left; split; [reflexivity|lia]|].
  destruct (Z.eqb_spec (cmp (key (harr s b i)) k) WG_LESSTHAN) as [C|C]; cbn [negb].
  - destruct (IH (i + 1) ltac:(lia)) as [(E & F)|(E & F & G)].
    + left. split; [exact E|]. intros j Hj. destruct (Z.eq_dec j i) as [->|]; [exact C|]. apply F. lia.
    + right. split; [lia|]. split; [exact F|]. intros j Hj. destruct (Z.eq_dec j i) as [->|]; [exact C|]. apply G. lia.
  - right. split; [lia|]. split; [exact C|]. lia.
Qed.
Lemma tnode_last_spec s b k m : let r := tnode_last cmp key m s b k in
  (r = -1 /\ forall j, 0 <= j < Z.of_nat m -> cmp (key (harr s b j)) k = WG_GREATER) \/
  (0 <= r < Z.of_nat m /\ cmp (key (harr s b r)) k <> WG_GREATER /\ forall j, r < j < Z.of_nat m -> cmp (key (harr s b j)) k = WG_GREATER).
Proof.
  induction m as [|m IH]; intros r; unfold r; clear r; cbn [tnode_last]; [left; split; [reflexivity|lia]|].
  destruct (Z.eqb_spec (cmp (key (harr s b (Z.of_nat m))) k) WG_GREATER) as [C|C]; cbn [negb].
  - destruct IH as [(E & F)|(E & F & G)].
    + left. split; [exact E|]. intros j Hj. destruct (Z.eq_dec j (Z.of_nat m)) as [->|]; [exact C|]. apply F. lia.
    + right. split; [lia|]. split; [exact F|]. intros j Hj. destruct (Z.eq_dec j (Z.of_nat m)) as [->|]; [exact C|]. apply G. lia.
  - right. split; [lia|]. split; [exact C|]. lia.
Qed.

Notation P_lt k := (fun x => lt (key x) k).
Notation P_gt k := (fun x => lt k (key x)).
Notation P_le k := (fun x => le (key x) k).
Notation P_ge k := (fun x => le k (key x)).
(** First slot not below [k] in the bounding node. *)
Lemma first_pos s A b B k : VL s (A ++ b :: B) -> dom k -> le k (hmax s b) -> Forall (below cmp s k) A ->
  let i := wg_search_tnode_first cmp key s b k in
  i <> -1 /\ exists P Q, at_pos s (A ++ b :: B) b i P Q /\ Forall (P_lt k) P /\ Forall (P_ge k) Q.
Proof.
  intros V D Hmax HA i. unfold i, wg_search_tnode_first. destruct (VL_node cmp dom KO key _ _ _ _ V) as ((N & E1 & E2) & Dm & DM & G & _).
  destruct (VL_rows cmp dom key _ _ _ _ V) as (Rs & Rd). rewrite Forall_forall in Rd.
  assert (Dj : forall j, 0 <= j < hn s b -> dom (key (harr s b j))) by (intros j Hj; apply Rd, rowsf_in; eauto).
  pose proof (tnode_first_spec s b k (Z.to_nat (hn s b)) 0 ltac:(lia)) as F. cbv zeta in F. rewrite Z2Nat.id, Z.add_0_l in F by lia.
  destruct F as [(F1 & F2)|(F1 & F2 & F3)].
  - exfalso. apply (lt_not_le cmp dom KO (hmax s b) k); auto. rewrite E2. apply F2. lia.
  - set (r := tnode_first cmp key (Z.to_nat (hn s b)) s b k 0) in *. clearbody r. split; [lia|]. eexists _, _. split; [exists A, B; split; [reflexivity|]; split; [exact F1|]; split; reflexivity|].
    assert (Ge : le k (key (harr s b r))) by (apply (not_lt_le cmp dom KO); auto).
    split; rewrite Forall_app.
    + split; [rewrite Forall_forall; intros x Hx; apply (below_rows cmp dom KO key s k A); auto; exact (proj1 (VL_app cmp dom key _ _ _ V))|].
      rewrite Forall_forall. intros x Hx. apply rowsf_in in Hx. destruct Hx as (j & Hj & <-). apply F3. lia.
    + split.
      * rewrite Forall_forall. intros x Hx. apply rowsf_in in Hx. destruct Hx as (j & Hj & <-). destruct (Z.eq_dec j 0) as [->|Hn]; [exact Ge|].
        apply (le_trans cmp dom KO k (key (harr s b r))); auto; try (apply Dj; lia). apply (rowsf_sorted cmp key (harr s b) (hn s b) Rs); lia.
      * rewrite Forall_forall. intros x Hx. destruct (right_rows cmp dom KO key _ _ _ _ V x Hx) as (Dx & Lx). apply (le_trans cmp dom KO k (hmax s b)); auto.
Qed.
(** Last slot not above [k]; [P] and [Q] are cut after it. *)
Lemma last_pos s A b B k : VL s (A ++ b :: B) -> dom k -> le (hmin s b) k -> Forall (above cmp s k) B ->
  let i := wg_search_tnode_last cmp key s b k in
  i <> -1 /\ exists P x Q, at_pos s (A ++ b :: B) b i P (x :: Q) /\ Forall (P_le k) (P ++ [x]) /\ Forall (P_gt k) Q.
Proof.
  intros V D Hmin HB i. unfold i, wg_search_tnode_last. destruct (VL_node cmp dom KO key _ _ _ _ V) as ((N & E1 & E2) & Dm & DM & G & _).
  destruct (VL_rows cmp dom key _ _ _ _ V) as (Rs & Rd). rewrite Forall_forall in Rd.
  assert (Dj : forall j, 0 <= j < hn s b -> dom (key (harr s b j))) by (intros j Hj; apply Rd, rowsf_in; eauto).
  pose proof (tnode_last_spec s b k (Z.to_nat (hn s b))) as F. cbv zeta in F. rewrite Z2Nat.id in F by lia.
  destruct F as [(F1 & F2)|(F1 & F2 & F3)].
  - exfalso. rewrite E1 in Hmin. apply Hmin. apply F2. lia.
  - set (r := tnode_last cmp key (Z.to_nat (hn s b)) s b k) in *. clearbody r. split; [lia|].
    assert (EQ : rowsf (fun j => harr s b (j + r)) (hn s b - r) ++ flat_map (rows s) B = harr s b r :: rowsf (fun j => harr s b (j + 1 + r)) (hn s b - r - 1) ++ flat_map (rows s) B).
    { replace (hn s b - r) with (1 + (hn s b - r - 1)) at 1 by lia. rewrite rowsf_cons by lia. reflexivity. }
    eexists _, _, _. split; [exists A, B; split; [reflexivity|]; split; [exact F1|]; split; [reflexivity|symmetry; exact EQ]|].
    split; rewrite !Forall_app.
    + split; [split|].
      * rewrite Forall_forall. intros x Hx. destruct (left_rows cmp dom KO key _ _ _ _ V x Hx) as (Dx & Lx). apply (le_trans cmp dom KO (key x) (hmin s b)); auto.
      * rewrite Forall_forall. intros x Hx. apply rowsf_in in Hx. destruct Hx as (j & Hj & <-).
        apply (le_trans cmp dom KO _ (key (harr s b r))); auto; try (apply Dj; lia). apply (rowsf_sorted cmp key (harr s b) (hn s b) Rs); lia.
      * constructor; [exact F2|constructor].
    + split.
      * rewrite Forall_forall. intros x Hx. apply rowsf_in in Hx. destruct Hx as (j & Hj & <-). apply (gt_lt cmp dom KO); auto; [apply Dj; lia|]. apply F3. lia.
      * rewrite Forall_forall. intros x Hx. apply (above_rows cmp dom KO key s k B); auto. apply (VL_app cmp dom key s (A ++ [b]) B). rewrite <- app_assoc. exact V.
Qed.
End Pos.
