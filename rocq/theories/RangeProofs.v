(** Proofs about ranges over a T-tree index. *)
From Coq Require Import ZArith List Bool Lia Permutation Sorted.
From Verif Require Import Base EncodingModel CompareModel TtreeModel TtreeShape TtreeArr TtreeRotate TtreeFix TtreeOrd TtreeAdd TtreeDel TtreeReach TtreePos RangeModel.
Import ListNotations.
Open Scope Z_scope.
#[local] Ltac Zify.zify_post_hook ::= idtac.

(** ** The cursor *)
Definition cursor (s : tt) (L : list Z) (eo es : Z) (P1 : list Z) (x : Z) (Qe R : list Z) (q : tq) : Prop :=
  q_eoff q = eo /\ q_eslot q = es /\
  (R = [] /\ q_off q = 0 \/ R <> [] /\ exists P, at_pos s L (q_off q) (q_slot q) P (R ++ Qe) /\ P ++ R = P1 ++ [x]).

Lemma pos_in s L a i P Q : at_pos s L a i P Q -> In a L /\ 0 <= i < hn s a.
Proof. intros (A & B & -> & Hi & _). split; [rewrite in_app_iff; cbn; auto|exact Hi]. Qed.

Section Cursor.
Variables (s : tt) (L : list Z).
Hypothesis (N : NoDup L) (Z0 : ~ In 0 L) (C : chain s L) (F : Forall (fun a => 1 <= hn s a) L).
Variables (eo es : Z) (P1 : list Z) (x : Z) (Qe : list Z).
Hypothesis E1 : at_pos s L eo es P1 (x :: Qe).
Notation cursor := (cursor s L eo es P1 x Qe).

Lemma cursor_step y R q : cursor (y :: R) q -> q_off q <> 0 /\ harr s (q_off q) (q_slot q) = y /\ cursor R (advance s q).
Proof.
  intros (H1 & H2 & [(H3 & _)|(_ & P & Hp & EP)]); [discriminate|]. destruct q as [co cs eo' es']. cbn [q_off q_slot q_eoff q_eslot] in *. subst eo' es'.
  destruct (pos_in _ _ _ _ _ _ Hp) as (Hin & Hcs). destruct (pos_in _ _ _ _ _ _ E1) as (Hine & Hes).
  assert (c0 : co <> 0) by (intros ->; contradiction). split; [exact c0|]. destruct (pos_head _ _ _ _ _ _ Hp) as (Q' & EQ). cbn [app] in EQ. injection EQ as Ey _. split; [auto|].
  unfold advance. cbn [q_off q_slot q_eoff q_eslot]. cbv zeta. destruct R as [|z R].
  - apply app_inj_tail in EP. destruct EP as (-> & _). destruct (pos_inj _ _ _ _ _ _ _ _ _ _ Hp E1 eq_refl) as (-> & ->).
    rewrite !Z.eqb_refl. cbn [andb]. split; [reflexivity|]. split; [reflexivity|]. left. auto.
  - assert (Lp : (length P < length P1)%nat). { apply (f_equal (@length Z)) in EP. rewrite !app_length in EP. cbn [length] in EP. lia. }
    destruct (Z.eqb_spec co eo) as [Ec|Ec]; [destruct (Z.eqb_spec cs es) as [Es|Es]|]; cbn [andb].
    + subst. destruct (pos_unique _ _ _ _ _ _ _ _ N Hp E1) as (-> & _). lia.
    + destruct (Z.ltb_spec (cs + 1) 0); [lia|]. pose proof (pos_next s L co cs P y ((z :: R) ++ Qe) C F Hp ltac:(discriminate)) as Hn.
      destruct (Z.leb_spec (hn s co) (cs + 1)) as [Hl|Hl].
      * exfalso. destruct (pos_after s L co cs eo es P _ P1 _ N Z0 C Hp E1 ltac:(lia)) as (Q & _). apply Q. subst. split; [reflexivity|]. lia.
      * split; [reflexivity|]. split; [reflexivity|]. right. split; [discriminate|]. exists (P ++ [y]). split; [exact Hn|]. rewrite <- app_assoc. exact EP.
    + destruct (Z.ltb_spec (cs + 1) 0); [lia|]. pose proof (pos_next s L co cs P y ((z :: R) ++ Qe) C F Hp ltac:(discriminate)) as Hn.
      assert (Ec' : (eo =? co) = false) by (apply Z.eqb_neq; congruence). rewrite Ec'.
      destruct (Z.leb_spec (hn s co) (cs + 1)) as [Hl|Hl]; (split; [reflexivity|]; split; [reflexivity|]; right; split; [discriminate|]; exists (P ++ [y]); split; [exact Hn|]; rewrite <- app_assoc; exact EP).
Qed.
Lemma fetch_ttree_ok chk : forall R n q, cursor R q -> (length R <= n)%nat ->
  (fetch_ttree n chk s q = Some (None, snd (match fetch_ttree n chk s q with Some r => r | None => (None, q) end)) /\ filter chk R = []) \/
  (exists R1 y R2 q', R = R1 ++ y :: R2 /\ filter chk R1 = [] /\ chk y = true /\ fetch_ttree n chk s q = Some (Some y, q') /\ cursor R2 q').
Proof.
  induction R as [|y R IH]; intros n q Hc Hn.
  - left. destruct Hc as (_ & _ & [(_ & E)|(E & _)]); [|now elim E]. split; [|reflexivity]. destruct n; cbn [fetch_ttree]; rewrite E; reflexivity.
  - destruct (cursor_step y R q Hc) as (E0 & Ey & Hc'). cbn [length] in Hn. destruct n as [|n]; [lia|]. cbn [fetch_ttree].
    destruct (Z.eqb_spec (q_off q) 0); [contradiction|]. cbv zeta. rewrite Ey. destruct (chk y) eqn:Ek.
    + right. exists [], y, R, (advance s q). auto.
    + destruct (IH n (advance s q) Hc' ltac:(lia)) as [(E & Ef)|(R1 & w & R2 & q' & -> & Ef & Ew & E & Hq)].
      * left. cbn [filter]. rewrite Ek. split; [|exact Ef]. rewrite E. reflexivity.
      * right. exists (y :: R1), w, R2, q'. cbn [filter]. rewrite Ek. auto.
Qed.
Lemma fetch_all_ok chk : forall n R q, cursor R q -> (length R <= n)%nat -> fetch_all n chk s q = Some (filter chk R).
Proof.
  induction n as [|n IH]; intros R q Hc Hn; cbn [fetch_all]; (destruct (fetch_ttree_ok chk R _ q Hc Hn) as [(E & Ef)|(R1 & y & R2 & q' & -> & Ef & Ek & E & Hq)]); rewrite E.
  - now rewrite Ef.
  - rewrite app_length in Hn. cbn [length] in Hn. lia.
  - now rewrite Ef.
  - rewrite app_length in Hn. cbn [length] in Hn. rewrite (IH R2 q' Hq) by lia. rewrite filter_app, Ef. cbn [filter app]. now rewrite Ek.
Qed.
End Cursor.

(** ** Cuts *)
Definition start_cut (s : tt) (L : list Z) (co cs : Z) (P Q : list Z) : Prop :=
  at_pos s L co cs P Q \/ (co = 0 /\ P = flat_map (rows s) L /\ Q = []).
Definition end_cut (s : tt) (L : list Z) (eo es : Z) (P Q : list Z) : Prop :=
  (exists P1 x, P = P1 ++ [x] /\ at_pos s L eo es P1 (x :: Q)) \/ (eo = 0 /\ P = [] /\ Q = flat_map (rows s) L).
Section Cuts.
Variables (s : tt) (L : list Z).
Hypothesis (Z0 : ~ In 0 L) (C : chain s L) (F : Forall (fun a => 1 <= hn s a) L).
Lemma F_in A b B : L = A ++ b :: B -> 1 <= hn s b.
Proof. intros E. rewrite Forall_forall in F. apply F. rewrite E, in_app_iff. cbn. auto. Qed.
Lemma cut_node A b B : L = A ++ b :: B -> start_cut s L b 0 (flat_map (rows s) A) (flat_map (rows s) (b :: B)).
Proof.
  intros E. pose proof (F_in _ _ _ E). left. exists A, B. split; [exact E|]. split; [lia|]. split; [cbn; now rewrite app_nil_r|].
  cbn [flat_map]. f_equal. rewrite Z.sub_0_r. apply rowsf_ext. intros. f_equal. lia.
Qed.
Lemma cut_succ A b B : L = A ++ b :: B -> start_cut s L (hsucc s b) 0 (flat_map (rows s) (A ++ [b])) (flat_map (rows s) B).
Proof.
  intros E. rewrite E in C. destruct (chain_at _ _ _ _ C) as (_ & ->). destruct B as [|d B]; cbn [hd].
  - right. rewrite E. auto.
  - apply cut_node. rewrite E, <- app_assoc. reflexivity.
Qed.
Lemma cut_last A b B : L = A ++ b :: B -> end_cut s L b (hn s b - 1) (flat_map (rows s) (A ++ [b])) (flat_map (rows s) B).
Proof.
  intros E. pose proof (F_in _ _ _ E). left. exists (flat_map (rows s) A ++ rowsf (harr s b) (hn s b - 1)), (harr s b (hn s b - 1)).
  split. { rewrite flat_map_app, <- app_assoc. cbn [flat_map]. rewrite app_nil_r. f_equal. unfold rows. replace (hn s b) with (hn s b - 1 + 1) at 1 by lia. apply rowsf_snoc. lia. }
  exists A, B. split; [exact E|]. split; [lia|]. split; [reflexivity|]. replace (hn s b - (hn s b - 1)) with (0 + 1) by lia. rewrite rowsf_snoc by lia. reflexivity.
Qed.
Lemma cut_pred A b B z : L = A ++ b :: B -> exists es, last_slot s (hpred s b) z = (hpred s b, es) /\ end_cut s L (hpred s b) es (flat_map (rows s) A) (flat_map (rows s) (b :: B)).
Proof.
  intros E. rewrite E in C. destruct (chain_at _ _ _ _ C) as (-> & _). unfold last_slot. destruct (snoc_cases A) as [->|(A2 & g & ->)].
  - cbn [last]. rewrite Z.eqb_refl. eexists. split; [reflexivity|]. right. rewrite E. auto.
  - rewrite last_app. cbn [last]. destruct (Z.eqb_spec g 0) as [->|]. { exfalso. apply Z0. rewrite E, !in_app_iff. cbn. auto. }
    eexists. split; [reflexivity|]. apply cut_last. now rewrite E, <- app_assoc.
Qed.
Lemma cut_after b i P x Q : at_pos s L b i P (x :: Q) ->
  start_cut s L (if hn s b <=? i + 1 then hsucc s b else b) (if hn s b <=? i + 1 then 0 else i + 1) (P ++ [x]) Q.
Proof.
  intros H. destruct Q as [|y Q].
  - right. destruct (pos_in s L b i P [x] H) as (_ & Hi). pose proof (pos_cat _ _ _ _ _ _ H) as EW. destruct H as (A & B & E & _ & _ & EQ).
    apply (f_equal (@length Z)) in EQ. rewrite app_length, rowsf_length in EQ. cbn [length] in EQ.
    destruct B as [|d B].
    + destruct (Z.leb_spec (hn s b) (i + 1)); [|lia]. rewrite E in C. destruct (chain_at _ _ _ _ C) as (_ & ->). auto.
    + exfalso. pose proof (F_in (A ++ [b]) d B ltac:(rewrite E, <- app_assoc; reflexivity)). cbn [flat_map] in EQ. rewrite app_length, rows_length in EQ. lia.
  - left. apply (pos_next s L b i P x (y :: Q) C F H). discriminate.
Qed.
Lemma cut_before b i P Q : at_pos s L b i P Q ->
  exists eo es, (if i - 1 <? 0 then last_slot s (hpred s b) (i - 1) else (b, i - 1)) = (eo, es) /\ end_cut s L eo es P Q.
Proof.
  intros (A & B & E & Hi & EP & EQ). destruct (Z.ltb_spec (i - 1) 0) as [Hl|Hl].
  - assert (i = 0) as -> by lia. destruct (cut_pred A b B (0 - 1) E) as (es & E1 & Hc). exists (hpred s b), es. split; [exact E1|].
    cbn [rowsf Z.to_nat seq map] in EP. rewrite app_nil_r in EP. subst P. replace Q with (flat_map (rows s) (b :: B)); [exact Hc|].
    rewrite EQ. cbn [flat_map]. f_equal. rewrite Z.sub_0_r. apply rowsf_ext. intros. f_equal. lia.
  - exists b, (i - 1). split; [reflexivity|]. left. exists (flat_map (rows s) A ++ rowsf (harr s b) (i - 1)), (harr s b (i - 1)).
    split. { rewrite EP, <- app_assoc. f_equal. replace i with (i - 1 + 1) at 1 by lia. apply rowsf_snoc. lia. }
    exists A, B. split; [exact E|]. split; [lia|]. split; [reflexivity|]. rewrite EQ. replace (hn s b - (i - 1)) with (1 + (hn s b - i)) by lia.
    rewrite rowsf_cons by lia. cbn [app]. f_equal. f_equal. apply rowsf_ext. intros. f_equal. lia.
Qed.
End Cuts.

Section Range.
Variables (cmp : Z -> Z -> Z) (dom : Z -> Prop).
Hypothesis KO : keyorder cmp dom.
Variable key : Z -> Z.
Notation VL := (VL cmp dom key).
Notation lt := (lt cmp).
Notation le := (le cmp).

(** The lower and the upper condition on a row. *)
Definition lo_b (k : Z) (incl : bool) (x : Z) : bool :=
  (k =? WG_ILLEGAL) || (if incl then negb (cmp (key x) k =? WG_LESSTHAN) else cmp (key x) k =? WG_GREATER).
Definition hi_b (k : Z) (incl : bool) (x : Z) : bool :=
  (k =? WG_ILLEGAL) || (if incl then negb (cmp (key x) k =? WG_GREATER) else cmp (key x) k =? WG_LESSTHAN).

Lemma dom_ill k : dom k -> k <> WG_ILLEGAL.
Proof. intros D ->. apply (ko_ill _ _ KO _ D), (ko_refl _ _ KO _ D). Qed.
Lemma ok_full s L : VL s L -> Forall (fun a => 1 <= hn s a) L.
Proof. intros (V & _). rewrite Forall_forall in *. intros a Ha. apply V in Ha. destruct Ha as (N & _). lia. Qed.

Section Tree.
Variables (s : tt) (T : tree) (L : list Z).
Hypothesis (E0 : ino T = L) (H : SH s T) (V : VL s L).
Lemma Vdom P Q : flat_map (rows s) L = P ++ Q -> Forall (fun x => dom (key x)) P /\ Forall (fun x => dom (key x)) Q.
Proof. intros E. destruct V as (_ & _ & D). rewrite E in D. now apply Forall_app in D. Qed.
Lemma Fmap (Q1 Q2 : Z -> Prop) l : (forall x, dom (key x) -> Q1 x -> Q2 x) -> Forall (fun x => dom (key x)) l -> Forall Q1 l -> Forall Q2 l.
Proof. intros Hi D A. rewrite Forall_forall in *. auto. Qed.
Lemma start_cat co cs P Q : start_cut s L co cs P Q -> flat_map (rows s) L = P ++ Q.
Proof. intros [Hp|(_ & -> & ->)]; [now apply pos_cat in Hp|now rewrite app_nil_r]. Qed.
Lemma end_cat eo es P Q : end_cut s L eo es P Q -> flat_map (rows s) L = P ++ Q.
Proof. intros [(P1 & x & -> & Hp)|(_ & -> & ->)]; [apply pos_cat in Hp; now rewrite <- app_assoc|reflexivity]. Qed.

Lemma start_ok k incl n : k = WG_ILLEGAL \/ dom k -> (length L <= n)%nat ->
  exists co cs P Q, start_pos cmp key n s k incl = Some (Some (co, cs)) /\ start_cut s L co cs P Q /\
  Forall (fun x => lo_b k incl x = false) P /\ Forall (fun x => lo_b k incl x = true) Q.
Proof.
  intros Dk Hn. pose proof (sh_chain _ _ H) as C. pose proof (SH_zero _ _ H) as Z0. rewrite E0 in C, Z0. pose proof (ok_full s L V) as FL. unfold start_pos, lo_b. destruct (Z.eqb_spec k WG_ILLEGAL) as [Ek|Ek].
  - cbn [orb]. exists (tminn s), 0, [], (flat_map (rows s) L). split; [reflexivity|]. split; [|split; [constructor|rewrite Forall_forall; auto]].
    destruct C as (C1 & C2 & C3). rewrite C1. assert (EL : L = [] \/ exists a B, L = a :: B) by (destruct L; eauto). destruct EL as [EL|(a & B & EL)]; [right; rewrite EL; auto|].
    replace (hd 0 L) with a by (rewrite EL; reflexivity). replace (flat_map (rows s) L) with (flat_map (rows s) (a :: B)) by (now rewrite EL).
    change (@nil Z) with (flat_map (rows s) []). apply cut_node; [exact FL|exact EL].
  - destruct Dk as [|D]; [contradiction|]. cbn [orb]. rewrite (sh_root _ _ H).
    assert (Cv : forall P Q, flat_map (rows s) L = P ++ Q -> Forall (fun x => lt (key x) k) P -> Forall (fun x => lt k (key x)) Q ->
       Forall (fun x => (if incl then negb (cmp (key x) k =? WG_LESSTHAN) else cmp (key x) k =? WG_GREATER) = false) P /\
       Forall (fun x => (if incl then negb (cmp (key x) k =? WG_LESSTHAN) else cmp (key x) k =? WG_GREATER) = true) Q).
    { intros P Q EW A B. destruct (Vdom P Q EW) as (D1 & D2). split.
      - apply (Fmap (fun x => lt (key x) k) _ P); [|exact D1|exact A]. intros x Dx Hx. unfold TtreeOrd.lt in Hx. rewrite Hx. now destruct incl.
      - apply (Fmap (fun x => lt k (key x)) _ Q); [|exact D2|exact B]. intros x Dx Hx. apply (ko_flip _ _ KO) in Hx; auto. rewrite Hx. now destruct incl. }
    assert (Lf : (Z.to_nat (ht T) <= n)%nat) by (pose proof (ht_len T); rewrite E0 in *; lia).
    destruct incl.
    + destruct (leftmost_ok cmp dom KO key s k L V D T 0 n [] [] 0) as (b & res & -> & l1 & l2 & EL & R); auto.
      all: try exact (sh_st _ _ H); try exact (sh_nz _ _ H). { cbn. now rewrite app_nil_r. }
      assert (V' := V). rewrite EL in V'. destruct res.
      * destruct R as (R1 & R2 & R3). destruct (first_pos cmp dom KO key s l1 b l2 k V' D R2 R3) as (Ni & P & Q & Hp & FP & FQ). rewrite <- EL in Hp.
        destruct (Z.eqb_spec (wg_search_tnode_first cmp key s b k) (-1)); [contradiction|]. eexists _, _, P, Q. split; [reflexivity|]. split; [left; exact Hp|].
        destruct (Vdom P Q (pos_cat _ _ _ _ _ _ Hp)) as (D1 & D2). split.
        -- apply (Fmap (fun x => lt (key x) k) _ P); [|exact D1|exact FP]. intros x Dx Hx. unfold TtreeOrd.lt in Hx. now rewrite Hx.
        -- apply (Fmap (fun x => le k (key x)) _ Q); [|exact D2|exact FQ]. intros x Dx Hx. destruct (Z.eqb_spec (cmp (key x) k) WG_LESSTHAN) as [E|E]; [|reflexivity]. exfalso. now apply (lt_not_le cmp dom KO (key x) k).
      * destruct R as (R1 & R2 & R3). eexists _, _, _, _. split; [reflexivity|]. pose proof (cut_node s L FL l1 b l2 EL) as Hc. split; [exact Hc|]. apply Cv; [exact (start_cat _ _ _ _ Hc)| |].
        -- rewrite Forall_forall. apply (below_rows cmp dom KO key s k l1); auto. exact (proj1 (VL_app cmp dom key _ _ _ V')).
        -- rewrite Forall_forall. apply (above_rows cmp dom KO key s k (b :: l2)); auto. exact (proj2 (VL_app cmp dom key _ _ _ V')).
      * destruct R as (R1 & R2 & R3). eexists _, _, _, _. split; [reflexivity|]. pose proof (cut_succ s L C FL l1 b l2 EL) as Hc. split; [exact Hc|].
        assert (EL' : L = (l1 ++ [b]) ++ l2) by (rewrite EL, <- app_assoc; reflexivity). assert (V'' := V). rewrite EL' in V''.
        apply Cv; [exact (start_cat _ _ _ _ Hc)| |].
        -- rewrite Forall_forall. apply (below_rows cmp dom KO key s k (l1 ++ [b])); auto. exact (proj1 (VL_app cmp dom key _ _ _ V'')).
        -- rewrite Forall_forall. apply (above_rows cmp dom KO key s k l2); auto. exact (proj2 (VL_app cmp dom key _ _ _ V'')).
    + destruct (rightmost_ok cmp dom KO key s k L V D T 0 n [] [] 0 (sh_st _ _ H) (sh_nz _ _ H)) as (b & res & -> & l1 & l2 & EL & R); auto.
      all: try exact (sh_st _ _ H); try exact (sh_nz _ _ H). { cbn. now rewrite app_nil_r. }
      assert (V' := V). rewrite EL in V'. destruct res.
      * destruct R as (R1 & R2 & R3). destruct (last_pos cmp dom KO key s l1 b l2 k V' D R1 R3) as (Ni & P & x & Q & Hp & FP & FQ). rewrite <- EL in Hp.
        destruct (Z.eqb_spec (wg_search_tnode_last cmp key s b k) (-1)); [contradiction|]. pose proof (cut_after s L C FL _ _ _ _ _ Hp) as Hc.
        set (i := wg_search_tnode_last cmp key s b k) in *. exists (if hn s b <=? i + 1 then hsucc s b else b), (if hn s b <=? i + 1 then 0 else i + 1), (P ++ [x]), Q.
        split; [destruct (hn s b <=? i + 1); reflexivity|]. split; [exact Hc|]. destruct (Vdom _ _ (start_cat _ _ _ _ Hc)) as (D1 & D2). split.
        -- apply (Fmap (fun y => le (key y) k) _ (P ++ [x])); [|exact D1|exact FP]. intros y Dy Hy. destruct (Z.eqb_spec (cmp (key y) k) WG_GREATER) as [E|E]; [|reflexivity]. contradiction.
        -- apply (Fmap (fun y => lt k (key y)) _ Q); [|exact D2|exact FQ]. intros y Dy Hy. apply (ko_flip _ _ KO) in Hy; auto. now rewrite Hy.
      * destruct R as (R1 & R2 & R3). eexists _, _, _, _. split; [reflexivity|]. pose proof (cut_node s L FL l1 b l2 EL) as Hc. split; [exact Hc|]. apply Cv; [exact (start_cat _ _ _ _ Hc)| |].
        -- rewrite Forall_forall. apply (below_rows cmp dom KO key s k l1); auto. exact (proj1 (VL_app cmp dom key _ _ _ V')).
        -- rewrite Forall_forall. apply (above_rows cmp dom KO key s k (b :: l2)); auto. exact (proj2 (VL_app cmp dom key _ _ _ V')).
      * destruct R as (R1 & R2 & R3). eexists _, _, _, _. split; [reflexivity|]. pose proof (cut_succ s L C FL l1 b l2 EL) as Hc. split; [exact Hc|].
        assert (EL' : L = (l1 ++ [b]) ++ l2) by (rewrite EL, <- app_assoc; reflexivity). assert (V'' := V). rewrite EL' in V''.
        apply Cv; [exact (start_cat _ _ _ _ Hc)| |].
        -- rewrite Forall_forall. apply (below_rows cmp dom KO key s k (l1 ++ [b])); auto. exact (proj1 (VL_app cmp dom key _ _ _ V'')).
        -- rewrite Forall_forall. apply (above_rows cmp dom KO key s k l2); auto. exact (proj2 (VL_app cmp dom key _ _ _ V'')).
Qed.
Lemma end_ok k incl n : k = WG_ILLEGAL \/ dom k -> (length L <= n)%nat ->
  exists eo es P Q, end_pos cmp key n s k incl = Some (Some (eo, es)) /\ end_cut s L eo es P Q /\
  Forall (fun x => hi_b k incl x = true) P /\ Forall (fun x => hi_b k incl x = false) Q.
Proof.
  intros Dk Hn. pose proof (sh_chain _ _ H) as C. pose proof (SH_zero _ _ H) as Z0. rewrite E0 in C, Z0. pose proof (ok_full s L V) as FL. unfold end_pos, hi_b. destruct (Z.eqb_spec k WG_ILLEGAL) as [Ek|Ek].
  - cbn [orb]. pose proof C as (C1 & C2 & C3). rewrite C2. destruct (snoc_cases L) as [EL|(A & b & EL)].
    { exfalso. apply (sh_nz _ _ H). rewrite <- E0 in EL. destruct T as [|l a r]; [reflexivity|]. cbn [ino] in EL. now destruct (ino l). }
    rewrite EL, last_app. cbn [last]. unfold last_slot. destruct (Z.eqb_spec b 0) as [->|]. { exfalso. apply Z0. rewrite EL, in_app_iff. cbn. auto. }
    rewrite <- EL. exists b, (hn s b - 1), (flat_map (rows s) (A ++ [b])), (flat_map (rows s) []). split; [reflexivity|]. split; [|split; [rewrite Forall_forall; auto|constructor]].
    apply cut_last; [exact FL|exact EL].
  - destruct Dk as [|D]; [contradiction|]. cbn [orb]. rewrite (sh_root _ _ H).
    assert (Cv : forall P Q, flat_map (rows s) L = P ++ Q -> Forall (fun x => lt (key x) k) P -> Forall (fun x => lt k (key x)) Q ->
       Forall (fun x => (if incl then negb (cmp (key x) k =? WG_GREATER) else cmp (key x) k =? WG_LESSTHAN) = true) P /\
       Forall (fun x => (if incl then negb (cmp (key x) k =? WG_GREATER) else cmp (key x) k =? WG_LESSTHAN) = false) Q).
    { intros P Q EW A B. destruct (Vdom P Q EW) as (D1 & D2). split.
      - apply (Fmap (fun x => lt (key x) k) _ P); [|exact D1|exact A]. intros x Dx Hx. unfold TtreeOrd.lt in Hx. rewrite Hx. now destruct incl.
      - apply (Fmap (fun x => lt k (key x)) _ Q); [|exact D2|exact B]. intros x Dx Hx. apply (ko_flip _ _ KO) in Hx; auto. rewrite Hx. now destruct incl. }
    assert (Lf : (Z.to_nat (ht T) <= n)%nat) by (pose proof (ht_len T); rewrite E0 in *; lia).
    destruct incl.
    + destruct (rightmost_ok cmp dom KO key s k L V D T 0 n [] [] 0 (sh_st _ _ H) (sh_nz _ _ H)) as (b & res & -> & l1 & l2 & EL & R); auto.
      all: try exact (sh_st _ _ H); try exact (sh_nz _ _ H). { cbn. now rewrite app_nil_r. }
      assert (V' := V). rewrite EL in V'. destruct res.
      * destruct R as (R1 & R2 & R3). destruct (last_pos cmp dom KO key s l1 b l2 k V' D R1 R3) as (Ni & P & x & Q & Hp & FP & FQ). rewrite <- EL in Hp.
        destruct (Z.eqb_spec (wg_search_tnode_last cmp key s b k) (-1)); [contradiction|].
        assert (Hc : end_cut s L b (wg_search_tnode_last cmp key s b k) (P ++ [x]) Q) by (left; eauto).
        eexists _, _, _, _. split; [reflexivity|]. split; [exact Hc|]. destruct (Vdom _ _ (end_cat _ _ _ _ Hc)) as (D1 & D2). split.
        -- apply (Fmap (fun y => le (key y) k) _ (P ++ [x])); [|exact D1|exact FP]. intros y Dy Hy. destruct (Z.eqb_spec (cmp (key y) k) WG_GREATER) as [E|E]; [|reflexivity]. contradiction.
        -- apply (Fmap (fun y => lt k (key y)) _ Q); [|exact D2|exact FQ]. intros y Dy Hy. apply (ko_flip _ _ KO) in Hy; auto. now rewrite Hy.
      * destruct R as (R1 & R2 & R3). destruct (cut_pred s L Z0 C FL l1 b l2 (-1) EL) as (es & -> & Hc). eexists _, _, _, _. split; [reflexivity|]. split; [exact Hc|]. apply Cv; [exact (end_cat _ _ _ _ Hc)| |].
        -- rewrite Forall_forall. apply (below_rows cmp dom KO key s k l1); auto. exact (proj1 (VL_app cmp dom key _ _ _ V')).
        -- rewrite Forall_forall. apply (above_rows cmp dom KO key s k (b :: l2)); auto. exact (proj2 (VL_app cmp dom key _ _ _ V')).
      * destruct R as (R1 & R2 & R3). eexists _, _, _, _. split; [reflexivity|]. pose proof (cut_last s L FL l1 b l2 EL) as Hc. split; [exact Hc|].
        assert (EL' : L = (l1 ++ [b]) ++ l2) by (rewrite EL, <- app_assoc; reflexivity). assert (V'' := V). rewrite EL' in V''.
        apply Cv; [exact (end_cat _ _ _ _ Hc)| |].
        -- rewrite Forall_forall. apply (below_rows cmp dom KO key s k (l1 ++ [b])); auto. exact (proj1 (VL_app cmp dom key _ _ _ V'')).
        -- rewrite Forall_forall. apply (above_rows cmp dom KO key s k l2); auto. exact (proj2 (VL_app cmp dom key _ _ _ V'')).
    + destruct (leftmost_ok cmp dom KO key s k L V D T 0 n [] [] 0) as (b & res & -> & l1 & l2 & EL & R); auto.
      all: try exact (sh_st _ _ H); try exact (sh_nz _ _ H). { cbn. now rewrite app_nil_r. }
      assert (V' := V). rewrite EL in V'. destruct res.
      * destruct R as (R1 & R2 & R3). destruct (first_pos cmp dom KO key s l1 b l2 k V' D R2 R3) as (Ni & P & Q & Hp & FP & FQ). rewrite <- EL in Hp.
        destruct (Z.eqb_spec (wg_search_tnode_first cmp key s b k) (-1)); [contradiction|]. destruct (cut_before s L Z0 C FL _ _ _ _ Hp) as (eo & es & Ec & Hc).
        exists eo, es, P, Q. split; [rewrite <- Ec; now destruct (wg_search_tnode_first cmp key s b k - 1 <? 0)|]. split; [exact Hc|].
        destruct (Vdom P Q (end_cat _ _ _ _ Hc)) as (D1 & D2). split.
        -- apply (Fmap (fun x => lt (key x) k) _ P); [|exact D1|exact FP]. intros x Dx Hx. unfold TtreeOrd.lt in Hx. now rewrite Hx.
        -- apply (Fmap (fun x => le k (key x)) _ Q); [|exact D2|exact FQ]. intros x Dx Hx. destruct (Z.eqb_spec (cmp (key x) k) WG_LESSTHAN) as [E|E]; [|reflexivity]. exfalso. now apply (lt_not_le cmp dom KO (key x) k).
      * destruct R as (R1 & R2 & R3). destruct (cut_pred s L Z0 C FL l1 b l2 (-1) EL) as (es & -> & Hc). eexists _, _, _, _. split; [reflexivity|]. split; [exact Hc|]. apply Cv; [exact (end_cat _ _ _ _ Hc)| |].
        -- rewrite Forall_forall. apply (below_rows cmp dom KO key s k l1); auto. exact (proj1 (VL_app cmp dom key _ _ _ V')).
        -- rewrite Forall_forall. apply (above_rows cmp dom KO key s k (b :: l2)); auto. exact (proj2 (VL_app cmp dom key _ _ _ V')).
      * destruct R as (R1 & R2 & R3). eexists _, _, _, _. split; [reflexivity|]. pose proof (cut_last s L FL l1 b l2 EL) as Hc. split; [exact Hc|].
        assert (EL' : L = (l1 ++ [b]) ++ l2) by (rewrite EL, <- app_assoc; reflexivity). assert (V'' := V). rewrite EL' in V''.
        apply Cv; [exact (end_cat _ _ _ _ Hc)| |].
        -- rewrite Forall_forall. apply (below_rows cmp dom KO key s k (l1 ++ [b])); auto. exact (proj1 (VL_app cmp dom key _ _ _ V'')).
        -- rewrite Forall_forall. apply (above_rows cmp dom KO key s k l2); auto. exact (proj2 (VL_app cmp dom key _ _ _ V'')).
Qed.

Definition goodbounds (sb eb : Z) (si ei : bool) : Prop :=
  sb = WG_ILLEGAL \/ eb = WG_ILLEGAL \/ cmp sb eb = WG_LESSTHAN \/ cmp sb eb = WG_EQUAL /\ (si = true \/ ei = true).
Lemma cuts_order sb eb si ei x : (sb = WG_ILLEGAL \/ dom sb) -> (eb = WG_ILLEGAL \/ dom eb) -> goodbounds sb eb si ei -> dom (key x) ->
  lo_b sb si x = false -> hi_b eb ei x = false -> False.
Proof.
  intros Ds De G Dx Lo Hi. unfold lo_b, hi_b in *. destruct (Z.eqb_spec sb WG_ILLEGAL); [discriminate|]. destruct (Z.eqb_spec eb WG_ILLEGAL); [discriminate|].
  destruct Ds as [|Ds]; [contradiction|]. destruct De as [|De]; [contradiction|]. destruct G as [|[|G]]; try contradiction. cbn [orb] in *.
  assert (L1 : le (key x) sb /\ (si = true -> lt (key x) sb)).
  { destruct si; [destruct (Z.eqb_spec (cmp (key x) sb) WG_LESSTHAN) as [E|E]; [|discriminate]; split; [now apply lt_le|auto]|].
    destruct (Z.eqb_spec (cmp (key x) sb) WG_GREATER) as [E|E]; [discriminate|]. split; [exact E|discriminate]. }
  assert (L2 : le eb (key x) /\ (ei = true -> lt eb (key x))).
  { destruct ei; [destruct (Z.eqb_spec (cmp (key x) eb) WG_GREATER) as [E|E]; [|discriminate]; apply (gt_lt cmp dom KO) in E; auto; split; [now apply lt_le|auto]|].
    destruct (Z.eqb_spec (cmp (key x) eb) WG_LESSTHAN) as [E|E]; [discriminate|]. split; [now apply (not_lt_le cmp dom KO)|discriminate]. }
  destruct L1 as (L1 & S1), L2 as (L2 & S2). assert (Le : le eb sb) by (apply (le_trans cmp dom KO eb (key x)); auto).
  destruct G as [G|(G & [Hs|Hs])].
  - apply (lt_not_le cmp dom KO sb eb); auto.
  - apply (lt_not_le cmp dom KO eb sb); auto; [apply (le_lt_trans cmp dom KO eb (key x)); auto|]. unfold TtreeOrd.le. rewrite G. discriminate.
  - apply (lt_not_le cmp dom KO eb sb); auto; [apply (lt_le_trans cmp dom KO eb (key x)); auto|]. unfold TtreeOrd.le. rewrite G. discriminate.
Qed.
Lemma filter_all {A} (f : A -> bool) l : Forall (fun x => f x = true) l -> filter f l = l.
Proof. induction 1 as [|x l E _ IH]; [reflexivity|]. cbn [filter]. now rewrite E, IH. Qed.
Lemma filter_none {A} (f : A -> bool) l : Forall (fun x => f x = false) l -> filter f l = [].
Proof. induction 1 as [|x l E _ IH]; [reflexivity|]. cbn [filter]. now rewrite E. Qed.
Lemma app_split_le {A} (P Q P' Q' : list A) : P ++ Q = P' ++ Q' -> (length P <= length P')%nat -> exists R, P' = P ++ R /\ Q = R ++ Q'.
Proof.
  revert P'. induction P as [|x P IH]; intros P' E Hl; [exists P'; auto|]. destruct P' as [|y P']; [cbn in Hl; lia|]. cbn [app length] in *. injection E as -> E.
  destruct (IH P' E ltac:(lia)) as (R & -> & ->). exists R. auto.
Qed.
Lemma bounds_ok sb eb si ei n : (sb = WG_ILLEGAL \/ dom sb) -> (eb = WG_ILLEGAL \/ dom eb) -> goodbounds sb eb si ei -> (length L <= n)%nat ->
  exists q, find_ttree_bounds cmp key n s sb eb si ei = Some (Some q) /\
  forall chk m, (length (cont s T) <= m)%nat -> fetch_all m chk s q = Some (filter chk (filter (fun x => lo_b sb si x && hi_b eb ei x) (cont s T))).
Proof.
  intros Ds De G Hn. pose proof (sh_chain _ _ H) as C. pose proof (SH_zero _ _ H) as Z0. pose proof (sh_nd _ _ H) as N. rewrite E0 in C, Z0, N. pose proof (ok_full s L V) as FL.
  destruct (start_ok sb si n Ds Hn) as (co & cs & P & Q & ES & SC & FP & FQ). destruct (end_ok eb ei n De Hn) as (eo & es & P' & Q' & EE & EC & FP' & FQ').
  unfold find_ttree_bounds. rewrite ES, EE. pose proof (start_cat _ _ _ _ SC) as W1. pose proof (end_cat _ _ _ _ EC) as W2.
  assert (Hl : (length P <= length P')%nat).
  { destruct (Nat.le_gt_cases (length P) (length P')) as [|Hgt]; [assumption|exfalso]. destruct (app_split_le P' Q' P Q ltac:(congruence) ltac:(lia)) as (R & -> & ->).
    destruct R as [|x R]; [rewrite app_nil_r in Hgt; lia|]. rewrite Forall_app in FP. destruct FP as (_ & FP). apply Forall_inv in FP. cbn [app] in FQ'. apply Forall_inv in FQ'.
    apply (cuts_order sb eb si ei x); auto. rewrite <- app_assoc in W1. destruct (Vdom _ _ W1) as (_ & D). cbn [app] in D. now apply Forall_inv in D. }
  destruct (app_split_le P Q P' Q' ltac:(congruence) Hl) as (R & -> & ->).
  assert (Ef : filter (fun x => lo_b sb si x && hi_b eb ei x) (cont s T) = R).
  { unfold cont. rewrite E0, W1, !filter_app. rewrite Forall_app in FP', FQ. destruct FP' as (_ & FP'), FQ as (FQ & _).
    rewrite (filter_none _ P), (filter_all _ R), (filter_none _ Q'); [now rewrite app_nil_r| | |]; rewrite Forall_forall in *; intros x Hx.
    - now rewrite FQ', andb_false_r.
    - now rewrite FQ, FP'.
    - now rewrite FP. }
  rewrite Ef. assert (Lr : (length R <= length (cont s T))%nat) by (unfold cont; rewrite E0, W1, !app_length; lia).
  assert (Em : forall a b c d chk m, a = 0 -> fetch_all m chk s (TQ a b c d) = Some []).
  { intros a b c d chk m ->. destruct m; reflexivity. }
  destruct R as [|y R].
  - (* nothing in range *)
    rewrite app_nil_r in *. eexists. split; [reflexivity|]. intros chk m _. cbn [filter].
    destruct SC as [Hs|(-> & _)]; [|rewrite Z.eqb_refl; now apply Em]. destruct (pos_in _ _ _ _ _ _ Hs) as (Hc & _).
    destruct (Z.eqb_spec co 0) as [->|c0]; [contradiction|]. cbn [negb].
    destruct EC as [(P1 & x & EP & He)|(-> & _)].
    + destruct (pos_before s L co cs eo es P _ P1 _ N C FL Hs He ltac:(rewrite EP, app_length; cbn; lia)) as [(-> & Hlt)|(Hne & Hpr)].
      * rewrite Z.eqb_refl. destruct (Z.ltb_spec es cs); [|lia]. now apply Em.
      * rewrite (proj2 (Z.eqb_neq eo co) Hne). cbn [andb]. destruct (Z.eqb_spec eo 0); [now apply Em|]. rewrite Hpr, Z.eqb_refl. now apply Em.
    + rewrite (proj2 (Z.eqb_neq 0 co)) by congruence. cbn [andb]. rewrite Z.eqb_refl. now apply Em.
  - destruct SC as [Hs|(_ & _ & E)]; [|discriminate]. destruct EC as [(P1 & x & EP & He)|(_ & E & _)]; [|destruct P; discriminate].
    destruct (pos_in _ _ _ _ _ _ Hs) as (Hc & _). destruct (pos_in _ _ _ _ _ _ He) as (Hce & _).
    destruct (Z.eqb_spec co 0) as [->|c0]; [contradiction|]. cbn [negb].
    destruct (pos_after s L co cs eo es P _ P1 _ N Z0 C Hs He) as (A1 & A2).
    { apply (f_equal (@length Z)) in EP. rewrite !app_length in EP. cbn [length] in EP. lia. }
    assert (E1 : (eo =? co) && (es <? cs) = false).
    { destruct (Z.eqb_spec eo co) as [Ec|]; [|reflexivity]. destruct (Z.ltb_spec es cs) as [Hlt|]; [|reflexivity]. exfalso. apply A1. auto. }
    rewrite E1. destruct (Z.eqb_spec eo 0) as [->|e0]; [contradiction|]. rewrite (proj2 (Z.eqb_neq eo (hpred s co)) A2).
    eexists. split; [reflexivity|]. intros chk m Hm. apply (fetch_all_ok s L N Z0 C FL eo es P1 x Q' He chk m (y :: R)); [|lia].
    split; [reflexivity|]. split; [reflexivity|]. right. split; [discriminate|]. exists P. auto.
Qed.
End Tree.

(** Every query over an empty index finds nothing. *)
Lemma nil_bounds s T sb eb si ei n : SH s T -> nil_root s T -> (sb = WG_ILLEGAL \/ dom sb) -> (eb = WG_ILLEGAL \/ dom eb) -> (1 <= n)%nat ->
  exists q, find_ttree_bounds cmp key n s sb eb si ei = Some (Some q) /\ q_off q = 0.
Proof.
  intros H (a & -> & N0 & Mi & Ma) Ds De Hn. pose proof (sh_st _ _ H) as S0. pose proof (sh_root _ _ H) as Rt. destruct (sh_chain _ _ H) as (C1 & C2 & C3).
  cbn [st addr ino app hd last chn] in *. destruct S0 as (A0 & _ & A2 & A3 & _). destruct C3 as (Pr & Su & _). destruct n as [|n]; [lia|].
  assert (Ss : exists r, start_pos cmp key (S n) s sb si = Some (Some (r, 0)) /\ (r = a \/ r = 0)).
  { unfold start_pos. destruct (Z.eqb_spec sb WG_ILLEGAL); [exists a; rewrite C1; auto|]. destruct Ds as [|Ds]; [contradiction|]. rewrite Rt.
    cbn [wg_search_ttree_leftmost wg_search_ttree_rightmost]. rewrite Mi, Ma, A2, A3. cbn [negb andb Z.eqb].
    pose proof (ko_ill _ _ KO _ Ds) as Ill. destruct (ko_tri _ _ KO sb WG_ILLEGAL) as [E|[E|E]]; [| |]; rewrite ?E in *; try (now elim Ill);
    destruct si; cbn; rewrite ?Su; eauto. }
  assert (Ee : exists r, end_pos cmp key (S n) s eb ei = Some (Some (r, -1)) /\ (r = a \/ r = 0)).
  { unfold end_pos, last_slot. destruct (Z.eqb_spec eb WG_ILLEGAL); [exists a; rewrite C2; rewrite (proj2 (Z.eqb_neq a 0) A0), N0; auto|]. destruct De as [|De]; [contradiction|]. rewrite Rt.
    cbn [wg_search_ttree_leftmost wg_search_ttree_rightmost]. rewrite Mi, Ma, A2, A3. cbn [negb andb Z.eqb].
    pose proof (ko_ill _ _ KO _ De) as Ill. destruct (ko_tri _ _ KO eb WG_ILLEGAL) as [E|[E|E]]; [| |]; rewrite ?E in *; try (now elim Ill);
    destruct ei; cbn; rewrite ?Pr, ?N0, ?Z.eqb_refl; eauto. }
  destruct Ss as (r & Es & Hr), Ee as (r' & Ee & Hr'). unfold find_ttree_bounds. rewrite Es, Ee. eexists. split; [reflexivity|].
  destruct Hr as [-> | ->]; [|rewrite Z.eqb_refl; reflexivity]. rewrite (proj2 (Z.eqb_neq a 0) A0). cbn [negb].
  destruct Hr' as [-> | ->]; [rewrite Z.eqb_refl; reflexivity|]. rewrite (proj2 (Z.eqb_neq 0 a)) by congruence. reflexivity.
Qed.

Theorem range_ok s T sb eb si ei n : TI cmp dom key s T -> (sb = WG_ILLEGAL \/ dom sb) -> (eb = WG_ILLEGAL \/ dom eb) ->
  ~ (cmp sb eb = WG_EQUAL /\ si = false /\ ei = false) \/ sb = WG_ILLEGAL \/ eb = WG_ILLEGAL -> (length (ino T) <= n)%nat ->
  exists q, range_query cmp key n s sb eb si ei = Some (Some q) /\
  forall chk m, (length (cont s T) <= m)%nat -> fetch_all m chk s q = Some (filter chk (filter (fun x => lo_b sb si x && hi_b eb ei x) (cont s T))).
Proof.
  intros (H & HV) Ds De G Hn. unfold range_query.
  assert (Em : forall a b c d chk m, a = 0 -> fetch_all m chk s (TQ a b c d) = Some []).
  { intros a b c d chk m ->. destruct m; reflexivity. }
  destruct HV as [V|Nr].
  - destruct (Z.eqb_spec sb WG_ILLEGAL) as [E1|E1]; [cbn [negb andb]; apply (bounds_ok s T (ino T) eq_refl H V); auto; now left|].
    destruct (Z.eqb_spec eb WG_ILLEGAL) as [E2|E2]; [cbn [negb andb]; apply (bounds_ok s T (ino T) eq_refl H V); auto; right; now left|]. cbn [negb andb].
    destruct Ds as [|Ds]; [contradiction|]. destruct De as [|De]; [contradiction|]. destruct G as [G|[|]]; try contradiction.
    destruct (Z.eqb_spec (cmp sb eb) WG_GREATER) as [E|E].
    + eexists. split; [reflexivity|]. intros chk m _. rewrite Em by reflexivity. rewrite (filter_none (fun x => lo_b sb si x && hi_b eb ei x)); [reflexivity|].
      rewrite Forall_forall. intros x Hx. destruct V as (_ & _ & D). rewrite Forall_forall in D. specialize (D x Hx). unfold lo_b, hi_b.
      rewrite (proj2 (Z.eqb_neq sb WG_ILLEGAL) E1), (proj2 (Z.eqb_neq eb WG_ILLEGAL) E2). cbn [orb].
      assert (Lt : lt eb sb) by (apply (gt_lt cmp dom KO); auto).
      destruct (if si then negb (cmp (key x) sb =? WG_LESSTHAN) else cmp (key x) sb =? WG_GREATER) eqn:A; [|reflexivity].
      assert (Ax : le sb (key x)).
      { destruct si; [destruct (Z.eqb_spec (cmp (key x) sb) WG_LESSTHAN); [discriminate|]; now apply (not_lt_le cmp dom KO)|].
        destruct (Z.eqb_spec (cmp (key x) sb) WG_GREATER) as [Eg|]; [|discriminate]. apply lt_le. now apply (gt_lt cmp dom KO). }
      assert (Bx : lt eb (key x)) by (apply (lt_le_trans cmp dom KO eb sb); auto). apply (ko_flip _ _ KO) in Bx; auto. rewrite Bx. now destruct ei.
    + apply (bounds_ok s T (ino T) eq_refl H V); auto. right. right. destruct (ko_tri _ _ KO sb eb) as [Q|[Q|Q]]; [now left| |contradiction].
      right. split; [exact Q|]. destruct si; [now left|]. destruct ei; [now right|]. exfalso. apply G. auto.
  - assert (Ec : cont s T = []).
    { destruct Nr as (a & -> & N0 & _). unfold cont. cbn [ino app flat_map]. rewrite app_nil_r. unfold rows. now rewrite N0. }
    rewrite Ec. cbn [filter]. destruct (negb (sb =? WG_ILLEGAL) && negb (eb =? WG_ILLEGAL) && (cmp sb eb =? WG_GREATER)).
    + eexists. split; [reflexivity|]. intros. now apply Em.
    + destruct (nil_bounds s T sb eb si ei n H Nr Ds De) as (q & E & E0).
      { destruct Nr as (a & -> & _). cbn in Hn. lia. }
      exists q. split; [exact E|]. intros. destruct q as [a b c d]. cbn [q_off] in E0. now apply Em.
Qed.
End Range.
