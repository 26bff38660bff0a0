(** Insertion into the T-tree keeps the invariant and adds exactly one row. *)
From Coq Require Import ZArith List Bool Lia Permutation Sorted.
From Verif Require Import Base EncodingModel CompareModel TtreeModel TtreeShape TtreeArr TtreeRotate TtreeFix TtreeOrd.
Import ListNotations.
Open Scope Z_scope.
#[local] Ltac Zify.zify_post_hook ::= idtac.

Definition sameSC (s s' : tt) : Prop :=
  hpar s' = hpar s /\ hleft s' = hleft s /\ hright s' = hright s /\ hlh s' = hlh s /\ hrh s' = hrh s /\ troot s' = troot s /\ sameC s s'.
Lemma sameSC_S s s' x : sameSC s s' -> sameS s s' x.
Proof. intros (E1 & E2 & E3 & E4 & E5 & _). unfold sameS. rewrite E1, E2, E3, E4, E5. repeat split. Qed.
Lemma sameSC_trans s s1 s2 : sameSC s s1 -> sameSC s1 s2 -> sameSC s s2.
Proof.
  intros (A1 & A2 & A3 & A4 & A5 & A6 & A7) (B1 & B2 & B3 & B4 & B5 & B6 & B7). unfold sameSC. repeat (split; [congruence|]). exact (sameC_trans _ _ _ A7 B7).
Qed.
Lemma ht_len t : ht t <= Z.of_nat (length (ino t)).
Proof. induction t as [|l IHl a r IHr]; cbn [ht ino]; [cbn; lia|]. rewrite app_length. cbn [length]. lia. Qed.

(** Rows of a node after one row was put at [i]. *)
Lemma rowsf_two f n i : 0 <= i <= n -> rowsf f n = rowsf f i ++ rowsf (fun j => f (j + i)) (n - i).
Proof. intros H. replace n with (i + (n - i)) at 1 by lia. apply rowsf_app; lia. Qed.
Lemma rowsf_ins f g n i : 0 <= i <= n -> (forall j, 0 <= j < i -> g j = f j) -> (forall j, i < j <= n -> g j = f (j - 1)) ->
  rowsf g (n + 1) = rowsf f i ++ g i :: rowsf (fun j => f (j + i)) (n - i).
Proof.
  intros H A B. rewrite (rowsf_split g (n + 1) i) by lia. f_equal; [apply rowsf_ext; intros; apply A; lia|]. f_equal.
  replace (n + 1 - i - 1) with (n - i) by lia. apply rowsf_ext. intros j Hj. rewrite B by lia. f_equal. lia.
Qed.

Section Add.
Variables (cmp : Z -> Z -> Z) (dom : Z -> Prop).
Hypothesis KO : keyorder cmp dom.
Variable key : Z -> Z.
Notation lt := (lt cmp).
Notation le := (le cmp).
Notation rle := (rle cmp key).
Notation VL := (VL cmp dom key).

Definition nil_root (s : tt) (T : tree) : Prop :=
  exists a, T = Nd Lf a Lf /\ hn s a = 0 /\ hmin s a = WG_ILLEGAL /\ hmax s a = WG_ILLEGAL.
Record SH (s : tt) (T : tree) : Prop := {
  sh_st : st s 0 T;
  sh_nz : T <> Lf;
  sh_root : troot s = addr T;
  sh_bal : bal T;
  sh_nd : NoDup (ino T);
  sh_ok : Forall okaddr (ino T);
  sh_chain : chain s (ino T) }.
Definition TI (s : tt) (T : tree) : Prop := SH s T /\ (VL s (ino T) \/ nil_root s T).

Lemma SH_zero s T : SH s T -> ~ In 0 (ino T).
Proof. intros H Hi. pose proof (sh_ok _ _ H) as F. rewrite Forall_forall in F. apply F in Hi. unfold okaddr in Hi. lia. Qed.
Lemma SH_same s s' T : SH s T -> sameSC s s' -> SH s' T.
Proof.
  intros H E. destruct H as [H1 H2 H3 H4 H5 H6 H7]. constructor; auto.
  - apply (st_same s); [exact H1|]. intros x _. now apply sameSC_S.
  - destruct E as (_ & _ & _ & _ & _ & -> & _). exact H3.
  - destruct E as (_ & _ & _ & _ & _ & _ & E). now apply (chain_sameC s).
Qed.
Lemma TI_repaired s s' L : L <> [] -> repaired key s s' L -> NoDup L -> Forall okaddr L -> chain s L -> VL s L ->
  exists T, TI s' T /\ ino T = L /\ flat_map (rows s') L = flat_map (rows s) L.
Proof.
  intros Ln (T & A1 & A2 & A3 & <- & (_ & K) & C) N O Ch V. exists T. pose proof V as (V1 & V2 & V3). destruct (K V1) as (K1 & K2).
  split; [|split; [reflexivity|exact K2]]. split.
  - constructor; auto; [intros ->; now apply Ln|now apply (chain_sameC s)].
  - left. unfold TtreeOrd.VL. now rewrite K2.
Qed.
Lemma VL_insert s s' L L' pre rec post : VL s L -> dom (key rec) -> Forall (node_ok key s') L' ->
  flat_map (rows s) L = pre ++ post -> flat_map (rows s') L' = pre ++ rec :: post ->
  (forall x, In x pre -> rle x rec) -> (forall x, In x post -> rle rec x) -> VL s' L'.
Proof.
  intros (_ & V2 & V3) D Ok E E' P1 P2. unfold TtreeOrd.VL. rewrite E' . rewrite E in V2, V3. split; [exact Ok|]. split.
  - now apply ss_insert.
  - rewrite Forall_app in *. destruct V3. split; [assumption|]. now constructor.
Qed.

(** ** Slots *)
Lemma slot_up_spec s node k m : forall i, let r := slot_up cmp key m s node k i in
  i <= r <= i + Z.of_nat m /\ (forall j, i <= j < r -> lt (key (harr s node j)) k) /\
  (r < i + Z.of_nat m -> cmp (key (harr s node r)) k <> WG_LESSTHAN).
Proof.
  induction m as [|m IH]; intros i; cbn [slot_up].
  - split; [lia|]. split; [intros; lia|lia].
  - destruct (Z.eqb_spec (cmp (key (harr s node i)) k) WG_LESSTHAN) as [C|C]; cbn [negb].
    + cbv zeta in IH. destruct (IH (i + 1)) as (A & B & D). split; [lia|]. split.
      * intros j Hj. destruct (Z.eq_dec j i) as [->|]; [exact C|]. apply B. lia.
      * intros H. apply D. lia.
    + split; [lia|]. split; [intros; lia|]. now intros _.
Qed.
Lemma slot_down_spec s node k m : let r := slot_down cmp key m s node k in
  0 <= r <= Z.of_nat m /\ (r <> 0 -> le (key (harr s node r)) k) /\
  (forall j, r < j <= Z.of_nat m -> cmp (key (harr s node j)) k = WG_GREATER).
Proof.
  induction m as [|m IH]; cbn [slot_down].
  - split; [lia|]. split; [lia|]. intros; lia.
  - destruct (Z.eqb_spec (cmp (key (harr s node (Z.of_nat (S m)))) k) WG_GREATER) as [C|C]; cbn [negb].
    + cbv zeta in IH. destruct IH as (A & B & D). split; [lia|]. split; [exact B|].
      intros j Hj. destruct (Z.eq_dec j (Z.of_nat (S m))) as [->|]; [exact C|]. apply D. lia.
    + split; [lia|]. split; [now intros _|]. intros; lia.
Qed.
Lemma rowsf_sorted f n : StronglySorted rle (rowsf f n) -> forall i j, 0 <= i < j -> j < n -> rle (f i) (f j).
Proof.
  intros H i j Hi Hj. rewrite (rowsf_two f n j) in H by lia. apply ss_app in H. destruct H as (_ & _ & H). apply H.
  - apply rowsf_in. exists i. split; [lia|reflexivity].
  - apply rowsf_in. exists 0. split; [lia|]. f_equal.
Qed.
Lemma VL_rows s A a B : VL s (A ++ a :: B) -> StronglySorted rle (rows s a) /\ Forall (fun x => dom (key x)) (rows s a).
Proof.
  intros (_ & V2 & V3). rewrite flat_map_app in *. cbn [flat_map] in *. apply ss_app in V2. destruct V2 as (_ & V2 & _).
  apply ss_app in V2. rewrite !Forall_app in V3. tauto.
Qed.

(** ** The bounding node has room *)
Lemma add_room_V s A b B rec : VL s (A ++ b :: B) -> dom (key rec) -> hn s b < 8 -> le (hmin s b) (key rec) -> le (key rec) (hmax s b) ->
  let s' := add_room cmp key s b (key rec) rec in
  sameSC s s' /\ (forall x, x <> b -> sameV s s' x) /\ node_ok key s' b /\
  exists r1 r2, rows s b = r1 ++ r2 /\ rows s' b = r1 ++ rec :: r2 /\ (forall x, In x r1 -> rle x rec) /\ (forall x, In x r2 -> rle rec x).
Proof.
  intros V D Hn Lo Hi. destruct (VL_node cmp dom KO key _ _ _ _ V) as ((N & E1 & E2) & Dm & Dx & F & _).
  destruct (VL_rows _ _ _ _ V) as (So & Dr). rewrite Forall_forall in Dr.
  unfold add_room. set (k := key rec) in *. set (n := hn s b) in *.
  pose proof (slot_up_spec s b k (Z.to_nat n) 0) as P. cbv zeta in P. set (i := slot_up cmp key (Z.to_nat n) s b k 0) in *.
  clearbody i. rewrite Z2Nat.id, Z.add_0_l in P by lia. destruct P as (P1 & P2 & P3).
  assert (Hin : forall j, 0 <= j < n -> In (harr s b j) (rows s b)) by (intros j Hj; apply rowsf_in; exists j; split; [exact Hj|reflexivity]).
  assert (In1 : i < n).
  { destruct (Z.eq_dec i n) as [->|]; [|lia]. exfalso. specialize (P2 (n - 1) ltac:(lia)). rewrite E2 in Hi. fold n in Hi.
    exact (lt_not_le cmp dom KO _ _ (Dr _ (Hin (n - 1) ltac:(lia))) D P2 Hi). }
  specialize (P3 In1). assert (P4 : le k (key (harr s b i))) by (apply (not_lt_le cmp dom KO); auto; apply Dr, Hin; lia).
  set (g := upd (push_right (Z.to_nat (n - i)) n (harr s b)) i rec).
  assert (G : (forall j, 0 <= j < i -> g j = harr s b j) /\ g i = rec /\ (forall j, i < j <= n -> g j = harr s b (j - 1))).
  { unfold g. split; [|split].
    - intros j Hj. rewrite upd_other by lia. rewrite push_right_eq. rewrite Z2Nat.id by lia.
      destruct (Z.ltb_spec (n - (n - i)) j); [lia|]. reflexivity.
    - apply upd_same.
    - intros j Hj. rewrite upd_other by lia. rewrite push_right_eq. rewrite Z2Nat.id by lia.
      destruct (Z.ltb_spec (n - (n - i)) j); [|lia]. destruct (Z.leb_spec j n); [|lia]. reflexivity. }
  destruct G as (G1 & G2 & G3). clearbody g.
  cbv zeta. fold n. match goal with |- sameSC s ?x /\ _ => set (s' := x) end.
  assert (En : hn s' b = n + 1) by (unfold s'; destruct (i =? 0); prj; ux; reflexivity).
  assert (Ea : harr s' b = g) by (unfold s'; destruct (i =? 0); prj; now rewrite Z.eqb_refl).
  assert (Em : hmin s' b = if i =? 0 then k else hmin s b) by (unfold s'; destruct (i =? 0); prj; ux; reflexivity).
  assert (Ex : hmax s' b = hmax s b) by (unfold s'; destruct (i =? 0); prj; reflexivity).
  split; [unfold s'; destruct (i =? 0); repeat split|]. split.
  { intros x Hx. apply Z.eqb_neq in Hx as Hx'. unfold sameV, s'. destruct (i =? 0); prj; rewrite ?Hx'; ux; repeat split. }
  split.
  - unfold node_ok. rewrite En, Ea, Em, Ex. split; [lia|]. split.
    + destruct (Z.eqb_spec i 0) as [->|]; [now rewrite G2|]. rewrite G1 by lia. exact E1.
    + replace (n + 1 - 1) with n by lia. rewrite G3 by lia. exact E2.
  - exists (rowsf (harr s b) i), (rowsf (fun j => harr s b (j + i)) (n - i)). unfold rows. rewrite En, Ea. fold n.
    split; [apply rowsf_two; lia|]. split; [rewrite <- G2; apply rowsf_ins; auto; lia|]. split.
    + intros x Hx. apply rowsf_in in Hx. destruct Hx as (j & Hj & <-). unfold TtreeOrd.rle. apply lt_le. apply P2. lia.
    + intros x Hx. apply rowsf_in in Hx. destruct Hx as (j & Hj & <-). unfold TtreeOrd.rle.
      destruct (Z.eq_dec j 0) as [->|]; [rewrite Z.add_0_l; exact P4|].
      apply (le_trans cmp dom KO k (key (harr s b i))); auto.
      * apply Dr, Hin. lia.
      * apply Dr, Hin. lia.
      * apply (rowsf_sorted (harr s b) n); [exact So|lia|lia].
Qed.

(** ** The bounding node is full *)
Lemma add_full_V s A b B rec : VL s (A ++ b :: B) -> dom (key rec) -> hn s b = 8 -> le (hmin s b) (key rec) ->
  let s' := add_full cmp key s b (key rec) rec in
  sameSC s s' /\ (forall x, x <> b -> sameV s s' x) /\ node_ok key s' b /\ hn s' b = 8 /\
  exists r1 r2, rows s b = harr s b 0 :: r1 ++ r2 /\ rows s' b = r1 ++ rec :: r2 /\
    rle (harr s b 0) rec /\ (forall x, In x r1 -> rle x rec) /\ (forall x, In x r2 -> rle rec x).
Proof.
  intros V D Hn Lo. destruct (VL_node cmp dom KO key _ _ _ _ V) as ((N & E1 & E2) & Dm & Dx & F & _).
  destruct (VL_rows _ _ _ _ V) as (So & Dr). rewrite Forall_forall in Dr.
  unfold add_full. set (k := key rec) in *.
  pose proof (slot_down_spec s b k 7) as P. cbv zeta in P. set (i := slot_down cmp key 7 s b k) in *. clearbody i.
  change (Z.of_nat 7) with 7 in P. destruct P as (P1 & P2 & P3).
  assert (Hin : forall j, 0 <= j < 8 -> In (harr s b j) (rows s b)) by (intros j Hj; apply rowsf_in; exists j; split; [lia|reflexivity]).
  set (g := upd (push_left (Z.to_nat i) 0 (harr s b)) i rec).
  assert (G : (forall j, 0 <= j < i -> g j = harr s b (j + 1)) /\ g i = rec /\ (forall j, i < j -> g j = harr s b j)).
  { unfold g. split; [|split].
    - intros j Hj. rewrite upd_other by lia. rewrite push_left_eq. rewrite Z2Nat.id by lia.
      destruct (Z.leb_spec 0 j); [|lia]. destruct (Z.ltb_spec j (0 + i)); [|lia]. reflexivity.
    - apply upd_same.
    - intros j Hj. rewrite upd_other by lia. rewrite push_left_eq. rewrite Z2Nat.id by lia.
      destruct (Z.ltb_spec j (0 + i)); [lia|]. rewrite andb_false_r. reflexivity. }
  destruct G as (G1 & G2 & G3). clearbody g. change (WG_TNODE_ARRAY_SIZE - 1) with 7.
  cbv zeta. match goal with |- sameSC s ?x /\ _ => set (s' := x) end.
  assert (En : hn s' b = 8) by (unfold s'; destruct (i =? 0); [|destruct (i =? 7)]; prj; exact Hn).
  assert (Ea : harr s' b = g) by (unfold s'; destruct (i =? 0); [|destruct (i =? 7)]; prj; now rewrite Z.eqb_refl).
  assert (Em : hmin s' b = if i =? 0 then k else key (g 0)).
  { unfold s'; destruct (i =? 0); [|destruct (i =? 7)]; prj; ux; try reflexivity; now rewrite Z.eqb_refl. }
  assert (Ex : hmax s' b = if i =? 7 then k else hmax s b).
  { unfold s'. destruct (Z.eqb_spec i 0) as [->|]; [prj; reflexivity|]. destruct (i =? 7); prj; ux; reflexivity. }
  split; [unfold s'; destruct (i =? 0); [|destruct (i =? 7)]; repeat split|]. split.
  { intros x Hx. apply Z.eqb_neq in Hx as Hx'. unfold sameV, s'. destruct (i =? 0); [|destruct (i =? 7)]; prj; rewrite ?Hx'; ux; repeat split. }
  split; [|split; [exact En|]].
  - unfold node_ok. rewrite En, Ea, Em, Ex. split; [lia|]. split.
    + destruct (Z.eqb_spec i 0) as [->|]; [now rewrite G2|]. reflexivity.
    + change (8 - 1) with 7. destruct (Z.eqb_spec i 7) as [->|]; [now rewrite G2|]. rewrite G3 by lia. rewrite E2, Hn. reflexivity.
  - exists (rowsf (fun j => harr s b (j + 1)) i), (rowsf (fun j => harr s b (j + i + 1)) (7 - i)). unfold rows. rewrite En, Ea, Hn.
    split; [|split; [|split; [|split]]].
    + rewrite (rowsf_cons _ 7) by lia. f_equal. rewrite (rowsf_two _ 7 i) by lia. reflexivity.
    + rewrite (rowsf_split g 8 i) by lia. rewrite G2. f_equal; [apply rowsf_ext; intros; apply G1; lia|]. f_equal.
      replace (8 - i - 1) with (7 - i) by lia. apply rowsf_ext. intros j Hj. apply G3. lia.
    + unfold TtreeOrd.rle. rewrite <- E1. exact Lo.
    + intros x Hx. apply rowsf_in in Hx. destruct Hx as (j & Hj & <-). unfold TtreeOrd.rle. fold k.
      specialize (P2 ltac:(lia)). destruct (Z.eq_dec (j + 1) i) as [->|]; [exact P2|].
      apply (le_trans cmp dom KO _ (key (harr s b i))); auto.
      * apply Dr, Hin. lia.
      * apply Dr, Hin. lia.
      * apply (rowsf_sorted (harr s b) (hn s b)); [exact So|lia|lia].
    + intros x Hx. apply rowsf_in in Hx. destruct Hx as (j & Hj & <-). unfold TtreeOrd.rle. fold k.
      apply lt_le. apply (gt_lt cmp dom KO); auto; [apply Dr, Hin; lia|]. apply P3. lia.
Qed.

(** ** A new leaf *)
Lemma attach_left s s1 c b r x n : st s 0 (plug c (Nd Lf b r)) -> bal (plug c (Nd Lf b r)) -> troot s = addr (plug c (Nd Lf b r)) ->
  NoDup (ino (plug c (Nd (Nd Lf x Lf) b r))) -> x <> 0 -> ht (plug c (Nd Lf b r)) < 128 -> (length c + 1 < n)%nat ->
  (forall y, In y (ino (plug c (Nd Lf b r))) -> y <> b -> sameS s s1 y) ->
  hpar s1 b = hpar s b -> hright s1 b = hright s b -> hlh s1 b = hlh s b -> hrh s1 b = hrh s b -> hleft s1 b = x ->
  hpar s1 x = b -> hleft s1 x = 0 -> hright s1 x = 0 -> hlh s1 x = 0 -> hrh s1 x = 0 -> troot s1 = troot s ->
  exists s', add_fix key n s1 x = Some s' /\ repaired key s1 s' (ino (plug c (Nd (Nd Lf x Lf) b r))).
Proof.
  intros H B R N X Hh Hn F E1 E2 E3 E4 E5 X1 X2 X3 X4 X5 E6.
  destruct (plug_cok s c _ H B R) as (Hf & Bf & C). cbn [st bal addr ht] in Hf, Bf. destruct Hf as (A0 & A1 & A2 & A3 & A4 & A5 & _ & Hr).
  rewrite ino_plug in F, N. cbn [ino app] in F, N. repeat (rewrite <- app_assoc in F, N; cbn [app] in F, N).
  pose proof N as N'. ndx N'.
  apply (add_fix_ok key (FL b r :: c) n s1 (Nd Lf x Lf) 0).
  - cbn [length]. lia.
  - cbn [st caddr addr ht]. repeat split; auto.
  - cbn. lia.
  - exact I.
  - cbn [cok addr ht] in *. repeat split.
    + exact A0.
    + congruence.
    + exact E5.
    + congruence.
    + congruence.
    + congruence.
    + apply (st_same s); [exact Hr|]. intros y Hy. apply F; [rewrite !in_app_iff; cbn; rewrite !in_app_iff; auto|intros ->; contradiction].
    + tauto.
    + lia.
    + lia.
    + apply (cok_same s); auto. intros y Hy. rewrite in_app_iff in Hy. apply F; [rewrite !in_app_iff; cbn; rewrite !in_app_iff; tauto|].
      intros ->. apply NoDup_remove_1, NoDup_remove_2 in N. apply N. rewrite !in_app_iff. tauto.
  - reflexivity.
  - cbn [plug]. rewrite ino_plug. cbn [ino app]. repeat (rewrite <- app_assoc; cbn [app]). exact N.
  - cbn [ch]. rewrite ch_plug in Hh. cbn [ht] in *.
    pose proof (ch_succ c (1 + Z.max 0 (ht r))). pose proof (ch_mono c (1 + Z.max (1 + Z.max 0 0) (ht r)) (1 + Z.max 0 (ht r) + 1) ltac:(lia)). lia.
Qed.
Lemma attach_right s s1 c b l x n : st s 0 (plug c (Nd l b Lf)) -> bal (plug c (Nd l b Lf)) -> troot s = addr (plug c (Nd l b Lf)) ->
  NoDup (ino (plug c (Nd l b (Nd Lf x Lf)))) -> x <> 0 -> ht (plug c (Nd l b Lf)) < 128 -> (length c + 1 < n)%nat ->
  (forall y, In y (ino (plug c (Nd l b Lf))) -> y <> b -> sameS s s1 y) ->
  hpar s1 b = hpar s b -> hleft s1 b = hleft s b -> hlh s1 b = hlh s b -> hrh s1 b = hrh s b -> hright s1 b = x ->
  hpar s1 x = b -> hleft s1 x = 0 -> hright s1 x = 0 -> hlh s1 x = 0 -> hrh s1 x = 0 -> troot s1 = troot s ->
  exists s', add_fix key n s1 x = Some s' /\ repaired key s1 s' (ino (plug c (Nd l b (Nd Lf x Lf)))).
Proof.
  intros H B R N X Hh Hn F E1 E2 E3 E4 E5 X1 X2 X3 X4 X5 E6.
  destruct (plug_cok s c _ H B R) as (Hf & Bf & C). cbn [st bal addr ht] in Hf, Bf. destruct Hf as (A0 & A1 & A2 & A3 & A4 & A5 & Hl & _).
  rewrite ino_plug in F, N. cbn [ino app] in F, N. repeat (rewrite <- app_assoc in F, N; cbn [app] in F, N).
  assert (Nb : ~ In b (lctx c ++ ino l ++ rctx c)).
  { rewrite app_assoc in N. apply NoDup_remove_2 in N. intros Hi. apply N. rewrite !in_app_iff in *. cbn [In]. tauto. }
  apply (add_fix_ok key (FR l b :: c) n s1 (Nd Lf x Lf) 0).
  - cbn [length]. lia.
  - cbn [st caddr addr ht]. repeat split; auto.
  - cbn. lia.
  - exact I.
  - cbn [cok addr ht] in *. repeat split.
    + exact A0.
    + congruence.
    + congruence.
    + exact E5.
    + congruence.
    + congruence.
    + apply (st_same s); [exact Hl|]. intros y Hy. apply F; [rewrite !in_app_iff; auto|intros ->; apply Nb; rewrite !in_app_iff; auto].
    + tauto.
    + lia.
    + lia.
    + apply (cok_same s); auto. intros y Hy. rewrite in_app_iff in Hy. apply F; [rewrite !in_app_iff; cbn; tauto|].
      intros ->. apply Nb. rewrite !in_app_iff. tauto.
  - reflexivity.
  - cbn [plug]. rewrite ino_plug. cbn [ino app]. repeat (rewrite <- app_assoc; cbn [app]). exact N.
  - cbn [ch]. rewrite ch_plug in Hh. cbn [ht] in *.
    pose proof (ch_succ c (1 + Z.max (ht l) 0)). pose proof (ch_mono c (1 + Z.max (ht l) (1 + Z.max 0 0)) (1 + Z.max (ht l) 0 + 1) ltac:(lia)). lia.
Qed.
Lemma SH_ht s T : SH s T -> ht T < 128.
Proof. intros H. apply ht_bound; [apply (sh_bal _ _ H)|apply (sh_nd _ _ H)|apply (sh_ok _ _ H)]. Qed.
Lemma SH_depth s c t : SH s (plug c t) -> (length c <= length (ino (plug c t)))%nat.
Proof.
  intros _. pose proof (ht_len (plug c t)). rewrite ch_plug in H. pose proof (ch_len c (ht t)). pose proof (ht_nonneg t). lia.
Qed.
Lemma NoDup_mid (A B : list Z) x : NoDup (A ++ B) -> ~ In x (A ++ B) -> NoDup (A ++ x :: B).
Proof. intros N H. apply (Permutation_NoDup (l := x :: A ++ B)); [apply Permutation_middle|now constructor]. Qed.
Lemma Forall_mid (P : Z -> Prop) (A B : list Z) x : Forall P (A ++ B) -> P x -> Forall P (A ++ x :: B).
Proof. rewrite !Forall_app. intros (H1 & H2) Hx. split; [exact H1|now constructor]. Qed.

(** What the new leaf [x] with [row] brings. *)
Definition leafed (s s1 : tt) (x row : Z) (L' : list Z) : Prop :=
  NoDup L' /\ Forall okaddr L' /\ chain s1 L' /\ node_ok key s1 x /\ rows s1 x = [row] /\ (forall y, y <> x -> sameV s s1 y).
Lemma grow_left s c b r x row n : SH s (plug c (Nd Lf b r)) -> okaddr x -> ~ In x (ino (plug c (Nd Lf b r))) ->
  (length (ino (plug c (Nd Lf b r))) + 1 < n)%nat ->
  let s1 := link_left (new_leaf s x b (key row) row) x b in
  let L' := lctx c ++ x :: b :: ino r ++ rctx c in
  leafed s s1 x row L' /\ exists s', add_fix key n s1 x = Some s' /\ repaired key s1 s' L'.
Proof.
  intros H Ox Nx Hn s1 L'. pose proof (SH_depth _ _ _ H) as Hd. pose proof (SH_ht _ _ H) as Hh. pose proof (SH_zero _ _ H) as Zz.
  destruct H as [H1 H2 H3 H4 H5 H6 H7]. rewrite ino_plug in Nx, H5, H6, H7, Zz. cbn [ino app] in *.
  assert (N : NoDup L') by (apply NoDup_mid; assumption).
  assert (x0 : x <> 0) by (unfold okaddr in Ox; lia).
  assert (xb : x <> b) by (intros ->; apply Nx; rewrite in_app_iff; cbn; auto).
  destruct (chain_at _ _ _ _ H7) as (Cp & Cs).
  assert (Pn : x <> last (lctx c) 0).
  { intros E. apply Nx. rewrite in_app_iff. left. destruct (lctx c) as [|y l]; [now cbn in E|]. rewrite E. apply last_in. discriminate. }
  assert (Pb : b <> last (lctx c) 0).
  { intros E. destruct (lctx c) as [|y l] eqn:El; [cbn in E; apply Zz; rewrite in_app_iff; cbn; auto|].
    rewrite <- El in *. apply NoDup_remove_2 in H5. apply H5. rewrite in_app_iff. left. rewrite E. apply last_in. rewrite El. discriminate. }
  split.
  - assert (V : forall y, y <> x -> sameV s s1 y).
    { intros y Hy. unfold sameV, s1, link_left, new_leaf. prj. destruct (_ =? 0); prj; ux; destruct (Z.eqb_spec y x); try contradiction; repeat split. }
    split; [exact N|]. split; [apply Forall_mid; assumption|]. split; [|split; [|split; [|exact V]]].
    + unfold s1, link_left, new_leaf. prj. ux. rewrite !Cp. apply (chain_insert s _ (lctx c) x (b :: ino r ++ rctx c)); auto.
      * rewrite in_app_iff in *. cbn [In] in *. intuition congruence.
      * destruct (last (lctx c) 0 =? 0); prj; ux; reflexivity.
      * destruct (last (lctx c) 0 =? 0); prj; ux; reflexivity.
      * intros y Hy. destruct (Z.eqb_spec (last (lctx c) 0) 0) as [E|E]; prj; ux.
        -- rewrite E. destruct (y =? 0); reflexivity.
        -- destruct (Z.eqb_spec y (last (lctx c) 0)) as [->|Hy']; [rewrite upd_same|rewrite !upd_other by assumption; reflexivity].
           destruct (Z.eqb_spec (last (lctx c) 0) 0); [contradiction|reflexivity].
      * intros y Hy. cbn [hd]. assert (b0 : b <> 0) by (intros ->; apply Zz; rewrite in_app_iff; cbn; auto).
        destruct (Z.eqb_spec y b) as [->|Hyb].
        -- destruct (Z.eqb_spec b 0); [contradiction|]. destruct (last (lctx c) 0 =? 0); prj; ux; reflexivity.
        -- destruct (last (lctx c) 0 =? 0); prj; ux; reflexivity.
      * destruct (last (lctx c) 0 =? 0); prj; reflexivity.
      * cbn [hd]. destruct (Z.eqb_spec b 0) as [->|]; [exfalso; apply Zz; rewrite in_app_iff; cbn; auto|].
        destruct (last (lctx c) 0 =? 0); prj; reflexivity.
    + unfold node_ok, s1, link_left, new_leaf. prj. destruct (_ =? 0); prj; rewrite ?Z.eqb_refl; ux; repeat split; cbn; lia.
    + unfold rows, s1, link_left, new_leaf. prj. destruct (_ =? 0); prj; rewrite ?Z.eqb_refl; ux; rewrite rowsf_1; ux; reflexivity.
  - replace L' with (ino (plug c (Nd (Nd Lf x Lf) b r))) by (rewrite ino_plug; reflexivity).
    apply (attach_left s s1 c b r x n); auto.
    + rewrite ino_plug. exact N.
    + lia.
    + intros y Hy Hyb. assert (y <> x). { intros ->. apply Nx. rewrite ino_plug in Hy. exact Hy. }
      unfold sameS, s1, link_left, new_leaf. prj. destruct (_ =? 0); prj; ux; repeat split.
    + unfold s1, link_left, new_leaf. prj. destruct (_ =? 0); prj; ux; reflexivity.
    + unfold s1, link_left, new_leaf. prj. destruct (_ =? 0); prj; ux; reflexivity.
    + unfold s1, link_left, new_leaf. prj. destruct (_ =? 0); prj; ux; reflexivity.
    + unfold s1, link_left, new_leaf. prj. destruct (_ =? 0); prj; ux; reflexivity.
    + unfold s1, link_left, new_leaf. prj. destruct (_ =? 0); prj; ux; reflexivity.
    + unfold s1, link_left, new_leaf. prj. destruct (_ =? 0); prj; ux; reflexivity.
    + unfold s1, link_left, new_leaf. prj. destruct (_ =? 0); prj; ux; reflexivity.
    + unfold s1, link_left, new_leaf. prj. destruct (_ =? 0); prj; ux; reflexivity.
    + unfold s1, link_left, new_leaf. prj. destruct (_ =? 0); prj; ux; reflexivity.
    + unfold s1, link_left, new_leaf. prj. destruct (_ =? 0); prj; ux; reflexivity.
    + unfold s1, link_left, new_leaf. prj. destruct (_ =? 0); prj; ux; reflexivity.
Qed.
Lemma grow_right s c b l x row n : SH s (plug c (Nd l b Lf)) -> okaddr x -> ~ In x (ino (plug c (Nd l b Lf))) ->
  (length (ino (plug c (Nd l b Lf))) + 1 < n)%nat ->
  let s1 := link_right (new_leaf s x b (key row) row) x b in
  let L' := (lctx c ++ ino l ++ [b]) ++ x :: rctx c in
  leafed s s1 x row L' /\ exists s', add_fix key n s1 x = Some s' /\ repaired key s1 s' L'.
Proof.
  intros H Ox Nx Hn s1 L'. pose proof (SH_depth _ _ _ H) as Hd. pose proof (SH_ht _ _ H) as Hh. pose proof (SH_zero _ _ H) as Zz.
  destruct H as [H1 H2 H3 H4 H5 H6 H7].
  assert (EI : ino (plug c (Nd l b Lf)) = (lctx c ++ ino l ++ [b]) ++ rctx c).
  { rewrite ino_plug. cbn [ino]. repeat (rewrite <- app_assoc; cbn [app]). reflexivity. }
  rewrite EI in Nx, H5, H6, H7, Zz.
  assert (N : NoDup L') by (apply NoDup_mid; assumption).
  assert (x0 : x <> 0) by (unfold okaddr in Ox; lia).
  assert (xb : x <> b) by (intros ->; apply Nx; rewrite !in_app_iff; cbn; auto).
  assert (b0 : b <> 0) by (intros ->; apply Zz; rewrite !in_app_iff; cbn; auto).
  assert (Eb : last (lctx c ++ ino l ++ [b]) 0 = b) by (rewrite !last_app; reflexivity).
  assert (Cs : hsucc s b = hd 0 (rctx c)).
  { assert (X : (lctx c ++ ino l ++ [b]) ++ rctx c = (lctx c ++ ino l) ++ b :: rctx c) by (repeat (rewrite <- app_assoc; cbn [app]); reflexivity).
    rewrite X in H7. apply (chain_at _ _ _ _ H7). }
  assert (Pn : x <> hd 0 (rctx c)).
  { intros E. apply Nx. rewrite in_app_iff. right. destruct (rctx c) as [|y l']; [now cbn in E|]. rewrite E. now left. }
  assert (Pb : b <> hd 0 (rctx c)).
  { intros E. destruct (rctx c) as [|y l'] eqn:El; [now cbn in E|]. cbn [hd] in E. subst y.
    apply (nd_dis _ _ H5 b); [rewrite !in_app_iff; cbn; auto|now left]. }
  split.
  - assert (V : forall y, y <> x -> sameV s s1 y).
    { intros y Hy. unfold sameV, s1, link_right, new_leaf. prj. destruct (_ =? 0); prj; ux; destruct (Z.eqb_spec y x); try contradiction; repeat split. }
    split; [exact N|]. split; [apply Forall_mid; assumption|]. split; [|split; [|split; [|exact V]]].
    + unfold s1, link_right, new_leaf. prj. ux. rewrite !Cs. apply (chain_insert s _ (lctx c ++ ino l ++ [b]) x (rctx c)); auto; rewrite ?Eb.
      * rewrite in_app_iff in *. cbn [In] in *. intuition congruence.
      * destruct (hd 0 (rctx c) =? 0); prj; ux; reflexivity.
      * destruct (hd 0 (rctx c) =? 0); prj; ux; reflexivity.
      * intros y Hy. destruct (Z.eqb_spec y b) as [->|Hyb].
        -- destruct (Z.eqb_spec b 0); [contradiction|]. destruct (hd 0 (rctx c) =? 0); prj; ux; reflexivity.
        -- destruct (hd 0 (rctx c) =? 0); prj; ux; reflexivity.
      * intros y Hy. destruct (Z.eqb_spec (hd 0 (rctx c)) 0) as [E|E]; prj; ux.
        -- rewrite E. destruct (y =? 0); reflexivity.
        -- destruct (Z.eqb_spec y (hd 0 (rctx c))) as [->|Hy']; [rewrite upd_same|rewrite !upd_other by assumption; reflexivity].
           destruct (Z.eqb_spec (hd 0 (rctx c)) 0); [contradiction|reflexivity].
      * destruct (Z.eqb_spec b 0); [contradiction|]. destruct (hd 0 (rctx c) =? 0); prj; reflexivity.
      * destruct (hd 0 (rctx c) =? 0); prj; reflexivity.
    + unfold node_ok, s1, link_right, new_leaf. prj. destruct (_ =? 0); prj; rewrite ?Z.eqb_refl; ux; repeat split; cbn; lia.
    + unfold rows, s1, link_right, new_leaf. prj. destruct (_ =? 0); prj; rewrite ?Z.eqb_refl; ux; rewrite rowsf_1; ux; reflexivity.
  - assert (EL : L' = ino (plug c (Nd l b (Nd Lf x Lf)))).
    { unfold L'. rewrite ino_plug. cbn [ino app]. repeat (rewrite <- app_assoc; cbn [app]). reflexivity. }
    rewrite EL. apply (attach_right s s1 c b l x n); auto.
    + rewrite <- EL. exact N.
    + lia.
    + intros y Hy Hyb. assert (y <> x). { intros ->. apply Nx. rewrite EI in Hy. exact Hy. }
      unfold sameS, s1, link_right, new_leaf. prj. destruct (_ =? 0); prj; ux; repeat split.
    + unfold s1, link_right, new_leaf. prj. destruct (_ =? 0); prj; ux; reflexivity.
    + unfold s1, link_right, new_leaf. prj. destruct (_ =? 0); prj; ux; reflexivity.
    + unfold s1, link_right, new_leaf. prj. destruct (_ =? 0); prj; ux; reflexivity.
    + unfold s1, link_right, new_leaf. prj. destruct (_ =? 0); prj; ux; reflexivity.
    + unfold s1, link_right, new_leaf. prj. destruct (_ =? 0); prj; ux; reflexivity.
    + unfold s1, link_right, new_leaf. prj. destruct (_ =? 0); prj; ux; reflexivity.
    + unfold s1, link_right, new_leaf. prj. destruct (_ =? 0); prj; ux; reflexivity.
    + unfold s1, link_right, new_leaf. prj. destruct (_ =? 0); prj; ux; reflexivity.
    + unfold s1, link_right, new_leaf. prj. destruct (_ =? 0); prj; ux; reflexivity.
    + unfold s1, link_right, new_leaf. prj. destruct (_ =? 0); prj; ux; reflexivity.
    + unfold s1, link_right, new_leaf. prj. destruct (_ =? 0); prj; ux; reflexivity.
Qed.
Lemma st_lf s p t : st s p t -> addr t = 0 -> t = Lf.
Proof. destruct t; [reflexivity|]. cbn [st addr]. tauto. Qed.
Lemma nodup_split (A B A' B' : list Z) b : NoDup (A ++ b :: B) -> A ++ b :: B = A' ++ b :: B' -> A = A' /\ B = B'.
Proof.
  revert A'. induction A as [|a A IH]; intros A' N E; destruct A' as [|a' A']; cbn [app] in *.
  - injection E as <-. auto.
  - injection E as <- ->. inversion N as [|? ? H _]; subst. elim H. rewrite in_app_iff. cbn. auto.
  - injection E as -> <-. inversion N as [|? ? H _]; subst. elim H. rewrite in_app_iff. cbn. auto.
  - injection E as <- E. inversion N as [|? ? _ N']; subst. destruct (IH A' N' E) as (-> & ->). auto.
Qed.
Lemma at_node s T l1 b l2 : SH s T -> ino T = l1 ++ b :: l2 -> exists c l r, T = plug c (Nd l b r) /\
  l1 = lctx c ++ ino l /\ l2 = ino r ++ rctx c /\ st s (caddr c) (Nd l b r) /\ bal (Nd l b r) /\
  cok s c b (ht (Nd l b r)) (ht (Nd l b r)).
Proof.
  intros H E. destruct (focus T b) as (c & l & r & ->); [rewrite E, in_app_iff; cbn; auto|]. exists c, l, r.
  destruct H as [H1 H2 H3 H4 H5 H6 H7]. destruct (plug_cok s c _ H1 H4 H3) as (A & B & C).
  rewrite ino_plug in E, H5. cbn [ino] in E, H5. repeat (rewrite <- app_assoc in E, H5; cbn [app] in E, H5). rewrite app_assoc in E, H5.
  destruct (nodup_split _ _ _ _ _ H5 E) as (E1 & E2).
  exact (conj eq_refl (conj (eq_sym E1) (conj (eq_sym E2) (conj A (conj B C))))).
Qed.
Lemma last_right s p t li g : st s p t -> ino t = li ++ [g] -> hright s g = 0.
Proof.
  revert p li. induction t as [|l IHl a r IHr]; intros p li H E; [now destruct li|]. cbn [st ino] in *.
  destruct H as (A0 & A1 & A2 & A3 & A4 & A5 & Hl & Hr). destruct (snoc_cases (ino r)) as [Er|(ri & g' & Er)].
  - rewrite Er in E. apply app_inj_tail in E. destruct E as (_ & <-). rewrite A3. destruct r; [reflexivity|]. cbn [ino] in Er. now destruct (ino r1).
  - rewrite Er, app_comm_cons, app_assoc in E. apply app_inj_tail in E. destruct E as (_ & <-). eapply IHr; eauto.
Qed.

Lemma F_ext s s' L : (forall y, In y L -> sameV s s' y) -> flat_map (rows s') L = flat_map (rows s) L.
Proof. intros H. apply flat_map_ext_in. intros x Hx. apply sameV_rows. auto. Qed.
Lemma ok_ext s s' L : (forall y, In y L -> sameV s s' y) -> Forall (node_ok key s) L -> Forall (node_ok key s') L.
Proof. intros H F. rewrite Forall_forall in *. intros x Hx. apply (sameV_ok key s); auto. Qed.
Lemma in_F s L x : In x (flat_map (rows s) L) -> exists A a B, L = A ++ a :: B /\ In x (rows s a).
Proof. intros H. apply in_flat_map in H. destruct H as (a & Ha & Hx). apply in_split in Ha. destruct Ha as (A & B & ->). eauto. Qed.
Lemma above_rows s k L : VL s L -> dom k -> Forall (above cmp s k) L -> forall x, In x (flat_map (rows s) L) -> lt k (key x).
Proof.
  intros V D F x Hx. destruct (in_F _ _ _ Hx) as (A & a & B & -> & Ha). destruct (VL_node cmp dom KO key _ _ _ _ V) as (_ & Dm & _ & G & _).
  destruct (G x Ha) as (Dx & G1 & _). apply (lt_le_trans cmp dom KO k (hmin s a)); auto.
  rewrite Forall_forall in F. apply F. rewrite in_app_iff. cbn. auto.
Qed.
Lemma below_rows s k L : VL s L -> dom k -> Forall (below cmp s k) L -> forall x, In x (flat_map (rows s) L) -> lt (key x) k.
Proof.
  intros V D F x Hx. destruct (in_F _ _ _ Hx) as (A & a & B & -> & Ha). destruct (VL_node cmp dom KO key _ _ _ _ V) as (_ & _ & Dm & G & _).
  destruct (G x Ha) as (Dx & _ & G1). apply (le_lt_trans cmp dom KO _ (hmax s a)); auto.
  rewrite Forall_forall in F. apply F. rewrite in_app_iff. cbn. auto.
Qed.
Lemma left_rows s A b B : VL s (A ++ b :: B) -> forall x, In x (flat_map (rows s) A) -> dom (key x) /\ le (key x) (hmin s b).
Proof.
  intros V x Hx. pose proof V as (F & S2 & D). destruct (VL_node cmp dom KO key _ _ _ _ V) as ((N & -> & _) & _).
  rewrite flat_map_app in S2, D. apply ss_app in S2. destruct S2 as (_ & _ & S2). apply Forall_app in D. destruct D as (D & _).
  rewrite Forall_forall in D. split; [auto|]. apply S2; [exact Hx|]. cbn [flat_map]. rewrite in_app_iff. left. apply row_first. lia.
Qed.
Lemma right_rows s A b B : VL s (A ++ b :: B) -> forall x, In x (flat_map (rows s) B) -> dom (key x) /\ le (hmax s b) (key x).
Proof.
  intros V x Hx. pose proof V as (F & S2 & D). destruct (VL_node cmp dom KO key _ _ _ _ V) as ((N & _ & ->) & _).
  rewrite flat_map_app in S2, D. cbn [flat_map] in S2, D. apply ss_app in S2. destruct S2 as (_ & S2 & _). apply ss_app in S2. destruct S2 as (_ & _ & S2).
  rewrite !Forall_app in D. destruct D as (_ & _ & D).
  rewrite Forall_forall in D. split; [auto|]. apply S2; [|exact Hx]. apply row_last. lia.
Qed.

Definition cont (s : tt) (T : tree) : list Z := flat_map (rows s) (ino T).
(** What an insertion of [rec] achieves. *)
Definition added (s : tt) (T : tree) (rec nd : Z) (s' : tt) (T' : tree) : Prop :=
  TI s' T' /\ (forall x, In x (ino T') -> x = nd \/ In x (ino T)) /\
  exists pre post, cont s T = pre ++ post /\ cont s' T' = pre ++ rec :: post.
Definition add_lost (s : tt) (T : tree) (rec : Z) (s' : tt) : Prop :=
  TI s' T /\ exists m, Permutation (m :: cont s' T) (rec :: cont s T).

Lemma added_leaf s T rec nd s1 s' L' pre post : VL s (ino T) -> dom (key rec) ->
  repaired key s1 s' L' -> NoDup L' -> Forall okaddr L' -> chain s1 L' -> Forall (node_ok key s1) L' ->
  (forall x, In x L' -> x = nd \/ In x (ino T)) -> L' <> [] ->
  cont s T = pre ++ post -> flat_map (rows s1) L' = pre ++ rec :: post ->
  (forall x, In x pre -> rle x rec) -> (forall x, In x post -> rle rec x) ->
  exists T', added s T rec nd s' T'.
Proof.
  intros V D R N O C Ok In' Ln E E' P1 P2.
  destruct (TI_repaired s1 s' L' Ln R N O C (VL_insert s s1 (ino T) L' pre rec post V D Ok E E' P1 P2)) as (T' & HT & <- & EC).
  exists T'. split; [exact HT|]. split; [exact In'|]. exists pre, post. split; [exact E|]. unfold cont. rewrite EC. exact E'.
Qed.
Lemma added_same s T rec nd s' pre post : SH s T -> VL s (ino T) -> dom (key rec) -> sameSC s s' -> Forall (node_ok key s') (ino T) ->
  cont s T = pre ++ post -> cont s' T = pre ++ rec :: post ->
  (forall x, In x pre -> rle x rec) -> (forall x, In x post -> rle rec x) -> added s T rec nd s' T.
Proof.
  intros H V D E Ok C C' P1 P2. split; [|split; [auto|eauto]]. split; [now apply (SH_same s)|]. left.
  exact (VL_insert s s' (ino T) (ino T) pre rec post V D Ok C C' P1 P2).
Qed.

(** *** Dead ends *)
Lemma dead_left_ok s T rec nd fuel l1 b l2 : SH s T -> VL s (ino T) -> dom (key rec) -> ino T = l1 ++ b :: l2 ->
  Forall (below cmp s (key rec)) l1 -> Forall (above cmp s (key rec)) (b :: l2) -> hleft s b = 0 ->
  (nd = 0 \/ okaddr nd /\ ~ In nd (ino T)) -> (length (ino T) + 1 < fuel)%nat ->
  exists s1 off rc, add_dead s b DEAD_END_LEFT_NOT_BOUNDING (key rec) rec nd = (s1, off, rc) /\
  ((rc = 0 /\ exists s', (if off =? 0 then Some s1 else add_fix key fuel s1 off) = Some s' /\ exists T', added s T rec nd s' T')
   \/ (rc = -1 /\ nd = 0 /\ s1 = s)).
Proof.
  intros H V D EL Fb Fa Hl Hnd Hf. unfold add_dead. change WG_TNODE_ARRAY_SIZE with 8.
  assert (V' := V). rewrite EL in V'. destruct (VL_node cmp dom KO key _ _ _ _ V') as ((N & E1 & E2) & _).
  assert (Bn : ~ In b (l1 ++ l2)) by (pose proof (sh_nd _ _ H) as Nd'; rewrite EL in Nd'; now apply NoDup_remove_2 in Nd').
  destruct (VL_app cmp dom key _ _ _ V') as (V1 & V2).
  assert (P1 : forall x, In x (flat_map (rows s) l1) -> rle x rec) by (intros x Hx; apply lt_le; now apply (below_rows s _ l1)).
  assert (P2 : forall x, In x (flat_map (rows s) (b :: l2)) -> rle rec x) by (intros x Hx; apply lt_le; now apply (above_rows s _ (b :: l2))).
  assert (EC : cont s T = flat_map (rows s) l1 ++ flat_map (rows s) (b :: l2)) by (unfold cont; rewrite EL; apply flat_map_app).
  destruct (Z.ltb_spec (hn s b) 8) as [L8|L8].
  - cbv zeta. eexists _, _, _. split; [reflexivity|]. left. split; [reflexivity|]. rewrite Z.eqb_refl. eexists. split; [reflexivity|]. exists T.
    prj. rewrite upd_same. destruct (Z.eqb_spec (hn s b + 1) 1); [lia|].
    set (g := upd (push_right (Z.to_nat (hn s b)) (hn s b) (harr s b)) 0 rec).
    assert (G : g 0 = rec /\ forall j, 0 < j <= hn s b -> g j = harr s b (j - 1)).
    { unfold g. split; [apply upd_same|]. intros j Hj. rewrite upd_other by lia. rewrite push_right_eq. rewrite Z2Nat.id by lia.
      destruct (Z.ltb_spec (hn s b - hn s b) j); [|lia]. destruct (Z.leb_spec j (hn s b)); [|lia]. reflexivity. }
    destruct G as (G1 & G2). clearbody g.
    match goal with |- added _ _ _ _ ?x _ => set (s' := x) end.
    assert (SV : forall x, x <> b -> sameV s s' x).
    { intros x Hx. unfold sameV, s'. prj. ux. apply Z.eqb_neq in Hx as Hx'. rewrite Hx'. repeat split. }
    assert (SV1 : forall x, In x l1 -> sameV s s' x) by (intros x Hx; apply SV; intros ->; apply Bn; rewrite in_app_iff; auto).
    assert (SV2 : forall x, In x l2 -> sameV s s' x) by (intros x Hx; apply SV; intros ->; apply Bn; rewrite in_app_iff; auto).
    assert (Er : rows s' b = rec :: rows s b).
    { unfold rows, s'. prj. rewrite Z.eqb_refl, upd_same. rewrite (rowsf_ins (harr s b) g (hn s b) 0) by (auto; intros; lia).
      rewrite G1. rewrite (rowsf_0 _ 0) by lia. cbn [app]. f_equal. rewrite Z.sub_0_r. apply rowsf_ext. intros. f_equal. lia. }
    apply (added_same s T rec nd s' (flat_map (rows s) l1) (flat_map (rows s) (b :: l2))); auto.
    + unfold s'. repeat split.
    + rewrite EL. destruct V' as (V' & _). apply Forall_app in V'. destruct V' as (V3 & V4). apply Forall_inv_tail in V4.
      apply Forall_app. split; [now apply (ok_ext s)|]. constructor; [|now apply (ok_ext s)].
      unfold node_ok, s'. prj. rewrite Z.eqb_refl, !upd_same. split; [lia|]. split; [now rewrite G1|].
      rewrite G2 by lia. rewrite E2. do 2 f_equal. lia.
    + unfold cont. rewrite EL, flat_map_app. cbn [flat_map]. rewrite (F_ext s s' l1), (F_ext s s' l2), Er by assumption. reflexivity.
  - destruct (Z.eqb_spec nd 0) as [->|Hz].
    + do 3 eexists. split; [reflexivity|]. right. repeat split; reflexivity.
    + destruct Hnd as [Hnd|(On & Nn)]; [contradiction|].
      destruct (at_node _ _ _ _ _ H EL) as (c & l & r & ET & El1 & El2 & Hst & _). cbn [st] in Hst.
      assert (l = Lf) as -> by (apply (st_lf s b); [tauto|]; destruct Hst as (_ & _ & E & _); congruence).
      cbn [ino] in El1. rewrite app_nil_r in El1.
      pose proof (grow_left s c b r nd rec fuel) as G. rewrite <- ET in G. specialize (G H On Nn Hf). cbv zeta in G.
      rewrite <- El1, <- El2 in G. destruct G as ((G1 & G2 & G3 & G4 & G5 & G6) & s' & G7 & G8).
      cbv zeta. do 3 eexists. split; [reflexivity|]. left. split; [reflexivity|].
      destruct (Z.eqb_spec nd 0); [contradiction|]. exists s'. split; [exact G7|].
      assert (SV : forall x, In x (l1 ++ b :: l2) -> sameV s (link_left (new_leaf s nd b (key rec) rec) nd b) x).
      { intros x Hx. apply G6. intros ->. apply Nn. rewrite EL. exact Hx. }
      apply (added_leaf s T rec nd (link_left (new_leaf s nd b (key rec) rec) nd b) s' (l1 ++ nd :: b :: l2) (flat_map (rows s) l1) (flat_map (rows s) (b :: l2)) V D); auto.
      * apply Forall_mid; [|exact G4]. apply (ok_ext s); [exact SV|]. apply V'.
      * intros x Hx. rewrite in_app_iff in Hx. rewrite EL, in_app_iff. cbn [In] in *. intuition congruence.
      * now destruct l1.
      * rewrite flat_map_app. cbn [flat_map]. rewrite G5. cbn [app].
        rewrite (F_ext s _ l1) by (intros; apply SV; rewrite in_app_iff; auto).
        rewrite (F_ext s _ l2) by (intros; apply SV; rewrite in_app_iff; cbn; auto).
        rewrite (sameV_rows s _ b) by (apply SV; rewrite in_app_iff; cbn; auto). reflexivity.
Qed.
Lemma dead_right_ok s T rec nd fuel l1 b l2 : SH s T -> VL s (ino T) -> dom (key rec) -> ino T = l1 ++ b :: l2 ->
  Forall (below cmp s (key rec)) (l1 ++ [b]) -> Forall (above cmp s (key rec)) l2 -> hright s b = 0 ->
  (nd = 0 \/ okaddr nd /\ ~ In nd (ino T)) -> (length (ino T) + 1 < fuel)%nat ->
  exists s1 off rc, add_dead s b DEAD_END_RIGHT_NOT_BOUNDING (key rec) rec nd = (s1, off, rc) /\
  ((rc = 0 /\ exists s', (if off =? 0 then Some s1 else add_fix key fuel s1 off) = Some s' /\ exists T', added s T rec nd s' T')
   \/ (rc = -1 /\ nd = 0 /\ s1 = s)).
Proof.
  intros H V D EL Fb Fa Hl Hnd Hf. unfold add_dead. change WG_TNODE_ARRAY_SIZE with 8.
  assert (V' := V). rewrite EL in V'. destruct (VL_node cmp dom KO key _ _ _ _ V') as ((N & E1 & E2) & _).
  assert (Bn : ~ In b (l1 ++ l2)) by (pose proof (sh_nd _ _ H) as Nd'; rewrite EL in Nd'; now apply NoDup_remove_2 in Nd').
  assert (EL' : ino T = (l1 ++ [b]) ++ l2) by (rewrite EL, <- app_assoc; reflexivity).
  assert (V'' := V). rewrite EL' in V''.
  destruct (VL_app cmp dom key _ _ _ V'') as (V1 & V2).
  assert (P1 : forall x, In x (flat_map (rows s) (l1 ++ [b])) -> rle x rec) by (intros x Hx; apply lt_le; now apply (below_rows s _ (l1 ++ [b]))).
  assert (P2 : forall x, In x (flat_map (rows s) l2) -> rle rec x) by (intros x Hx; apply lt_le; now apply (above_rows s _ l2)).
  assert (EC : cont s T = flat_map (rows s) (l1 ++ [b]) ++ flat_map (rows s) l2) by (unfold cont; rewrite EL'; apply flat_map_app).
  destruct (Z.ltb_spec (hn s b) 8) as [L8|L8].
  - cbv zeta. eexists _, _, _. split; [reflexivity|]. left. split; [reflexivity|]. rewrite Z.eqb_refl. eexists. split; [reflexivity|]. exists T.
    prj. rewrite upd_same. destruct (Z.eqb_spec (hn s b + 1) 1); [lia|].
    match goal with |- added _ _ _ _ ?x _ => set (s' := x) end.
    assert (SV : forall x, x <> b -> sameV s s' x).
    { intros x Hx. unfold sameV, s'. prj. ux. apply Z.eqb_neq in Hx as Hx'. rewrite Hx'. repeat split. }
    assert (SV1 : forall x, In x l1 -> sameV s s' x) by (intros x Hx; apply SV; intros ->; apply Bn; rewrite in_app_iff; auto).
    assert (SV2 : forall x, In x l2 -> sameV s s' x) by (intros x Hx; apply SV; intros ->; apply Bn; rewrite in_app_iff; auto).
    assert (Er : rows s' b = rows s b ++ [rec]).
    { unfold rows, s'. prj. rewrite Z.eqb_refl, upd_same. rewrite rowsf_snoc by lia. rewrite upd_same. f_equal.
      apply rowsf_ext. intros. apply upd_other. lia. }
    apply (added_same s T rec nd s' (flat_map (rows s) (l1 ++ [b])) (flat_map (rows s) l2)); auto.
    + unfold s'. repeat split.
    + rewrite EL. destruct V' as (V' & _). apply Forall_app in V'. destruct V' as (V3 & V4). apply Forall_inv_tail in V4.
      apply Forall_app. split; [now apply (ok_ext s)|]. constructor; [|now apply (ok_ext s)].
      unfold node_ok, s'. prj. rewrite Z.eqb_refl, !upd_same. split; [lia|]. split; [now rewrite upd_other by lia|].
      replace (hn s b + 1 - 1) with (hn s b) by lia. now rewrite upd_same.
    + unfold cont. rewrite EL, !flat_map_app. cbn [flat_map]. rewrite (F_ext s s' l1), (F_ext s s' l2), Er, app_nil_r by assumption.
      repeat (rewrite <- app_assoc; cbn [app]). reflexivity.
  - destruct (Z.eqb_spec nd 0) as [->|Hz].
    + do 3 eexists. split; [reflexivity|]. right. repeat split; reflexivity.
    + destruct Hnd as [Hnd|(On & Nn)]; [contradiction|].
      destruct (at_node _ _ _ _ _ H EL) as (c & l & r & ET & El1 & El2 & Hst & _). cbn [st] in Hst.
      assert (r = Lf) as -> by (apply (st_lf s b); [tauto|]; destruct Hst as (_ & _ & _ & E & _); congruence).
      cbn [ino app] in El2.
      pose proof (grow_right s c b l nd rec fuel) as G. rewrite <- ET in G. specialize (G H On Nn Hf). cbv zeta in G.
      assert (X : lctx c ++ ino l ++ [b] = l1 ++ [b]) by (rewrite El1, <- app_assoc; reflexivity).
      rewrite X, <- El2 in G. destruct G as ((G1 & G2 & G3 & G4 & G5 & G6) & s' & G7 & G8).
      cbv zeta. do 3 eexists. split; [reflexivity|]. left. split; [reflexivity|].
      destruct (Z.eqb_spec nd 0); [contradiction|]. exists s'. split; [exact G7|].
      assert (SV : forall x, In x ((l1 ++ [b]) ++ l2) -> sameV s (link_right (new_leaf s nd b (key rec) rec) nd b) x).
      { intros x Hx. apply G6. intros ->. apply Nn. rewrite EL'. exact Hx. }
      apply (added_leaf s T rec nd (link_right (new_leaf s nd b (key rec) rec) nd b) s' ((l1 ++ [b]) ++ nd :: l2) (flat_map (rows s) (l1 ++ [b])) (flat_map (rows s) l2) V D); auto.
      * apply Forall_mid; [|exact G4]. apply (ok_ext s); [exact SV|]. apply V''.
      * intros x Hx. rewrite in_app_iff in Hx. rewrite EL', in_app_iff. cbn [In] in *. intuition congruence.
      * now destruct l1.
      * rewrite flat_map_app. cbn [flat_map]. rewrite G5. cbn [app].
        rewrite (F_ext s _ (l1 ++ [b])) by (intros; apply SV; rewrite in_app_iff; auto).
        rewrite (F_ext s _ l2) by (intros; apply SV; rewrite in_app_iff; cbn; auto). reflexivity.
Qed.
(** *** The first row *)
Lemma dead_nil_ok s T rec nd a bt : SH s T -> nil_root s T -> dom (key rec) -> addr T = a -> bt <> REALLY_BOUNDING_NODE ->
  exists s1, add_dead s a bt (key rec) rec nd = (s1, 0, 0) /\ added s T rec nd s1 T.
Proof.
  intros H (b & -> & N0 & _ & _) D E Hb. cbn [addr] in E. subst b. unfold add_dead. rewrite N0. change (0 <? WG_TNODE_ARRAY_SIZE) with true. cbv iota zeta.
  eexists. split; [reflexivity|]. assert (Ec : cont s (Nd Lf a Lf) = []).
  { unfold cont. cbn [ino app flat_map]. rewrite app_nil_r. unfold rows. rewrite N0. reflexivity. }
  assert (G : forall s1, sameSC s s1 -> hn s1 a = 1 -> harr s1 a 0 = rec -> hmin s1 a = key rec -> hmax s1 a = key rec -> added s (Nd Lf a Lf) rec nd s1 (Nd Lf a Lf)).
  { intros s1 E1 E2 E3 E4 E5. assert (Ec' : cont s1 (Nd Lf a Lf) = [rec]).
    { unfold cont. cbn [ino app flat_map]. unfold rows. rewrite E2, rowsf_1, E3. reflexivity. }
    split; [|split; [auto|exists [], []; rewrite Ec, Ec'; auto]]. split; [now apply (SH_same s)|]. left. unfold TtreeOrd.VL. unfold cont in Ec'. rewrite Ec'.
    split; [|split; [repeat constructor|repeat constructor; exact D]]. cbn [ino app]. constructor; [|constructor].
    unfold node_ok. rewrite E2, E4, E5. change (1 - 1) with 0. rewrite E3. repeat split; lia. }
  destruct bt; [now elim Hb| |]; prj; rewrite N0, upd_same; change (0 + 1 =? 1) with true; cbv iota; apply G;
    first [(repeat split; fail) | (prj; rewrite ?Z.eqb_refl; ux; reflexivity)].
Qed.

(** *** Bounding node with room *)
Lemma room_ok s T rec nd l1 b l2 : SH s T -> VL s (ino T) -> dom (key rec) -> ino T = l1 ++ b :: l2 ->
  le (hmin s b) (key rec) -> le (key rec) (hmax s b) -> Forall (above cmp s (key rec)) l2 -> hn s b < 8 ->
  added s T rec nd (add_room cmp key s b (key rec) rec) T.
Proof.
  intros H V D EL Lo Hi Fa L8. assert (V' := V). rewrite EL in V'.
  destruct (VL_node cmp dom KO key _ _ _ _ V') as (_ & Dm & _).
  assert (Bn : ~ In b (l1 ++ l2)) by (pose proof (sh_nd _ _ H) as Nd'; rewrite EL in Nd'; now apply NoDup_remove_2 in Nd').
  destruct (add_room_V s l1 b l2 rec V' D L8 Lo Hi) as (A1 & SV & A3 & r1 & r2 & R1 & R2 & R3 & R4).
  set (s' := add_room cmp key s b (key rec) rec) in *. clearbody s'.
  assert (SV1 : forall x, In x l1 -> sameV s s' x) by (intros x Hx; apply SV; intros ->; apply Bn; rewrite in_app_iff; auto).
  assert (SV2 : forall x, In x l2 -> sameV s s' x) by (intros x Hx; apply SV; intros ->; apply Bn; rewrite in_app_iff; auto).
  assert (V2 : VL s l2) by (destruct (VL_app cmp dom key _ _ _ V') as (_ & V2); change (b :: l2) with ([b] ++ l2) in V2; apply (VL_app cmp dom key _ _ _ V2)).
  apply (added_same s T rec nd s' (flat_map (rows s) l1 ++ r1) (r2 ++ flat_map (rows s) l2)); auto.
  - rewrite EL. destruct V' as (V' & _). apply Forall_app in V'. destruct V' as (V3 & V4). apply Forall_inv_tail in V4.
    apply Forall_app. split; [now apply (ok_ext s)|]. constructor; [exact A3|now apply (ok_ext s)].
  - unfold cont. rewrite EL, flat_map_app. cbn [flat_map]. rewrite R1. now rewrite !app_assoc.
  - unfold cont. rewrite EL, flat_map_app. cbn [flat_map]. rewrite R2, (F_ext s s' l1), (F_ext s s' l2) by assumption. rewrite <- !app_assoc. reflexivity.
  - intros x Hx. apply in_app_iff in Hx. destruct Hx as [Hx|Hx]; [|auto]. destruct (left_rows _ _ _ _ V' x Hx) as (Dx & Hx').
    exact (le_trans cmp dom KO _ _ _ Dx Dm D Hx' Lo).
  - intros x Hx. apply in_app_iff in Hx. destruct Hx as [Hx|Hx]; [auto|]. apply lt_le. now apply (above_rows s _ l2).
Qed.

(** *** Full bounding node *)
Lemma full_ok s T rec nd fuel l1 b l2 : SH s T -> VL s (ino T) -> dom (key rec) -> ino T = l1 ++ b :: l2 ->
  le (hmin s b) (key rec) -> le (key rec) (hmax s b) -> Forall (above cmp s (key rec)) l2 -> hn s b = 8 ->
  (nd = 0 \/ okaddr nd /\ ~ In nd (ino T)) -> (length (ino T) + 1 < fuel)%nat ->
  exists s1 off rc, add_glb (add_full cmp key s b (key rec) rec) b (hmin s b) (harr s b 0) nd = (s1, off, rc) /\
  ((rc = 0 /\ exists s', (if off =? 0 then Some s1 else add_fix key fuel s1 off) = Some s' /\ exists T', added s T rec nd s' T')
   \/ (rc = -1 /\ nd = 0 /\ add_lost s T rec s1)).
Proof.
  intros H V D EL Lo Hi Fa L8 Hnd Hf. assert (V' := V). rewrite EL in V'.
  destruct (VL_node cmp dom KO key _ _ _ _ V') as ((_ & Emin & _) & Dm & _).
  assert (Bn : ~ In b (l1 ++ l2)) by (pose proof (sh_nd _ _ H) as Nd'; rewrite EL in Nd'; now apply NoDup_remove_2 in Nd').
  destruct (add_full_V s l1 b l2 rec V' D L8 Lo) as (A1 & SV & A3 & A4 & r1 & r2 & R1 & R2 & R0 & R3 & R4).
  set (s0 := add_full cmp key s b (key rec) rec) in *. clearbody s0. set (m := harr s b 0) in *.
  assert (SV1 : forall x, In x l1 -> sameV s s0 x) by (intros x Hx; apply SV; intros ->; apply Bn; rewrite in_app_iff; auto).
  assert (SV2 : forall x, In x l2 -> sameV s s0 x) by (intros x Hx; apply SV; intros ->; apply Bn; rewrite in_app_iff; auto).
  assert (V2 : VL s l2) by (destruct (VL_app cmp dom key _ _ _ V') as (_ & V2); change (b :: l2) with ([b] ++ l2) in V2; apply (VL_app cmp dom key _ _ _ V2)).
  assert (H0 : SH s0 T) by exact (SH_same s s0 T H A1).
  assert (EC : cont s T = (flat_map (rows s) l1 ++ m :: r1) ++ r2 ++ flat_map (rows s) l2).
  { unfold cont. rewrite EL, flat_map_app. cbn [flat_map]. rewrite R1. repeat (rewrite <- app_assoc; cbn [app]). reflexivity. }
  assert (P1 : forall x, In x (flat_map (rows s) l1 ++ m :: r1) -> rle x rec).
  { intros x Hx. apply in_app_iff in Hx. destruct Hx as [Hx|[<-|Hx]]; auto. destruct (left_rows _ _ _ _ V' x Hx) as (Dx & Hx').
    exact (le_trans cmp dom KO _ _ _ Dx Dm D Hx' Lo). }
  assert (P2 : forall x, In x (r2 ++ flat_map (rows s) l2) -> rle rec x).
  { intros x Hx. apply in_app_iff in Hx. destruct Hx as [Hx|Hx]; [auto|]. apply lt_le. now apply (above_rows s _ l2). }
  assert (Ok0 : Forall (node_ok key s0) (l1 ++ b :: l2)).
  { destruct V' as (V' & _). apply Forall_app in V'. destruct V' as (V3 & V4). apply Forall_inv_tail in V4.
    apply Forall_app. split; [now apply (ok_ext s)|]. constructor; [exact A3|now apply (ok_ext s)]. }
  assert (EF : flat_map (rows s0) (l1 ++ b :: l2) = (flat_map (rows s) l1 ++ r1) ++ rec :: r2 ++ flat_map (rows s) l2).
  { rewrite flat_map_app. cbn [flat_map]. rewrite R2, (F_ext s s0 l1), (F_ext s s0 l2) by assumption. repeat (rewrite <- app_assoc; cbn [app]). reflexivity. }
  destruct (at_node _ _ _ _ _ H0 EL) as (c & l & r & ET & El1 & El2 & Hst & _). cbn [st] in Hst.
  destruct Hst as (B0 & _ & Bl & _ & _ & _ & Sl & _).
  assert (Lost : add_lost s T rec s0).
  { split.
    - split; [exact H0|]. left. unfold TtreeOrd.VL. rewrite EL, EF. split; [exact Ok0|].
      destruct V as (_ & S2 & D2). unfold cont in EC. rewrite EC in S2, D2. split.
      + apply ss_insert.
        * rewrite <- app_assoc in S2. cbn [app] in S2. apply ss_remove in S2. rewrite <- app_assoc. exact S2.
        * intros x Hx. apply P1. rewrite in_app_iff in *. cbn [In]. tauto.
        * exact P2.
      + rewrite !Forall_app in *. destruct D2 as ((D3 & D4) & D5 & D6). apply Forall_inv_tail in D4. repeat split; auto. constructor; auto. apply Forall_app; auto.
    - exists m. unfold cont at 1. rewrite EL, EF, EC. 
      transitivity (m :: rec :: (flat_map (rows s) l1 ++ r1) ++ r2 ++ flat_map (rows s) l2).
      + apply perm_skip. symmetry. apply Permutation_middle.
      + rewrite perm_swap. apply perm_skip. rewrite <- !app_assoc. cbn [app]. apply Permutation_middle. }
  unfold add_glb. rewrite Bl. change WG_TNODE_ARRAY_SIZE with 8.
  destruct (Z.eqb_spec (addr l) 0) as [El|El].
  - assert (l = Lf) as -> by (apply (st_lf s0 b); assumption). cbn [ino] in El1. rewrite app_nil_r in El1.
    rewrite A4. change (8 <? 8) with false. cbv iota zeta. destruct (Z.eqb_spec nd 0) as [->|Hz].
    + do 3 eexists. split; [reflexivity|]. right. auto.
    + destruct Hnd as [Hnd|(On & Nn)]; [contradiction|]. rewrite Z.eqb_refl. rewrite Emin. fold m.
      do 3 eexists. split; [reflexivity|]. left. split; [reflexivity|]. destruct (Z.eqb_spec nd 0); [contradiction|].
      pose proof (grow_left s0 c b r nd m fuel) as G. rewrite <- ET in G. specialize (G H0 On Nn Hf). cbv zeta in G.
      rewrite <- El1, <- El2 in G. destruct G as ((G1 & G2 & G3 & G4 & G5 & G6) & s' & G7 & G8).
      exists s'. split; [exact G7|]. set (s1 := link_left (new_leaf s0 nd b (key m) m) nd b) in *. clearbody s1.
      assert (SVx : forall x, In x (l1 ++ b :: l2) -> sameV s0 s1 x).
      { intros x Hx. apply G6. intros ->. apply Nn. rewrite EL. exact Hx. }
      apply (added_leaf s T rec nd s1 s' (l1 ++ nd :: b :: l2) (flat_map (rows s) l1 ++ m :: r1) (r2 ++ flat_map (rows s) l2) V D); auto.
      * apply Forall_mid; [|exact G4]. apply (ok_ext s0); [exact SVx|exact Ok0].
      * intros x Hx. rewrite in_app_iff in Hx. rewrite EL, in_app_iff. cbn [In] in *. intuition congruence.
      * now destruct l1.
      * rewrite flat_map_app. cbn [flat_map]. rewrite G5.
        rewrite (F_ext s0 s1 l1), (F_ext s0 s1 l2), (sameV_rows s0 s1 b) by (intros; apply SVx; rewrite in_app_iff; cbn; auto).
        rewrite R2, (F_ext s s0 l1), (F_ext s s0 l2) by assumption. repeat (rewrite <- app_assoc; cbn [app]). reflexivity.
  - destruct (snoc_cases (ino l)) as [Ei|(li & g & Ei)].
    { destruct l as [|ll x lr]; [now elim El|]. cbn [ino] in Ei. now destruct (ino ll). }
    assert (Eg : l1 = (lctx c ++ li) ++ [g]) by (rewrite El1, Ei; now rewrite app_assoc).
    set (l1' := lctx c ++ li) in *. clearbody l1'.
    assert (ELg : ino T = l1' ++ g :: b :: l2) by (rewrite EL, Eg, <- app_assoc; reflexivity).
    assert (Cg : hpred s0 b = g). { pose proof (sh_chain _ _ H0) as C. rewrite EL in C. destruct (chain_at _ _ _ _ C) as (-> & _). rewrite Eg, last_app. reflexivity. }
    assert (Cs : hsucc s0 g = b). { pose proof (sh_chain _ _ H0) as C. rewrite ELg in C. destruct (chain_at _ _ _ _ C) as (_ & ->). reflexivity. }
    assert (gb : b <> g). { intros <-. apply Bn. rewrite Eg, !in_app_iff. cbn. auto. }
    pose proof (last_right s0 b l li g Sl Ei) as Rg.
    assert (N1 : NoDup (l1' ++ g :: b :: l2)) by (rewrite <- ELg; apply (sh_nd _ _ H)).
    assert (Gn : ~ In g (l1' ++ b :: l2)) by (now apply NoDup_remove_2 in N1).
    rewrite Cg. assert (Okg : node_ok key s0 g). { rewrite Forall_forall in Ok0. apply Ok0. rewrite Eg, !in_app_iff. cbn. auto. }
    destruct Okg as (Ng & Eg1 & Eg2).
    destruct (Z.ltb_spec (hn s0 g) 8) as [Lg|Lg].
    + cbv zeta. do 3 eexists. split; [reflexivity|]. left. split; [reflexivity|]. rewrite Z.eqb_refl. eexists. split; [reflexivity|]. exists T.
      prj. match goal with |- added _ _ _ _ ?x _ => set (s1 := x) end.
      assert (SVg : forall x, x <> g -> sameV s0 s1 x).
      { intros x Hx. unfold sameV, s1. prj. ux. apply Z.eqb_neq in Hx as Hx'. rewrite Hx'. repeat split. }
      assert (SVg1 : forall x, In x l1' -> sameV s0 s1 x) by (intros x Hx; apply SVg; intros ->; apply Gn; rewrite in_app_iff; auto).
      assert (SVg2 : forall x, In x (b :: l2) -> sameV s0 s1 x) by (intros x Hx; apply SVg; intros ->; apply Gn; rewrite in_app_iff; auto).
      assert (Er : rows s1 g = rows s0 g ++ [m]).
      { unfold rows, s1. prj. rewrite Z.eqb_refl, upd_same. rewrite rowsf_snoc by lia. rewrite upd_same. f_equal.
        apply rowsf_ext. intros. apply upd_other. lia. }
      apply (added_same s T rec nd s1 (flat_map (rows s) l1 ++ m :: r1) (r2 ++ flat_map (rows s) l2)); auto.
      * rewrite Eg, <- app_assoc in Ok0. cbn [app] in Ok0. rewrite ELg. apply Forall_app in Ok0. destruct Ok0 as (O1 & O2). apply Forall_inv_tail in O2.
        apply Forall_app. split; [now apply (ok_ext s0)|]. constructor; [|now apply (ok_ext s0)].
        unfold node_ok, s1. prj. rewrite Z.eqb_refl, !upd_same. split; [lia|]. split; [now rewrite upd_other by lia|].
        replace (hn s0 g + 1 - 1) with (hn s0 g) by lia. now rewrite upd_same.
      * unfold cont. rewrite ELg, flat_map_app. change (flat_map (rows s1) (g :: b :: l2)) with (rows s1 g ++ flat_map (rows s1) (b :: l2)).
        rewrite (F_ext s0 s1 l1'), (F_ext s0 s1 (b :: l2)), Er by assumption.
        cbn [flat_map]. rewrite R2. rewrite (F_ext s s0 l2) by assumption.
        rewrite Eg, !flat_map_app. cbn [flat_map]. rewrite app_nil_r.
        rewrite (F_ext s s0 l1') by (intros x Hx; apply SV1; rewrite Eg, in_app_iff; auto).
        rewrite (sameV_rows s s0 g) by (apply SV1; rewrite Eg, in_app_iff; cbn; auto).
        repeat (rewrite <- app_assoc; cbn [app]). reflexivity.
    + destruct (Z.eqb_spec nd 0) as [->|Hz].
      { do 3 eexists. split; [reflexivity|]. right. auto. }
      destruct Hnd as [Hnd|(On & Nn)]; [contradiction|].
      destruct (Z.eqb_spec b g); [contradiction|].
      destruct (at_node _ _ _ _ _ H0 ELg) as (c' & l' & r' & ET' & El1' & El2' & Hst' & _). cbn [st] in Hst'.
      assert (r' = Lf) as -> by (apply (st_lf s0 g); [tauto|]; destruct Hst' as (_ & _ & _ & E & _); congruence).
      cbn [ino app] in El2'.
      pose proof (grow_right s0 c' g l' nd m fuel) as G. rewrite <- ET' in G. specialize (G H0 On Nn Hf). cbv zeta in G.
      assert (X : lctx c' ++ ino l' ++ [g] = l1) by (rewrite Eg, El1', <- app_assoc; reflexivity).
      rewrite X, <- El2' in G. destruct G as ((G1 & G2 & G3 & G4 & G5 & G6) & s' & G7 & G8).
      assert (gn : nd <> g). { intros ->. apply Nn. rewrite ELg, in_app_iff. cbn. auto. }
      rewrite Emin. fold m. unfold link_right in *. unfold new_leaf in *. cbv zeta in *. prj. revert G3 G4 G5 G6 G7 G8. prj.
      rewrite !upd_same. rewrite !(upd_other (hsucc s0) nd _ g) by congruence. rewrite Cs. destruct (Z.eqb_spec b 0); [contradiction|].
      intros G3 G4 G5 G6 G7 G8.
      do 3 eexists. split; [reflexivity|]. left. split; [reflexivity|]. destruct (Z.eqb_spec nd 0); [contradiction|].
      exists s'. split; [exact G7|]. match type of G7 with add_fix _ _ ?x _ = _ => set (s1 := x) in * end. clearbody s1.
      assert (SVx : forall x, In x (l1 ++ b :: l2) -> sameV s0 s1 x).
      { intros x Hx. apply G6. intros ->. apply Nn. rewrite EL. exact Hx. }
      apply (added_leaf s T rec nd s1 s' (l1 ++ nd :: b :: l2) (flat_map (rows s) l1 ++ m :: r1) (r2 ++ flat_map (rows s) l2) V D); auto.
      * apply Forall_mid; [|exact G4]. apply (ok_ext s0); [exact SVx|exact Ok0].
      * intros x Hx. rewrite in_app_iff in Hx. rewrite EL, in_app_iff. cbn [In] in *. intuition congruence.
      * now destruct l1.
      * rewrite flat_map_app. cbn [flat_map]. rewrite G5.
        rewrite (F_ext s0 s1 l1), (F_ext s0 s1 l2), (sameV_rows s0 s1 b) by (intros; apply SVx; rewrite in_app_iff; cbn; auto).
        rewrite R2, (F_ext s s0 l1), (F_ext s s0 l2) by assumption. repeat (rewrite <- app_assoc; cbn [app]). reflexivity.
Qed.

(** ** Insertion *)
Theorem add_ok s T rec nd fuel : TI s T -> dom (key rec) -> (nd = 0 \/ okaddr nd /\ ~ In nd (ino T)) -> (length (ino T) + 1 < fuel)%nat ->
  exists s' rc, ttree_add_row cmp key fuel s rec nd = Some (s', rc) /\
  ((rc = 0 /\ exists T', added s T rec nd s' T') \/ (rc = -1 /\ nd = 0 /\ add_lost s T rec s')).
Proof.
  intros (H & HV) D Hnd Hf. unfold ttree_add_row.
  assert (Tz : addr T <> 0). { intros E. apply (sh_nz _ _ H). apply (st_lf s 0); [apply (sh_st _ _ H)|exact E]. }
  rewrite (sh_root _ _ H). destruct (Z.eqb_spec (addr T) 0); [contradiction|].
  assert (Hh : (Z.to_nat (ht T) <= fuel)%nat) by (pose proof (ht_len T); lia).
  destruct HV as [V|Nr].
  - destruct (rightmost_ok cmp dom KO key s (key rec) (ino T) V D T 0 fuel [] [] 0 (sh_st _ _ H) (sh_nz _ _ H)) as (b & res & -> & l1 & l2 & EL & R); auto.
    { now rewrite app_nil_r. }
    destruct res.
    + destruct R as (R1 & R2 & R3). change WG_TNODE_ARRAY_SIZE with 8. destruct (Z.ltb_spec (hn s b) 8) as [L8|L8].
      * cbv iota beta. change (negb (0 =? 0)) with false. change (0 =? 0) with true. cbv iota. do 2 eexists. split; [reflexivity|]. left. split; [reflexivity|].
        exists T. exact (room_ok s T rec nd l1 b l2 H V D EL R1 R2 R3 L8).
      * assert (E8 : hn s b = 8). { assert (V' := V). rewrite EL in V'. destruct (VL_node cmp dom KO key _ _ _ _ V') as ((N8 & _) & _). lia. }
        destruct (full_ok s T rec nd fuel l1 b l2 H V D EL R1 R2 R3 E8 Hnd Hf) as (s1 & off & rc & -> & [(-> & s' & E & HT)|(-> & Nz & HL)]).
        -- change (negb (0 =? 0)) with false. cbv iota. destruct (off =? 0).
           ++ injection E as ->. eauto 10.
           ++ rewrite E. eauto 10.
        -- change (negb (-1 =? 0)) with true. cbv iota. eauto 10.
    + destruct R as (R1 & R2 & R3).
      destruct (dead_left_ok s T rec nd fuel l1 b l2 H V D EL R1 R2 R3 Hnd Hf) as (s1 & off & rc & -> & [(-> & s' & E & HT)|(-> & Nz & ->)]).
      * change (negb (0 =? 0)) with false. cbv iota. destruct (off =? 0).
        -- injection E as ->. eauto 10.
        -- rewrite E. eauto 10.
      * change (negb (-1 =? 0)) with true. cbv iota. do 2 eexists. split; [reflexivity|]. right. split; [reflexivity|]. split; [exact Nz|].
        split; [split; auto|exists rec; reflexivity].
    + destruct R as (R1 & R2 & R3).
      destruct (dead_right_ok s T rec nd fuel l1 b l2 H V D EL R1 R2 R3 Hnd Hf) as (s1 & off & rc & -> & [(-> & s' & E & HT)|(-> & Nz & ->)]).
      * change (negb (0 =? 0)) with false. cbv iota. destruct (off =? 0).
        -- injection E as ->. eauto 10.
        -- rewrite E. eauto 10.
      * change (negb (-1 =? 0)) with true. cbv iota. do 2 eexists. split; [reflexivity|]. right. split; [reflexivity|]. split; [exact Nz|].
        split; [split; auto|exists rec; reflexivity].
  - assert (X : exists bt, wg_search_ttree_rightmost cmp fuel s (addr T) (key rec) 0 = Some (addr T, bt) /\ bt <> REALLY_BOUNDING_NODE).
    { destruct Nr as (a & -> & _ & Mi & Ma). pose proof (sh_st _ _ H) as S0. cbn [st addr] in *. destruct S0 as (A0 & A1 & A2 & A3 & _).
      destruct fuel as [|f]; [lia|]. cbn [wg_search_ttree_rightmost]. rewrite Mi, Ma, A2, A3. cbn [negb andb Z.eqb].
      pose proof (ko_ill _ _ KO _ D) as Ill. destruct (ko_tri _ _ KO (key rec) WG_ILLEGAL) as [E|[E|E]]; [| |]; rewrite ?E in *.
      - exists DEAD_END_LEFT_NOT_BOUNDING. split; [reflexivity|discriminate].
      - now elim Ill.
      - exists DEAD_END_RIGHT_NOT_BOUNDING. split; [reflexivity|discriminate]. }
    destruct X as (bt & -> & Hbt). destruct (dead_nil_ok s T rec nd (addr T) bt H Nr D eq_refl Hbt) as (s1 & E & HA).
    destruct bt; [now elim Hbt| |]; rewrite E; change (negb (0 =? 0)) with false; change (0 =? 0) with true; cbv iota; eauto 10.
Qed.
End Add.
