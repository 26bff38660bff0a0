(** Lemmas on the lists of the index control area. *)
From Coq Require Import ZArith List Bool Lia Permutation Sorted.
From Verif Require Import Base EncodingModel CompareModel CompareProofs QueryModel IndexCtlModel.
Import ListNotations.
Open Scope Z_scope.
#[local] Ltac Zify.zify_post_hook ::= idtac.

Lemma putl_same {A} (f : Z -> A) k l : putl f k l k = l.
Proof. unfold putl. now rewrite Z.eqb_refl. Qed.
Lemma putl_other {A} (f : Z -> A) k l x : x <> k -> putl f k l x = f x.
Proof. unfold putl. intros H. now destruct (Z.eqb_spec x k). Qed.

Lemma insert_perm (l : list Z) pos v : Permutation (firstn pos l ++ v :: skipn pos l) (v :: l).
Proof. rewrite <- (firstn_skipn pos l) at 3. symmetry. apply Permutation_middle. Qed.

Lemma delete_in l v : In v l -> snd (delete_from_list l v) = true /\ Permutation l (v :: fst (delete_from_list l v)).
Proof.
  induction l as [|x l IH]; [contradiction|]. cbn [delete_from_list]. destruct (Z.eqb_spec x v) as [-> | N].
  - intros _. split; [reflexivity|]. apply Permutation_refl.
  - intros [H | H]; [contradiction|]. destruct (IH H) as (B & P). destruct (delete_from_list l v) as [l' b].
    cbn [fst snd] in *. split; [assumption|]. rewrite P at 1. apply perm_swap.
Qed.
Lemma delete_notin l v : ~ In v l -> delete_from_list l v = (l, false).
Proof.
  induction l as [|x l IH]; [reflexivity|]. cbn [delete_from_list]. intros H.
  destruct (Z.eqb_spec x v) as [-> | N]; [exfalso; apply H; now left|]. rewrite IH; [reflexivity|].
  intros K. apply H. now right.
Qed.

(** sort_columns *)
Lemma lowest_above_aux columns prev : forall a,
  let r := fold_left (fun lowest x => if (x <? lowest) && (prev <? x) then x else lowest) columns a in
  (r = a \/ (In r columns /\ prev < r < a)) /\ r <= a /\ forall x, In x columns -> prev < x -> r <= x.
Proof.
  induction columns as [|y ys IH]; intros a; cbn [fold_left].
  - split; [now left|]. split; [lia|]. intros x [].
  - specialize (IH (if (y <? a) && (prev <? y) then y else a)). cbn zeta in IH. cbn zeta.
    destruct (Z.ltb_spec y a), (Z.ltb_spec prev y); cbn [andb] in *;
      destruct IH as ([E | (H1 & H2)] & H3 & H4).
    all: (split; [|split; [lia|intros x [-> | Hx] Hp; [lia|now apply H4]]]).
    all: try (right; split; [now right|lia]).
    + right. split; [left; congruence|lia].
    + now left.
    + now left.
    + now left.
Qed.
Lemma lowest_above_ok columns prev : let r := lowest_above columns prev in
  (r = 128 \/ (In r columns /\ prev < r < 128)) /\ forall x, In x columns -> prev < x -> r <= x.
Proof.
  cbn zeta. unfold lowest_above, MAX_INDEXED_FIELDNR. pose proof (lowest_above_aux columns prev (127 + 1)) as H.
  cbn zeta in H. change (127 + 1) with 128 in *. tauto.
Qed.
Lemma sort_columns_ok n : forall columns prev,
  let r := sort_columns n columns prev in
  (forall x, In x r -> In x columns /\ prev < x < 128) /\ NoDup r /\
  ((length r < n)%nat -> forall x, In x columns -> prev < x < 128 -> In x r).
Proof.
  induction n as [|n IH]; intros columns prev; cbn [sort_columns]; cbn zeta.
  - split; [intros x []|]. split; [constructor|]. cbn. lia.
  - destruct (lowest_above_ok columns prev) as (H1 & H2). unfold MAX_INDEXED_FIELDNR. change (127 + 1) with 128.
    set (w := lowest_above columns prev) in *.
    destruct (Z.eqb_spec w 128) as [E | N].
    + split; [intros x []|]. split; [constructor|]. intros _ x Hx Hp. specialize (H2 x Hx). lia.
    + destruct H1 as [H1 | (H1 & H3)]; [contradiction|].
      destruct (IH columns w) as (A & B & C). cbn zeta in *. split; [|split].
      * intros x [<- | Hx]; [auto|]. destruct (A x Hx). split; [assumption|lia].
      * constructor; [|assumption]. intros Hx. destruct (A _ Hx). lia.
      * cbn [length]. intros L x Hx Hp. destruct (Z.eq_dec x w) as [-> | Nx]; [now left|]. right. apply C; [lia|assumption|].
        specialize (H2 x Hx). lia.
Qed.

(** Filters of the set of indexes. *)
Lemma perm_filter {A} (f : A -> bool) l m : Permutation l m -> Permutation (filter f l) (filter f m).
Proof.
  induction 1 as [|x l m _ IH|x y l|l m k _ IH1 _ IH2]; cbn [filter]; auto.
  - destruct (f x); auto.
  - destruct (f x), (f y); auto. apply perm_swap.
  - now rewrite IH1.
Qed.

Section Ctl.
Variable cs : cstate.

(** Column [col] is fixed in the match record. *)
Definition fixcol (m : list Z) (col : Z) : bool :=
  (0 <=? col) && match nth_error m (Z.to_nat col) with Some e => fixed cs e | None => false end.

Lemma fixcol_nil col : fixcol [] col = false.
Proof. unfold fixcol. destruct (Z.to_nat col); cbn; apply andb_false_r. Qed.

Lemma insert_cols_ok id : forall cols poss c c', NoDup cols -> length poss = length cols ->
  (length cols <= c_cells c)%nat -> insert_cols c id cols poss = (c', true) ->
  c_count c' = c_count c /\ c_list c' = c_list c /\ c_ttab c' = c_ttab c /\ c_tlist c' = c_tlist c /\
  c_hdr c' = c_hdr c /\ c_tm c' = c_tm c /\ c_cells c' = (c_cells c - length cols)%nat /\
  forall col, Permutation (c_tab c' col) (if existsb (Z.eqb col) cols then id :: c_tab c col else c_tab c col).
Proof.
  induction cols as [|x cols IH]; intros [|p poss] c c' ND L M E; cbn [length] in *; try discriminate.
  - injection E as <-. repeat split; auto. lia.
  - cbn [insert_cols] in E. destruct (c_cells c) as [|k] eqn:Ek; [lia|]. cbn [insert_into_list] in E.
    set (c1 := set_cells (set_tab c x (firstn p (c_tab c x) ++ id :: skipn p (c_tab c x))) k) in *.
    apply NoDup_cons_iff in ND as (Nx & ND).
    destruct (IH poss c1 c' ND ltac:(lia) ltac:(cbn; lia) E) as (A1 & A2 & A3 & A4 & A5 & A6 & A7 & A8).
    repeat split; auto.
    intros col. rewrite A8. cbn [existsb]. cbn [c1 set_cells set_tab c_tab].
    destruct (Z.eqb_spec col x) as [-> | N].
      * cbn [orb]. destruct (existsb (Z.eqb x) cols) eqn:Ex.
        { apply existsb_exists in Ex as (y & Hy & Ey). apply Z.eqb_eq in Ey as ->. contradiction. }
        rewrite putl_same. apply insert_perm.
      * cbn [orb]. now rewrite putl_other by assumption.
Qed.
Lemma insert_cols_total id : forall cols poss c, length poss = length cols -> (length cols <= c_cells c)%nat ->
  exists c', insert_cols c id cols poss = (c', true).
Proof.
  induction cols as [|x cols IH]; intros [|p poss] c L M; cbn [length] in *; try discriminate; cbn [insert_cols]; eauto.
  destruct (c_cells c) as [|k] eqn:Ek; [lia|]. cbn [insert_into_list]. apply IH; [lia|cbn; lia].
Qed.

Lemma insert_tmpl_cols_ok id : forall m i c, 0 <= i -> (length m <= c_cells c)%nat ->
  exists c', insert_tmpl_cols cs c id m i = (c', true) /\
  c_count c' = c_count c /\ c_list c' = c_list c /\ c_tab c' = c_tab c /\ c_tlist c' = c_tlist c /\
  c_hdr c' = c_hdr c /\ c_tm c' = c_tm c /\
  forall col, Permutation (c_ttab c' col) (if (i <=? col) && fixcol m (col - i) then id :: c_ttab c col else c_ttab c col).
Proof.
  induction m as [|e m IH]; intros i c Hi M; cbn [length insert_tmpl_cols] in *.
  - exists c. repeat split; auto. intros col. rewrite fixcol_nil, andb_false_r. reflexivity.
  - assert (FC : forall col, (i <=? col) && fixcol (e :: m) (col - i) =
        if col =? i then fixed cs e else (i + 1 <=? col) && fixcol m (col - (i + 1))).
    { intros col. unfold fixcol. destruct (Z.leb_spec i col) as [L | L]; cbn [andb].
      - destruct (Z.eqb_spec col i) as [-> | N].
        + rewrite Z.sub_diag. reflexivity.
        + destruct (Z.leb_spec (i + 1) col); [|lia]. destruct (Z.leb_spec 0 (col - i)); [|lia].
          destruct (Z.leb_spec 0 (col - (i + 1))); [|lia]. cbn [andb].
          replace (Z.to_nat (col - i)) with (S (Z.to_nat (col - (i + 1)))) by lia. reflexivity.
      - destruct (Z.eqb_spec col i); [lia|]. destruct (Z.leb_spec (i + 1) col); [lia|reflexivity]. }
    destruct (fixed cs e) eqn:Fe.
    + destruct (c_cells c) as [|k] eqn:Ek; [lia|]. cbn [insert_into_list].
      set (c1 := set_cells (set_ttab c i (firstn 0 (c_ttab c i) ++ id :: skipn 0 (c_ttab c i))) k).
      destruct (IH (i + 1) c1 ltac:(lia) ltac:(cbn; lia)) as (c' & E & A1 & A2 & A3 & A4 & A5 & A6 & A8).
      exists c'. repeat split; auto. intros col. rewrite A8, FC. cbn [c1 set_cells set_ttab c_ttab].
      destruct (Z.eqb_spec col i) as [-> | N].
      * destruct (Z.leb_spec (i + 1) i); [lia|]. cbn [andb]. rewrite putl_same. reflexivity.
      * now rewrite putl_other by assumption.
    + destruct (IH (i + 1) c ltac:(lia) ltac:(lia)) as (c' & E & A1 & A2 & A3 & A4 & A5 & A6 & A8).
      exists c'. repeat split; auto. intros col. rewrite A8, FC.
      destruct (Z.eqb_spec col i) as [-> | N]; [|reflexivity].
      destruct (Z.leb_spec (i + 1) i); [lia|]. reflexivity.
Qed.

Lemma delete_cols_ok id : forall cols c, NoDup cols -> (forall col, In col cols -> In id (c_tab c col)) ->
  let c' := delete_cols c id cols in
  c_count c' = c_count c /\ c_list c' = c_list c /\ c_ttab c' = c_ttab c /\ c_tlist c' = c_tlist c /\
  c_hdr c' = c_hdr c /\ c_tm c' = c_tm c /\
  forall col, if existsb (Z.eqb col) cols then Permutation (c_tab c col) (id :: c_tab c' col) else c_tab c' col = c_tab c col.
Proof.
  induction cols as [|x cols IH]; intros c ND H; cbn [delete_cols existsb]; cbn zeta.
  - repeat split; auto.
  - apply NoDup_cons_iff in ND as (Nx & ND).
    destruct (delete_in (c_tab c x) id (H x (or_introl eq_refl))) as (B & P).
    destruct (delete_from_list (c_tab c x) id) as [l b]. cbn [fst snd] in *. subst b.
    set (c1 := set_cells (set_tab c x l) (S (c_cells c))) in *.
    destruct (IH c1 ND) as (A1 & A2 & A3 & A4 & A5 & A6 & A8).
    { intros col Hc. cbn [c1 set_cells set_tab c_tab]. rewrite putl_other by (intros ->; contradiction). apply H. now right. }
    cbn zeta in *. repeat split; auto. intros col. specialize (A8 col). cbn [c1 set_cells set_tab c_tab] in A8.
    destruct (Z.eqb_spec col x) as [-> | N]; cbn [orb].
    + destruct (existsb (Z.eqb x) cols) eqn:Ex.
      { apply existsb_exists in Ex as (y & Hy & Ey). apply Z.eqb_eq in Ey as ->. contradiction. }
      rewrite putl_same in A8. now rewrite A8.
    + rewrite putl_other in A8 by assumption. exact A8.
Qed.

Lemma delete_tmpl_cols_ok id : forall m i c, 0 <= i ->
  (forall col, i <= col -> fixcol m (col - i) = true -> In id (c_ttab c col)) ->
  let c' := delete_tmpl_cols cs c id m i in
  c_count c' = c_count c /\ c_list c' = c_list c /\ c_tab c' = c_tab c /\ c_tlist c' = c_tlist c /\
  c_hdr c' = c_hdr c /\ c_tm c' = c_tm c /\
  forall col, if (i <=? col) && fixcol m (col - i) then Permutation (c_ttab c col) (id :: c_ttab c' col)
              else c_ttab c' col = c_ttab c col.
Proof.
  induction m as [|e m IH]; intros i c Hi H; cbn [delete_tmpl_cols]; cbn zeta.
  - repeat split; auto. intros col. rewrite fixcol_nil, andb_false_r. reflexivity.
  - assert (FC : forall col, (i <=? col) && fixcol (e :: m) (col - i) =
        if col =? i then fixed cs e else (i + 1 <=? col) && fixcol m (col - (i + 1))).
    { intros col. unfold fixcol. destruct (Z.leb_spec i col) as [L | L]; cbn [andb].
      - destruct (Z.eqb_spec col i) as [-> | N].
        + rewrite Z.sub_diag. reflexivity.
        + destruct (Z.leb_spec (i + 1) col); [|lia]. destruct (Z.leb_spec 0 (col - i)); [|lia].
          destruct (Z.leb_spec 0 (col - (i + 1))); [|lia]. cbn [andb].
          replace (Z.to_nat (col - i)) with (S (Z.to_nat (col - (i + 1)))) by lia. reflexivity.
      - destruct (Z.eqb_spec col i); [lia|]. destruct (Z.leb_spec (i + 1) col); [lia|reflexivity]. }
    assert (Hm : forall col, i + 1 <= col -> fixcol m (col - (i + 1)) = true -> In id (c_ttab c col)).
    { intros col L F. apply H; [lia|]. specialize (FC col). destruct (Z.leb_spec i col); [|lia]. cbn [andb] in FC.
      rewrite FC. destruct (Z.eqb_spec col i); [lia|]. destruct (Z.leb_spec (i + 1) col); [|lia]. exact F. }
    destruct (fixed cs e) eqn:Fe.
    + assert (Hin : In id (c_ttab c i)).
      { apply H; [lia|]. specialize (FC i). rewrite Z.eqb_refl, Z.leb_refl in FC. exact FC. }
      destruct (delete_in (c_ttab c i) id Hin) as (B & P).
      destruct (delete_from_list (c_ttab c i) id) as [l b]. cbn [fst snd] in *. subst b.
      set (c1 := set_cells (set_ttab c i l) (S (c_cells c))) in *.
      destruct (IH (i + 1) c1 ltac:(lia)) as (A1 & A2 & A3 & A4 & A5 & A6 & A8).
      { intros col L F. cbn [c1 set_cells set_ttab c_ttab]. rewrite putl_other by lia. now apply Hm. }
      cbn zeta in *. repeat split; auto. intros col. specialize (A8 col). rewrite FC.
      cbn [c1 set_cells set_ttab c_ttab] in A8.
      destruct (Z.eqb_spec col i) as [-> | N].
      * destruct (Z.leb_spec (i + 1) i); [lia|]. cbn [andb] in A8. rewrite putl_same in A8. now rewrite A8.
      * rewrite putl_other in A8 by assumption. exact A8.
    + destruct (IH (i + 1) c ltac:(lia) Hm) as (A1 & A2 & A3 & A4 & A5 & A6 & A8).
      cbn zeta in *. repeat split; auto. intros col. specialize (A8 col). rewrite FC.
      destruct (Z.eqb_spec col i) as [-> | N]; [|exact A8].
      destruct (Z.leb_spec (i + 1) i); [lia|]. exact A8.
Qed.

(** Templates. *)
Lemma fixed_len_bound m : forall i acc, 0 <= i -> acc <= i -> acc <= fixed_len cs m i acc <= i + Z.of_nat (length m).
Proof.
  induction m as [|e m IH]; intros i acc Hi Ha; cbn [fixed_len length]; [lia|].
  destruct (encoded_type (words cs) e =? WG_VARTYPE).
  - specialize (IH (i + 1) acc ltac:(lia) ltac:(lia)). lia.
  - specialize (IH (i + 1) (i + 1) ltac:(lia) ltac:(lia)). lia.
Qed.
(** Fixed columns lie below [fixed_len]. *)
Lemma fixed_len_above m : forall i acc k e, 0 <= i -> acc <= i -> nth_error m k = Some e -> fixed cs e = true ->
  i + Z.of_nat k < fixed_len cs m i acc.
Proof.
  induction m as [|x m IH]; intros i acc k e Hi Ha Hk F; [now destruct k|].
  destruct k as [|k]; cbn [nth_error fixed_len] in *.
  - injection Hk as ->. unfold fixed in F. destruct (encoded_type (words cs) e =? WG_VARTYPE); [discriminate|].
    pose proof (fixed_len_bound m (i + 1) (i + 1)). lia.
  - destruct (encoded_type (words cs) x =? WG_VARTYPE).
    + specialize (IH (i + 1) acc k e ltac:(lia) ltac:(lia) Hk F). lia.
    + specialize (IH (i + 1) (i + 1) k e ltac:(lia) ltac:(lia) Hk F). lia.
Qed.
Lemma fixcol_trim m col : fixcol (firstn (Z.to_nat (fixed_len cs m 0 0)) m) col = fixcol m col.
Proof.
  unfold fixcol. destruct (Z.leb_spec 0 col) as [H | H]; [|reflexivity]. cbn [andb].
  destruct (nth_error m (Z.to_nat col)) as [e|] eqn:E.
  - destruct (fixed cs e) eqn:F.
    + pose proof (fixed_len_above m 0 0 _ e ltac:(lia) ltac:(lia) E F) as L.
      assert (E' : nth_error (firstn (Z.to_nat (fixed_len cs m 0 0)) m) (Z.to_nat col) = Some e).
      { rewrite <- E. pose proof (firstn_skipn (Z.to_nat (fixed_len cs m 0 0)) m) as Q.
        transitivity (nth_error (firstn (Z.to_nat (fixed_len cs m 0 0)) m ++ skipn (Z.to_nat (fixed_len cs m 0 0)) m) (Z.to_nat col));
          [|now rewrite Q]. symmetry. apply nth_error_app1.
        assert ((Z.to_nat col < length m)%nat) by (apply nth_error_Some; congruence). rewrite firstn_length. lia. }
      now rewrite E', F.
    + destruct (nth_error (firstn _ m) (Z.to_nat col)) as [e'|] eqn:E'; [|reflexivity].
      assert (e' = e).
      { rewrite <- (firstn_skipn (Z.to_nat (fixed_len cs m 0 0)) m) in E. rewrite nth_error_app1 in E; [congruence|].
        apply nth_error_Some. congruence. }
      now subst.
  - destruct (nth_error (firstn _ m) (Z.to_nat col)) as [e'|] eqn:E'; [|reflexivity].
    rewrite <- (firstn_skipn (Z.to_nat (fixed_len cs m 0 0)) m) in E. rewrite nth_error_app1 in E; [congruence|].
    apply nth_error_Some. congruence.
Qed.
Lemma fixed_columns_trim m : fixed_columns cs (firstn (Z.to_nat (fixed_len cs m 0 0)) m) = fixed_columns cs m.
Proof.
  unfold fixed_columns.
  transitivity (Z.of_nat (length (filter (fun e => negb (encoded_type (words cs) e =? WG_VARTYPE))
    (firstn (Z.to_nat (fixed_len cs m 0 0)) m ++ skipn (Z.to_nat (fixed_len cs m 0 0)) m))));
    [|now rewrite firstn_skipn].
  rewrite filter_app. assert (H : filter (fun e => negb (encoded_type (words cs) e =? WG_VARTYPE))
      (skipn (Z.to_nat (fixed_len cs m 0 0)) m) = []); [|now rewrite H, app_nil_r].
  destruct (filter _ (skipn _ m)) as [|e l] eqn:E; [reflexivity|]. exfalso.
  assert (Hin : In e (filter (fun e => negb (encoded_type (words cs) e =? WG_VARTYPE)) (skipn (Z.to_nat (fixed_len cs m 0 0)) m)))
    by (rewrite E; now left).
  apply filter_In in Hin as (Hin & F). destruct (In_nth_error _ _ Hin) as (k & Hk).
  assert (Hk' : nth_error m (Z.to_nat (fixed_len cs m 0 0) + k) = Some e).
  { pose proof (fixed_len_bound m 0 0).
    transitivity (nth_error (firstn (Z.to_nat (fixed_len cs m 0 0)) m ++ skipn (Z.to_nat (fixed_len cs m 0 0)) m)
      (Z.to_nat (fixed_len cs m 0 0) + k)); [now rewrite firstn_skipn|].
    rewrite nth_error_app2; rewrite firstn_length; [|lia].
    replace (Z.to_nat (fixed_len cs m 0 0) + k - Nat.min (Z.to_nat (fixed_len cs m 0 0)) (length m))%nat with k by lia. exact Hk. }
  pose proof (fixed_len_above m 0 0 _ e ltac:(lia) ltac:(lia) Hk' F). pose proof (fixed_len_bound m 0 0). lia.
Qed.

Lemma compare_var_eq x f : WG_COMPARE cs x f = WG_EQUAL -> encoded_type (words cs) x <> WG_VARTYPE ->
  encoded_type (words cs) f <> WG_VARTYPE.
Proof.
  intros E H Hf. unfold WG_COMPARE, WG_COMPARE_at in E. destruct (Z.eqb_spec x f) as [-> | N]; [contradiction|].
  unfold WG_COMPARE_REC_DEPTH in E. cbn [wg_compare] in E.
  destruct (Z.eqb_spec (encoded_type (words cs) f) (encoded_type (words cs) x)) as [T | T]; [congruence|].
  revert E. unfold gt_or_less, WG_GREATER, WG_LESSTHAN, WG_EQUAL. destruct (_ <? _); intros E; discriminate E.
Qed.

Lemma same_template_fixed : forall m t, length m = length t -> same_template cs m t = true ->
  Forall2 (fun a b => fixed cs a = true -> fixed cs b = true) m t.
Proof.
  induction m as [|e m IH]; intros [|f t] L H; cbn [length] in *; try discriminate; [constructor|].
  cbn [same_template] in H. unfold fixed in *.
  destruct (Z.eqb_spec (encoded_type (words cs) e) WG_VARTYPE) as [E | E]; cbn [negb andb] in H.
  - constructor; [intros F; rewrite E, Z.eqb_refl in F; discriminate|]. apply IH; [lia|exact H].
  - destruct (Z.eqb_spec (WG_COMPARE cs e f) WG_EQUAL) as [C | C]; cbn [negb] in H; [|discriminate].
    constructor; [|apply IH; [lia|exact H]]. intros _. apply (compare_var_eq e f) in C; [|assumption].
    destruct (Z.eqb_spec (encoded_type (words cs) f) WG_VARTYPE); [contradiction|reflexivity].
Qed.
Lemma implied_count (g : Z -> bool) : forall m t, Forall2 (fun a b => g a = true -> g b = true) m t ->
  (length (filter g m) <= length (filter g t))%nat /\
  (length (filter g m) = length (filter g t) -> Forall2 (fun a b => g a = g b) m t).
Proof.
  induction 1 as [|a b m t Hab _ (IH1 & IH2)]; cbn [filter length]; [split; [lia|constructor]|].
  destruct (g a) eqn:Ea.
  - rewrite (Hab eq_refl). cbn [length]. split; [lia|]. intros E. constructor; [now rewrite Hab|]. apply IH2. lia.
  - destruct (g b) eqn:Eb; cbn [length]; (split; [lia|]); intros E; [lia|]. constructor; [congruence|]. now apply IH2.
Qed.
Lemma fixcol_forall2 m t : Forall2 (fun a b => fixed cs a = fixed cs b) m t -> forall col, fixcol m col = fixcol t col.
Proof.
  intros F col. unfold fixcol. f_equal. generalize (Z.to_nat col). induction F as [|a b m t H _ IH]; intros [|k]; cbn; auto.
Qed.

Lemma tmpl_walk_found c m fx : forall l pos o, tmpl_walk cs c l m fx pos = Some (inl o) ->
  In o l /\ exists t, c_tm c o = Some t /\ t_fixed t = fx /\ length m = length (t_rec t) /\ same_template cs m (t_rec t) = true.
Proof.
  induction l as [|x l IH]; intros pos o E; cbn [tmpl_walk] in E; [discriminate|].
  destruct (c_tm c x) as [t|] eqn:Et; [|discriminate].
  destruct (Z.eqb_spec (t_fixed t) fx) as [Ef | Nf].
  - destruct (Nat.eqb_spec (length m) (length (t_rec t))) as [El | Nl]; cbn [andb] in E.
    + destruct (same_template cs m (t_rec t)) eqn:Es.
      * injection E as ->. split; [now left|]. exists t. auto.
      * destruct (IH _ _ E) as (H & K). split; [now right|exact K].
    + destruct (IH _ _ E) as (H & K). split; [now right|exact K].
  - destruct (t_fixed t <? fx); [discriminate|]. destruct (IH _ _ E) as (H & K). split; [now right|exact K].
Qed.
Lemma tmpl_walk_total c m fx : forall l pos, (forall o, In o l -> c_tm c o <> None) ->
  exists r, tmpl_walk cs c l m fx pos = Some r.
Proof.
  induction l as [|x l IH]; intros pos H; cbn [tmpl_walk]; eauto.
  destruct (c_tm c x) as [t|] eqn:Et; [|exfalso; apply (H x (or_introl eq_refl) Et)].
  assert (H' : forall o, In o l -> c_tm c o <> None) by (intros; apply H; now right).
  destruct (_ =? _); [destruct (_ && _); eauto|]. destruct (_ <? _); eauto.
Qed.

Lemma col_walk_total c first type toff fx cols : forall l pos,
  (forall o, In o l -> exists h, c_hdr c o = Some h /\ (h_tmpl h <> 0 -> c_tm c (h_tmpl h) <> None)) ->
  exists r, col_walk c first type toff fx cols l pos = Some r.
Proof.
  induction l as [|x l IH]; intros pos H; cbn [col_walk]; eauto.
  destruct (H x (or_introl eq_refl)) as (h & -> & Ht).
  assert (H' : forall o, In o l -> exists h, c_hdr c o = Some h /\ (h_tmpl h <> 0 -> c_tm c (h_tmpl h) <> None))
    by (intros; apply H; now right).
  destruct (first && _ && _ && _ && _); eauto. destruct (Z.eqb_spec (h_tmpl h) 0) as [E | E]; cbn [negb].
  - destruct (negb (fx =? 0)); eauto.
  - specialize (Ht E). destruct (c_tm c (h_tmpl h)) as [t|]; [|contradiction]. destruct (_ <? _); eauto.
Qed.
Lemma col_walk_dup c type toff fx cols : forall l pos, col_walk c true type toff fx cols l pos = Some (inl tt) ->
  exists o h, In o l /\ c_hdr c o = Some h /\ h_type h = type /\ h_tmpl h = toff /\ length (h_cols h) = length cols /\
    forallb (fun p => fst p =? snd p) (combine (h_cols h) cols) = true.
Proof.
  induction l as [|x l IH]; intros pos E; cbn [col_walk] in E; [discriminate|].
  destruct (c_hdr c x) as [h|] eqn:Eh; [|discriminate].
  destruct (true && _ && _ && _ && _) eqn:B.
  - rewrite !andb_true_iff in B. destruct B as ((((_ & B1) & B2) & B3) & B4). exists x, h.
    apply Z.eqb_eq in B1, B2. apply Nat.eqb_eq in B3. repeat split; auto. now left.
  - assert (R : exists pos, col_walk c true type toff fx cols l pos = Some (inl tt)).
    { destruct (negb (h_tmpl h =? 0)).
      - destruct (c_tm c (h_tmpl h)) as [t|]; [|discriminate]. destruct (_ <? _); [discriminate|eauto].
      - destruct (negb (fx =? 0)); [discriminate|eauto]. }
    destruct R as (p & R). destruct (IH _ R) as (o & h' & H & K). exists o, h'. split; [now right|exact K].
Qed.
Lemma col_walk_false c type toff fx cols : forall l pos, col_walk c false type toff fx cols l pos <> Some (inl tt).
Proof.
  induction l as [|x l IH]; intros pos; cbn [col_walk]; [discriminate|].
  destruct (c_hdr c x) as [h|]; [|discriminate]. cbn [andb].
  destruct (negb (h_tmpl h =? 0)).
  - destruct (c_tm c (h_tmpl h)) as [t|]; [|discriminate]. destruct (_ <? _); [discriminate|apply IH].
  - destruct (negb (fx =? 0)); [discriminate|apply IH].
Qed.
Lemma col_walks_ok c type toff fx all : forall cols first,
  (forall col o, In col cols -> In o (c_tab c col) -> exists h, c_hdr c o = Some h /\ (h_tmpl h <> 0 -> c_tm c (h_tmpl h) <> None)) ->
  (exists l, col_walks c first type toff fx all cols = Some (inr l) /\ length l = length cols) \/
  (first = true /\ col_walks c first type toff fx all cols = Some (inl tt) /\
   exists o h col, In col cols /\ In o (c_tab c col) /\ c_hdr c o = Some h /\ h_type h = type /\ h_tmpl h = toff /\
     length (h_cols h) = length all /\ forallb (fun p => fst p =? snd p) (combine (h_cols h) all) = true).
Proof.
  induction cols as [|col cols IH]; intros first H; cbn [col_walks]; [left; exists []; auto|].
  destruct (col_walk_total c first type toff fx all (c_tab c col) 0) as (r & Er).
  { intros o Ho. apply (H col o); [now left|assumption]. }
  rewrite Er. destruct r as [[]|pos].
  - destruct first; [|exfalso; eapply col_walk_false; eauto]. right. split; [reflexivity|]. split; [reflexivity|].
    destruct (col_walk_dup _ _ _ _ _ _ _ Er) as (o & h & H1 & H2). exists o, h, col. split; [now left|]. split; assumption.
  - destruct (IH false) as [(l & -> & L) | (X & _)]; [| |discriminate].
    { intros c0 o Hc. apply H. now right. }
    left. exists (pos :: l). split; [reflexivity|]. cbn. lia.
Qed.

(** Sorted lists. *)
Lemma ssorted_ext {A} (R R' : A -> A -> Prop) l : (forall a b, In a l -> In b l -> R a b -> R' a b) ->
  StronglySorted R l -> StronglySorted R' l.
Proof.
  intros H S. induction S as [|x l S IH F]; constructor.
  - apply IH. intros a b Ha Hb. apply H; now right.
  - rewrite Forall_forall in *. intros y Hy. apply H; [now left|now right|]. now apply F.
Qed.
Lemma ssorted_delete R l v : StronglySorted R l -> StronglySorted R (fst (delete_from_list l v)).
Proof.
  induction 1 as [|x l S IH F]; cbn [delete_from_list]; [constructor|].
  destruct (Z.eqb_spec x v); [exact S|]. destruct (delete_from_list l v) as [l' b] eqn:E. cbn [fst] in *.
  constructor; [exact IH|]. rewrite Forall_forall in *. intros y Hy. apply F.
  clear - E Hy. revert l' b E Hy. induction l as [|z l IH]; intros l' b E Hy; cbn [delete_from_list] in E.
  - injection E as <- _. exact Hy.
  - destruct (z =? v); [injection E as <- _; now right|]. destruct (delete_from_list l v) as [l2 b2].
    injection E as <- _. destruct Hy as [-> | Hy]; [now left|]. right. eapply IH; eauto.
Qed.
Lemma ssorted_insert (f : Z -> Z) v : forall l1 l2, StronglySorted (fun a b => f b <= f a) (l1 ++ l2) ->
  Forall (fun a => f v <= f a) l1 -> Forall (fun a => f a <= f v) l2 ->
  StronglySorted (fun a b => f b <= f a) (l1 ++ v :: l2).
Proof.
  induction l1 as [|x l1 IH]; intros l2 S F1 F2; cbn [app] in *; [now constructor|].
  apply StronglySorted_inv in S as (S & F). apply Forall_cons_iff in F1 as (Fx & F1). constructor; [now apply IH|].
  rewrite Forall_forall in *. intros y Hy. apply in_app_iff in Hy as [Hy | [<- | Hy]]; [| exact Fx |]; apply F; apply in_app_iff; tauto.
Qed.
Lemma sorted_perm_eq : forall l m, StronglySorted Z.lt l -> StronglySorted Z.lt m -> Permutation l m -> l = m.
Proof.
  induction l as [|x l IH]; intros m Sl Sm P.
  - symmetry. now apply Permutation_nil.
  - destruct m as [|y m]; [symmetry in P; now apply Permutation_nil in P|].
    apply StronglySorted_inv in Sl as (Sl & Fl), Sm as (Sm & Fm). rewrite Forall_forall in *.
    assert (x = y) as ->.
    { assert (Hx : In x (y :: m)) by (eapply Permutation_in; [exact P|now left]).
      assert (Hy : In y (x :: l)) by (eapply Permutation_in; [symmetry; exact P|now left]).
      destruct Hx as [Hx | Hx]; [easy|]. destruct Hy as [Hy | Hy]; [easy|]. specialize (Fl _ Hy). specialize (Fm _ Hx). lia. }
    f_equal. apply IH; auto. now apply Permutation_cons_inv in P.
Qed.
Lemma sort_columns_sorted n : forall columns prev, StronglySorted Z.lt (sort_columns n columns prev).
Proof.
  induction n as [|n IH]; intros columns prev; cbn [sort_columns]; [constructor|].
  destruct (_ =? _); [constructor|]. constructor; [apply IH|]. rewrite Forall_forall. intros x Hx.
  destruct (sort_columns_ok n columns (lowest_above columns prev)) as (A & _). cbn zeta in A. destruct (A x Hx). lia.
Qed.
Lemma sorted_lt_nodup l : StronglySorted Z.lt l -> NoDup l.
Proof.
  induction 1 as [|x l _ IH F]; constructor; auto. intros H. rewrite Forall_forall in F. specialize (F _ H). lia.
Qed.
Lemma combine_eq : forall a b : list Z, length a = length b -> forallb (fun p => fst p =? snd p) (combine a b) = true -> a = b.
Proof.
  induction a as [|x a IH]; intros [|y b] L H; cbn in *; try discriminate; auto.
  apply andb_true_iff in H as (H1 & H2). apply Z.eqb_eq in H1 as ->. f_equal. apply IH; [lia|assumption].
Qed.
Lemma combine_refl : forall a : list Z, forallb (fun p => fst p =? snd p) (combine a a) = true.
Proof. induction a as [|x a IH]; cbn; auto. now rewrite Z.eqb_refl. Qed.

(** Number of fixed columns of the template of an index. *)
Definition fxof (c : ictl) (id : Z) : Z :=
  match c_hdr c id with
  | Some h => if h_tmpl h =? 0 then 0 else match c_tm c (h_tmpl h) with Some t => t_fixed t | None => 0 end
  | None => 0
  end.

Definition identical (type toff : Z) (cols : list Z) (h : ihdr) : Prop :=
  h_type h = type /\ h_tmpl h = toff /\ h_cols h = cols.

Lemma col_walk_pos c first type toff fx cols : 0 <= fx -> forall l pos p,
  col_walk c first type toff fx cols l pos = Some (inr p) ->
  exists l1 l2, l = l1 ++ l2 /\ p = (pos + length l1)%nat /\ Forall (fun o => fx <= fxof c o) l1 /\
    match l2 with [] => True | o :: _ => fxof c o < fx end /\
    (first = true -> forall o h, In o l1 -> c_hdr c o = Some h -> ~ identical type toff cols h).
Proof.
  intros Hfx. induction l as [|x l IH]; intros pos p E; cbn [col_walk] in E.
  - injection E as <-. exists [], []. cbn. repeat split; auto.
  - destruct (c_hdr c x) as [h|] eqn:Eh; [|discriminate].
    assert (Id : identical type toff cols h <-> (h_type h =? type) && (toff =? h_tmpl h) && Nat.eqb (length (h_cols h)) (length cols)
             && forallb (fun p => fst p =? snd p) (combine (h_cols h) cols) = true).
    { unfold identical. rewrite !andb_true_iff, !Z.eqb_eq, Nat.eqb_eq. split.
      - intros (-> & -> & ->). repeat split; auto. apply combine_refl.
      - intros (((-> & ->) & L) & F). repeat split. now apply combine_eq. }
    destruct (first && (h_type h =? type) && (toff =? h_tmpl h) && Nat.eqb (length (h_cols h)) (length cols)
             && forallb (fun p => fst p =? snd p) (combine (h_cols h) cols)) eqn:B; [discriminate|].
    assert (NI : first = true -> ~ identical type toff cols h).
    { intros -> K. apply Id in K. cbn [andb] in B. congruence. }
    assert (G : (fxof c x < fx /\ p = pos) \/ (fx <= fxof c x /\ col_walk c first type toff fx cols l (S pos) = Some (inr p))).
    { unfold fxof. rewrite Eh. destruct (h_tmpl h =? 0); cbn [negb] in E.
      - destruct (Z.eqb_spec fx 0); cbn [negb] in E; [right; split; [lia|assumption]|left; split; [lia|congruence]].
      - destruct (c_tm c (h_tmpl h)) as [t|]; [|discriminate]. destruct (Z.ltb_spec (t_fixed t) fx).
        + left. split; [lia|congruence].
        + right. split; [lia|assumption]. }
    destruct G as [(G1 & ->) | (G1 & G2)].
    + exists [], (x :: l). cbn. repeat split; auto.
    + destruct (IH _ _ G2) as (l1 & l2 & -> & -> & F & M & N). exists (x :: l1), l2. cbn [app length]. repeat split; auto.
      * lia.
      * intros Ef o h0 [<- | Ho] Eh0; [|now apply (N Ef o)]. rewrite Eh in Eh0. injection Eh0 as <-. now apply NI.
Qed.
Lemma col_walks_pos c type toff fx all : forall cols first poss, col_walks c first type toff fx all cols = Some (inr poss) ->
  length poss = length cols /\
  (forall col p, In (col, p) (combine cols poss) -> exists f, col_walk c f type toff fx all (c_tab c col) 0 = Some (inr p)) /\
  (match cols with [] => True | col :: _ => exists p, col_walk c first type toff fx all (c_tab c col) 0 = Some (inr p) end).
Proof.
  induction cols as [|col cols IH]; intros first poss E; cbn [col_walks] in E.
  - injection E as <-. repeat split; auto. intros col p [].
  - destruct (col_walk c first type toff fx all (c_tab c col) 0) as [[[]|p]|] eqn:W; try discriminate.
    destruct (col_walks c false type toff fx all cols) as [[[]|l]|] eqn:W2; try discriminate. injection E as <-.
    destruct (IH _ _ W2) as (L & A & _). split; [cbn; lia|]. split; [|eauto].
    intros c0 p0 [H | H]; [injection H as <- <-; eauto|]. now apply A.
Qed.

Lemma insert_cols_exact id : forall cols poss c c', NoDup cols -> length poss = length cols ->
  (length cols <= c_cells c)%nat -> insert_cols c id cols poss = (c', true) ->
  forall col, (exists p, In (col, p) (combine cols poss) /\ c_tab c' col = firstn p (c_tab c col) ++ id :: skipn p (c_tab c col)) \/
    (~ In col cols /\ c_tab c' col = c_tab c col).
Proof.
  induction cols as [|x cols IH]; intros [|p poss] c c' ND L M E col; cbn [length] in *; try discriminate.
  - injection E as <-. right. auto.
  - cbn [insert_cols] in E. destruct (c_cells c) as [|k] eqn:Ek; [lia|]. cbn [insert_into_list] in E.
    set (c1 := set_cells (set_tab c x (firstn p (c_tab c x) ++ id :: skipn p (c_tab c x))) k) in *.
    apply NoDup_cons_iff in ND as (Nx & ND).
    pose proof (IH poss c1 c' ND ltac:(lia) ltac:(cbn; lia) E col) as A. cbn [c1 set_cells set_tab c_tab] in A.
    destruct (Z.eq_dec col x) as [-> | N].
    + rewrite putl_same in A. left. exists p. split; [now left|]. destruct A as [(q & Hq & _) | (_ & A)]; [|assumption].
      exfalso. apply Nx. eapply in_combine_l; eauto.
    + rewrite putl_other in A by assumption. destruct A as [(q & Hq & A) | (A1 & A2)].
      * left. exists q. split; [now right|assumption].
      * right. split; [|assumption]. intros [H | H]; [congruence|contradiction].
Qed.
Lemma delete_cols_sorted R id : forall cols c, (forall col, StronglySorted R (c_tab c col)) ->
  forall col, StronglySorted R (c_tab (delete_cols c id cols) col).
Proof.
  induction cols as [|x cols IH]; intros c H col; cbn [delete_cols]; [apply H|].
  pose proof (ssorted_delete R (c_tab c x) id (H x)) as D. destruct (delete_from_list (c_tab c x) id) as [l b]. cbn [fst] in D.
  apply IH. intros y. cbn [set_cells set_tab c_tab]. destruct (Z.eq_dec y x) as [-> | N]; [now rewrite putl_same|].
  rewrite putl_other by assumption. apply H.
Qed.
End Ctl.
