(** C46: creating and dropping an index takes effect completely or not at all. *)
From Coq Require Import ZArith List Bool Lia Permutation Sorted.
From Verif Require Import Base EncodingModel CompareModel QueryModel IndexCtlModel IndexCtlProofs.
Import ListNotations.
Open Scope Z_scope.
#[local] Ltac Zify.zify_post_hook ::= idtac.

(** An index as the user asked for it, under the id it was given. *)
Record index := IX { i_id : Z; i_type : Z; i_cols : list Z; i_match : option (list Z) }.

Section S.
Variable cs : cstate.
Definition fixes (i : index) (col : Z) : bool := match i_match i with Some m => fixcol cs m col | None => false end.

(** What the control area must say when the existing indexes are [X]. *)
Record listed (c : ictl) (X : list index) : Prop := {
  ls_list : Permutation (c_list c) (map i_id X);
  ls_ids : NoDup (map i_id X);
  ls_tab : forall col, Permutation (c_tab c col) (map i_id (filter (fun i => existsb (Z.eqb col) (i_cols i)) X));
  ls_ttab : forall col, Permutation (c_ttab c col) (map i_id (filter (fun i => fixes i col) X));
  ls_count : c_count c = Z.of_nat (length X);
  ls_hdr : forall i, In i X -> exists h, c_hdr c (i_id i) = Some h /\ h_type h = i_type i /\
    StronglySorted Z.lt (h_cols h) /\ Permutation (h_cols h) (i_cols i) /\
    match i_match i with
    | None => h_tmpl h = 0
    | Some m => h_tmpl h <> 0 /\ exists t, c_tm c (h_tmpl h) = Some t /\ forall col, fixcol cs (t_rec t) col = fixcol cs m col
    end;
  ls_distinct : forall i j h, In i X -> In j X -> c_hdr c (i_id i) = Some h -> c_hdr c (i_id j) = Some h -> i = j }.

Definition uses (c : ictl) (o : Z) (i : index) : bool :=
  match c_hdr c (i_id i) with Some h => h_tmpl h =? o | None => false end.

Record inv (c : ictl) (X : list index) : Prop := {
  iv_listed : listed c X;
  iv_range : forall i col, In i X -> In col (i_cols i) -> 0 <= col < 128;
  iv_sorted : forall col, StronglySorted (fun a b => fxof c b <= fxof c a) (c_tab c col);
  iv_tl : NoDup (c_tlist c);
  iv_tin : forall o, In o (c_tlist c) <-> c_tm c o <> None;
  iv_tm : forall o t, c_tm c o = Some t -> o <> 0 /\ t_fixed t = fixed_columns cs (t_rec t) /\ 0 < t_fixed t /\
    t_ref t = Z.of_nat (length (filter (uses c o) X)) }.

Lemma in_ids (X : list index) o : In o (map i_id X) -> exists i, In i X /\ i_id i = o.
Proof. intros H. apply in_map_iff in H as (i & <- & Hi). eauto. Qed.
Lemma tab_in c X col o : listed c X -> In o (c_tab c col) -> exists i, In i X /\ i_id i = o /\ In col (i_cols i).
Proof.
  intros L H. apply (Permutation_in _ (ls_tab _ _ L col)) in H. apply in_ids in H as (i & Hi & <-).
  apply filter_In in Hi as (Hi & E). apply existsb_exists in E as (y & Hy & E). apply Z.eqb_eq in E as ->. eauto.
Qed.
Lemma id_inj c X i j : listed c X -> In i X -> In j X -> i_id i = i_id j -> i = j.
Proof.
  intros L Hi Hj E. pose proof (ls_ids _ _ L) as N. clear L. induction X as [|x X IH]; [contradiction|]. cbn [map] in N.
  apply NoDup_cons_iff in N as (Nx & N). destruct Hi as [-> | Hi], Hj as [-> | Hj]; auto.
  - exfalso. apply Nx. rewrite E. now apply in_map.
  - exfalso. apply Nx. rewrite <- E. now apply in_map.
Qed.
Lemma inv_perm c X Y : Permutation X Y -> inv c X -> inv c Y.
Proof.
  intros P [[A B C D E F G] R H I J K].
  assert (IN : forall i, In i Y -> In i X) by (intros i; apply Permutation_in; now symmetry).
  constructor; [constructor| | | | |]; auto.
  - rewrite A. now apply Permutation_map.
  - eapply Permutation_NoDup; [apply Permutation_map; exact P|exact B].
  - intros col. rewrite C. apply Permutation_map. now apply perm_filter.
  - intros col. rewrite D. apply Permutation_map. now apply perm_filter.
  - rewrite E. now rewrite (Permutation_length P).
  - intros i j h Hi Hj. apply G; auto.
  - intros i col Hi. apply R. auto.
  - intros o t Ht. destruct (K o t Ht) as (K1 & K2 & K3 & K4). repeat split; auto. rewrite K4.
    now rewrite (Permutation_length (perm_filter _ _ _ P)).
Qed.

Lemma hdr_tm c X i h : inv c X -> In i X -> c_hdr c (i_id i) = Some h -> h_tmpl h <> 0 -> c_tm c (h_tmpl h) <> None.
Proof.
  intros IV Hi E N. destruct (ls_hdr _ _ (iv_listed _ _ IV) i Hi) as (h' & E' & _ & _ & _ & M). rewrite E in E'. injection E' as <-.
  destruct (i_match i) as [m|]; [|contradiction]. destruct M as (_ & t & -> & _). discriminate.
Qed.

Lemma fixed_len_zero m : fixed_len cs m 0 0 <> 0 -> 0 < fixed_columns cs m.
Proof.
  assert (H : forall m i acc, fixed_len cs m i acc <> acc -> 0 < fixed_columns cs m).
  { clear m. induction m as [|e m IH]; intros i acc H; cbn [fixed_len] in H; [contradiction|].
    unfold fixed_columns. cbn [filter]. destruct (encoded_type (words cs) e =? WG_VARTYPE) eqn:E; cbn [negb length].
    - now apply (IH (i + 1) acc).
    - lia. }
  apply H.
Qed.

Lemma add_tmpl_ok c X m o : inv c X -> or_tmpl o <> 0 -> c_tm c (or_tmpl o) = None -> (1 <= c_cells c)%nat ->
  exists c1 t, add_tmpl cs c m o = Some (c1, t) /\ ((t = 0 /\ c1 = c) \/
    (t <> 0 /\ inv c1 X /\ (c_cells c <= c_cells c1 + 1)%nat /\ c_list c1 = c_list c /\ c_count c1 = c_count c /\
     c_hdr c1 = c_hdr c /\ c_tab c1 = c_tab c /\ c_ttab c1 = c_ttab c /\
     (exists tm, c_tm c1 t = Some tm /\ forall col, fixcol cs (t_rec tm) col = fixcol cs m col) /\
     (c1 = c \/ c_tm c t = None))).
Proof.
  intros IV O1 O2 CC. unfold add_tmpl. destruct (existsb _ m); [do 2 eexists; split; [reflexivity|]; now left|].
  destruct (Z.eqb_spec (fixed_len cs m 0 0) 0) as [Z0 | NZ]; [do 2 eexists; split; [reflexivity|]; now left|].
  set (m' := firstn (Z.to_nat (fixed_len cs m 0 0)) m).
  destruct (tmpl_walk_total cs c m' (fixed_columns cs m) (c_tlist c) 0) as (r & Er).
  { intros x Hx. now apply (iv_tin _ _ IV). }
  rewrite Er. destruct r as [t | pos].
  - do 2 eexists. split; [reflexivity|]. right. destruct (tmpl_walk_found _ _ _ _ _ _ _ Er) as (Hin & tm & Et & Ef & El & Es).
    destruct (iv_tm _ _ IV _ _ Et) as (N0 & Fx & _ & _). split; [assumption|]. split; [assumption|]. split; [lia|].
    do 5 (split; [reflexivity|]). split; [|now left]. exists tm. split; [exact Et|]. intros col.
    rewrite <- (fixcol_trim cs m col). fold m'.
    pose proof (same_template_fixed cs m' (t_rec tm) El Es) as F2.
    destruct (implied_count (fixed cs) _ _ F2) as (_ & F3). symmetry. apply fixcol_forall2, F3.
    assert (Z.of_nat (length (filter (fixed cs) m')) = Z.of_nat (length (filter (fixed cs) (t_rec tm)))); [|lia].
    change (fixed_columns cs m' = fixed_columns cs (t_rec tm)). unfold m'. rewrite fixed_columns_trim. congruence.
  - destruct (or_rec o); cbn [negb]; [|do 2 eexists; split; [reflexivity|]; now left].
    destruct (Z.eqb_spec (or_tmpl o) 0); [contradiction|]. cbn [set_tm c_cells c_tlist].
    destruct (c_cells c) as [|k] eqn:Ek; [lia|]. cbn [insert_into_list].
    do 2 eexists. split; [reflexivity|]. right.
    set (T := IT m' (fixed_columns cs m) 0).
    set (c1 := set_cells _ _).
    assert (Etm : c_tm c1 = putl (c_tm c) (or_tmpl o) (Some T)) by reflexivity.
    assert (Ehd : c_hdr c1 = c_hdr c) by reflexivity.
    assert (Etl : Permutation (c_tlist c1) (or_tmpl o :: c_tlist c)) by apply insert_perm.
    assert (Fr : forall i h, In i X -> c_hdr c (i_id i) = Some h -> h_tmpl h <> or_tmpl o).
    { intros i h Hi Eh K. apply (hdr_tm c X i h IV Hi Eh); [congruence|]. now rewrite K. }
    assert (FX : forall x, (exists i, In i X /\ i_id i = x) -> fxof c1 x = fxof c x).
    { intros x (i & Hi & <-). unfold fxof. rewrite Ehd. destruct (c_hdr c (i_id i)) as [h|] eqn:Eh; [|reflexivity].
      destruct (h_tmpl h =? 0); [reflexivity|]. rewrite Etm, putl_other; [reflexivity|]. now apply (Fr i). }
    assert (IV1 : inv c1 X).
    { destruct IV as [[A B C D E F G] R H I J K]. constructor; [constructor| | | | |]; auto.
      - intros i Hi. destruct (F i Hi) as (h & F1 & F2 & F3 & F4 & F5). exists h. repeat split; auto.
        destruct (i_match i); [|assumption]. destruct F5 as (F5 & t & F6 & F7). split; [assumption|]. exists t.
        rewrite Etm, putl_other by now apply (Fr i). auto.
      - intros col. eapply ssorted_ext; [|exact (H col)]. intros a b Ha Hb. cbn beta.
        assert (P : forall x, In x (c_tab c col) -> exists i, In i X /\ i_id i = x).
        { intros x Hx. apply (Permutation_in _ (C col)) in Hx. apply in_ids in Hx as (i & Hi & <-). apply filter_In in Hi as (Hi & _). eauto. }
        rewrite !FX; auto.
      - eapply Permutation_NoDup; [symmetry; exact Etl|]. constructor; [|assumption]. intros K1. now apply J in K1.
      - intros x. rewrite Etm. destruct (Z.eq_dec x (or_tmpl o)) as [-> | N].
        + rewrite putl_same. split; [discriminate|]. intros _. eapply Permutation_in; [symmetry; exact Etl|now left].
        + rewrite putl_other by assumption. rewrite <- J. split; intros Hx.
          * apply (Permutation_in _ Etl) in Hx as [Hx | Hx]; [congruence|assumption].
          * eapply Permutation_in; [symmetry; exact Etl|now right].
      - intros x t. rewrite Etm. destruct (Z.eq_dec x (or_tmpl o)) as [-> | N].
        + rewrite putl_same. intros Q. injection Q as <-. cbn [T t_fixed t_rec t_ref]. split; [assumption|].
          split; [unfold m'; now rewrite fixed_columns_trim|]. split; [now apply fixed_len_zero|].
          destruct (filter (uses c1 (or_tmpl o)) X) as [|i l] eqn:Ef; [reflexivity|]. exfalso.
          assert (Hi : In i (filter (uses c1 (or_tmpl o)) X)) by (rewrite Ef; now left).
          apply filter_In in Hi as (Hi & U). unfold uses in U. rewrite Ehd in U. destruct (c_hdr c (i_id i)) as [h|] eqn:Eh; [|discriminate].
          apply Z.eqb_eq in U. now apply (Fr i h).
        + rewrite putl_other by assumption. intros Q. exact (K x t Q). }
    split; [assumption|]. split; [exact IV1|]. split; [cbn; lia|]. do 5 (split; [reflexivity|]). split; [|now right].
    exists T. rewrite Etm, putl_same. split; [reflexivity|]. intros col. apply fixcol_trim.
Qed.

Lemma finish c X c6 id type cols columns toff fx matchrec :
  inv c X -> ~ In id (map i_id X) -> Permutation cols columns -> StronglySorted Z.lt cols ->
  (forall col, In col cols -> 0 <= col < 128) ->
  match matchrec with
  | None => toff = 0 /\ fx = 0
  | Some m => toff <> 0 /\ exists t, c_tm c toff = Some t /\ fx = t_fixed t /\ forall col, fixcol cs (t_rec t) col = fixcol cs m col
  end ->
  (forall i h, In i X -> c_hdr c (i_id i) = Some h -> ~ identical type toff cols h) ->
  c_list c6 = id :: c_list c -> c_count c6 = c_count c + 1 -> c_tlist c6 = c_tlist c ->
  c_hdr c6 = putl (c_hdr c) id (Some (IH type cols toff)) ->
  (forall x, c_tm c6 x = if (x =? toff) && negb (toff =? 0)
     then option_map (fun t => IT (t_rec t) (t_fixed t) (t_ref t + 1)) (c_tm c x) else c_tm c x) ->
  (forall col, In col cols -> exists l1 l2, c_tab c col = l1 ++ l2 /\ c_tab c6 col = l1 ++ id :: l2 /\
     Forall (fun x => fx <= fxof c x) l1 /\ match l2 with [] => True | x :: _ => fxof c x < fx end) ->
  (forall col, ~ In col cols -> c_tab c6 col = c_tab c col) ->
  (forall col, Permutation (c_ttab c6 col) (if fixes (IX id type columns matchrec) col then id :: c_ttab c col else c_ttab c col)) ->
  inv c6 (IX id type columns matchrec :: X).
Proof.
  intros IV Nid Pc Sc Rc M NI Elist Ecnt Etl Ehd Etm Etab Etab' Ettab.
  pose proof (iv_listed _ _ IV) as LS.
  assert (HD : forall i, In i X -> c_hdr c6 (i_id i) = c_hdr c (i_id i)).
  { intros i Hi. rewrite Ehd, putl_other; [reflexivity|]. intros E. apply Nid. rewrite <- E. now apply in_map. }
  assert (TM : forall x t, c_tm c x = Some t -> exists r, c_tm c6 x = Some (IT (t_rec t) (t_fixed t) r)).
  { intros x t E. rewrite Etm, E. destruct (_ && _); cbn [option_map]; [eauto|]. destruct t; cbn. eauto. }
  assert (TMN : forall x, c_tm c6 x <> None <-> c_tm c x <> None).
  { intros x. rewrite Etm. destruct (_ && _); [|tauto]. destruct (c_tm c x); cbn; split; congruence. }
  assert (FX : forall i, In i X -> fxof c6 (i_id i) = fxof c (i_id i)).
  { intros i Hi. unfold fxof. rewrite HD by assumption. destruct (c_hdr c (i_id i)) as [h|] eqn:Eh; [|reflexivity].
    destruct (Z.eqb_spec (h_tmpl h) 0) as [E0 | N0]; [reflexivity|]. pose proof (hdr_tm c X i h IV Hi Eh N0) as T.
    destruct (c_tm c (h_tmpl h)) as [t|] eqn:Et; [|contradiction]. destruct (TM _ _ Et) as (r & ->). reflexivity. }
  assert (FXid : fxof c6 id = fx).
  { unfold fxof. rewrite Ehd, putl_same. cbn [h_tmpl]. destruct matchrec as [m|].
    - destruct M as (M0 & t & M1 & M2 & _). destruct (Z.eqb_spec toff 0); [contradiction|]. destruct (TM _ _ M1) as (r & ->). easy.
    - destruct M as (-> & ->). reflexivity. }
  constructor; [constructor| | | | |].
  - rewrite Elist. cbn [map i_id]. apply perm_skip. apply (ls_list _ _ LS).
  - cbn [map i_id]. constructor; [assumption|apply (ls_ids _ _ LS)].
  - intros col. cbn [filter i_cols]. assert (Ex : existsb (Z.eqb col) columns = existsb (Z.eqb col) cols).
    { apply eq_true_iff_eq. rewrite !existsb_exists. split; intros (y & Hy & E); exists y; split; auto.
      - eapply Permutation_in; [symmetry; exact Pc|assumption].
      - eapply Permutation_in; [exact Pc|assumption]. }
    rewrite Ex. destruct (existsb (Z.eqb col) cols) eqn:Ec.
    + apply existsb_exists in Ec as (y & Hy & E). apply Z.eqb_eq in E as <-. destruct (Etab col Hy) as (l1 & l2 & E1 & E2 & _).
      rewrite E2. cbn [map i_id]. rewrite <- (ls_tab _ _ LS col), E1. symmetry. apply Permutation_middle.
    + rewrite Etab'; [apply (ls_tab _ _ LS)|]. intros Hc. assert (existsb (Z.eqb col) cols = true); [|congruence].
      apply existsb_exists. exists col. split; [assumption|apply Z.eqb_refl].
  - intros col. rewrite Ettab. cbn [filter]. destruct (fixes _ col); [cbn [map i_id]; apply perm_skip|]; apply (ls_ttab _ _ LS).
  - rewrite Ecnt, (ls_count _ _ LS). cbn [length]. lia.
  - intros i [<- | Hi]; cbn [i_id i_type i_cols i_match].
    + exists (IH type cols toff). rewrite Ehd, putl_same. cbn [h_type h_cols h_tmpl]. repeat split; auto.
      destruct matchrec as [m|]; [|tauto]. destruct M as (M0 & t & M1 & _ & M2). split; [assumption|].
      destruct (TM _ _ M1) as (r & ->). eexists. split; [reflexivity|]. exact M2.
    + destruct (ls_hdr _ _ LS i Hi) as (h & F1 & F2 & F3 & F4 & F5). exists h. rewrite HD by assumption. repeat split; auto.
      destruct (i_match i); [|assumption]. destruct F5 as (F5 & t & F6 & F7). split; [assumption|].
      destruct (TM _ _ F6) as (r & ->). eexists. split; [reflexivity|]. exact F7.
  - intros i j h [<- | Hi] [<- | Hj] E1 E2; auto.
    + exfalso. cbn [i_id] in E1. rewrite Ehd, putl_same in E1. injection E1 as <-. rewrite HD in E2 by assumption.
      apply (NI j _ Hj E2). repeat split.
    + exfalso. cbn [i_id] in E2. rewrite Ehd, putl_same in E2. injection E2 as <-. rewrite HD in E1 by assumption.
      apply (NI i _ Hi E1). repeat split.
    + rewrite HD in E1 by assumption. rewrite HD in E2 by assumption. now apply (ls_distinct _ _ LS i j h).
  - intros i col [<- | Hi]; [|now apply (iv_range _ _ IV)]. cbn [i_cols]. intros Hc. apply Rc.
    eapply Permutation_in; [symmetry; exact Pc|assumption].
  - intros col.
    assert (SO : StronglySorted (fun a b => fxof c6 b <= fxof c6 a) (c_tab c col)).
    { eapply ssorted_ext; [|exact (iv_sorted _ _ IV col)]. intros a b Ha Hb. cbn beta.
      destruct (tab_in _ _ _ _ LS Ha) as (i & Hi & <- & _). destruct (tab_in _ _ _ _ LS Hb) as (j & Hj & <- & _).
      now rewrite !FX. }
    destruct (in_dec Z.eq_dec col cols) as [Hc | Hc]; [|now rewrite Etab'].
    destruct (Etab col Hc) as (l1 & l2 & E1 & E2 & E3 & E4). rewrite E2. rewrite E1 in SO.
    assert (MEM : forall x, In x (l1 ++ l2) -> fxof c6 x = fxof c x).
    { intros x Hx. rewrite <- E1 in Hx. destruct (tab_in _ _ _ _ LS Hx) as (i & Hi & <- & _). now apply FX. }
    apply ssorted_insert; auto.
    + rewrite Forall_forall in *. intros x Hx. rewrite FXid, MEM by (apply in_app_iff; now left). now apply E3.
    + pose proof (iv_sorted _ _ IV col) as SO2. rewrite E1 in SO2. destruct l2 as [|y l2]; [constructor|].
      assert (SY : StronglySorted (fun a b => fxof c b <= fxof c a) (y :: l2)).
      { clear - SO2. induction l1 as [|z l1 IH]; [assumption|]. cbn [app] in SO2. apply StronglySorted_inv in SO2 as (SO2 & _). auto. }
      apply StronglySorted_inv in SY as (_ & FY). rewrite Forall_forall in *. intros x Hx.
      rewrite FXid, MEM by (apply in_app_iff; now right). destruct Hx as [<- | Hx]; [lia|]. specialize (FY _ Hx). lia.
  - rewrite Etl. apply (iv_tl _ _ IV).
  - intros x. rewrite Etl, TMN. apply (iv_tin _ _ IV).
  - intros x t. rewrite Etm. cbn [filter].
    assert (U0 : forall x, filter (uses c6 x) X = filter (uses c x) X).
    { intros y. apply filter_ext_in. intros i Hi. unfold uses. now rewrite HD. }
    assert (Unew : uses c6 x (IX id type columns matchrec) = (toff =? x)).
    { unfold uses. cbn [i_id]. now rewrite Ehd, putl_same. }
    rewrite Unew, U0. rewrite (Z.eqb_sym toff x). destruct (Z.eqb_spec x toff) as [-> | N]; cbn [andb].
    + destruct (Z.eqb_spec toff 0) as [-> | N0]; cbn [negb].
      * intros E. destruct (iv_tm _ _ IV _ _ E) as (K & _). contradiction.
      * destruct (c_tm c toff) as [t0|] eqn:E0; cbn [option_map]; [|discriminate]. intros Q. injection Q as <-.
        cbn [t_fixed t_rec t_ref]. destruct (iv_tm _ _ IV _ _ E0) as (K1 & K2 & K3 & K4). repeat split; auto. cbn [length]. lia.
    + intros E. exact (iv_tm _ _ IV _ _ E).
Qed.

(** Types for which an index can be made. *)
Definition usable_type (type : Z) : Prop :=
  type = WG_INDEX_TYPE_TTREE \/ type = WG_INDEX_TYPE_HASH \/ type = WG_INDEX_TYPE_HASH_JSON.
(** There is memory: cells, an index header and a template header not in use, the hash table. *)
Definition memory (c : ictl) (X : list index) (o : oracle) : Prop :=
  (140 <= c_cells c)%nat /\ or_hdr o <> 0 /\ ~ In (or_hdr o) (map i_id X) /\ or_tmpl o <> 0 /\ c_tm c (or_tmpl o) = None /\
  or_hash o = true.

Lemma create_inv c X columns type matchrec o : inv c X -> usable_type type -> memory c X o ->
  exists c' r, wg_create_multi_index cs c columns type matchrec o = Some (c', r) /\
    ((r = 0 /\ inv c' (IX (or_hdr o) type columns matchrec :: X)) \/ (r = -1 /\ c' = c)).
Proof.
  intros IV UT (M1 & M2 & M3 & M4 & M5 & M6). unfold wg_create_multi_index. set (n := Z.of_nat (length columns)).
  assert (REF : exists c' r, Some (c, -1) = Some (c', r) /\
    ((r = 0 /\ inv c' (IX (or_hdr o) type columns matchrec :: X)) \/ (r = -1 /\ c' = c))).
  { do 2 eexists. split; [reflexivity|]. now right. }
  destruct ((n <? 1) || (MAX_INDEX_FIELDS <? n) || _) eqn:C1; [exact REF|].
  rewrite !orb_false_iff in C1. destruct C1 as ((C1 & C2) & C3). apply Z.ltb_ge in C1, C2. unfold MAX_INDEX_FIELDS in C2.
  set (cols := sort_columns (length columns) columns (-1)).
  destruct (sort_columns_ok (length columns) columns (-1)) as (S1 & S2 & S3). cbn zeta in *. fold cols in S1, S2, S3.
  pose proof (sort_columns_sorted (length columns) columns (-1)) as S4. fold cols in S4.
  destruct (Z.ltb_spec (Z.of_nat (length cols)) n) as [C4 | C4]; [exact REF|].
  destruct (existsb (fun x => MAX_INDEXED_FIELDNR <? x) cols) eqn:C5; [exact REF|].
  assert (P : Permutation cols columns).
  { apply NoDup_Permutation_bis; auto; [lia|]. intros x Hx. now apply S1. }
  assert (LC : length cols = length columns) by now apply Permutation_length.
  (* from the template on *)
  assert (MAIN : forall c1 toff, inv c1 X -> (138 < c_cells c1)%nat -> c_list c1 = c_list c -> c_count c1 = c_count c ->
     match matchrec with
     | None => toff = 0
     | Some m => toff <> 0 /\ (length m <= 128)%nat /\
         exists t, c_tm c1 toff = Some t /\ forall col, fixcol cs (t_rec t) col = fixcol cs m col
     end -> (c1 = c \/ (toff <> 0 /\ c_tm c toff = None /\ c_hdr c1 = c_hdr c)) ->
     exists c' r,
       match (if toff =? 0 then Some 0 else match c_tm c1 toff with Some t => Some (t_fixed t) | None => None end) with
       | None => None
       | Some fx =>
         match col_walks c1 true type toff fx cols cols with
         | None => None
         | Some (inl tt) => Some (c1, -1)
         | Some (inr poss) =>
           let id := or_hdr o in
           if id =? 0 then None
           else
           let '(c, b) := insert_cols c1 id cols poss in
           if negb b then Some (c, -1)
           else
           let c := set_hdr c id (Some (IH type cols toff)) in
           let made := if type =? WG_INDEX_TYPE_TTREE then true
                       else if (type =? WG_INDEX_TYPE_HASH) || (type =? WG_INDEX_TYPE_HASH_JSON) then or_hash o
                       else false in
           if negb made then Some (c, -1)
           else
           let '(k, l, b) := insert_into_list (c_cells c) (c_list c) 0 id in
           let c := set_cells (set_list c l) k in
           if negb b then Some (c, -1)
           else
           let '(c, b) := match matchrec with Some m => insert_tmpl_cols cs c id m 0 | None => (c, true) end in
           if negb b then Some (c, 0)
           else
           let c := set_count c (c_count c + 1) in
           if toff =? 0 then Some (c, 0)
           else match c_tm c toff with
                | None => None
                | Some t => Some (set_tm c toff (Some (IT (t_rec t) (t_fixed t) (t_ref t + 1))), 0)
                end
         end
       end = Some (c', r) /\
       ((r = 0 /\ inv c' (IX (or_hdr o) type columns matchrec :: X)) \/ (r = -1 /\ c' = c))).
  { intros c1 toff IV1 CC1 EL EC MT OR. pose proof (iv_listed _ _ IV1) as LS1.
    assert (FX : exists fx, (if toff =? 0 then Some 0 else match c_tm c1 toff with Some t => Some (t_fixed t) | None => None end) = Some fx
       /\ 0 <= fx /\ match matchrec with
         | None => toff = 0 /\ fx = 0
         | Some m => toff <> 0 /\ exists t, c_tm c1 toff = Some t /\ fx = t_fixed t /\ forall col, fixcol cs (t_rec t) col = fixcol cs m col
         end).
    { destruct matchrec as [m|].
      - destruct MT as (N0 & _ & t & Et & Ef). destruct (Z.eqb_spec toff 0); [contradiction|]. rewrite Et. exists (t_fixed t).
        destruct (iv_tm _ _ IV1 _ _ Et) as (_ & _ & K & _). split; [reflexivity|]. split; [lia|]. split; [assumption|]. eauto.
      - subst toff. exists 0. repeat split; lia. }
    destruct FX as (fx & -> & Fx0 & FM).
    destruct (col_walks_ok c1 type toff fx cols cols true) as [(poss & W & LP) | (_ & W & o1 & h & col & K1 & K2 & K3 & K4 & K5 & _)].
    { intros col x _ Hx. destruct (tab_in _ _ _ _ LS1 Hx) as (i & Hi & <- & _).
      destruct (ls_hdr _ _ LS1 i Hi) as (h & Eh & _). exists h. split; [assumption|]. now apply (hdr_tm c1 X i). }
    2:{ rewrite W. do 2 eexists. split; [reflexivity|]. right. split; [reflexivity|]. destruct OR as [-> | (O1 & O2 & O3)]; [reflexivity|].
        exfalso. destruct (tab_in _ _ _ _ LS1 K2) as (i & Hi & <- & _). rewrite O3 in K3.
        apply (hdr_tm c X i h IV Hi K3); congruence. }
    rewrite W. cbn zeta. destruct (Z.eqb_spec (or_hdr o) 0); [contradiction|].
    assert (LEN : (length cols <= c_cells c1)%nat) by lia.
    destruct (insert_cols_total (or_hdr o) cols poss c1 LP LEN) as (c2 & E2). rewrite E2. cbn [negb].
    destruct (insert_cols_ok (or_hdr o) cols poss c1 c2 S2 LP LEN E2) as (A1 & A2 & A3 & A4 & A5 & A6 & A7 & _).
    pose proof (insert_cols_exact (or_hdr o) cols poss c1 c2 S2 LP LEN E2) as A8.
    replace (if type =? WG_INDEX_TYPE_TTREE then true
             else if (type =? WG_INDEX_TYPE_HASH) || (type =? WG_INDEX_TYPE_HASH_JSON) then or_hash o else false) with true.
    2:{ rewrite M6. destruct UT as [-> | [-> | ->]]; reflexivity. }
    cbn [negb]. destruct (c_cells c2) as [|k] eqn:Ek; [lia|]. cbn [insert_into_list].
    cbn [set_hdr c_cells]. rewrite Ek. cbn [insert_into_list negb].
    set (c4 := set_cells (set_list (set_hdr c2 (or_hdr o) (Some (IH type cols toff)))
       (firstn 0 (c_list (set_hdr c2 (or_hdr o) (Some (IH type cols toff)))) ++ or_hdr o :: skipn 0 (c_list (set_hdr c2 (or_hdr o) (Some (IH type cols toff)))))) k).
    assert (T5 : exists c5, match matchrec with Some m => insert_tmpl_cols cs c4 (or_hdr o) m 0 | None => (c4, true) end = (c5, true) /\
        c_count c5 = c_count c4 /\ c_list c5 = c_list c4 /\ c_tab c5 = c_tab c4 /\ c_tlist c5 = c_tlist c4 /\
        c_hdr c5 = c_hdr c4 /\ c_tm c5 = c_tm c4 /\
        forall col, Permutation (c_ttab c5 col)
          (if fixes (IX (or_hdr o) type columns matchrec) col then or_hdr o :: c_ttab c4 col else c_ttab c4 col)).
    { destruct matchrec as [m|].
      - destruct (insert_tmpl_cols_ok cs (or_hdr o) m 0 c4 ltac:(lia)) as (c5 & B0 & B1 & B2 & B3 & B4 & B5 & B6 & B7).
        { cbn. lia. }
        exists c5. repeat split; auto. intros col. rewrite (B7 col). unfold fixes. cbn [i_match]. rewrite Z.sub_0_r.
        replace ((0 <=? col) && fixcol cs m col) with (fixcol cs m col); [reflexivity|]. unfold fixcol.
        destruct (0 <=? col); reflexivity.
      - exists c4. repeat split; auto. }
    destruct T5 as (c5 & -> & B1 & B2 & B3 & B4 & B5 & B6 & B7). cbn [negb].
    assert (TF : exists c6, (if toff =? 0 then Some (set_count c5 (c_count c5 + 1), 0)
        else match c_tm (set_count c5 (c_count c5 + 1)) toff with
             | None => None
             | Some t => Some (set_tm (set_count c5 (c_count c5 + 1)) toff (Some (IT (t_rec t) (t_fixed t) (t_ref t + 1))), 0) end) = Some (c6, 0) /\
        c_list c6 = c_list c5 /\ c_count c6 = c_count c5 + 1 /\ c_tab c6 = c_tab c5 /\ c_ttab c6 = c_ttab c5 /\ c_tlist c6 = c_tlist c5 /\
        c_hdr c6 = c_hdr c5 /\
        (forall x, c_tm c6 x = if (x =? toff) && negb (toff =? 0)
           then option_map (fun t => IT (t_rec t) (t_fixed t) (t_ref t + 1)) (c_tm c1 x) else c_tm c1 x)).
    { assert (TMe : c_tm c5 = c_tm c1) by (rewrite B6; exact A6). cbn [set_count c_tm]. rewrite TMe.
      destruct (Z.eqb_spec toff 0) as [E0 | N0].
      - eexists. split; [reflexivity|]. repeat split; auto. intros x. rewrite andb_false_r. cbn. now rewrite TMe.
      - destruct matchrec as [m|]; [|now destruct FM]. destruct FM as (_ & t & Et & _). rewrite Et. eexists. split; [reflexivity|].
        repeat split; auto. intros x. rewrite andb_true_r. cbn [set_tm c_tm set_count]. unfold putl.
        destruct (Z.eqb_spec x toff) as [-> | Nx]; [now rewrite Et|]. now rewrite TMe. }
    destruct TF as (c6 & -> & D1 & D2 & D3 & D4 & D5 & D6 & D7). do 2 eexists. split; [reflexivity|]. left. split; [reflexivity|].
    destruct (col_walks_pos _ _ _ _ _ _ _ _ W) as (_ & W1 & W2).
    eapply (finish c1 X c6 (or_hdr o) type cols columns toff fx matchrec); auto.
    - intros col Hc. destruct (S1 col Hc). lia.
    - intros i h Hi Eh ID. destruct cols as [|col0 cr] eqn:Ecols; [cbn in LC; lia|]. destruct W2 as (p0 & W2).
      destruct (col_walk_pos c1 _ _ _ _ _ Fx0 _ _ _ W2) as (l1 & l2 & V1 & _ & V3 & V4 & V5).
      assert (Hx : In (i_id i) (c_tab c1 col0)).
      { eapply Permutation_in; [symmetry; apply (ls_tab _ _ LS1)|]. apply in_map, filter_In. split; [assumption|].
        apply existsb_exists. exists col0. split; [|apply Z.eqb_refl]. destruct (ls_hdr _ _ LS1 i Hi) as (h' & Eh' & _ & _ & Ph & _).
        rewrite Eh in Eh'. injection Eh' as <-. eapply Permutation_in; [exact Ph|]. destruct ID as (_ & _ & ->). now left. }
      assert (Fi : fxof c1 (i_id i) = fx).
      { unfold fxof. rewrite Eh. destruct ID as (_ & -> & _). destruct matchrec as [m|].
        - destruct FM as (N0 & t & Et & -> & _). destruct (Z.eqb_spec toff 0); [contradiction|]. now rewrite Et.
        - destruct FM as (-> & ->). reflexivity. }
      rewrite V1 in Hx. apply in_app_iff in Hx as [Hx | Hx].
      + now apply (V5 eq_refl _ _ Hx Eh).
      + pose proof (iv_sorted _ _ IV1 col0) as SO. rewrite V1 in SO. destruct l2 as [|y l2]; [contradiction|].
        assert (SY : StronglySorted (fun a b => fxof c1 b <= fxof c1 a) (y :: l2)).
        { clear - SO. induction l1 as [|z l1 IH]; [assumption|]. cbn [app] in SO. apply StronglySorted_inv in SO as (SO & _). auto. }
        apply StronglySorted_inv in SY as (_ & FY). rewrite Forall_forall in FY. destruct Hx as [-> | Hx]; [lia|]. specialize (FY _ Hx). lia.
    - rewrite D1, B2. cbn [c4 set_cells set_list c_list set_hdr firstn skipn app]. now rewrite A2.
    - rewrite D2, B1. cbn [c4 set_cells set_list c_count set_hdr]. now rewrite A1.
    - rewrite D5, B4. exact A4.
    - rewrite D6, B5. cbn [c4 set_cells set_list c_hdr set_hdr]. now rewrite A5.
    - intros col Hc. rewrite D3, B3. cbn [c4 set_cells set_list c_tab set_hdr].
      destruct (A8 col) as [(p & Hp & Ep) | (Nc & _)]; [|contradiction]. destruct (W1 _ _ Hp) as (f & W3).
      destruct (col_walk_pos c1 _ _ _ _ _ Fx0 _ _ _ W3) as (l1 & l2 & V1 & V2 & V3 & V4 & _). cbn [Nat.add] in V2.
      exists l1, l2. split; [exact V1|]. split; [|split; assumption]. rewrite Ep, V1, V2.
      rewrite firstn_app, skipn_app, firstn_all, skipn_all, Nat.sub_diag. cbn [firstn skipn app]. now rewrite app_nil_r.
    - intros col Hc. rewrite D3, B3. cbn [c4 set_cells set_list c_tab set_hdr].
      destruct (A8 col) as [(p & Hp & _) | (_ & E)]; [|exact E]. exfalso. apply Hc. eapply in_combine_l; eauto.
    - intros col. rewrite D4. rewrite (B7 col). cbn [c4 set_cells set_list c_ttab set_hdr]. now rewrite A3. }
  destruct matchrec as [m|].
  - destruct ((Z.of_nat (length m) =? 0) || _) eqn:C6; [exact REF|]. apply orb_false_iff in C6 as (_ & C6). apply Z.ltb_ge in C6.
    unfold MAX_INDEXED_FIELDNR in C6.
    destruct (existsb (fun x => (x <? Z.of_nat (length m)) && fixed cs (nth (Z.to_nat x) m 0)) cols); [exact REF|].
    destruct (add_tmpl_ok c X m o IV M4 M5 ltac:(lia)) as (c1 & t & Et & R). rewrite Et.
    destruct R as [(-> & ->) | (N0 & IV1 & CC & L1 & L2 & L3 & L4 & L5 & Tm & Or)]; [exact REF|].
    destruct (Z.eqb_spec t 0); [contradiction|]. apply MAIN; auto; try lia.
    + repeat split; auto. lia.
    + destruct Or as [-> | Or]; [now left|right; auto].
  - apply (MAIN c 0); auto. lia.
Qed.

Lemma drop_inv c X i : inv c (i :: X) -> i_type i = WG_INDEX_TYPE_TTREE ->
  exists c', wg_drop_index cs c (i_id i) = Some (c', 0) /\ inv c' X.
Proof.
  intros IV TY. pose proof (iv_listed _ _ IV) as LS. unfold wg_drop_index.
  assert (HI : In i (i :: X)) by now left.
  destruct (delete_in (c_list c) (i_id i)) as (D1 & D2).
  { eapply Permutation_in; [symmetry; apply (ls_list _ _ LS)|]. now apply in_map. }
  destruct (delete_from_list (c_list c) (i_id i)) as [lst b]. cbn [fst snd] in D1, D2. subst b. cbn [negb].
  set (c1 := set_cells (set_list c lst) (S (c_cells c))).
  destruct (ls_hdr _ _ LS i HI) as (h & H1 & H2 & H3 & H4 & H5).
  change (c_hdr c1 (i_id i)) with (c_hdr c (i_id i)). rewrite H1.
  pose proof (sorted_lt_nodup _ H3) as ND.
  destruct (delete_cols_ok (i_id i) (h_cols h) c1 ND) as (A1 & A2 & A3 & A4 & A5 & A6 & A8).
  { intros col Hc. change (c_tab c1 col) with (c_tab c col). eapply Permutation_in; [symmetry; apply (ls_tab _ _ LS)|].
    apply in_map, filter_In. split; [assumption|]. apply existsb_exists. exists col. split; [|apply Z.eqb_refl].
    eapply Permutation_in; eauto. }
  cbn zeta in *. pose proof (delete_cols_sorted (fun a b => fxof c b <= fxof c a) (i_id i) (h_cols h) c1 (iv_sorted _ _ IV)) as A9.
  set (c2 := delete_cols c1 (i_id i) (h_cols h)) in *.
  change (c_tm c1) with (c_tm c) in A6. change (c_hdr c1) with (c_hdr c) in A5.
  change (c_ttab c1) with (c_ttab c) in A3. change (c_tlist c1) with (c_tlist c) in A4.
  change (c_count c1) with (c_count c) in A1. change (c_list c1) with lst in A2.
  assert (NIX : forall j, In j X -> i_id j <> i_id i).
  { intros j Hj E. pose proof (ls_ids _ _ LS) as N. cbn [map] in N. apply NoDup_cons_iff in N as (N & _). apply N. rewrite <- E. now apply in_map. }
  (* the lists of the template *)
  assert (T3 : exists c3, (if h_tmpl h =? 0 then Some c2 else match c_tm c2 (h_tmpl h) with None => None
        | Some t => Some (delete_tmpl_cols cs c2 (i_id i) (t_rec t) 0) end) = Some c3 /\
      c_count c3 = c_count c /\ c_list c3 = lst /\ c_tab c3 = c_tab c2 /\ c_tlist c3 = c_tlist c /\ c_hdr c3 = c_hdr c /\ c_tm c3 = c_tm c /\
      forall col, if fixes i col then Permutation (c_ttab c col) (i_id i :: c_ttab c3 col) else c_ttab c3 col = c_ttab c col).
  { destruct (i_match i) as [m|] eqn:Em.
    - destruct H5 as (N0 & t & Et & Ef). destruct (Z.eqb_spec (h_tmpl h) 0); [contradiction|]. rewrite A6, Et.
      destruct (delete_tmpl_cols_ok cs (i_id i) (t_rec t) 0 c2 ltac:(lia)) as (B1 & B2 & B3 & B4 & B5 & B6 & B8).
      { intros col _ F. rewrite Z.sub_0_r, Ef in F. rewrite A3. eapply Permutation_in; [symmetry; apply (ls_ttab _ _ LS)|].
        apply in_map, filter_In. split; [assumption|]. unfold fixes. now rewrite Em. }
      cbn zeta in *. eexists. split; [reflexivity|]. rewrite B1, B2, B3, B4, B5, B6. repeat split; auto.
      intros col. specialize (B8 col). rewrite Z.sub_0_r, A3 in B8.
      replace ((0 <=? col) && fixcol cs (t_rec t) col) with (fixcol cs (t_rec t) col) in B8
        by (unfold fixcol; destruct (0 <=? col); reflexivity).
      unfold fixes. rewrite Em, <- Ef. exact B8.
    - rewrite H5. eexists. split; [reflexivity|]. repeat split; auto. intros col. unfold fixes. rewrite Em. now rewrite A3. }
  destruct T3 as (c3 & -> & B1 & B2 & B3 & B4 & B5 & B6 & B8). rewrite H2, TY.
  replace (negb ((WG_INDEX_TYPE_TTREE =? WG_INDEX_TYPE_TTREE) || (WG_INDEX_TYPE_TTREE =? WG_INDEX_TYPE_TTREE_JSON))) with false by reflexivity.
  cbv iota.
  (* the count of the template *)
  assert (T4 : exists c4, (if h_tmpl h =? 0 then Some c3 else match c_tm c3 (h_tmpl h) with None => None
        | Some t => Some (if t_ref t - 1 =? 0
            then remove_index_template (set_tm c3 (h_tmpl h) (Some (IT (t_rec t) (t_fixed t) (t_ref t - 1)))) (h_tmpl h)
            else set_tm c3 (h_tmpl h) (Some (IT (t_rec t) (t_fixed t) (t_ref t - 1)))) end) = Some c4 /\
      c_count c4 = c_count c /\ c_list c4 = lst /\ c_tab c4 = c_tab c2 /\ c_ttab c4 = c_ttab c3 /\ c_hdr c4 = c_hdr c /\
      NoDup (c_tlist c4) /\ (forall o, In o (c_tlist c4) <-> c_tm c4 o <> None) /\
      (forall x t, c_tm c4 x = Some t -> exists t0, c_tm c x = Some t0 /\ t_rec t = t_rec t0 /\ t_fixed t = t_fixed t0 /\
         t_ref t = if x =? h_tmpl h then t_ref t0 - 1 else t_ref t0) /\
      (forall x t0, c_tm c x = Some t0 -> t_ref t0 - (if x =? h_tmpl h then 1 else 0) <> 0 -> c_tm c4 x <> None)).
  { rewrite B6. destruct (Z.eqb_spec (h_tmpl h) 0) as [E0 | N0].
    - eexists. split; [reflexivity|]. repeat split; auto.
      + rewrite B4. apply (iv_tl _ _ IV).
      + rewrite B4, B6. apply (iv_tin _ _ IV).
      + rewrite B4, B6. apply (iv_tin _ _ IV).
      + intros x t. rewrite B6. intros E. exists t. repeat split; auto. rewrite E0. destruct (Z.eqb_spec x 0) as [-> | _]; [|reflexivity].
        now destruct (iv_tm _ _ IV _ _ E).
      + intros x t0. rewrite B6. congruence.
    - pose proof (hdr_tm c _ i h IV HI H1 N0) as HT. destruct (c_tm c (h_tmpl h)) as [t|] eqn:Et; [|contradiction]. cbn zeta.
      eexists. split; [reflexivity|]. destruct (Z.eqb_spec (t_ref t - 1) 0) as [R0 | R1].
      + unfold remove_index_template. cbn [set_tm c_tlist]. rewrite B4.
        destruct (delete_in (c_tlist c) (h_tmpl h)) as (Q1 & Q2); [apply (iv_tin _ _ IV); congruence|].
        destruct (delete_from_list (c_tlist c) (h_tmpl h)) as [tl b]. cbn [fst snd] in *. subst b.
        cbn [set_tm set_cells set_tlist c_count c_list c_tab c_ttab c_hdr c_tlist c_tm].
        assert (NDT : NoDup (h_tmpl h :: tl)) by (eapply Permutation_NoDup; [exact Q2|apply (iv_tl _ _ IV)]).
        apply NoDup_cons_iff in NDT as (NT & NDT).
        split; [exact B1|]. split; [exact B2|]. split; [exact B3|]. split; [reflexivity|]. split; [exact B5|]. split; [exact NDT|]. split; [|split].
        * intros x. destruct (Z.eq_dec x (h_tmpl h)) as [-> | N].
          { rewrite putl_same. split; [contradiction|congruence]. }
          rewrite putl_other, putl_other, B6 by assumption. rewrite <- (iv_tin _ _ IV). split; intros Hx.
          { eapply Permutation_in; [symmetry; exact Q2|now right]. }
          apply (Permutation_in _ Q2) in Hx as [Hx | Hx]; [congruence|assumption].
        * intros x t0 E. destruct (Z.eq_dec x (h_tmpl h)) as [-> | N]; [rewrite putl_same in E; discriminate|].
          rewrite putl_other, putl_other, B6 in E by assumption. exists t0. repeat split; auto.
          destruct (Z.eqb_spec x (h_tmpl h)); [contradiction|reflexivity].
        * intros x t0 E R. destruct (Z.eq_dec x (h_tmpl h)) as [-> | N].
          { rewrite Et in E. injection E as <-. rewrite Z.eqb_refl in R. lia. }
          rewrite putl_other, putl_other, B6 by assumption. congruence.
      + cbn [set_tm c_count c_list c_tab c_ttab c_hdr c_tlist c_tm].
        split; [exact B1|]. split; [exact B2|]. split; [exact B3|]. split; [reflexivity|]. split; [exact B5|].
        split; [rewrite B4; apply (iv_tl _ _ IV)|]. split; [|split].
        * intros x. rewrite B4, (iv_tin _ _ IV). destruct (Z.eq_dec x (h_tmpl h)) as [-> | N].
          { rewrite putl_same. split; [discriminate|congruence]. }
          rewrite putl_other, B6 by assumption. tauto.
        * intros x t0 E. destruct (Z.eq_dec x (h_tmpl h)) as [-> | N].
          { rewrite putl_same in E. injection E as <-. exists t. rewrite Z.eqb_refl. auto. }
          rewrite putl_other, B6 in E by assumption. exists t0. repeat split; auto.
          destruct (Z.eqb_spec x (h_tmpl h)); [contradiction|reflexivity].
        * intros x t0 E R. destruct (Z.eq_dec x (h_tmpl h)) as [-> | N]; [rewrite putl_same; discriminate|].
          rewrite putl_other, B6 by assumption. congruence. }
  destruct T4 as (c4 & -> & C1 & C2 & C3 & C4 & C5 & C6 & C7 & C8 & C9).
  eexists. split; [reflexivity|]. set (c5 := set_count (set_hdr c4 (i_id i) None) (c_count (set_hdr c4 (i_id i) None) - 1)).
  assert (HD : forall j, In j X -> c_hdr c5 (i_id j) = c_hdr c (i_id j)).
  { intros j Hj. cbn [c5 set_count set_hdr c_hdr]. rewrite putl_other by now apply NIX. now rewrite C5. }
  assert (US : forall o, filter (uses c5 o) X = filter (uses c o) X).
  { intros o. apply filter_ext_in. intros j Hj. unfold uses. now rewrite HD. }
  assert (Ui : forall o, length (filter (uses c o) (i :: X)) = ((if (o =? h_tmpl h)%Z then 1 else 0) + length (filter (uses c o) X))%nat).
  { intros o. cbn [filter]. unfold uses at 1. rewrite H1. rewrite Z.eqb_sym. destruct (o =? h_tmpl h); reflexivity. }
  assert (KEEP : forall j hj, In j X -> c_hdr c (i_id j) = Some hj -> h_tmpl hj <> 0 ->
     exists t t0, c_tm c (h_tmpl hj) = Some t0 /\ c_tm c4 (h_tmpl hj) = Some t /\ t_rec t = t_rec t0 /\ t_fixed t = t_fixed t0).
  { intros j hj Hj Ej N0. pose proof (hdr_tm c _ j hj IV (or_intror Hj) Ej N0) as HT.
    destruct (c_tm c (h_tmpl hj)) as [t0|] eqn:E0; [|contradiction].
    destruct (iv_tm _ _ IV _ _ E0) as (_ & _ & _ & RF). rewrite Ui in RF.
    assert (POS : (0 < length (filter (uses c (h_tmpl hj)) X))%nat).
    { assert (In j (filter (uses c (h_tmpl hj)) X)).
      { apply filter_In. split; [assumption|]. unfold uses. rewrite Ej. apply Z.eqb_refl. }
      destruct (filter (uses c (h_tmpl hj)) X); [contradiction|cbn; lia]. }
    assert (K : c_tm c4 (h_tmpl hj) <> None).
    { apply (C9 _ t0 E0). destruct (h_tmpl hj =? h_tmpl h); lia. }
    destruct (c_tm c4 (h_tmpl hj)) as [t|] eqn:E4; [|contradiction]. destruct (C8 _ _ E4) as (t1 & F0 & F1 & F2 & _).
    rewrite E0 in F0. injection F0 as <-. exists t, t0. auto. }
  assert (FXE : forall j, In j X -> fxof c5 (i_id j) = fxof c (i_id j)).
  { intros j Hj. unfold fxof. rewrite HD by assumption. destruct (c_hdr c (i_id j)) as [hj|] eqn:Ej; [|reflexivity].
    destruct (Z.eqb_spec (h_tmpl hj) 0) as [E0 | N0]; [reflexivity|]. destruct (KEEP j hj Hj Ej N0) as (t & t0 & G1 & G2 & _ & G3).
    cbn [c5 set_count set_hdr c_tm]. now rewrite G1, G2. }
  assert (TAB : forall col, Permutation (c_tab c5 col) (map i_id (filter (fun i => existsb (Z.eqb col) (i_cols i)) X))).
  { intros col. cbn [c5 set_count set_hdr c_tab]. rewrite C3. specialize (A8 col). change (c_tab c1 col) with (c_tab c col) in A8.
    pose proof (ls_tab _ _ LS col) as P0. cbn [filter] in P0.
    assert (Ex : existsb (Z.eqb col) (i_cols i) = existsb (Z.eqb col) (h_cols h)).
    { apply eq_true_iff_eq. rewrite !existsb_exists. split; intros (y & Hy & E); exists y; split; auto.
      - eapply Permutation_in; [symmetry; exact H4|assumption].
      - eapply Permutation_in; [exact H4|assumption]. }
    rewrite Ex in P0. destruct (existsb (Z.eqb col) (h_cols h)).
    - cbn [map] in P0. rewrite A8 in P0. now apply Permutation_cons_inv in P0.
    - now rewrite A8. }
  constructor; [constructor| | | | |].
  - cbn [c5 set_count set_hdr c_list]. rewrite C2. pose proof (ls_list _ _ LS) as P0. cbn [map] in P0. rewrite D2 in P0.
    now apply Permutation_cons_inv in P0.
  - pose proof (ls_ids _ _ LS) as N. cbn [map] in N. now apply NoDup_cons_iff in N as (_ & N).
  - exact TAB.
  - intros col. cbn [c5 set_count set_hdr c_ttab]. rewrite C4. specialize (B8 col). pose proof (ls_ttab _ _ LS col) as P0.
    cbn [filter] in P0. destruct (fixes i col).
    + cbn [map] in P0. rewrite B8 in P0. now apply Permutation_cons_inv in P0.
    + now rewrite B8.
  - cbn [c5 set_count set_hdr c_count]. rewrite C1, (ls_count _ _ LS). cbn [length]. lia.
  - intros j Hj. destruct (ls_hdr _ _ LS j (or_intror Hj)) as (hj & F1 & F2 & F3 & F4 & F5). exists hj. rewrite HD by assumption.
    repeat split; auto. destruct (i_match j); [|assumption]. destruct F5 as (N0 & t0 & F6 & F7). split; [assumption|].
    destruct (KEEP j hj Hj F1 N0) as (t & t1 & G1 & G2 & G3 & _). exists t. split; [exact G2|]. intros col.
    rewrite G3. rewrite F6 in G1. injection G1 as <-. apply F7.
  - intros j k hj Hj Hk. rewrite !HD by assumption. intros E1 E2. eapply (ls_distinct _ _ LS j k hj); auto; now right.
  - intros j col Hj. apply (iv_range _ _ IV). now right.
  - intros col. rewrite <- C3 in A9. eapply ssorted_ext; [|exact (A9 col)]. intros a b Ha Hb. cbn beta.
    assert (P : forall x, In x (c_tab c2 col) -> exists j, In j X /\ i_id j = x).
    { intros x Hx. assert (Hx' : In x (c_tab c5 col)) by (cbn [c5 set_count set_hdr c_tab]; now rewrite C3).
      apply (Permutation_in _ (TAB col)) in Hx'. apply in_ids in Hx' as (j & Hj & <-). apply filter_In in Hj as (Hj & _). eauto. }
    change (In a (c_tab c5 col)) in Ha. change (In b (c_tab c5 col)) in Hb.
    cbn [c5 set_count set_hdr c_tab] in Ha, Hb. rewrite C3 in Ha, Hb.
    destruct (P _ Ha) as (ja & Hja & <-). destruct (P _ Hb) as (jb & Hjb & <-). now rewrite !FXE.
  - exact C6.
  - exact C7.
  - intros x t E. destruct (C8 x t E) as (t0 & G0 & G1 & G2 & G3). destruct (iv_tm _ _ IV _ _ G0) as (K1 & K2 & K3 & K4).
    rewrite Ui in K4. rewrite US. repeat split; auto; [congruence|congruence|]. rewrite G3, K4. destruct (x =? h_tmpl h); lia.
Qed.
End S.

Section T.
Variable cs : cstate.

(** Histories of the control area: indexes of the usable types are created with enough
    memory, T-tree indexes are dropped, ids that do not exist are dropped. *)
Inductive creach : ictl -> list index -> Prop :=
| cr_init n : creach (IC 0 [] (fun _ => []) (fun _ => []) [] (fun _ => None) (fun _ => None) n) []
| cr_create c X columns type matchrec o c' r : creach c X -> usable_type type -> memory c X o ->
    wg_create_multi_index cs c columns type matchrec o = Some (c', r) ->
    creach c' (if r =? 0 then IX (or_hdr o) type columns matchrec :: X else X)
| cr_drop c X i Y c' r : creach c X -> Permutation X (i :: Y) -> i_type i = WG_INDEX_TYPE_TTREE ->
    wg_drop_index cs c (i_id i) = Some (c', r) -> creach c' Y
| cr_drop_none c X id c' r : creach c X -> ~ In id (map i_id X) -> wg_drop_index cs c id = Some (c', r) -> creach c' X
| cr_cells c X n : creach c X ->
    creach (set_cells c n) X.

Lemma drop_none c X id : inv cs c X -> ~ In id (map i_id X) -> wg_drop_index cs c id = Some (c, -1).
Proof.
  intros IV N. unfold wg_drop_index. rewrite delete_notin; [reflexivity|]. intros H. apply N.
  eapply Permutation_in; [apply (ls_list _ _ _ (iv_listed _ _ _ IV))|assumption].
Qed.

Lemma creach_inv c X : creach c X -> inv cs c X.
Proof.
  induction 1 as [n|c X columns type matchrec o c' r _ IV UT M E|c X i Y c' r _ IV P TY E|c X id c' r _ IV N E|c X n _ IV].
  - constructor; [constructor|..]; cbn.
    + constructor.
    + constructor.
    + constructor.
    + constructor.
    + reflexivity.
    + intros i [].
    + intros i j h [].
    + intros i col [].
    + constructor.
    + constructor.
    + split; [intros []|congruence].
    + discriminate.
  - destruct (create_inv cs c X columns type matchrec o IV UT M) as (c2 & r2 & E2 & [(-> & K) | (-> & ->)]); rewrite E2 in E; injection E as <- <-.
    + exact K.
    + exact IV.
  - apply (inv_perm cs c X (i :: Y) P) in IV. destruct (drop_inv cs c Y i IV TY) as (c2 & E2 & K). rewrite E2 in E. now injection E as <- _.
  - rewrite (drop_none c X id IV N) in E. now injection E as <- _.
  - destruct IV as [[A B C D F G H] I J K L M]. constructor; [constructor|..]; auto.
Qed.

(** After any history the control area lists exactly the existing indexes. *)
Theorem C46_lists c X : creach c X -> listed cs c X.
Proof. intros H. apply iv_listed. now apply creach_inv. Qed.

(** Creation takes effect completely, or is refused and changes nothing. *)
Theorem C46_create c X columns type matchrec o : creach c X -> usable_type type -> memory c X o ->
  exists c' r, wg_create_multi_index cs c columns type matchrec o = Some (c', r) /\
    ((r = 0 /\ listed cs c' (IX (or_hdr o) type columns matchrec :: X)) \/ (r = -1 /\ c' = c)).
Proof.
  intros H UT M. destruct (create_inv cs c X columns type matchrec o (creach_inv _ _ H) UT M) as (c' & r & E & K).
  exists c', r. split; [exact E|]. destruct K as [(-> & K) | K]; [left|now right]. split; [reflexivity|]. now apply iv_listed.
Qed.

(** An index without match record on valid columns is created unless an identical one exists. *)
Theorem C46_accepted c X columns type o : creach c X -> usable_type type -> memory c X o ->
  (1 <= length columns <= 10)%nat -> (type = WG_INDEX_TYPE_TTREE -> length columns = 1%nat) ->
  NoDup columns -> (forall x, In x columns -> 0 <= x <= 127) ->
  (forall i, In i X -> i_type i = type -> i_match i = None -> ~ Permutation (i_cols i) columns) ->
  exists c', wg_create_multi_index cs c columns type None o = Some (c', 0).
Proof.
  intros H UT (M1 & M2 & M3 & M4 & M5 & M6) L1 L2 ND RG UN. pose proof (creach_inv _ _ H) as IV. pose proof (iv_listed _ _ _ IV) as LS.
  unfold wg_create_multi_index. set (n := Z.of_nat (length columns)).
  destruct ((n <? 1) || (MAX_INDEX_FIELDS <? n) || _) eqn:C1.
  { exfalso. rewrite !orb_true_iff, andb_true_iff, orb_true_iff in C1. unfold MAX_INDEX_FIELDS in C1.
    destruct C1 as [[C1 | C1] | (C1 & [C2 | C2])]; try apply Z.ltb_lt in C1; try apply Z.eqb_eq in C2; try lia.
    destruct UT as [-> | [-> | ->]]; discriminate. }
  set (cols := sort_columns (length columns) columns (-1)).
  destruct (sort_columns_ok (length columns) columns (-1)) as (S1 & S2 & S3). cbn zeta in *. fold cols in S1, S2, S3.
  destruct (Z.ltb_spec (Z.of_nat (length cols)) n) as [C4 | C4].
  { exfalso. assert ((length columns <= length cols)%nat); [|lia]. apply NoDup_incl_length; [assumption|].
    intros x Hx. apply S3; [lia|assumption|]. specialize (RG x Hx). lia. }
  destruct (existsb (fun x => MAX_INDEXED_FIELDNR <? x) cols) eqn:C5.
  { exfalso. apply existsb_exists in C5 as (x & Hx & C5). apply Z.ltb_lt in C5. destruct (S1 x Hx) as (_ & B).
    unfold MAX_INDEXED_FIELDNR in C5. lia. }
  assert (P : Permutation cols columns).
  { apply NoDup_Permutation_bis; auto; [lia|]. intros x Hx. now apply S1. }
  pose proof (Permutation_length P) as LC. cbn [Z.eqb].
  destruct (col_walks_ok c type 0 0 cols cols true) as [(poss & W & LP) | (_ & W & o1 & h & col & K1 & K2 & K3 & K4 & K5 & K6 & K7)].
  { intros col x _ Hx. destruct (tab_in _ _ _ _ _ LS Hx) as (i & Hi & <- & _).
    destruct (ls_hdr _ _ _ LS i Hi) as (h & Eh & _). exists h. split; [assumption|]. now apply (hdr_tm cs c X i). }
  - rewrite W. destruct (Z.eqb_spec (or_hdr o) 0); [contradiction|].
    assert (LEN : (length cols <= c_cells c)%nat) by lia.
    destruct (insert_cols_total (or_hdr o) cols poss c LP LEN) as (c2 & E2). rewrite E2. cbn [negb].
    destruct (insert_cols_ok (or_hdr o) cols poss c c2 S2 LP LEN E2) as (_ & _ & _ & _ & _ & _ & A7 & _).
    replace (if type =? WG_INDEX_TYPE_TTREE then true
             else if (type =? WG_INDEX_TYPE_HASH) || (type =? WG_INDEX_TYPE_HASH_JSON) then or_hash o else false) with true
      by (rewrite M6; destruct UT as [-> | [-> | ->]]; reflexivity).
    cbn [negb set_hdr c_cells]. destruct (c_cells c2) as [|k] eqn:Ek; [lia|]. cbn [insert_into_list negb]. eexists. reflexivity.
  - exfalso. destruct (tab_in _ _ _ _ _ LS K2) as (i & Hi & <- & _). destruct (ls_hdr _ _ _ LS i Hi) as (h' & E1 & E2 & E3 & E4 & E5).
    rewrite K3 in E1. injection E1 as <-. apply (UN i Hi); [congruence| |].
    + destruct (i_match i); [|reflexivity]. destruct E5. contradiction.
    + rewrite <- E4. rewrite (combine_eq _ _ K6 K7). exact P.
Qed.

(** An index like an existing one without match record is refused. *)
Theorem C46_identical_refused c X i columns o : creach c X -> usable_type (i_type i) -> memory c X o ->
  In i X -> i_match i = None -> Permutation columns (i_cols i) ->
  wg_create_multi_index cs c columns (i_type i) None o = Some (c, -1).
Proof.
  intros H UT M Hi Em P. destruct (C46_create c X columns (i_type i) None o H UT M) as (c' & r & E & [(-> & L) | (-> & ->)]); [|exact E].
  exfalso. destruct M as (_ & _ & M3 & _).
  pose proof (C46_lists c X H) as L0.
  destruct (ls_hdr _ _ _ L (IX (or_hdr o) (i_type i) columns None) (or_introl eq_refl)) as (h & E1 & E2 & E3 & E4 & E5).
  destruct (ls_hdr _ _ _ L i (or_intror Hi)) as (h' & F1 & F2 & F3 & F4 & F5). rewrite Em in F5. cbn [i_match i_type i_cols i_id] in *.
  assert (h = h') as ->.
  { destruct h as [a b d], h' as [a' b' d']. cbn [h_type h_cols h_tmpl] in *. subst. f_equal.
    apply sorted_perm_eq; auto. now rewrite E4, F4. }
  assert (K : IX (or_hdr o) (i_type i) columns None = i) by (apply (ls_distinct _ _ _ L _ _ h'); [now left|now right|exact E1|exact F1]).
  apply M3. rewrite <- K in Hi. apply in_map_iff. exists (IX (or_hdr o) (i_type i) columns None). auto.
Qed.

(** Dropping a T-tree index takes away exactly that index. *)
Theorem C46_drop c X i : creach c X -> In i X -> i_type i = WG_INDEX_TYPE_TTREE ->
  exists c', wg_drop_index cs c (i_id i) = Some (c', 0) /\ forall Y, Permutation X (i :: Y) -> listed cs c' Y.
Proof.
  intros H Hi TY. pose proof (creach_inv _ _ H) as IV. destruct (in_split _ _ Hi) as (l1 & l2 & ->).
  assert (P : Permutation (l1 ++ i :: l2) (i :: l1 ++ l2)) by (symmetry; apply Permutation_middle).
  destruct (drop_inv cs c (l1 ++ l2) i (inv_perm cs _ _ _ P IV) TY) as (c' & E & K). exists c'. split; [exact E|].
  intros Y PY. apply iv_listed. eapply inv_perm; [|exact K]. rewrite P in PY. now apply Permutation_cons_inv in PY.
Qed.
Theorem C46_drop_unknown c X id : creach c X -> ~ In id (map i_id X) -> wg_drop_index cs c id = Some (c, -1).
Proof. intros H. apply drop_none. now apply creach_inv. Qed.

Lemma flat_perm (f g : Z -> list Z) : forall R, (forall x, Permutation (f x) (g x)) -> Permutation (flat_map f R) (flat_map g R).
Proof. induction R as [|x R IH]; intros H; cbn [flat_map]; [constructor|]. apply Permutation_app; auto. Qed.
Lemma flat_one (g : Z -> list Z) id k : forall R, NoDup R ->
  Permutation (flat_map (fun x => if x =? k then id :: g x else g x) R)
    (if in_dec Z.eq_dec k R then id :: flat_map g R else flat_map g R).
Proof.
  induction R as [|x R IH]; intros ND; [constructor|]. apply NoDup_cons_iff in ND as (Nx & ND). specialize (IH ND).
  cbn [flat_map]. destruct (in_dec Z.eq_dec k (x :: R)) as [I1 | I1]; destruct (Z.eqb_spec x k) as [-> | N].
  - rewrite IH. destruct (in_dec Z.eq_dec k R); [contradiction|]. reflexivity.
  - rewrite IH. destruct (in_dec Z.eq_dec k R) as [I2 | I2].
    + symmetry. apply Permutation_middle.
    + exfalso. destruct I1 as [-> | I1]; [now apply N|contradiction].
  - exfalso. apply I1. now left.
  - rewrite IH. destruct (in_dec Z.eq_dec k R) as [I2 | I2]; [|reflexivity]. exfalso. apply I1. now right.
Qed.

Lemma zrange_in n k : In k (zrange n) <-> 0 <= k < Z.of_nat n.
Proof.
  unfold zrange. rewrite in_map_iff. split.
  - intros (x & <- & Hx). apply in_seq in Hx. lia.
  - intros H. exists (Z.to_nat k). split; [lia|]. apply in_seq. lia.
Qed.
Lemma zrange_nodup n : NoDup (zrange n).
Proof.
  unfold zrange. apply FinFun.Injective_map_NoDup; [intros a b; lia|apply seq_NoDup].
Qed.

(** If all indexes are on single columns, wg_get_all_indexes lists exactly the existing ones. *)
Theorem C46_all_indexes c X : creach c X -> (forall i, In i X -> length (i_cols i) = 1%nat) ->
  exists r, wg_get_all_indexes c = Some r /\
    match r with No_indexes => X = [] | Corrupted => False | Indexes l => X <> [] /\ Permutation l (map i_id X) end.
Proof.
  intros H SG. pose proof (creach_inv _ _ H) as IV. pose proof (iv_listed _ _ _ IV) as LS. unfold wg_get_all_indexes.
  assert (P : Permutation (flat_map (c_tab c) (zrange 128)) (map i_id X)).
  { rewrite (flat_perm _ _ (zrange 128) (ls_tab _ _ _ LS)). pose proof (iv_range _ _ _ IV) as RG. clear LS IV H.
    induction X as [|i X IH].
    - cbn [filter map]. induction (zrange 128) as [|x R IHR]; [constructor|]. exact IHR.
    - destruct (i_cols i) as [|k [|? ?]] eqn:Ec; try (specialize (SG i (or_introl eq_refl)); rewrite Ec in SG; discriminate).
      assert (Q : Permutation (flat_map (fun col => map i_id (filter (fun i => existsb (Z.eqb col) (i_cols i)) (i :: X))) (zrange 128))
         (flat_map (fun x => if x =? k then i_id i :: map i_id (filter (fun i => existsb (Z.eqb x) (i_cols i)) X)
                             else map i_id (filter (fun i => existsb (Z.eqb x) (i_cols i)) X)) (zrange 128))).
      { apply flat_perm. intros x. cbn [filter]. rewrite Ec. cbn [existsb]. rewrite orb_false_r. destruct (x =? k); reflexivity. }
      rewrite Q, (flat_one _ (i_id i) k (zrange 128) (zrange_nodup 128)).
      destruct (in_dec Z.eq_dec k (zrange 128)) as [_ | N].
      + cbn [map]. apply perm_skip. apply IH.
        * intros j Hj. apply SG. now right.
        * intros j col Hj. apply RG. now right.
      + exfalso. apply N. apply zrange_in. apply (RG i k); [now left|]. rewrite Ec. now left. }
  rewrite (ls_count _ _ _ LS). pose proof (Permutation_length P) as LP. rewrite map_length in LP.
  set (l := flat_map (c_tab c) (zrange 128)) in *.
  destruct (Z.eqb_spec (Z.of_nat (length X)) 0) as [E0 | N0].
  - eexists. split; [reflexivity|]. destruct X; [reflexivity|cbn in E0; lia].
  - rewrite LP, Z.ltb_irrefl, Z.eqb_refl. cbn [negb]. eexists. split; [reflexivity|]. cbn. split; [|exact P]. intros ->. apply N0. reflexivity.
Qed.
Theorem C46_index_type c X : creach c X ->
  (forall i, In i X -> wg_get_index_type c (i_id i) = Some (i_type i)) /\
  (forall id, ~ In id (map i_id X) -> wg_get_index_type c id = Some (-1)).
Proof.
  intros H. pose proof (C46_lists _ _ H) as LS. unfold wg_get_index_type. split.
  - intros i Hi. destruct (ls_hdr _ _ _ LS i Hi) as (h & -> & -> & _).
    replace (existsb (fun x => x =? i_id i) (c_list c)) with true; [reflexivity|]. symmetry. apply existsb_exists.
    exists (i_id i). split; [|apply Z.eqb_refl]. eapply Permutation_in; [symmetry; apply (ls_list _ _ _ LS)|now apply in_map].
  - intros id N. replace (existsb (fun x => x =? id) (c_list c)) with false; [reflexivity|]. symmetry. apply not_true_is_false.
    intros E. apply existsb_exists in E as (x & Hx & E). apply Z.eqb_eq in E as ->. apply N.
    eapply Permutation_in; [apply (ls_list _ _ _ LS)|assumption].
Qed.
End T.

(** * Examples and refutations *)
Definition ex_cs : cstate := CSt (fun _ => 0) 0.
Inductive cop := Mk (columns : list Z) (type : Z) (m : option (list Z)) (hdr tmpl : Z) | Dr (id : Z).
Definition ex_c0 : ictl := IC 0 [] (fun _ => []) (fun _ => []) [] (fun _ => None) (fun _ => None) 1000.
Definition ex_o hdr tmpl := OR hdr tmpl true true.
Definition memoryb (c : ictl) (X : list index) (o : oracle) : bool :=
  Nat.leb 140 (c_cells c) && negb (or_hdr o =? 0) && negb (existsb (Z.eqb (or_hdr o)) (map i_id X)) && negb (or_tmpl o =? 0) &&
  match c_tm c (or_tmpl o) with None => true | Some _ => false end && or_hash o.
Lemma memoryb_ok c X o : memoryb c X o = true -> memory c X o.
Proof.
  unfold memoryb, memory. rewrite !andb_true_iff, !negb_true_iff, !Z.eqb_neq, Nat.leb_le. intros (((((A & B) & C) & D) & E) & F).
  repeat split; auto.
  - intros H. assert (existsb (Z.eqb (or_hdr o)) (map i_id X) = true); [|congruence]. apply existsb_exists. eexists. split; [exact H|apply Z.eqb_refl].
  - now destruct (c_tm c (or_tmpl o)).
Qed.
Fixpoint take_ix (X : list index) (id : Z) : option (index * list index) :=
  match X with
  | [] => None
  | i :: X => if i_id i =? id then Some (i, X) else option_map (fun '(j, Y) => (j, i :: Y)) (take_ix X id)
  end.
Definition ex_step (s : ictl * list index) (o : cop) : option (ictl * list index) :=
  let '(c, X) := s in
  match o with
  | Mk columns type m hdr tmpl =>
      if ((type =? 50) || (type =? 60) || (type =? 61)) && memoryb c X (ex_o hdr tmpl) then
        match wg_create_multi_index ex_cs c columns type m (ex_o hdr tmpl) with
        | Some (c', r) => Some (c', if r =? 0 then IX hdr type columns m :: X else X)
        | None => None
        end
      else None
  | Dr id =>
      match take_ix X id with
      | Some (i, Y) => if i_type i =? 50 then match wg_drop_index ex_cs c id with Some (c', _) => Some (c', Y) | None => None end else None
      | None => None
      end
  end.
Fixpoint ex_run (s : ictl * list index) (ops : list cop) : option (ictl * list index) :=
  match ops with [] => Some s | o :: ops => match ex_step s o with Some s => ex_run s ops | None => None end end.
Lemma take_ix_ok X id : forall i Y, take_ix X id = Some (i, Y) -> i_id i = id /\ Permutation X (i :: Y).
Proof.
  induction X as [|x X IH]; intros i Y E; cbn [take_ix] in E; [discriminate|]. destruct (Z.eqb_spec (i_id x) id) as [Q | Q].
  - injection E as <- <-. auto.
  - destruct (take_ix X id) as [[j Z0]|]; [|discriminate]. injection E as <- <-. destruct (IH j Z0 eq_refl) as (A & B). split; [exact A|].
    rewrite B. apply perm_swap.
Qed.
Lemma ex_run_reach ops : forall c X c' X', creach ex_cs c X -> ex_run (c, X) ops = Some (c', X') -> creach ex_cs c' X'.
Proof.
  induction ops as [|o ops IH]; intros c X c' X' H E; cbn [ex_run] in E; [injection E as <- <-; exact H|].
  destruct (ex_step (c, X) o) as [[c1 X1]|] eqn:E1; [|discriminate]. apply (IH c1 X1); [|exact E]. clear IH E.
  destruct o as [columns type m hdr tmpl | id]; cbn [ex_step] in E1.
  - destruct (((type =? 50) || (type =? 60) || (type =? 61)) && _) eqn:B; [|discriminate]. apply andb_true_iff in B as (B1 & B2).
    destruct (wg_create_multi_index _ _ _ _ _ _) as [[c2 r]|] eqn:E2; [|discriminate]. injection E1 as <- <-.
    apply (cr_create ex_cs c X columns type m (ex_o hdr tmpl) c2 r H); [|now apply memoryb_ok|exact E2]. rewrite !orb_true_iff, !Z.eqb_eq in B1. unfold usable_type, WG_INDEX_TYPE_TTREE, WG_INDEX_TYPE_HASH, WG_INDEX_TYPE_HASH_JSON. tauto.
  - destruct (take_ix X id) as [[i Y]|] eqn:T; [|discriminate]. destruct (take_ix_ok _ _ _ _ T) as (<- & P).
    destruct (Z.eqb_spec (i_type i) 50) as [TY | TY]; [|discriminate]. destruct (wg_drop_index _ _ _) as [[c2 r]|] eqn:E2; [|discriminate].
    injection E1 as <- <-. eapply cr_drop; eauto.
Qed.

Definition ex_ops : list cop :=
  [Mk [3] 50 None 1000 5000; Mk [0] 50 (Some [encode_var 1; encode_smallint 7; encode_var 2]) 1100 5000;
   Mk [5; 2] 60 (Some [encode_var 1; encode_smallint 7]) 1200 5100; Mk [3] 50 None 1300 5200;
   Mk [3] 50 (Some [encode_smallint 1; encode_smallint 7]) 1300 5200; Dr 1100].
(** Two plain indexes and one with template are left; the fourth request was refused; the
    template shared by the dropped index stays, used once. *)
Example C46_hyp : exists c X, ex_run (ex_c0, []) ex_ops = Some (c, X) /\ creach ex_cs c X /\
  map i_id X = [1300; 1200; 1000] /\ c_list c = [1300; 1200; 1000] /\ c_tab c 3 = [1300; 1000] /\ c_tab c 2 = [1200] /\
  c_ttab c 1 = [1300; 1200] /\ c_ttab c 0 = [1300] /\ c_tlist c = [5200; 5000] /\ option_map t_ref (c_tm c 5000) = Some 1.
Proof.
  destruct (ex_run (ex_c0, []) ex_ops) as [[c X]|] eqn:E; [|vm_compute in E; discriminate]. exists c, X. split; [reflexivity|].
  split; [eapply ex_run_reach; [apply (cr_init ex_cs 1000)|exact E]|]. vm_compute in E. injection E as <- <-.
  repeat split; reflexivity.
Qed.
(** A further index is accepted; an identical one is refused. *)
Example C46_create_hyp : exists c X, creach ex_cs c X /\ memory c X (ex_o 1400 5300) /\
  (exists c', wg_create_multi_index ex_cs c [7; 9] 61 None (ex_o 1400 5300) = Some (c', 0)) /\
  wg_create_multi_index ex_cs c [3] 50 None (ex_o 1400 5300) = Some (c, -1).
Proof.
  destruct (ex_run (ex_c0, []) ex_ops) as [[c X]|] eqn:E; [|vm_compute in E; discriminate]. exists c, X.
  assert (H : creach ex_cs c X) by (eapply ex_run_reach; [apply (cr_init ex_cs 1000)|exact E]). split; [exact H|].
  assert (EX : X = [IX 1300 50 [3] (Some [encode_smallint 1; encode_smallint 7]); IX 1200 60 [5; 2] (Some [encode_var 1; encode_smallint 7]); IX 1000 50 [3] None])
    by (vm_compute in E; injection E as _ <-; reflexivity).
  assert (M : memory c X (ex_o 1400 5300)) by (apply memoryb_ok; vm_compute in E; injection E as <- <-; reflexivity).
  split; [exact M|]. split.
  - apply (C46_accepted ex_cs c X); auto; [right; right; reflexivity|cbn; lia|discriminate| | |].
    + repeat constructor; cbn; intuition lia.
    + intros x [<- | [<- | []]]; lia.
    + rewrite EX. intros i Hi T. destruct Hi as [<- | [<- | [<- | []]]]; discriminate.
  - apply (C46_identical_refused ex_cs c X (IX 1000 50 [3] None) [3]); auto; [left; reflexivity|].
    rewrite EX. right; right; left; reflexivity.
Qed.
(** All single: the listing is right. *)
Example C46_all_indexes_hyp : exists c X, creach ex_cs c X /\ (forall i, In i X -> length (i_cols i) = 1%nat) /\
  wg_get_all_indexes c = Some (Indexes [1500; 1100; 1000]).
Proof.
  destruct (ex_run (ex_c0, []) [Mk [3] 50 None 1000 5000; Mk [2] 60 None 1100 5000; Mk [0] 50 None 1500 5000]) as [[c X]|] eqn:E;
    [|vm_compute in E; discriminate]. exists c, X.
  split; [eapply ex_run_reach; [apply (cr_init ex_cs 1000)|exact E]|]. vm_compute in E. injection E as <- <-.
  split; [|reflexivity]. intros i [<- | [<- | [<- | []]]]; reflexivity.
Qed.

(** Not of the other types: the request fails, but the index is left in its column list and
    not in the list of indexes, so it cannot be dropped. *)
Theorem C46_invalid_type_refuted : exists c X c', creach ex_cs c X /\ memory c X (ex_o 1000 5000) /\
  wg_create_multi_index ex_cs c [3] WG_INDEX_TYPE_TTREE_JSON None (ex_o 1000 5000) = Some (c', -1) /\
  c_tab c 3 = [] /\ c_tab c' 3 = [1000] /\ wg_drop_index ex_cs c' 1000 = Some (c', -1).
Proof.
  exists ex_c0, []. eexists. split; [apply cr_init|]. split; [apply memoryb_ok; reflexivity|]. split; [vm_compute; reflexivity|].
  repeat split; vm_compute; reflexivity.
Qed.
(** Dropping a hash index fails, yet the index is gone from the lists while it is still counted:
    wg_get_all_indexes reports corruption from then on. *)
Theorem C46_drop_hash_refuted : exists c X c', creach ex_cs c X /\ In (IX 1000 WG_INDEX_TYPE_HASH [3] None) X /\
  wg_drop_index ex_cs c 1000 = Some (c', -1) /\ c_list c = [1000] /\ c_list c' = [] /\ c_tab c' 3 = [] /\ c_count c' = 1 /\
  wg_get_all_indexes c = Some (Indexes [1000]) /\ wg_get_all_indexes c' = Some Corrupted.
Proof.
  destruct (ex_run (ex_c0, []) [Mk [3] 60 None 1000 5000]) as [[c X]|] eqn:E; [|vm_compute in E; discriminate].
  assert (H : creach ex_cs c X) by (eapply ex_run_reach; [apply (cr_init ex_cs 1000)|exact E]).
  exists c, X. eexists. split; [exact H|]. vm_compute in E. injection E as <- <-. split; [now left|]. split; [vm_compute; reflexivity|].
  repeat split; vm_compute; reflexivity.
Qed.
(** One index on two columns and wg_get_all_indexes writes past its array. *)
Theorem C46_all_indexes_refuted : exists c X, creach ex_cs c X /\ wg_get_all_indexes c = None.
Proof.
  destruct (ex_run (ex_c0, []) [Mk [3; 4] 60 None 1000 5000]) as [[c X]|] eqn:E; [|vm_compute in E; discriminate].
  exists c, X. split; [eapply ex_run_reach; [apply (cr_init ex_cs 1000)|exact E]|]. vm_compute in E. injection E as <- <-. reflexivity.
Qed.
(** Out of list cells: a refused creation empties the list of indexes. *)
Theorem C46_no_memory_refuted : exists c X c', creach ex_cs c X /\ c_list c = [1000] /\
  wg_create_multi_index ex_cs c [4] WG_INDEX_TYPE_TTREE None (ex_o 1100 5000) = Some (c', -1) /\ c_list c' = [] /\ c_tab c' 3 = [1000].
Proof.
  destruct (ex_run (ex_c0, []) [Mk [3] 50 None 1000 5000]) as [[c X]|] eqn:E; [|vm_compute in E; discriminate].
  assert (H : creach ex_cs c X) by (eapply ex_run_reach; [apply (cr_init ex_cs 1000)|exact E]).
  exists (set_cells c 1), X. eexists. split; [now apply cr_cells|]. vm_compute in E. injection E as <- <-.
  split; [reflexivity|]. split; [vm_compute; reflexivity|]. repeat split; vm_compute; reflexivity.
Qed.

Print Assumptions C46_lists.
Print Assumptions C46_create.
Print Assumptions C46_accepted.
Print Assumptions C46_identical_refused.
Print Assumptions C46_drop.
Print Assumptions C46_all_indexes.
Print Assumptions C46_index_type.
