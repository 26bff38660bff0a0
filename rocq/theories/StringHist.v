(** Histories of records and strings and the invariant along them. *)
From Coq Require Import ZArith List Bool Lia.
From Verif Require Import Base EncodingModel EncodingProofs RecordModel RecordProofs RecordProps StringModel StringProofs.
Import ListNotations.
Open Scope Z_scope.
#[local] Ltac Zify.zify_post_hook ::= idtac.

(** ** Fields of all records *)
Definition fields_at (m : rmap) (o : Z) : list Z := match m o with Some r => r_fields r | None => [] end.
Definition fl (m : rmap) (L : list Z) : list Z := flat_map (fields_at m) L.
Lemma fl_ext m m' L g : (forall o, In o L -> fields_at m' o = fields_at m o) -> cnt (fl m' L) g = cnt (fl m L) g.
Proof.
  induction L as [|o L IH]; intros H; cbn [fl flat_map]; [reflexivity|]. fold (fl m L) (fl m' L).
  rewrite !cnt_app, IH, (H o); [reflexivity|now left|]. intros p Hp. apply H. now right.
Qed.
Lemma fl_rem m o L g : NoDup L -> In o L -> cnt (fl m (remz o L)) g = cnt (fl m L) g - cnt (fields_at m o) g.
Proof.
  induction 1 as [|p L N ND IH]; intros H; [contradiction|]. cbn [remz remove].
  destruct (Z.eq_dec o p) as [-> | Np].
  - fold (remz p L). rewrite remz_notin by assumption. cbn [fl flat_map]. fold (fl m L). rewrite cnt_app. lia.
  - cbn [fl flat_map]. fold (remz o L) (fl m L) (fl m (remz o L)). rewrite !cnt_app.
    destruct H as [-> | H]; [contradiction|]. rewrite IH by assumption. lia.
Qed.
Lemma fl_change m m' o L g : NoDup L -> In o L -> (forall p, p <> o -> fields_at m' p = fields_at m p) ->
  cnt (fl m' L) g = cnt (fl m L) g - cnt (fields_at m o) g + cnt (fields_at m' o) g.
Proof.
  intros ND I H. pose proof (fl_rem m o L g ND I) as A. pose proof (fl_rem m' o L g ND I) as B.
  rewrite (fl_ext m m' (remz o L)) in B; [lia|]. intros p Hp. apply H. apply remz_in in Hp. apply Hp.
Qed.
Lemma fl_in m L g : 0 < cnt (fl m L) g <-> exists o r, In o L /\ m o = Some r /\ In g (r_fields r).
Proof.
  rewrite <- cnt_in. unfold fl. rewrite in_flat_map. split.
  - intros (o & Ho & H). unfold fields_at in H. destruct (m o) as [r|] eqn:E; [eauto|contradiction].
  - intros (o & r & Ho & E & H). exists o. split; [exact Ho|]. unfold fields_at. now rewrite E.
Qed.
Lemma data_fields m m' o : data_of m' o = data_of m o -> fields_at m' o = fields_at m o.
Proof. unfold data_of, fields_at. destruct (m o), (m' o); congruence. Qed.
Lemma data_live m m' o : data_of m' o = data_of m o -> (m' o <> None <-> m o <> None).
Proof. unfold data_of. destruct (m o), (m' o); intros; split; congruence. Qed.

(** ** What the record functions do with values *)
Section Cases.
Context {I V : Type}.
Variable ix_any ix_tab : I -> Z -> bool.
Variable ix_add_rec ix_del_rec : rmap -> V -> I -> Z -> option (I * Z).
Variable ix_add_field ix_del_field : rmap -> V -> I -> Z -> Z -> option (I * Z).
Variable v_ref v_free : V -> Z -> V.

Lemma set_field_cases (d : @rdb I V) o i data cell d' c : RI (d_rec d) -> good_data d data ->
  wg_set_field ix_any ix_tab ix_add_field ix_del_field v_ref v_free d o i data cell = Some (d', c) -> c <> -3 ->
  exists r, d_rec d o = Some r /\
   (((forall p, data_of (d_rec d') p = data_of (d_rec d) p) /\ d_val d' = d_val d) \/
    (field_ok r i = true /\
     (forall p, data_of (d_rec d') p = if p =? o then Some (r_meta r, set_nth (r_fields r) (Z.to_nat i) data) else data_of (d_rec d) p) /\
     d_val d' = (let v := if Z.land data 7 =? 4 then v_ref (d_val d) data else d_val d in if isptr (field r i) then v_free v (field r i) else v))).
Proof.
  intros R G E N. unfold wg_set_field in E.
  destruct (d_rec d o) as [r|] eqn:Eo; [|discriminate]. exists r. split; [reflexivity|].
  destruct (field_ok r i) eqn:F; cbn [negb] in E.
  2:{ injection E as <- <-. left. auto. }
  destruct (Z.eqb_spec (field r i) data) as [Ed | Nd].
  { injection E as <- <-. left. auto. }
  destruct (if indexed ix_any (d_ix d) r i then _ else _) as [[ix1 c1]|]; [|discriminate].
  destruct (c1 <? -1). { injection E as <- <-. contradiction. }
  destruct (chain _ ix1 (r_back r)) as [[ix2 e2]|]; [|discriminate].
  destruct (negb (e2 =? 0)). { injection E as <- <-. left. auto. }
  match type of E with match ?x with _ => _ end = _ => destruct x as [[m1|]|] eqn:E1 end; [| |discriminate].
  2:{ injection E as <- <-. left. auto. }
  cbv zeta in E.
  set (v := if isptr (field r i) then _ else _) in E.
  destruct (m1 o) as [r1|] eqn:Er; [|discriminate].
  destruct (if indexed ix_any ix2 r i then _ else _) as [[ix3 c3]|]; [|discriminate].
  destruct (c3 <? -1). { injection E as <- <-. contradiction. }
  destruct (add_backlink _ o data cell) as [m3|] eqn:A; [|discriminate].
  assert (R3 : RI m3 /\ forall p, data_of m3 p =
      if p =? o then Some (r_meta r, set_nth (r_fields r) (Z.to_nat i) data) else data_of (d_rec d) p).
  { destruct (RI_set (d_rec d) o r i data cell m1 m3 R Eo F G E1) as (r1' & Er' & H).
    rewrite Er in Er'. injection Er' as <-. now apply H. }
  right. split; [reflexivity|].
  destruct (r_back r) as [|p back].
  { injection E as <- <-. cbn [d_rec d_val]. split; [apply R3|reflexivity]. }
  destruct ((field r i =? o) && (p =? o)); [discriminate|].
  destruct (m3 o) as [r2|]; [|discriminate].
  destruct (chain _ ix3 (r_back r2)) as [[ix4 e4]|]; [|discriminate].
  injection E as <- <-. cbn [d_rec d_val]. split; [apply R3|reflexivity].
Qed.

Lemma set_new_field_cases (d : @rdb I V) o i data cell d' c : RI (d_rec d) -> good_data d data ->
  wg_set_new_field ix_any ix_tab ix_add_field v_ref d o i data cell = Some (d', c) -> c <> -3 ->
  exists r, d_rec d o = Some r /\
   (d' = d \/
    (field_ok r i = true /\ field r i = 0 /\
     (forall p, data_of (d_rec d') p = if p =? o then Some (r_meta r, set_nth (r_fields r) (Z.to_nat i) data) else data_of (d_rec d) p) /\
     d_val d' = (if Z.land data 7 =? 4 then v_ref (d_val d) data else d_val d))).
Proof.
  intros R G E N. unfold wg_set_new_field in E.
  destruct (d_rec d o) as [r|] eqn:Eo; [|discriminate]. exists r. split; [reflexivity|].
  destruct (field_ok r i) eqn:F; cbn [negb] in E; [|injection E as <- <-; now left].
  destruct (Z.eqb_spec (field r i) 0) as [Z0 | NZ]; cbn [negb] in E; [|injection E as <- <-; now left].
  cbv zeta in E.
  destruct (if indexed ix_any (d_ix d) r i then _ else _) as [[ix3 c3]|]; [|discriminate].
  destruct (c3 <? -1). { injection E as <- <-. contradiction. }
  destruct (add_backlink _ o data cell) as [m3|] eqn:A; [|discriminate].
  assert (R3 : RI m3 /\ forall p, data_of m3 p =
      if p =? o then Some (r_meta r, set_nth (r_fields r) (Z.to_nat i) data) else data_of (d_rec d) p).
  { destruct (RI_set (d_rec d) o r i data cell (d_rec d) m3 R Eo F G) as (r1' & Er' & H).
    - now rewrite Z0.
    - rewrite Eo in Er'. injection Er' as <-. now apply H. }
  right. split; [reflexivity|]. split; [exact Z0|].
  destruct (m3 o) as [r2|]; [|discriminate].
  destruct (chain _ ix3 (r_back r2)) as [[ix4 e4]|]; [|discriminate].
  injection E as <- <-. cbn [d_rec d_val]. split; [apply R3|reflexivity].
Qed.

Lemma delete_fields_val o : forall fs m v m' v', delete_fields v_free m v o fs = Some (m', v', 0) ->
  v' = fold_left (fun v f => if isptr f then v_free v f else v) fs v.
Proof.
  induction fs as [|f fs IH]; intros m v m' v' E; cbn [delete_fields fold_left] in *.
  - now injection E as _ <-.
  - destruct (is_record_ref f).
    + destruct (m f) as [c|]; [|discriminate]. destruct (unlink o (r_back c)); [|discriminate]. now apply (IH _ _ _ _ E).
    + now apply (IH _ _ _ _ E).
Qed.
Lemma delete_cases (d : @rdb I V) o freed d' c : RI (d_rec d) ->
  wg_delete_record ix_del_rec v_free d o freed = Some (d', c) -> c <> -3 ->
  exists r, d_rec d o = Some r /\
   (d' = d \/
    ((forall p, data_of (d_rec d') p = if p =? o then None else data_of (d_rec d) p) /\
     d_val d' = fold_left (fun v f => if isptr f then v_free v f else v) (r_fields r) (d_val d))).
Proof.
  intros R E N. unfold wg_delete_record in E. destruct (d_rec d o) as [r|] eqn:Eo; [|discriminate]. exists r. split; [reflexivity|].
  destruct (r_back r) as [|b bs] eqn:Eb; [|injection E as <- <-; now left].
  destruct (if is_special_record r then _ else _) as [[ix c1]|]; [|discriminate].
  destruct (c1 <? -1). { injection E as <- <-. contradiction. }
  destruct (delete_ok v_free (d_rec d) (d_val d) o r R Eo Eb) as (m' & v' & E' & D & RI').
  rewrite E' in E. change (negb (0 =? 0)) with false in E. destruct freed; injection E as <- <-; [|contradiction].
  right. cbn [d_rec d_val]. split; [|now apply (delete_fields_val o _ _ _ _ _ E')].
  intros p. unfold data_of. destruct (Z.eqb_spec p o) as [-> | Np]; [now rewrite rput_same|]. rewrite rput_other by assumption. apply D.
Qed.
End Cases.

Section Hist.
Variable alen : Z.
Context {I : Type}.
Notation V := (option sst).
Notation rdb := (@rdb I V).
Variable ix_any ix_tab : I -> Z -> bool.
Variable ix_add_rec ix_del_rec : rmap -> V -> I -> Z -> option (I * Z).
Variable ix_add_field ix_del_field : rmap -> V -> I -> Z -> Z -> option (I * Z).

(** Some field of a live record holds the handle. *)
Definition held (d : rdb) (h : Z) : Prop := exists p r, d_rec d p = Some r /\ In h (r_fields r).
(** The handle is the language, datatype or prefix of a live long string. *)
Definition lang_of_live (s : sst) (h : Z) : Prop := exists o x, long_at s o = Some x /\ l_extra x = h.

(** What a caller may store: references to live records, long strings that have not been
    released, short strings that have not been released and are not yet stored anywhere. *)
Definition may_store (d : rdb) (s : sst) (h : Z) : Prop :=
  good_data d h /\
  (Z.land h 7 = 4 -> long_at s (decode_longstr_offset h) <> None) /\
  (Z.land h 7 = 6 -> s_short s (decode_shortstr_offset h) <> None /\ ~ held d h /\ ~ lang_of_live s h).
(** What wg_free_encoded may be called on. *)
Definition may_free (d : rdb) (s : sst) (h : Z) : Prop :=
  (Z.land h 7 = 4 -> long_at s (decode_longstr_offset h) <> None) /\
  (Z.land h 7 = 6 -> s_short s (decode_shortstr_offset h) <> None /\ ~ held d h /\ ~ lang_of_live s h).
(** Memory given by the allocators: 0 or an aligned unused offset. *)
Definition cell_ok (s : sst) (o : Z) : Prop := o = 0 \/ (0 < o /\ o mod 8 = 0 /\ s_short s o = None).
Definition str_mem (s : sst) (str : list Z) (lang : option (list Z)) (type o : Z) : Prop :=
  if (match lang with None => true | Some _ => false end) && (type =? WG_STRTYPE) && (zlen str <? SHORTSTR_SIZE)
  then cell_ok s o else block_ok s o.

(** One call. Calls returning the fatal code -3 end the history (as in C18). [allow] restricts
    the strings that are encoded. *)
Inductive sstep (allow : list Z -> option (list Z) -> Prop) : rdb -> rdb -> Prop :=
| ss_raw d len o d' x : is_record_ref o = true -> d_rec d o = None ->
    wg_create_raw_record d len o = (d', x) -> sstep allow d d'
| ss_create d len o d' x : is_record_ref o = true -> d_rec d o = None ->
    wg_create_record ix_add_rec d len o = Some (d', x) -> sstep allow d d'
| ss_set d s o i data cell d' c : d_val d = Some s -> may_store d s data ->
    wg_set_field ix_any ix_tab ix_add_field ix_del_field v_ref (v_free alen) d o i data cell = Some (d', c) -> c <> -3 -> sstep allow d d'
| ss_new d s o i data cell d' c : d_val d = Some s -> may_store d s data ->
    wg_set_new_field ix_any ix_tab ix_add_field v_ref d o i data cell = Some (d', c) -> c <> -3 -> sstep allow d d'
| ss_delete d o freed d' c : wg_delete_record ix_del_rec (v_free alen) d o freed = Some (d', c) -> c <> -3 -> sstep allow d d'
| ss_meta d o r meta : d_rec d o = Some r ->
    sstep allow d (RDB (rput (d_rec d) o (Some (Rec meta (r_fields r) (r_back r)))) (d_ix d) (d_val d))
| ss_index d ix : sstep allow d (RDB (d_rec d) ix (d_val d))
| ss_str d s str lang type o eo s' h : d_val d = Some s -> In type [WG_STRTYPE; WG_XMLLITERALTYPE; WG_URITYPE] -> cstring str ->
    str_mem s str lang type o -> extra_args s lang o eo -> allow (str ++ [0]) lang ->
    wg_encode_unistr alen s str lang type o eo = Some (s', h) -> sstep allow d (RDB (d_rec d) (d_ix d) (Some s'))
| ss_blob d s data lang o eo s' h : d_val d = Some s -> block_ok s o -> extra_args s lang o eo -> allow data lang ->
    wg_encode_uniblob alen s data lang WG_BLOBTYPE o eo = Some (s', h) -> sstep allow d (RDB (d_rec d) (d_ix d) (Some s'))
| ss_free d s h s' : d_val d = Some s -> may_free d s h ->
    wg_free_encoded alen s h = Some s' -> sstep allow d (RDB (d_rec d) (d_ix d) (Some s')).
Inductive sreach (allow : list Z -> option (list Z) -> Prop) : rdb -> Prop :=
| sr_init ix : sreach allow (RDB (fun _ => None) ix (Some s_init))
| sr_step d d' : sreach allow d -> sstep allow d d' -> sreach allow d'.

Record Inv (M : list Z) (cl : Z -> list Z) (L : list Z) (s : sst) (d : rdb) : Prop := {
  iv_val : d_val d = Some s;
  iv_nd : NoDup L;
  iv_live : forall o, d_rec d o <> None <-> In o L;
  iv_RI : RI (d_rec d);
  iv_SI : SI alen M cl (cnt (fl (d_rec d) L)) s;
  iv_full : forall p, long_at s p <> None -> In p M }.

Lemma held_cnt M cl L s d h : Inv M cl L s d -> held d h <-> 0 < cnt (fl (d_rec d) L) h.
Proof.
  intros Iv. rewrite fl_in. split.
  - intros (p & r & E & H). exists p, r. split; [|auto]. apply (iv_live _ _ _ _ _ Iv). congruence.
  - intros (p & r & _ & E & H). exists p, r. auto.
Qed.
Lemma lang_cnt M cl L s d h : Inv M cl L s d -> h <> 0 -> lang_of_live s h <-> 0 < cnt (extras M s) h.
Proof.
  intros Iv Nz. rewrite <- cnt_in. unfold extras. rewrite in_map_iff. unfold extra_at. split.
  - intros (o & x & E & H). exists o. rewrite E. split; [exact H|]. apply (iv_full _ _ _ _ _ Iv). congruence.
  - intros (o & H & Ho). destruct (long_at s o) as [x|] eqn:E; [|congruence]. exists o, x. auto.
Qed.

(** What a step does to the strings. *)
Record effect (M : list Z) (cl : Z -> list Z) (L : list Z) (s : sst) (d : rdb) (M' : list Z) (cl' : Z -> list Z) (L' : list Z) (s' : sst) (d' : rdb) : Prop := {
  ef_frame : forall o, In o M -> In o M' -> exists x x', long_at s o = Some x /\ long_at s' o = Some x' /\ body x' = body x;
  ef_short : forall a, s_short s a <> None -> s_short s' a = s_short s a \/ s_short s' a = None;
  ef_rel : rel M (cnt (fl (d_rec d) L)) s M' (cnt (fl (d_rec d') L')) s' }.

Definition restrict (allow : list Z -> option (list Z) -> Prop) : Prop :=
  forall data lang, allow data lang -> zlen data < 2 ^ 31 /\ apart alen data lang.

Lemma content_kept M cl L s d M' cl' L' s' d' o x x' : Inv M cl L s d -> Inv M' cl' L' s' d' ->
  effect M cl L s d M' cl' L' s' d' -> In o M -> In o M' -> long_at s o = Some x -> long_at s' o = Some x' ->
  content s' x' = content s x.
Proof.
  intros Iv Iv' [Fr Sh _] Ho Ho' E E'.
  set (N := filter (fun a => if in_dec Z.eq_dec a M' then true else false) M).
  assert (HN : forall a, In a N <-> In a M /\ In a M').
  { intros a. unfold N. rewrite filter_In. destruct (in_dec Z.eq_dec a M'); split; intros (? & ?); split; auto; discriminate. }
  assert (FN : frame N s s') by (intros a Ha; apply HN in Ha; destruct Ha; now apply Fr).
  assert (Ex : forall e, 0 < cnt (extras N s) e -> 0 < cnt (extras M s) e /\ 0 < cnt (extras M' s') e).
  { intros e C. apply cnt_in in C. unfold extras in C. apply in_map_iff in C. destruct C as (a & Ea & Ha).
    pose proof (frame_extra _ _ _ a FN Ha) as Ee. apply HN in Ha. destruct Ha.
    split; apply cnt_in; apply in_map_iff; exists a; split; auto. congruence. }
  destruct (lang_frame alen M N cl (cnt (fl (d_rec d) L)) s s' o x x') as (G1 & G2); auto.
  - apply Iv.
  - intros a Ha. now apply HN in Ha.
  - intros e Ne Te Ce. apply Ex in Ce. destruct Ce as (C1 & C2). apply HN. split.
    + apply (si_long _ _ _ _ _ (iv_SI _ _ _ _ _ Iv) e Te). pose proof (si_f _ _ _ _ _ (iv_SI _ _ _ _ _ Iv) e (or_introl Te)). unfold hc. lia.
    + apply (si_long _ _ _ _ _ (iv_SI _ _ _ _ _ Iv') e Te). pose proof (si_f _ _ _ _ _ (iv_SI _ _ _ _ _ Iv') e (or_introl Te)). unfold hc. lia.
  - intros g Tg Cg. apply Ex in Cg. destruct Cg as (C1 & C2).
    pose proof (proj2 (si_short _ _ _ _ _ (iv_SI _ _ _ _ _ Iv) g Tg)) as L1.
    pose proof (proj2 (si_short _ _ _ _ _ (iv_SI _ _ _ _ _ Iv') g Tg)) as L2.
    pose proof (si_f _ _ _ _ _ (iv_SI _ _ _ _ _ Iv) g (or_intror Tg)). pose proof (si_f _ _ _ _ _ (iv_SI _ _ _ _ _ Iv') g (or_intror Tg)).
    destruct (Sh (decode_shortstr_offset g)) as [C | C]; auto.
    + apply L1. unfold hc. lia.
    + exfalso. apply L2; [unfold hc; lia|exact C].
  - apply HN. auto.
  - destruct (Fr o Ho Ho') as (y & y' & Ey & Ey' & B). rewrite E in Ey. rewrite E' in Ey'. injection Ey as <-. injection Ey' as <-.
    unfold content. rewrite G1, G2. unfold l_type. unfold body in B. congruence.
Qed.

(** Strings only go. *)
Lemma good_shrink M cl L s d M' cl' L' s' d' : Inv M cl L s d -> Inv M' cl' L' s' d' -> effect M cl L s d M' cl' L' s' d' ->
  incl M' M -> (forall b o, In o (cl' b) <-> In o (cl b) /\ In o M') -> good M cl s -> good M' cl' s'.
Proof.
  intros Iv Iv' Ef Inc Hcl (C & S & U). split; [|split].
  - intros o Ho. destruct (C o (Inc o Ho)) as (b & Hb). exists b. now apply Hcl.
  - intros o x' Ho E'. destruct (ef_frame _ _ _ _ _ _ _ _ _ _ Ef o (Inc o Ho) Ho) as (y & y' & Ey & Ey' & B).
    rewrite E' in Ey'. injection Ey' as <-. specialize (S o y (Inc o Ho) Ey). unfold l_strsize, body in *. injection B as -> -> _ ->. exact S.
  - intros p q x y Hp Hq Ex Ey Exy.
    destruct (ef_frame _ _ _ _ _ _ _ _ _ _ Ef p (Inc p Hp) Hp) as (a & a' & Ea & Ea' & _).
    destruct (ef_frame _ _ _ _ _ _ _ _ _ _ Ef q (Inc q Hq) Hq) as (b & b' & Eb & Eb' & _).
    rewrite Ex in Ea'. injection Ea' as <-. rewrite Ey in Eb'. injection Eb' as <-.
    apply (U p q a b); auto.
    rewrite <- (content_kept _ _ _ _ _ _ _ _ _ _ _ _ _ Iv Iv' Ef (Inc p Hp) Hp Ea Ex).
    now rewrite <- (content_kept _ _ _ _ _ _ _ _ _ _ _ _ _ Iv Iv' Ef (Inc q Hq) Hq Eb Ey).
Qed.

(** ** Storing and deleting *)
Lemma add_ref M cl L s d h : Inv M cl L s d -> may_store d s h ->
  exists s1, (if Z.land h 7 =? 4 then v_ref (Some s) h else Some s) = Some s1 /\
    SI alen M cl (addf (cnt (fl (d_rec d) L)) h) s1 /\ step M cl s M cl s1 /\
    srel M (cnt (fl (d_rec d) L)) s M (addf (cnt (fl (d_rec d) L)) h) s1.
Proof.
  intros Iv (_ & Hl & Hs). pose proof (iv_SI _ _ _ _ _ Iv) as H.
  destruct (Z.eqb_spec (Z.land h 7) 4) as [T | T].
  - pose proof (iv_full _ _ _ _ _ Iv _ (Hl T)) as Im. cbn [v_ref].
    destruct (SI_ref alen M cl _ s h H T Im) as (s1 & E1 & H1 & F1 & Sh1 & Out1 & Eh & Em & x & Ex & Ex1).
    exists s1. split; [exact E1|]. split; [exact H1|]. split.
    2:{ apply srel_same. intros g _. unfold hc, addf. rewrite (frame_extras M s s1 g F1). pose proof (hit_range h g). lia. }
    pose proof (step_refl _ _ _ _ _ H) as [B1 B2 B3 B4 B5 B6 B7]. split; auto.
    + intros o Ho. destruct (F1 o Ho) as (y & y' & Ey & Ey' & By). exists y, y'. repeat split; auto. intros Z0.
      destruct (Z.eq_dec o (decode_longstr_offset h)) as [-> | No].
      * rewrite Ex in Ey. rewrite Ex1 in Ey'. injection Ey as <-. injection Ey' as <-. cbn [l_ref with_ref] in Z0. lia.
      * unfold long_at in Ey, Ey'. rewrite Out1 in Ey' by assumption. rewrite Ey in Ey'. injection Ey' as <-. lia.
    + intros o Ho C. contradiction.
    + intros o No. apply Out1. intros ->. contradiction.
    + intros a. rewrite Sh1. now left.
  - exists s. split; [reflexivity|]. split; [|split; [apply (step_refl _ _ _ _ _ H)|]].
    2:{ apply srel_same. intros g _. unfold hc, addf. pose proof (hit_range h g). lia. }
    destruct (Z.eq_dec (Z.land h 7) 6) as [T6 | T6].
    + destruct (Hs T6) as (Lv & Nh & Nl). apply SI_add_short; auto.
      assert (Nz : h <> 0) by (intros ->; discriminate).
      rewrite (held_cnt _ _ _ _ _ h Iv) in Nh. rewrite (lang_cnt _ _ _ _ _ h Iv Nz) in Nl.
      pose proof (cnt_nonneg (fl (d_rec d) L) h). pose proof (cnt_nonneg (extras M s) h). unfold hc. lia.
    + apply (SI_ext _ _ _ _ _ _ H). intros g Tg. unfold addf. rewrite hit_diff; [lia|]. intros <-. destruct Tg; contradiction.
Qed.

Lemma free_one M cl f s h : SI alen M cl f s -> (tagged h -> 1 <= f h) ->
  exists M' cl' s', (if isptr h then v_free alen (Some s) h else Some s) = Some s' /\ SI alen M' cl' (subf f h) s' /\ step M cl s M' cl' s' /\
    srel M f s M' (subf f h) s'.
Proof.
  intros H Hf.
  assert (Dec : tagged h \/ ~ tagged h).
  { unfold tagged. destruct (Z.eq_dec (Z.land h 7) 4); [auto|]. destruct (Z.eq_dec (Z.land h 7) 6); [auto|]. right. tauto. }
  destruct Dec as [T | NT].
  - rewrite (isptr_str h T). cbn [v_free]. apply SI_free; auto. split; [unfold NEST; lia|]. intros _. right. unfold NEST. lia.
  - assert (Same : forall g, tagged g -> subf f h g = f g).
    { intros g Tg. unfold subf. rewrite hit_diff; [lia|]. intros <-. contradiction. }
    exists M, cl, s. split; [|split; [|split; [apply (step_refl _ _ _ _ _ H)|]]].
    + destruct (isptr h); [|reflexivity]. cbn [v_free free_field_encoffset NEST]. unfold tagged in NT.
      destruct (Z.eqb_spec (Z.land h 7) 4); [tauto|]. destruct (Z.eqb_spec (Z.land h 7) 6); [tauto|]. reflexivity.
    + apply (SI_ext _ _ _ _ _ _ H). exact Same.
    + apply srel_same. intros g Tg. unfold hc. rewrite (Same g (or_intror Tg)). lia.
Qed.

Lemma free_all : forall fs M cl f s, SI alen M cl f s -> (forall g, tagged g -> cnt fs g <= f g) ->
  exists M' cl' s', fold_left (fun v h => if isptr h then v_free alen v h else v) fs (Some s) = Some s' /\
    SI alen M' cl' (fun g => f g - cnt fs g) s' /\ step M cl s M' cl' s' /\ srel M f s M' (fun g => f g - cnt fs g) s'.
Proof.
  induction fs as [|h fs IH]; intros M cl f s H Hf; cbn [fold_left].
  - exists M, cl, s. split; [reflexivity|]. split; [|split; [apply (step_refl _ _ _ _ _ H)|]].
    + apply (SI_ext _ _ _ _ _ _ H). intros g _. change (cnt [] g) with 0. lia.
    + apply srel_same. intros g _. unfold hc. change (cnt [] g) with 0. lia.
  - destruct (free_one M cl f s h H) as (M1 & cl1 & s1 & E1 & H1 & S1 & R1).
    { intros T. pose proof (Hf h T) as C. rewrite cnt_cons, hit_same in C. pose proof (cnt_nonneg fs h). lia. }
    rewrite E1. destruct (IH M1 cl1 (subf f h) s1 H1) as (M2 & cl2 & s2 & E2 & H2 & S2 & R2).
    { intros g T. pose proof (Hf g T) as C. rewrite cnt_cons in C. unfold subf. lia. }
    exists M2, cl2, s2. split; [exact E2|]. split; [|split].
    + apply (SI_ext _ _ _ _ _ _ H2). intros g _. unfold subf. rewrite cnt_cons. lia.
    + apply (step_trans _ _ _ _ _ _ _ _ _ S1 S2). intros o x Ho. apply (SI_refnn _ _ _ _ _ _ _ H1).
      apply (st_incl _ _ _ _ _ _ S2), Ho.
    + intros g T C C'. apply (srel_trans _ _ _ _ _ _ _ _ _ _ _ R1 R2 S2 g T C).
      revert C'. unfold hc, subf. rewrite cnt_cons. lia.
Qed.

(** Gathering the parts after a step that stores or deletes. *)
Lemma step_gather M cl L s d M' cl' L' s' d' f' : Inv M cl L s d -> SI alen M' cl' f' s' -> step M cl s M' cl' s' ->
  srel M (cnt (fl (d_rec d) L)) s M' f' s' -> (forall g, tagged g -> cnt (fl (d_rec d') L') g = f' g) -> d_val d' = Some s' -> NoDup L' ->
  (forall o, d_rec d' o <> None <-> In o L') -> RI (d_rec d') ->
  Inv M' cl' L' s' d' /\ effect M cl L s d M' cl' L' s' d' /\ (good M cl s -> good M' cl' s').
Proof.
  intros Iv H' St Sr Ef Ev Nd Lv R'.
  assert (Iv' : Inv M' cl' L' s' d').
  { split; auto.
    - apply (SI_ext _ _ _ _ _ _ H'). exact Ef.
    - intros p Hp. destruct (in_dec Z.eq_dec p M') as [C | N]; [exact C|]. exfalso.
      destruct (in_dec Z.eq_dec p M) as [Im | Nm].
      + unfold long_at in Hp. rewrite (st_dead _ _ _ _ _ _ St p Im N) in Hp. congruence.
      + apply Nm, (iv_full _ _ _ _ _ Iv). unfold long_at in *. now rewrite (st_out _ _ _ _ _ _ St p Nm) in Hp. }
  assert (Ee : effect M cl L s d M' cl' L' s' d').
  { split.
    - intros o _ Ho. destruct (st_frame _ _ _ _ _ _ St o Ho) as (x & x' & ? & ? & ? & _). eauto.
    - intros a _. apply (st_short _ _ _ _ _ _ St).
    - intros g T C C'. apply (rel_of alen _ _ _ _ _ _ _ _ (iv_SI _ _ _ _ _ Iv) H' St Sr g T C).
      revert C'. unfold hc. rewrite (Ef g T). auto. }
  split; [exact Iv'|]. split; [exact Ee|].
  apply (good_shrink _ _ _ _ _ _ _ _ _ _ Iv Iv' Ee); [apply St|apply (st_cl _ _ _ _ _ _ St)].
Qed.

Lemma store_inv M cl L s d o r i data d' s1 : Inv M cl L s d -> d_rec d o = Some r -> field_ok r i = true ->
  may_store d s data -> RI (d_rec d') ->
  (forall p, data_of (d_rec d') p = if p =? o then Some (r_meta r, set_nth (r_fields r) (Z.to_nat i) data) else data_of (d_rec d) p) ->
  (if Z.land data 7 =? 4 then v_ref (Some s) data else Some s) = Some s1 ->
  d_val d' = (if isptr (field r i) then v_free alen (Some s1) (field r i) else Some s1) ->
  exists M' cl' s', Inv M' cl' L s' d' /\ effect M cl L s d M' cl' L s' d' /\ (good M cl s -> good M' cl' s').
Proof.
  intros Iv Eo F Ms R' D E1 Ev.
  destruct (add_ref _ _ _ _ _ _ Iv Ms) as (s1' & E1' & H1 & S1 & R1). rewrite E1 in E1'. injection E1' as <-.
  assert (Io : In o L) by (apply (iv_live _ _ _ _ _ Iv); congruence).
  assert (Fo : fields_at (d_rec d) o = r_fields r) by (unfold fields_at; now rewrite Eo).
  assert (Hi : (Z.to_nat i < length (r_fields r))%nat).
  { unfold field_ok, reclen in F. destruct (Z.ltb_spec i 0); [discriminate|].
    destruct (Z.leb_spec (Z.of_nat (length (r_fields r))) i); [discriminate|]. lia. }
  assert (Old : 1 <= cnt (fl (d_rec d) L) (field r i)).
  { assert (0 < cnt (fl (d_rec d) L) (field r i)); [|lia]. apply fl_in. exists o, r. repeat split; auto. unfold field. now apply nth_In. }
  destruct (free_one M cl _ s1 (field r i) H1) as (M2 & cl2 & s2 & E2 & H2 & S2 & R2).
  { intros _. unfold addf. pose proof (hit_range data (field r i)). lia. }
  rewrite E2 in Ev. exists M2, cl2, s2.
  assert (Ss : step M cl s M2 cl2 s2).
  { apply (step_trans _ _ _ _ _ _ _ _ _ S1 S2). intros p x Hp. apply (SI_refnn _ _ _ _ _ _ _ H1).
    apply (st_incl _ _ _ _ _ _ S2), Hp. }
  pose proof (srel_trans _ _ _ _ _ _ _ _ _ _ _ R1 R2 S2) as Sr.
  apply (step_gather M cl L s d M2 cl2 L s2 d' _ Iv H2 Ss Sr); auto.
  - intros g _. rewrite (fl_change (d_rec d) (d_rec d') o L g); auto.
    + assert (Fo' : fields_at (d_rec d') o = set_nth (r_fields r) (Z.to_nat i) data).
      { pose proof (D o) as Do. rewrite Z.eqb_refl in Do. unfold data_of, fields_at in *. destruct (d_rec d' o); [|discriminate].
        now injection Do as _ <-. }
      rewrite Fo, Fo', set_nth_cnt by exact Hi. unfold addf, subf, field. lia.
    + apply (iv_nd _ _ _ _ _ Iv).
    + intros p Np. apply data_fields. rewrite D. now destruct (Z.eqb_spec p o).
  - apply (iv_nd _ _ _ _ _ Iv).
  - intros p. rewrite <- (iv_live _ _ _ _ _ Iv p). pose proof (D p) as Dp. destruct (Z.eqb_spec p o) as [Ep | Np]; [rewrite Ep in *; clear Ep|].
    + unfold data_of in Dp. destruct (d_rec d' o); [|discriminate]. rewrite Eo. split; congruence.
    + now apply data_live.
Qed.

(** Steps that leave the fields alone. *)
Lemma same_fields M cl L s d d' : Inv M cl L s d -> d_val d' = Some s -> RI (d_rec d') ->
  (forall p, fields_at (d_rec d') p = fields_at (d_rec d) p) -> (forall p, d_rec d' p <> None <-> d_rec d p <> None) ->
  exists M' cl' L' s', Inv M' cl' L' s' d' /\ effect M cl L s d M' cl' L' s' d' /\ (good M cl s -> good M' cl' s').
Proof.
  intros Iv Ev R' F Lv. exists M, cl, L, s.
  apply (step_gather M cl L s d M cl L s d' (cnt (fl (d_rec d) L)) Iv); auto.
  - apply Iv.
  - apply (step_refl _ _ _ _ _ (iv_SI _ _ _ _ _ Iv)).
  - apply srel_same. intros g _. apply Z.le_refl.
  - intros g _. now apply fl_ext.
  - apply (iv_nd _ _ _ _ _ Iv).
  - intros p. rewrite Lv. apply (iv_live _ _ _ _ _ Iv).
Qed.
Lemma new_record M cl L s d o n d' : Inv M cl L s d -> is_record_ref o = true -> d_rec d o = None ->
  d_rec d' = rput (d_rec d) o (Some (Rec 0 (repeat 0 n) [])) -> d_val d' = Some s ->
  exists M' cl' L' s', Inv M' cl' L' s' d' /\ effect M cl L s d M' cl' L' s' d' /\ (good M cl s -> good M' cl' s').
Proof.
  intros Iv Ro Eo Er Ev. exists M, cl, (o :: L), s.
  assert (No : ~ In o L) by (intros C; apply (iv_live _ _ _ _ _ Iv) in C; congruence).
  apply (step_gather M cl L s d M cl (o :: L) s d' (cnt (fl (d_rec d) L)) Iv); auto.
  - apply Iv.
  - apply (step_refl _ _ _ _ _ (iv_SI _ _ _ _ _ Iv)).
  - apply srel_same. intros g _. apply Z.le_refl.
  - intros g T. cbn [fl flat_map]. fold (fl (d_rec d') L). rewrite cnt_app.
    assert (Z0 : cnt (fields_at (d_rec d') o) g = 0).
    { unfold fields_at. rewrite Er, rput_same. cbn [r_fields]. assert (g <> 0) by (intros ->; destruct T; discriminate).
      clear - H. induction n as [|n IH]; cbn [repeat]; [reflexivity|]. rewrite cnt_cons, IH, hit_diff; auto. }
    rewrite Z0, Z.add_0_l. apply fl_ext. intros p Hp. unfold fields_at. rewrite Er, rput_other; [reflexivity|]. intros ->. contradiction.
  - constructor; [exact No|apply (iv_nd _ _ _ _ _ Iv)].
  - intros p. rewrite Er. cbn [In]. rewrite <- (iv_live _ _ _ _ _ Iv p). destruct (Z.eq_dec p o) as [-> | Np].
    + rewrite rput_same. split; [auto|congruence].
    + rewrite rput_other by assumption. split; [auto|]. intros [C | C]; congruence.
  - rewrite Er. apply RI_create; auto. apply Iv.
Qed.

(** ** Making strings *)
Lemma made_inv M cl L s d M' cl' s' : Inv M cl L s d -> SI alen M' cl' (cnt (fl (d_rec d) L)) s' -> grow M s M' s' ->
  Inv M' cl' L s' (RDB (d_rec d) (d_ix d) (Some s')) /\
  effect M cl L s d M' cl' L s' (RDB (d_rec d) (d_ix d) (Some s')).
Proof.
  intros Iv H' G. split.
  - split; cbn [d_val d_rec]; auto; try apply Iv. apply (g_full _ _ _ _ G). apply Iv.
  - split; cbn [d_rec].
    + intros o Ho _. destruct (g_obj _ _ _ _ G o Ho) as (x & x' & ? & ? & ? & _). eauto.
    + intros a Ha. left. now apply (g_short _ _ _ _ G).
    + intros g T C C'. exfalso. unfold hc in C, C'.
      pose proof (cnt_nonneg (fl (d_rec d) L) g). pose proof (cnt_nonneg (extras M' s') g).
      assert (Cx : 0 < cnt (extras M s) g) by lia. apply cnt_in in Cx. unfold extras in Cx. apply in_map_iff in Cx.
      destruct Cx as (p & Ep & Ip). assert (0 < cnt (extras M' s') g); [|lia].
      apply cnt_in, in_map_iff. exists p. split; [|now apply (g_incl _ _ _ _ G)].
      rewrite <- Ep. apply (frame_extra M); [|exact Ip]. now apply grow_frame in G.
Qed.

Lemma unistr_made M cl L s d str lang type o eo : Inv M cl L s d -> In type [WG_STRTYPE; WG_XMLLITERALTYPE; WG_URITYPE] -> cstring str ->
  str_mem s str lang type o -> extra_args s lang o eo ->
  exists M' cl' s' h, wg_encode_unistr alen s str lang type o eo = Some (s', h) /\
    SI alen M' cl' (cnt (fl (d_rec d) L)) s' /\ grow M s M' s' /\
    ((h = WG_ILLEGAL /\ (o = 0 \/ (lang <> None /\ eo = 0))) \/ result_ok M' s' h (str ++ [0]) lang type \/
     (lang = None /\ type = WG_STRTYPE /\ zlen str < SHORTSTR_SIZE /\ Z.land h 7 = 6 /\
      exists c, s_short s' (decode_shortstr_offset h) = Some c /\ cstr c = str /\ s_short s (decode_shortstr_offset h) = None)) /\
    (good M cl s -> zlen (str ++ [0]) < 2 ^ 31 -> apart alen (str ++ [0]) lang -> good M' cl' s').
Proof.
  intros Iv Ty Cs Mm Ex. pose proof (iv_SI _ _ _ _ _ Iv) as H. unfold wg_encode_unistr, encode_unistr, str_mem in *.
  destruct ((match lang with None => true | Some _ => false end) && (type =? WG_STRTYPE) && (zlen str <? SHORTSTR_SIZE)) eqn:K.
  - apply andb_prop in K. destruct K as (K & K3). apply andb_prop in K. destruct K as (K1 & K2).
    destruct lang; [discriminate|]. apply Z.eqb_eq in K2. apply Z.ltb_lt in K3. unfold new_short.
    destruct (Z.eqb_spec o 0) as [-> | No].
    + exists M, cl, s, WG_ILLEGAL. split; [reflexivity|]. split; [exact H|]. split; [apply (grow_refl _ _ _ _ _ H)|]. auto.
    + destruct Mm as [C | (Po & Mo & Eo)]; [contradiction|].
      set (c := str ++ repeat 0 (Z.to_nat (SHORTSTR_SIZE - zlen str))).
      destruct (SI_new_short alen M cl _ s o c H Mo Eo) as (H1 & G1 & _). destruct (enc_short o Mo) as (Dn & T).
      exists M, cl, (set_short s o (Some c)), (encode_shortstr_offset o). split; [reflexivity|]. split; [exact H1|]. split; [exact G1|].
      split; [|intros Gd _ _; exact (good_grow alen M cl _ s _ H G1 Gd)].
      right. right. split; [reflexivity|]. split; [exact K2|]. split; [exact K3|]. split; [exact T|].
      rewrite Dn. exists c. cbn [set_short s_short]. rewrite Z.eqb_refl. split; [reflexivity|]. split; [|exact Eo].
      unfold c. assert (Zs : exists k, Z.to_nat (SHORTSTR_SIZE - zlen str) = S k).
      { exists (Z.to_nat (SHORTSTR_SIZE - zlen str - 1)). lia. }
      destruct Zs as (k & ->). cbn [repeat]. now apply cstr_app.
  - assert (Tr : 0 <= type < 256).
    { cbn [In] in Ty. unfold WG_STRTYPE, WG_XMLLITERALTYPE, WG_URITYPE in Ty. lia. }
    destruct (create_any alen eo M cl _ s (str ++ [0]) lang type o H Tr Mm Ex) as (M' & cl' & s' & r & E & H' & G & R & Gd).
    rewrite E. exists M', cl', s', (if r =? 0 then WG_ILLEGAL else encode_longstr_offset r). split; [reflexivity|]. split; [exact H'|].
    split; [exact G|]. split; [|exact Gd]. destruct R as [(-> & Zo) | R]; [left; auto|].
    destruct R as (p & x & Ip & -> & R). destruct (si_obj _ _ _ _ _ H' p Ip) as (Pp & Mp & _).
    destruct (Z.eqb_spec (encode_longstr_offset p) 0) as [C | _]; [now apply enc_long_nz in C|]. rewrite enc_long_idem by assumption.
    right. left. exists p, x. auto.
Qed.
Lemma blob_made M cl L s d data lang o eo : Inv M cl L s d -> block_ok s o -> extra_args s lang o eo ->
  exists M' cl' s' h, wg_encode_uniblob alen s data lang WG_BLOBTYPE o eo = Some (s', h) /\
    SI alen M' cl' (cnt (fl (d_rec d) L)) s' /\ grow M s M' s' /\
    ((h = WG_ILLEGAL /\ (o = 0 \/ (lang <> None /\ eo = 0))) \/ result_ok M' s' h data lang WG_BLOBTYPE) /\
    (good M cl s -> zlen data < 2 ^ 31 -> apart alen data lang -> good M' cl' s').
Proof.
  intros Iv Mm Ex. pose proof (iv_SI _ _ _ _ _ Iv) as H. unfold wg_encode_uniblob.
  destruct (create_any alen eo M cl _ s data lang WG_BLOBTYPE o H ltac:(unfold WG_BLOBTYPE; lia) Mm Ex) as (M' & cl' & s' & r & E & H' & G & R & Gd).
  rewrite E. exists M', cl', s', (if r =? 0 then WG_ILLEGAL else encode_longstr_offset r). split; [reflexivity|]. split; [exact H'|].
  split; [exact G|]. split; [|exact Gd]. destruct R as [(-> & Zo) | R]; [left; auto|].
  destruct R as (p & x & Ip & -> & R). destruct (si_obj _ _ _ _ _ H' p Ip) as (Pp & Mp & _).
  destruct (Z.eqb_spec (encode_longstr_offset p) 0) as [C | _]; [now apply enc_long_nz in C|]. rewrite enc_long_idem by assumption.
  right. exists p, x. auto.
Qed.

Lemma freed_inv M cl L s d h : Inv M cl L s d -> may_free d s h ->
  exists M' cl' s', wg_free_encoded alen s h = Some s' /\ Inv M' cl' L s' (RDB (d_rec d) (d_ix d) (Some s')) /\
   effect M cl L s d M' cl' L s' (RDB (d_rec d) (d_ix d) (Some s')) /\ (good M cl s -> good M' cl' s') /\ incl M' M /\
   rel M (addf (cnt (fl (d_rec d) L)) h) s M' (cnt (fl (d_rec d) L)) s'.
Proof.
  intros Iv (Hl & Hs).
  destruct (SI_free_encoded alen M cl (cnt (fl (d_rec d) L)) s h) as (M' & cl' & s' & E & H' & Inc & Hcl & Fr & Dead & Out & Sh & Rl); auto; try apply Iv.
  { intros T. destruct (Hs T) as (Lv & Nh & Nl). split; [exact Lv|]. assert (Nz : h <> 0) by (intros ->; discriminate).
    rewrite (held_cnt _ _ _ _ _ h Iv) in Nh. rewrite (lang_cnt _ _ _ _ _ h Iv Nz) in Nl.
    pose proof (cnt_nonneg (fl (d_rec d) L) h). pose proof (cnt_nonneg (extras M s) h). unfold hc. lia. }
  exists M', cl', s'. split; [exact E|].
  assert (Iv' : Inv M' cl' L s' (RDB (d_rec d) (d_ix d) (Some s'))).
  { split; cbn [d_val d_rec]; auto; try apply Iv.
    intros p Hp. destruct (in_dec Z.eq_dec p M') as [C | N]; [exact C|]. exfalso.
    destruct (in_dec Z.eq_dec p M) as [Im | Nm].
    - unfold long_at in Hp. rewrite (Dead p Im N) in Hp. congruence.
    - apply Nm, (iv_full _ _ _ _ _ Iv). unfold long_at in *. now rewrite (Out p Nm) in Hp. }
  assert (Ee : effect M cl L s d M' cl' L s' (RDB (d_rec d) (d_ix d) (Some s'))).
  { split; cbn [d_rec]; auto. intros g T C C'. apply Rl; auto. unfold hc, addf in *. pose proof (hit_range h g). lia. }
  split; [exact Iv'|]. split; [exact Ee|]. split; [now apply (good_shrink _ _ _ _ _ _ _ _ _ _ Iv Iv' Ee)|]. split; [exact Inc|exact Rl].
Qed.

(** ** Every step *)
Lemma sstep_inv allow M cl L s d d' : Inv M cl L s d -> sstep allow d d' ->
  exists M' cl' L' s', Inv M' cl' L' s' d' /\ effect M cl L s d M' cl' L' s' d' /\ (restrict allow -> good M cl s -> good M' cl' s').
Proof.
  intros Iv St. pose proof (iv_RI _ _ _ _ _ Iv) as R. pose proof (iv_val _ _ _ _ _ Iv) as Ev0.
  assert (K : (exists M' cl' L' s', Inv M' cl' L' s' d' /\ effect M cl L s d M' cl' L' s' d' /\ (good M cl s -> good M' cl' s')) ->
    exists M' cl' L' s', Inv M' cl' L' s' d' /\ effect M cl L s d M' cl' L' s' d' /\ (restrict allow -> good M cl s -> good M' cl' s')).
  { intros (M' & cl' & L' & s' & A1 & A2 & A3). exists M', cl', L', s'. auto. }
  assert (Same : forall d1, d1 = d -> exists M' cl' L' s', Inv M' cl' L' s' d1 /\ effect M cl L s d M' cl' L' s' d1 /\ (good M cl s -> good M' cl' s')).
  { intros d1 ->. apply (same_fields M cl L s d d); auto; reflexivity. }
  destruct St as [d len o d' x Ro Eo E|d len o d' x Ro Eo E|d s1 o i data cell d' c Ev Ms E N|d s1 o i data cell d' c Ev Ms E N
    |d o freed d' c E N|d o r meta E|d ix|d s1 str lang type o eo s' h Ev Ty Cs Mm Ex Al E|d s1 data lang o eo s' h Ev Mm Ex Al E|d s1 h s' Ev Mf E].
  - apply K. unfold wg_create_raw_record in E. destruct (len <? 0); [injection E as <- <-; now apply Same|].
    destruct (o =? 0); injection E as <- <-; [now apply Same|].
    apply (new_record M cl L s d o (Z.to_nat len)); auto.
  - apply K. unfold wg_create_record, wg_create_raw_record in E.
    destruct (len <? 0); [cbn in E; injection E as <- <-; now apply Same|].
    destruct (o =? 0) eqn:Ez; [cbn in E; injection E as <- <-; now apply Same|]. rewrite Ez in E.
    destruct (ix_add_rec _ _ _ _) as [[ix c]|]; [|discriminate]. injection E as <- <-.
    apply (new_record M cl L s d o (Z.to_nat len)); auto.
  - apply K. rewrite Ev in Ev0. injection Ev0 as ->.
    destruct (set_field_cases _ _ _ _ _ _ d o i data cell d' c R (proj1 Ms) E N) as (r & Er & [(D & Vd) | (F & D & Vd)]).
    + apply (same_fields M cl L s d d'); auto; [congruence| | |].
      * now apply (set_field_RI ix_any ix_tab ix_add_field ix_del_field v_ref (v_free alen) d o i data cell d' c R (proj1 Ms) E N).
      * intros p. apply data_fields, D.
      * intros p. apply data_live, D.
    + rewrite Ev in Vd. cbv zeta in Vd.
      destruct (add_ref _ _ _ _ _ _ Iv Ms) as (s1 & E1 & _). rewrite E1 in Vd.
      destruct (store_inv M cl L s d o r i data d' s1 Iv Er F Ms) as (M' & cl' & s' & A1 & A2 & A3); auto.
      * now apply (set_field_RI ix_any ix_tab ix_add_field ix_del_field v_ref (v_free alen) d o i data cell d' c R (proj1 Ms) E N).
      * exists M', cl', L, s'. auto.
  - apply K. rewrite Ev in Ev0. injection Ev0 as ->.
    destruct (set_new_field_cases _ _ _ _ d o i data cell d' c R (proj1 Ms) E N) as (r & Er & [Ed | (F & Fz & D & Vd)]).
    + now apply Same.
    + rewrite Ev in Vd.
      destruct (add_ref _ _ _ _ _ _ Iv Ms) as (s1 & E1 & _). rewrite E1 in Vd.
      destruct (store_inv M cl L s d o r i data d' s1 Iv Er F Ms) as (M' & cl' & s' & A1 & A2 & A3); auto.
      * now apply (set_new_field_RI ix_any ix_tab ix_add_field v_ref d o i data cell d' c R (proj1 Ms) E N).
      * rewrite Fz. exact Vd.
      * exists M', cl', L, s'. auto.
  - apply K. destruct (delete_cases ix_del_rec (v_free alen) d o freed d' c R E N) as (r & Er & [Ed | (D & Vd)]); [now apply Same|].
    rewrite Ev0 in Vd. pose proof (iv_SI _ _ _ _ _ Iv) as H.
    assert (Io : In o L) by (apply (iv_live _ _ _ _ _ Iv); congruence).
    assert (Fo : fields_at (d_rec d) o = r_fields r) by (unfold fields_at; now rewrite Er).
    pose proof (iv_nd _ _ _ _ _ Iv) as Nd.
    destruct (free_all (r_fields r) M cl _ s H) as (M' & cl' & s' & E' & H' & St & Sr).
    { intros g _. pose proof (fl_rem (d_rec d) o L g Nd Io) as C. rewrite Fo in C. pose proof (cnt_nonneg (fl (d_rec d) (remz o L)) g). lia. }
    rewrite E' in Vd. exists M', cl', (remz o L), s'.
    apply (step_gather M cl L s d M' cl' (remz o L) s' d' _ Iv H' St Sr); auto.
    + intros g _. rewrite <- Fo, <- (fl_rem (d_rec d) o L g Nd Io). apply fl_ext. intros p Hp. apply remz_in in Hp.
      apply data_fields. rewrite D. destruct (Z.eqb_spec p o); [now destruct Hp|reflexivity].
    + now apply remz_nd.
    + intros p. rewrite remz_in, <- (iv_live _ _ _ _ _ Iv p). pose proof (D p) as Dp. destruct (Z.eqb_spec p o) as [Ep | Np]; [rewrite Ep in *; clear Ep|].
      * unfold data_of in Dp. destruct (d_rec d' o); [discriminate|]. split; [congruence|tauto].
      * rewrite (data_live _ _ _ Dp). tauto.
    + clear - R E N. unfold wg_delete_record in E. destruct (d_rec d o) as [r|] eqn:Eo; [|discriminate].
      destruct (r_back r) as [|b bs] eqn:Eb; [|injection E as <- <-; assumption].
      destruct (if is_special_record r then _ else _) as [[ix c1]|]; [|discriminate].
      destruct (c1 <? -1). { injection E as <- <-. contradiction. }
      destruct (delete_ok (v_free alen) (d_rec d) (d_val d) o r R Eo Eb) as (m' & v' & E' & D & RI').
      rewrite E' in E. change (negb (0 =? 0)) with false in E. destruct freed; injection E as <- <-; [exact RI'|contradiction].
  - apply K. apply (same_fields M cl L s d); auto; cbn [d_rec].
    + destruct R as (H1 & H2). split.
      * intros x Hx. apply H1. destruct (Z.eq_dec x o) as [-> | Nx]; [congruence|]. now rewrite rput_other in Hx.
      * intros c p Hc. specialize (H2 c p Hc). unfold backs, refs in *.
        destruct (Z.eq_dec c o) as [-> | Nc], (Z.eq_dec p o) as [-> | Np];
          rewrite ?rput_same, ?(rput_other _ o _ _ Np), ?(rput_other _ o _ _ Nc); cbn [r_back r_fields];
          rewrite ?E in H2; exact H2.
    + intros p. unfold fields_at. destruct (Z.eq_dec p o) as [-> | Np]; [now rewrite rput_same, E|now rewrite rput_other].
    + intros p. destruct (Z.eq_dec p o) as [-> | Np]; [rewrite rput_same, E; split; congruence|now rewrite rput_other].
  - apply K. apply (same_fields M cl L s d); auto; reflexivity.
  - rewrite Ev in Ev0. injection Ev0 as ->.
    destruct (unistr_made _ _ _ _ _ _ _ _ _ _ Iv Ty Cs Mm Ex) as (M' & cl' & s2 & h2 & E2 & H2 & G2 & _ & Gd).
    rewrite E in E2. injection E2 as <- <-. destruct (made_inv _ _ _ _ _ _ _ _ Iv H2 G2) as (A1 & A2).
    exists M', cl', L, s'. split; [exact A1|]. split; [exact A2|]. intros Re G. destruct (Re _ _ Al). auto.
  - rewrite Ev in Ev0. injection Ev0 as ->.
    destruct (blob_made _ _ _ _ _ data _ _ _ Iv Mm Ex) as (M' & cl' & s2 & h2 & E2 & H2 & G2 & _ & Gd).
    rewrite E in E2. injection E2 as <- <-. destruct (made_inv _ _ _ _ _ _ _ _ Iv H2 G2) as (A1 & A2).
    exists M', cl', L, s'. split; [exact A1|]. split; [exact A2|]. intros Re G. destruct (Re _ _ Al). auto.
  - apply K. rewrite Ev in Ev0. injection Ev0 as ->.
    destruct (freed_inv _ _ _ _ _ _ Iv Mf) as (M' & cl' & s2 & E2 & A1 & A2 & A3 & _). rewrite E in E2. injection E2 as <-.
    exists M', cl', L, s'. auto.
Qed.

Lemma init_inv ix : Inv [] (fun _ => []) [] s_init (RDB (fun _ => None) ix (Some s_init)).
Proof.
  split; cbn [d_val d_rec]; auto.
  - constructor.
  - intros o. split; [congruence|intros []].
  - split; [congruence|]. intros c p _. reflexivity.
  - split.
    + constructor.
    + apply Nat.le_refl.
    + intros o [].
    + intros g _. apply cnt_nonneg.
    + intros g _ C. exfalso. revert C. apply Z.lt_irrefl.
    + intros g _. split; [discriminate|]. intros C. exfalso. revert C. apply Z.lt_irrefl.
    + intros b. split; [reflexivity|]. split; [constructor|]. intros o [].
    + intros b o [].
  - intros p C. now destruct C.
Qed.
Lemma sreach_inv allow d : sreach allow d -> exists M cl L s, Inv M cl L s d /\ (restrict allow -> good M cl s).
Proof.
  induction 1 as [ix|d d' R (M & cl & L & s & Iv & Gd) St].
  - exists [], (fun _ => []), [], s_init. split; [apply init_inv|]. intros _. split; [intros o []|]. split; [intros o x []|intros p q x y []].
  - destruct (sstep_inv allow M cl L s d d' Iv St) as (M' & cl' & L' & s' & Iv' & _ & Gd'). exists M', cl', L', s'. auto.
Qed.
End Hist.
