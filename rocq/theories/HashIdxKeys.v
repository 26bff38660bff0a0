(** When the key of values tells them apart as the comparison does. *)
From Coq Require Import ZArith List Bool Lia Floats.SpecFloat.
From Verif Require Import Base EncodingModel EncodingProofs CompareModel CompareProofs CompareProps FixpModel FixpProofs FixpProps HashIdxModel HashIdxProofs HashIdxRows.
Import ListNotations.
Open Scope Z_scope.
#[local] Ltac Zify.zify_post_hook ::= idtac.

Lemma lebytes_length n : forall v, length (lebytes n v) = n.
Proof. induction n; intros; cbn [lebytes length]; auto. Qed.
Lemma lebytes_inj n : forall v w, lebytes n v = lebytes n w <-> v mod 256 ^ Z.of_nat n = w mod 256 ^ Z.of_nat n.
Proof.
  induction n as [|n IH]; intros v w; cbn [lebytes].
  - change (256 ^ Z.of_nat 0) with 1. rewrite !Z.mod_1_r. tauto.
  - rewrite Nat2Z.inj_succ, Z.pow_succ_r by lia. assert (0 < 256 ^ Z.of_nat n) by (apply Z.pow_pos_nonneg; lia).
    rewrite !(Z.rem_mul_r _ 256) by lia. specialize (IH (v / 256) (w / 256)).
    pose proof (Z.mod_pos_bound v 256 ltac:(lia)). pose proof (Z.mod_pos_bound w 256 ltac:(lia)).
    split.
    + intros E. injection E as E1 E2. apply IH in E2. rewrite E1, E2. reflexivity.
    + intros E. assert (v mod 256 = w mod 256 /\ (v / 256) mod 256 ^ Z.of_nat n = (w / 256) mod 256 ^ Z.of_nat n) as (E1 & E2) by lia.
      rewrite E1. f_equal. now apply IH.
Qed.
Lemma le4_inj v w : is32 v -> is32 w -> lebytes 4 v = lebytes 4 w <-> v = w.
Proof.
  intros Hv Hw. rewrite lebytes_inj. change (256 ^ Z.of_nat 4) with (2 ^ 32). split; [|congruence]. intros E.
  unfold is32 in *. change (2 ^ 31) with 2147483648 in *. change (2 ^ 32) with 4294967296 in *.
  pose proof (Z.div_mod v 4294967296). pose proof (Z.div_mod w 4294967296). lia.
Qed.
Lemma le8_inj v w : 0 <= v < 2 ^ 64 -> 0 <= w < 2 ^ 64 -> lebytes 8 v = lebytes 8 w <-> v = w.
Proof.
  intros Hv Hw. rewrite lebytes_inj. change (256 ^ Z.of_nat 8) with (2 ^ 64). rewrite !Z.mod_small by assumption. tauto.
Qed.

(** Values whose bytes stand for their content: made by an encoder and of a hashable type
    other than record, no NaN and no -0.0, ints and variables in the range of a 32-bit int, no
    0 byte inside a string, no empty prefix or xsd type. *)
Record canon (s : cstate) (t e : Z) : Prop := {
  cn_st : storable s t e;
  cn_ty : t <> WG_RECORDTYPE /\ t <> WG_BLOBTYPE /\ t <> WG_ANONCONSTTYPE;
  cn_int : t = WG_INTTYPE -> is32 (wg_decode_int s e);
  cn_var : t = WG_VARTYPE -> is32 (wg_decode_var e);
  cn_zero : t = WG_DOUBLETYPE -> wg_decode_double s e <> 2 ^ 63;
  cn_str : t = WG_STRTYPE \/ t = WG_URITYPE \/ t = WG_XMLLITERALTYPE -> wg_decode_unistr_len s e = Z.of_nat (length (text s e));
  cn_extra : t = WG_URITYPE \/ t = WG_XMLLITERALTYPE -> forall p, wg_decode_unistr_lang s e = Some p -> cstring s p <> [] }.

Lemma cstr_bytes s : forall fuel a, cstr fuel s a = bytes_at s a (Z.of_nat (length (cstr fuel s a))) /\ ~ In 0 (cstr fuel s a).
Proof.
  induction fuel as [|f IH]; intros a; cbn [cstr]; [cbn; tauto|].
  destruct (Z.eqb_spec (byte_at s a) 0) as [|N]; [cbn; tauto|]. destruct (IH (a + 1)) as (E & Z0). split.
  - rewrite E at 1. unfold bytes_at. cbn [length]. rewrite !Nat2Z.id. cbn [seq map]. rewrite Z.add_0_r. f_equal.
    rewrite <- seq_shift, map_map. apply map_ext. intros i. f_equal. lia.
  - intros [Q | Q]; [congruence|now apply Z0].
Qed.
Lemma text_nozero s e : ~ In 0 (text s e).
Proof. unfold text, ostring. destruct (wg_decode_unistr e); [|tauto]. unfold cstring. apply cstr_bytes. Qed.
Lemma strbytes_text s e : wg_decode_unistr_len s e = Z.of_nat (length (text s e)) -> strbytes s e = text s e.
Proof.
  intros H. unfold strbytes, text, ostring in *. destruct (wg_decode_unistr e) as [p|]; [|reflexivity].
  rewrite H. symmetry. unfold cstring. apply (proj1 (cstr_bytes s _ p)).
Qed.

(** The bytes of a value after its type. *)
Definition payload (s : cstate) (t e : Z) : list Z :=
  match t with
  | 1 => lebytes 8 0
  | 3 => lebytes 4 (wg_decode_int s e)
  | 4 => lebytes 8 (wg_decode_double s e)
  | 5 => text s e
  | 6 | 7 => concat_for_hashing s e (text s e)
  | 9 => lebytes 4 (wg_decode_char e)
  | 10 => lebytes 8 (bits_of_double (ddecode_fixpoint e))
  | 11 => lebytes 4 (wg_decode_date e)
  | 12 => lebytes 4 (wg_decode_time e)
  | _ => lebytes 4 (wg_decode_var e)
  end.
Lemma canon_cases s t e : canon s t e -> In t [1; 3; 4; 5; 6; 7; 9; 10; 11; 12; 14].
Proof.
  intros Hc. pose proof (produced_ty _ _ _ (st_prod _ _ _ (cn_st _ _ _ Hc))). destruct (cn_ty _ _ _ Hc) as (A & B & C).
  unfold WG_RECORDTYPE, WG_BLOBTYPE, WG_ANONCONSTTYPE in *. cbn [In]. lia.
Qed.
Lemma canon_bytes s t e : canon s t e -> wg_decode_for_hashing s e = Some (t :: payload s t e).
Proof.
  intros Hc. pose proof (storable_type _ _ _ (cn_st _ _ _ Hc)) as T. unfold wg_decode_for_hashing. rewrite T.
  pose proof (canon_cases _ _ _ Hc) as I. pose proof (cn_str _ _ _ Hc) as Hs. cbn [In] in I.
  destruct I as [<-|[<-|[<-|[<-|[<-|[<-|[<-|[<-|[<-|[<-|[<-|[]]]]]]]]]]]]; try reflexivity.
  - change (Some (5 :: strbytes s e) = Some (5 :: text s e)). now rewrite strbytes_text by (apply Hs; now left).
  - change (Some (6 :: concat_for_hashing s e (strbytes s e)) = Some (6 :: concat_for_hashing s e (text s e))). now rewrite strbytes_text by (apply Hs; right; now right).
  - change (Some (7 :: concat_for_hashing s e (strbytes s e)) = Some (7 :: concat_for_hashing s e (text s e))). now rewrite strbytes_text by (apply Hs; right; now left).
Qed.

(** ** Splitting at 0 bytes *)
Lemma zsplit (x y r r' : list Z) : ~ In 0 x -> ~ In 0 y -> x ++ 0 :: r = y ++ 0 :: r' -> x = y /\ r = r'.
Proof.
  revert y. induction x as [|a x IH]; intros [|b y] Nx Ny E; cbn [app] in E.
  - injection E as E. auto.
  - injection E as E1 E2. exfalso. apply Ny. now left.
  - injection E as E1 E2. exfalso. apply Nx. now left.
  - injection E as -> E. destruct (IH y) as (-> & ->); auto; intros Q; [apply Nx|apply Ny]; now right.
Qed.
Lemma zapp (x y : list Z) r : ~ In 0 y -> x ++ 0 :: r <> y.
Proof. intros N E. apply N. rewrite <- E. apply in_or_app. right. now left. Qed.

Lemma concat_cases s e : concat_for_hashing s e (text s e) = text s e /\ wg_decode_unistr_lang s e = None \/
  concat_for_hashing s e (text s e) = extra s e ++ 0 :: text s e /\ wg_decode_unistr_lang s e <> None /\ ~ In 0 (extra s e).
Proof.
  unfold concat_for_hashing, extra. destruct (wg_decode_unistr_lang s e) as [p|]; [right|left; auto].
  split; [reflexivity|]. split; [discriminate|]. apply cstr_bytes.
Qed.

(** A value that can stand in front of another one: a URI or XML literal with a prefix or type
    does not begin with one of the bytes 1 to 14. *)
Definition separable (s : cstate) (t e : Z) : Prop :=
  t = WG_URITYPE \/ t = WG_XMLLITERALTYPE -> wg_decode_unistr_lang s e <> None -> ~ 1 <= hd 0 (text s e) <= 14.

(** What follows a value in a key. *)
Definition tail_ok (r : list Z) : Prop := exists u r', r = 0 :: u :: r' /\ 1 <= u <= 14.

Lemma field_split s a b t t' r r' : canon s t a -> canon s t' b -> separable s t a -> separable s t' b -> tail_ok r -> tail_ok r' ->
  (t :: payload s t a) ++ r = (t' :: payload s t' b) ++ r' -> t :: payload s t a = t' :: payload s t' b /\ r = r'.
Proof.
  intros Ha Hb Sa Sb (u & q & -> & U) (u' & q' & -> & U') E. cbn [app] in E. injection E as -> E. rename t' into t.
  assert (Fix : length (payload s t a) = length (payload s t b) -> t :: payload s t a = t :: payload s t b /\ 0 :: u :: q = 0 :: u' :: q').
  { intros L. assert (payload s t a = payload s t b /\ 0 :: u :: q = 0 :: u' :: q') as (-> & ->); [|auto].
    clear - L E. revert L E. generalize (payload s t b). induction (payload s t a) as [|x l IH]; intros [|y l'] L E; cbn in *; try lia; auto.
    injection E as -> E. destruct (IH l' ltac:(lia) E) as (-> & Q). auto. }
  pose proof (canon_cases _ _ _ Ha) as I. cbn [In] in I.
  assert (Ux : 6 = t \/ 7 = t -> t :: payload s t a = t :: payload s t b /\ 0 :: u :: q = 0 :: u' :: q').
  { intros T. assert (P : forall e, payload s t e = concat_for_hashing s e (text s e)) by (intros; destruct T as [<- | <-]; reflexivity).
    rewrite !P in *. assert (T' : t = WG_URITYPE \/ t = WG_XMLLITERALTYPE) by (destruct T as [<- | <-]; [right|left]; reflexivity).
    specialize (Sa T'). specialize (Sb T'). pose proof (text_nozero s a) as Za. pose proof (text_nozero s b) as Zb.
    destruct (concat_cases s a) as [(A & La) | (A & La & Xa)]; destruct (concat_cases s b) as [(B & Lb) | (B & Lb & Xb)]; rewrite A, B in *.
    - destruct (zsplit _ _ _ _ Za Zb E) as (-> & ->). auto.
    - exfalso. rewrite <- app_assoc in E. cbn [app] in E. destruct (zsplit _ _ _ _ Za Xb E) as (_ & Q).
      destruct (text s b) as [|y l]; cbn [app hd] in *; injection Q as Q; [lia|]. apply (Sb Lb). lia.
    - exfalso. rewrite <- app_assoc in E. cbn [app] in E. destruct (zsplit _ _ _ _ Xa Zb E) as (_ & Q).
      destruct (text s a) as [|y l]; cbn [app hd] in *; injection Q as Q; [lia|]. apply (Sa La). lia.
    - rewrite <- !app_assoc in E. cbn [app] in E. destruct (zsplit _ _ _ _ Xa Xb E) as (-> & Q).
      destruct (zsplit _ _ _ _ Za Zb Q) as (-> & ->). auto. }
  destruct I as [<-|[<-|[<-|[<-|[<-|[<-|[<-|[<-|[<-|[<-|[<-|[]]]]]]]]]]]]; try (apply Fix; cbn [payload]; now rewrite ?lebytes_length); try (apply Ux; auto; fail).
  cbn [payload] in *. destruct (zsplit _ _ _ _ (text_nozero s a) (text_nozero s b) E) as (-> & ->). auto.
Qed.

(** ** Equal bytes and the comparison *)
Lemma fix_value e p : - 8000000 <= p <= 8000000 -> e = wg_encode_fixpoint p -> ddecode_fixpoint e = ddiv (double_of_int p) FIXPOINTDIVISOR /\ wg_decode_fixpoint e = p.
Proof.
  intros R ->. destruct (fixpoint_roundtrip p R) as (RT & _). split; [|exact RT]. unfold ddecode_fixpoint. unfold wg_decode_fixpoint in RT.
  destruct (isfixpoint (wg_encode_fixpoint p)) eqn:I; [now rewrite RT|]. subst p. vm_compute in I. discriminate.
Qed.
Lemma fix_bits_range p : - 8000000 <= p <= 8000000 -> 0 <= bits_of_double (ddiv (double_of_int p) FIXPOINTDIVISOR) < 2 ^ 64.
Proof.
  intros R. destruct (Z.eq_dec p 0) as [-> | N]; [vm_compute; split; congruence|].
  destruct (normal_bits _ _ (fix_bits_normal p ltac:(lia) N)) as (m & e & _ & B & M & X). rewrite B.
  change (2 ^ 64) with (4096 * 2 ^ 52). change (2 ^ 63) with (2048 * 2 ^ 52). change (2 ^ 52) with 4503599627370496 in *. destruct (p <? 0); lia.
Qed.

Lemma canon_equal s a b t d : canon s t a -> canon s t b -> payload s t a = payload s t b <-> WG_COMPARE_at s d a b = WG_EQUAL.
Proof.
  intros Ha Hb. rewrite (C07_equal_content_partial s a b t d (cn_st _ _ _ Ha) (cn_st _ _ _ Hb) (proj1 (cn_ty _ _ _ Ha))).
  pose proof (st_prod _ _ _ (cn_st _ _ _ Ha)) as Pa. pose proof (st_prod _ _ _ (cn_st _ _ _ Hb)) as Pb.
  assert (Ux : 6 = t \/ 7 = t -> concat_for_hashing s a (text s a) = concat_for_hashing s b (text s b) <-> extra s a = extra s b /\ text s a = text s b).
  { intros T. assert (T' : t = WG_URITYPE \/ t = WG_XMLLITERALTYPE) by (destruct T as [<- | <-]; [right|left]; reflexivity).
    pose proof (cn_extra _ _ _ Ha T') as Ea. pose proof (cn_extra _ _ _ Hb T') as Eb. pose proof (text_nozero s a) as Za. pose proof (text_nozero s b) as Zb.
    unfold concat_for_hashing, extra. destruct (wg_decode_unistr_lang s a) as [p|]; destruct (wg_decode_unistr_lang s b) as [p'|]; cbn [ostring].
    - split; [|intros (-> & ->); reflexivity]. intros E. now apply zsplit in E; [|apply cstr_bytes|apply cstr_bytes].
    - split; [intros E; exfalso; exact (zapp _ _ _ Zb E)|]. intros (Q & _). exfalso. exact (Ea p eq_refl Q).
    - split; [intros E; exfalso; exact (zapp _ _ _ Za (eq_sym E))|]. intros (Q & _). exfalso. exact (Eb p' eq_refl (eq_sym Q)).
    - tauto. }
  pose proof (canon_cases _ _ _ Ha) as I. cbn [In] in I.
  destruct I as [<-|[<-|[<-|[<-|[<-|[<-|[<-|[<-|[<-|[<-|[<-|[]]]]]]]]]]]]; cbn [payload].
  - tauto.
  - apply le4_inj; [exact (cn_int _ _ _ Ha eq_refl)|exact (cn_int _ _ _ Hb eq_refl)].
  - pose proof (wg_decode_double_range s a) as Ra. pose proof (wg_decode_double_range s b) as Rb.
    rewrite le8_inj by assumption. unfold SFeqb. rewrite double_cmp; [|assumption|assumption|exact (st_nan _ _ _ (cn_st _ _ _ Ha) eq_refl)|exact (st_nan _ _ _ (cn_st _ _ _ Hb) eq_refl)].
    pose proof (cn_zero _ _ _ Ha eq_refl) as Na. pose proof (cn_zero _ _ _ Hb eq_refl) as Nb.
    set (x := wg_decode_double s a) in *. set (y := wg_decode_double s b) in *. clearbody x y.
    destruct (Z.compare_spec (dkey x) (dkey y)) as [E|E|E]; split; intros Q; try reflexivity; try discriminate; try (subst y; lia).
    unfold dkey in E. change (2 ^ 64) with 18446744073709551616 in *. change (2 ^ 63) with 9223372036854775808 in *. revert E.
    pose proof (Z.div_mod x 9223372036854775808). pose proof (Z.div_mod y 9223372036854775808).
    pose proof (Z.mod_pos_bound x 9223372036854775808). pose proof (Z.mod_pos_bound y 9223372036854775808).
    destruct (Z.leb_spec 9223372036854775808 x), (Z.leb_spec 9223372036854775808 y); intros; lia.
  - tauto.
  - apply Ux; auto.
  - apply Ux; auto.
  - destruct (imm_char _ _ _ Pa eq_refl) as (x & Rx & Ex). destruct (imm_char _ _ _ Pb eq_refl) as (y & Ry & Ey).
    assert (Dx : wg_decode_char a = x) by (subst a; apply char_roundtrip; assumption). assert (Dy : wg_decode_char b = y) by (subst b; apply char_roundtrip; assumption).
    rewrite Dx, Dy. apply le4_inj; unfold is32; change (2 ^ 31) with 2147483648; lia.
  - destruct (imm_fix _ _ _ Pa eq_refl) as (x & Rx & Ex). destruct (imm_fix _ _ _ Pb eq_refl) as (y & Ry & Ey).
    destruct (fix_value _ _ Rx Ex) as (-> & ->). destruct (fix_value _ _ Ry Ey) as (-> & ->).
    rewrite le8_inj by (apply fix_bits_range; assumption). split; [|congruence]. apply fix_bits_inj; lia.
  - destruct (imm_date _ _ _ Pa eq_refl) as (x & Rx & Ex). destruct (imm_date _ _ _ Pb eq_refl) as (y & Ry & Ey).
    assert (Dx : wg_decode_date a = x) by (subst a; apply date_roundtrip; assumption). assert (Dy : wg_decode_date b = y) by (subst b; apply date_roundtrip; assumption).
    rewrite Dx, Dy. unfold MINDATE, MAXDATE in *. apply le4_inj; unfold is32; change (2 ^ 31) with 2147483648; lia.
  - destruct (imm_time _ _ _ Pa eq_refl) as (x & Rx & Ex). destruct (imm_time _ _ _ Pb eq_refl) as (y & Ry & Ey).
    assert (Dx : wg_decode_time a = x) by (subst a; apply time_roundtrip; assumption). assert (Dy : wg_decode_time b = y) by (subst b; apply time_roundtrip; assumption).
    rewrite Dx, Dy. unfold MINTIME, MAXTIME in *. apply le4_inj; unfold is32; change (2 ^ 31) with 2147483648; lia.
  - apply le4_inj; [exact (cn_var _ _ _ Ha eq_refl)|exact (cn_var _ _ _ Hb eq_refl)].
Qed.

(** ** Rows *)
Fixpoint canon_row (s : cstate) (vs : list Z) : Prop :=
  match vs with
  | [] => True
  | v :: r => (exists t, canon s t v /\ (r <> [] -> separable s t v)) /\ canon_row s r
  end.
(** All columns compare equal. *)
Fixpoint same_row (s : cstate) (vs ws : list Z) : bool :=
  match vs, ws with
  | [], [] => true
  | v :: vs', w :: ws' => (WG_COMPARE s v w =? WG_EQUAL) && same_row s vs' ws'
  | _, _ => false
  end.
Definition vbytes (s : cstate) (v : Z) : list Z := match wg_decode_for_hashing s v with Some b => b | None => [] end.
Definition ktail (s : cstate) (vs : list Z) : list Z := flat_map (fun v => 0 :: vbytes s v) vs.

Lemma key_tail s : forall vs p, p <> [] -> canon_row s vs -> key s p vs = Some (p ++ ktail s vs).
Proof.
  induction vs as [|v vs IH]; intros p Np; cbn [key canon_row].
  - intros _. unfold ktail. cbn. now rewrite app_nil_r.
  - intros ((t & Hc & _) & R). rewrite (canon_bytes _ _ _ Hc). unfold extend. destruct p as [|x p]; [congruence|].
    rewrite IH; [|discriminate|exact R]. unfold ktail. cbn [flat_map]. unfold vbytes at 2. rewrite (canon_bytes _ _ _ Hc).
    rewrite <- app_assoc. reflexivity.
Qed.
Lemma key_row s v vs : canon_row s (v :: vs) -> key s [] (v :: vs) = Some (vbytes s v ++ ktail s vs).
Proof.
  cbn [key canon_row]. intros ((t & Hc & _) & R). unfold vbytes. rewrite (canon_bytes _ _ _ Hc). cbn [extend]. now rewrite key_tail.
Qed.
Lemma bytes_equal s v w t t' : canon s t v -> canon s t' w -> vbytes s v = vbytes s w <-> WG_COMPARE s v w = WG_EQUAL.
Proof.
  intros Hv Hw. unfold vbytes. rewrite (canon_bytes _ _ _ Hv), (canon_bytes _ _ _ Hw). unfold WG_COMPARE.
  destruct (Z.eq_dec t t') as [<- | N].
  - rewrite <- (canon_equal s v w t _ Hv Hw). split; [congruence|intros ->; reflexivity].
  - rewrite (compare_types s _ v w t t' (cn_st _ _ _ Hv) (cn_st _ _ _ Hw) N). split; [congruence|].
    unfold sgn, WG_EQUAL. intros Q. apply Z.sgn_null_iff in Q. lia.
Qed.
Lemma ktail_ok s v vs : canon_row s (v :: vs) -> tail_ok (ktail s (v :: vs)).
Proof.
  cbn [canon_row]. intros ((t & Hc & _) & _). unfold tail_ok, ktail. cbn [flat_map]. unfold vbytes at 1. rewrite (canon_bytes _ _ _ Hc).
  exists t. eexists. split; [reflexivity|]. apply (produced_ty _ _ _ (st_prod _ _ _ (cn_st _ _ _ Hc))).
Qed.
Lemma row_inj s : forall vs v ws w, canon_row s (v :: vs) -> canon_row s (w :: ws) -> length vs = length ws ->
  vbytes s v ++ ktail s vs = vbytes s w ++ ktail s ws <-> same_row s (v :: vs) (w :: ws) = true.
Proof.
  induction vs as [|v2 vs IH]; intros v [|w2 ws] w Rv Rw L; try discriminate.
  - unfold ktail. cbn [flat_map same_row]. rewrite !app_nil_r, andb_true_r. destruct Rv as ((t & Hv & _) & _). destruct Rw as ((t' & Hw & _) & _).
    rewrite (bytes_equal s v w t t' Hv Hw), Z.eqb_eq. tauto.
  - pose proof Rv as ((t & Hv & Sv) & Rv'). pose proof Rw as ((t' & Hw & Sw) & Rw'). specialize (Sv ltac:(discriminate)). specialize (Sw ltac:(discriminate)).
    specialize (IH v2 ws w2 Rv' Rw' ltac:(cbn in L; lia)). cbn [same_row] in *. rewrite andb_true_iff, Z.eqb_eq, <- (bytes_equal s v w t t' Hv Hw), <- IH.
    pose proof (ktail_ok _ _ _ Rv') as Tv. pose proof (ktail_ok _ _ _ Rw') as Tw. split.
    + intros E. unfold vbytes in E at 1 2. rewrite (canon_bytes _ _ _ Hv), (canon_bytes _ _ _ Hw) in E.
      destruct (field_split _ _ _ _ _ _ _ Hv Hw Sv Sw Tv Tw E) as (E1 & E2). split.
      * unfold vbytes. now rewrite (canon_bytes _ _ _ Hv), (canon_bytes _ _ _ Hw), E1.
      * unfold ktail in E2. cbn [flat_map app] in E2. injection E2 as E2. exact E2.
    + intros (-> & E2). f_equal. unfold ktail. cbn [flat_map app]. f_equal. exact E2.
Qed.
Lemma key_equal s vs ws : vs <> [] -> canon_row s vs -> canon_row s ws -> length vs = length ws ->
  exists k k', key s [] vs = Some k /\ key s [] ws = Some k' /\ (k = k' <-> same_row s vs ws = true).
Proof.
  intros Nv Rv Rw L. destruct vs as [|v vs]; [congruence|]. destruct ws as [|w ws]; [discriminate|].
  exists (vbytes s v ++ ktail s vs), (vbytes s w ++ ktail s ws). split; [now apply key_row|]. split; [now apply key_row|].
  apply row_inj; auto.
Qed.
