(** C06, C07: comparison of values. *)
From Coq Require Import ZArith List Lia Bool Floats.SpecFloat.
From Verif Require Import Base EncodingModel EncodingProofs CompareModel CompareProofs.
Import ListNotations.
Open Scope Z_scope.
#[local] Ltac Zify.zify_post_hook ::= idtac.

(** A set of values of one database state that can be compared: every value was
    made by an encoder, doubles are not NaN, lengths fit an int, and the fields
    of a record in the set are in the set. *)
Definition comparable (s : cstate) (ok : Z -> Prop) : Prop :=
  (forall e, ok e -> exists t, storable s t e) /\
  (forall e i, ok e -> encoded_type (words s) e = WG_RECORDTYPE ->
     0 <= i < wg_get_record_len s e -> ok (wg_get_field s e i)).

(** C06. For every recursion depth the comparison is a total preorder with
    symmetric result codes. *)
Theorem C06_compare_preorder s ok d : comparable s ok ->
  (forall a, ok a -> WG_COMPARE_at s d a a = WG_EQUAL) /\
  (forall a b, ok a -> ok b -> WG_COMPARE_at s d a b = WG_LESSTHAN <-> WG_COMPARE_at s d b a = WG_GREATER) /\
  (forall a b, ok a -> ok b -> WG_COMPARE_at s d a b = WG_EQUAL <-> WG_COMPARE_at s d b a = WG_EQUAL) /\
  (forall a b, WG_COMPARE_at s d a b = WG_LESSTHAN \/ WG_COMPARE_at s d a b = WG_EQUAL \/ WG_COMPARE_at s d a b = WG_GREATER) /\
  (forall a b c, ok a -> ok b -> ok c ->
     WG_COMPARE_at s d a b <> WG_GREATER -> WG_COMPARE_at s d b c <> WG_GREATER ->
     WG_COMPARE_at s d a c <> WG_GREATER /\
     (WG_COMPARE_at s d a b = WG_LESSTHAN \/ WG_COMPARE_at s d b c = WG_LESSTHAN -> WG_COMPARE_at s d a c = WG_LESSTHAN)).
Proof.
  intros [H1 H2]. pose proof (compare_good s ok H1 H2 d) as G.
  assert (C : forall a b, WG_COMPARE_at s d a b = -1 \/ WG_COMPARE_at s d a b = 0 \/ WG_COMPARE_at s d a b = 1).
  { intros a b. unfold WG_COMPARE_at. destruct (a =? b); [right; now left|apply code_compare]. }
  unfold WG_EQUAL, WG_LESSTHAN, WG_GREATER. split; [|split; [|split; [|split]]].
  - intros a Oa. now apply (g_refl ok).
  - intros a b Oa Ob. rewrite (g_anti _ _ G a b Oa Ob). lia.
  - intros a b Oa Ob. rewrite (g_anti _ _ G a b Oa Ob). lia.
  - exact C.
  - intros a b c Oa Ob Oc Q1 Q2. pose proof (C a b). pose proof (C b c). pose proof (C a c).
    pose proof (g_trans _ _ G a b c Oa Ob Oc). split; [lia|]. intros [L|L].
    + pose proof (g_lt_l _ _ _ _ _ G Oa Ob Oc). lia.
    + pose proof (g_lt_r _ _ _ _ _ G Oa Ob Oc). lia.
Qed.
Print Assumptions C06_compare_preorder.

(** Two records of two fields (an int and a short string) and one that contains
    the first record. *)
Definition ex_words : mem := fun x =>
  if x =? 800 then 40 else if x =? 824 then 5 * 8 + 3 else if x =? 832 then 1000 + 6
  else if x =? 840 then 40 else if x =? 864 then 5 * 8 + 3 else if x =? 872 then 1032 + 6
  else if x =? 880 then 32 else if x =? 904 then 800
  else if x =? 1000 then 0x636261 (* "abc" *) else if x =? 1032 then 0x646261 (* "abd" *)
  else 0.
Definition ex_s : cstate := CSt ex_words 2048.
Definition ex_ok (e : Z) : Prop := In e [800; 840; 880; 43; 1006; 1038].
Lemma ex_storable : forall e, ex_ok e -> exists t, storable ex_s t e.
Proof.
  intros e He. unfold ex_ok in He. cbn [In] in He.
  destruct He as [<-|[<-|[<-|[<-|[<-|[<-|[]]]]]]].
  1-3: exists WG_RECORDTYPE; constructor; [|discriminate|discriminate|intros _; vm_compute; split; congruence].
  1: apply (PRecord _ 800); [lia|reflexivity].
  1: apply (PRecord _ 840); [lia|reflexivity].
  1: apply (PRecord _ 880); [lia|reflexivity].
  1: exists WG_INTTYPE; constructor; try discriminate; apply (PSmall _ 5); [unfold is64; lia|reflexivity].
  1,2: exists WG_STRTYPE; constructor; try discriminate.
  1: apply (PShort _ 1000); [lia|reflexivity].
  1: apply (PShort _ 1032); [lia|reflexivity].
Qed.
Example C06_hyp : comparable ex_s ex_ok.
Proof.
  split; [exact ex_storable|].
  intros e i He Ht Hi. unfold ex_ok in *. cbn [In] in He.
  destruct He as [<-|[<-|[<-|[<-|[<-|[<-|[]]]]]]]; try (exfalso; vm_compute in Ht; congruence).
  - assert (i = 0 \/ i = 1) as [-> | ->]. { change (wg_get_record_len ex_s 800) with 2 in Hi. lia. } all: vm_compute; tauto.
  - assert (i = 0 \/ i = 1) as [-> | ->]. { change (wg_get_record_len ex_s 840) with 2 in Hi. lia. } all: vm_compute; tauto.
  - assert (i = 0) as ->. { change (wg_get_record_len ex_s 880) with 1 in Hi. lia. } vm_compute; tauto.
Qed.
Example C06_values : WG_COMPARE ex_s 800 840 = WG_LESSTHAN /\ WG_COMPARE ex_s 840 800 = WG_GREATER /\
  WG_COMPARE ex_s 880 800 = WG_LESSTHAN /\ WG_COMPARE ex_s 43 1006 = WG_LESSTHAN.
Proof. vm_compute. auto. Qed.

(** Why NaN is excluded: two stored NaN values are each less than the other. *)
Theorem C06_nan_refuted : exists s a b,
  produced (words s) WG_DOUBLETYPE a /\ produced (words s) WG_DOUBLETYPE b /\
  WG_COMPARE s a b = WG_LESSTHAN /\ WG_COMPARE s b a = WG_LESSTHAN.
Proof.
  exists (CSt (fun _ => 0x7ff8000000000000) 4096), (encode_fulldouble_offset 800), (encode_fulldouble_offset 808).
  split; [constructor; reflexivity|]. split; [constructor; reflexivity|]. vm_compute. auto.
Qed.
Print Assumptions C06_nan_refuted.

(** C07, what holds: the content that decides equality, per type. Not covered by
    the comparison: the language of a plain string and the type label of a blob;
    a missing URI prefix or xsd type is taken as the empty string. *)
Theorem C07_equal_content_partial s a b t d : storable s t a -> storable s t b -> t <> WG_RECORDTYPE ->
  (WG_COMPARE_at s d a b = WG_EQUAL <->
    match t with
    | 1 => True                                                       (* null *)
    | 3 => wg_decode_int s a = wg_decode_int s b                      (* int *)
    | 4 => SFeqb (double_of_bits (wg_decode_double s a)) (double_of_bits (wg_decode_double s b)) = true
    | 5 => text s a = text s b                                        (* plain string *)
    | 6 | 7 => extra s a = extra s b /\ text s a = text s b           (* xml literal, uri *)
    | 8 => blob s a = blob s b                                        (* blob *)
    | 9 => wg_decode_char a = wg_decode_char b
    | 10 => wg_decode_fixpoint a = wg_decode_fixpoint b
    | 11 => wg_decode_date a = wg_decode_date b
    | 12 => wg_decode_time a = wg_decode_time b
    | 14 => wg_decode_var a = wg_decode_var b
    | _ => a = b                                                      (* anonymous constant *)
    end).
Proof.
  intros Ha Hb Nr. rewrite (compare_cases s d a b t Ha Hb). unfold WG_EQUAL.
  pose proof (produced_ty _ _ _ (st_prod _ _ _ Ha)) as Tr.
  assert (Cases : t = 1 \/ t = 2 \/ t = 3 \/ t = 4 \/ t = 5 \/ t = 6 \/ t = 7 \/ t = 8 \/ t = 9 \/ t = 10 \/ t = 11 \/ t = 12 \/ t = 13 \/ t = 14) by lia.
  assert (L : lex (fun a b => strcmp (extra s a) (extra s b)) (fun a b => strcmp (text s a) (text s b)) a b = 0 <->
     extra s a = extra s b /\ text s a = text s b).
  { unfold lex. destruct (Z.eqb_spec (strcmp (extra s a) (extra s b)) 0) as [E|E]; rewrite strcmp_eq in E.
    - rewrite strcmp_eq. tauto.
    - rewrite strcmp_eq. tauto. }
  clear Tr; destruct Cases as [E|[E|[E|[E|[E|[E|[E|[E|[E|[E|[E|[E|[E|E]]]]]]]]]]]]]; subst t;
  match goal with |- inner _ _ ?t _ _ = _ <-> _ => unfold inner;
    cbv [WG_NULLTYPE WG_RECORDTYPE WG_INTTYPE WG_DOUBLETYPE WG_STRTYPE WG_XMLLITERALTYPE WG_URITYPE WG_BLOBTYPE WG_CHARTYPE
       WG_FIXPOINTTYPE WG_DATETYPE WG_TIMETYPE WG_ANONCONSTTYPE WG_VARTYPE]; cbn [Z.eqb Z.ltb Z.compare Pos.eqb Pos.compare Pos.compare_cont orb] end.
  - tauto.
  - exfalso; apply Nr; reflexivity.
  - apply sgn_iff.
  - rewrite sgn_iff. unfold SFeqb. rewrite double_cmp by (try apply wg_decode_double_range; (now apply (st_nan _ _ _ Ha)) || (now apply (st_nan _ _ _ Hb))).
    destruct (Z.compare_spec (dkey (wg_decode_double s a)) (dkey (wg_decode_double s b))); split; intros; try congruence; try lia.
  - apply strcmp_eq.
  - exact L.
  - exact L.
  - apply strcmp_eq.
  - rewrite sgn_iff. destruct (imm_char _ _ _ (st_prod _ _ _ Ha) eq_refl) as (x & Rx & ->).
    destruct (imm_char _ _ _ (st_prod _ _ _ Hb) eq_refl) as (y & Ry & ->).
    rewrite (proj1 (char_roundtrip _ Rx)), (proj1 (char_roundtrip _ Ry)). split; [|congruence].
    intros E. assert (x mod 256 = if x <? 0 then x + 256 else x) as Ex.
    { destruct (Z.ltb_spec x 0); [|now rewrite Z.mod_small by lia]. rewrite <- (Z_mod_plus_full x 1), Z.mod_small; lia. }
    assert (y mod 256 = if y <? 0 then y + 256 else y) as Ey.
    { destruct (Z.ltb_spec y 0); [|now rewrite Z.mod_small by lia]. rewrite <- (Z_mod_plus_full y 1), Z.mod_small; lia. }
    rewrite Ex, Ey in E. destruct (x <? 0) eqn:?, (y <? 0) eqn:?; lia.
  - apply sgn_iff.
  - apply sgn_iff.
  - apply sgn_iff.
  - apply sgn_iff.
  - apply sgn_iff.
Qed.
Print Assumptions C07_equal_content_partial.

Example C07_hyp : storable ex_s WG_STRTYPE 1006 /\ storable ex_s WG_STRTYPE 1038 /\
  text ex_s 1006 = [97; 98; 99] /\ text ex_s 1038 = [97; 98; 100] /\ WG_COMPARE ex_s 1006 1038 = WG_LESSTHAN.
Proof.
  split; [constructor; try discriminate; apply (PShort _ 1000); [lia|reflexivity]|].
  split; [constructor; try discriminate; apply (PShort _ 1032); [lia|reflexivity]|].
  vm_compute. auto.
Qed.

(** C07 fails as stated: strings "a" with language tags "en" and "et" compare
    EQUAL, and so do a uri "a" without a prefix and one with the prefix "". *)
Definition lang_words (ty : Z) : mem := fun x =>
  if x =? 800 then 64 else if x =? 808 then Z.lor (Z.shiftl 14 8) ty else if x =? 840 then 1000 + 6 else if x =? 848 then 97
  else if x =? 880 then 64 else if x =? 888 then Z.lor (Z.shiftl 14 8) ty else if x =? 920 then (if ty =? WG_URITYPE then 0 else 1032 + 6) else if x =? 928 then 97
  else if x =? 1000 then (if ty =? WG_URITYPE then 0 else 0x6e65) else if x =? 1032 then 0x7465 else 0.
Theorem C07_language_refuted : exists s a b,
  storable s WG_STRTYPE a /\ storable s WG_STRTYPE b /\ text s a = text s b /\
  extra s a = [101; 110] /\ extra s b = [101; 116] /\ WG_COMPARE s a b = WG_EQUAL.
Proof.
  exists (CSt (lang_words WG_STRTYPE) 2048), (encode_longstr_offset 800), (encode_longstr_offset 880).
  split; [|split].
  1,2: constructor; try discriminate; eapply PLong with (lendif := 14); try reflexivity; try lia; now left.
  vm_compute. auto.
Qed.
Print Assumptions C07_language_refuted.
Theorem C07_prefix_refuted : exists s a b,
  storable s WG_URITYPE a /\ storable s WG_URITYPE b /\ text s a = text s b /\
  wg_decode_unistr_lang s a <> None /\ wg_decode_unistr_lang s b = None /\ WG_COMPARE s a b = WG_EQUAL.
Proof.
  exists (CSt (lang_words WG_URITYPE) 2048), (encode_longstr_offset 800), (encode_longstr_offset 880).
  split; [|split].
  1,2: constructor; try discriminate; eapply PLong with (lendif := 14); try reflexivity; try lia; right; right; now left.
  vm_compute. repeat split; congruence.
Qed.
Print Assumptions C07_prefix_refuted.
