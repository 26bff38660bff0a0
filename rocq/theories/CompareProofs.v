(** wg_compare is a total preorder. *)
From Coq Require Import ZArith List Lia Bool Floats.SpecFloat.
From Verif Require Import Base EncodingModel EncodingProofs CompareModel.
Import ListNotations.
Open Scope Z_scope.
#[local] Ltac Zify.zify_post_hook ::= idtac.

(** ** Comparison functions *)
Section Good.
Context {A : Type}.
(** Antisymmetric result code and transitivity on the elements in [P]. *)
Record Good (P : A -> Prop) (c : A -> A -> Z) : Prop := {
  g_anti : forall a b, P a -> P b -> c b a = - c a b;
  g_trans : forall a b d, P a -> P b -> P d -> c a b <= 0 -> c b d <= 0 -> c a d <= 0 }.

Lemma g_refl P c a : Good P c -> P a -> c a a = 0.
Proof. intros G Pa. pose proof (g_anti _ _ G a a Pa Pa). lia. Qed.
Lemma g_eq P c a b d : Good P c -> P a -> P b -> P d -> c a b = 0 -> c b d = 0 -> c a d = 0.
Proof.
  intros G Pa Pb Pd E1 E2. pose proof (g_trans _ _ G a b d Pa Pb Pd). pose proof (g_trans _ _ G d b a Pd Pb Pa).
  rewrite (g_anti _ _ G a d), (g_anti _ _ G b d), (g_anti _ _ G a b) in H0 by assumption. lia.
Qed.
Lemma g_lt_l P c a b d : Good P c -> P a -> P b -> P d -> c a b < 0 -> c b d <= 0 -> c a d < 0.
Proof.
  intros G Pa Pb Pd E1 E2. pose proof (g_trans _ _ G a b d Pa Pb Pd).
  destruct (Z.eq_dec (c a d) 0) as [E|]; [exfalso|lia].
  pose proof (g_trans _ _ G b d a Pb Pd Pa) as T. rewrite (g_anti _ _ G a d), (g_anti _ _ G a b) in T by assumption. lia.
Qed.
Lemma g_lt_r P c a b d : Good P c -> P a -> P b -> P d -> c a b <= 0 -> c b d < 0 -> c a d < 0.
Proof.
  intros G Pa Pb Pd E1 E2. pose proof (g_trans _ _ G a b d Pa Pb Pd).
  destruct (Z.eq_dec (c a d) 0) as [E|]; [exfalso|lia].
  pose proof (g_trans _ _ G d a b Pd Pa Pb) as T. rewrite (g_anti _ _ G a d), (g_anti _ _ G b d) in T by assumption. lia.
Qed.

Lemma good_ext P c c' : Good P c -> (forall a b, P a -> P b -> c' a b = c a b) -> Good P c'.
Proof.
  intros G E. constructor.
  - intros a b Pa Pb. rewrite !E by assumption. now apply (g_anti _ _ G).
  - intros a b d Pa Pb Pd. rewrite !E by assumption. now apply (g_trans _ _ G).
Qed.
Lemma good_sub (P Q : A -> Prop) c : Good P c -> (forall a, Q a -> P a) -> Good Q c.
Proof. intros G E. constructor; intros; [apply (g_anti _ _ G)|apply (g_trans _ _ G) with b]; auto. Qed.

Definition lex (c1 c2 : A -> A -> Z) a b := if c1 a b =? 0 then c2 a b else c1 a b.
Lemma good_lex P c1 c2 : Good P c1 -> Good P c2 -> Good P (lex c1 c2).
Proof.
  intros G1 G2. unfold lex. constructor.
  - intros a b Pa Pb. rewrite (g_anti _ _ G1 a b Pa Pb). destruct (Z.eqb_spec (c1 a b) 0) as [E|E]; destruct (Z.eqb_spec (- c1 a b) 0); try lia.
    now apply (g_anti _ _ G2).
  - intros a b d Pa Pb Pd. destruct (Z.eqb_spec (c1 a b) 0) as [E1|E1]; destruct (Z.eqb_spec (c1 b d) 0) as [E2|E2]; intros H1 H2.
    + rewrite (g_eq _ _ _ _ _ G1 Pa Pb Pd E1 E2). cbn [Z.eqb]. now apply (g_trans _ _ G2) with b.
    + pose proof (g_lt_r _ _ a b d G1 Pa Pb Pd) as Q. destruct (Z.eqb_spec (c1 a d) 0); lia.
    + pose proof (g_lt_l _ _ a b d G1 Pa Pb Pd) as Q. destruct (Z.eqb_spec (c1 a d) 0); lia.
    + pose proof (g_lt_l _ _ a b d G1 Pa Pb Pd) as Q. destruct (Z.eqb_spec (c1 a d) 0); lia.
Qed.

End Good.

(** Lists, a prefix is smaller. *)
Fixpoint lcmp {A} (c : A -> A -> Z) (x y : list A) : Z :=
  match x, y with
  | [], [] => 0
  | [], _ => -1
  | _, [] => 1
  | a :: x', b :: y' => if c a b =? 0 then lcmp c x' y' else c a b
  end.
Lemma good_list {A} (P : A -> Prop) c : Good P c -> Good (Forall P) (lcmp c).
Proof.
  intros G. constructor.
  - induction a as [|a x IH]; intros [|b y] Px Py; cbn [lcmp]; try reflexivity.
    inversion Px; inversion Py; subst. rewrite (g_anti _ _ G a b) by assumption.
    destruct (Z.eqb_spec (c a b) 0); destruct (Z.eqb_spec (- c a b) 0); try lia. now apply IH.
  - induction a as [|a x IH]; intros [|b y] [|d z] Px Py Pz; cbn [lcmp]; try lia.
    inversion Px; inversion Py; inversion Pz; subst.
    assert (Pa : P a) by assumption. assert (Pb : P b) by assumption. assert (Pd : P d) by assumption.
    destruct (Z.eqb_spec (c a b) 0) as [E1|E1]; destruct (Z.eqb_spec (c b d) 0) as [E2|E2]; intros H1' H2'.
    + rewrite (g_eq _ _ _ _ _ G Pa Pb Pd E1 E2). cbn [Z.eqb]. apply (IH y z); assumption.
    + pose proof (g_lt_r _ _ a b d G Pa Pb Pd) as Q. destruct (Z.eqb_spec (c a d) 0); lia.
    + pose proof (g_lt_l _ _ a b d G Pa Pb Pd) as Q. destruct (Z.eqb_spec (c a d) 0); lia.
    + pose proof (g_lt_l _ _ a b d G Pa Pb Pd) as Q. destruct (Z.eqb_spec (c a d) 0); lia.
Qed.
Lemma lcmp_eq0 {A} (c : A -> A -> Z) x y : (forall a b, In a x -> In b y -> c a b = 0 -> a = b) -> lcmp c x y = 0 -> x = y.
Proof.
  revert y; induction x as [|a x IH]; intros [|b y] H; cbn [lcmp]; try congruence.
  destruct (Z.eqb_spec (c a b) 0) as [E|E]; [|congruence]. intros Q. f_equal.
  - apply H; [now left|now left|exact E].
  - apply IH; [|exact Q]. intros; apply H; auto; now right.
Qed.

(** Comparing images. *)
Definition sgn (x y : Z) : Z := Z.sgn (x - y).
Lemma good_sgn : Good (fun _ => True) sgn.
Proof.
  unfold sgn. constructor.
  - intros a b _ _. rewrite <- Z.sgn_opp. f_equal. lia.
  - intros a b d _ _ _. rewrite !Z.sgn_nonpos. lia.
Qed.
Lemma good_map {A B} (f : A -> B) (P : A -> Prop) (Q : B -> Prop) c :
  Good Q c -> (forall a, P a -> Q (f a)) -> Good P (fun a b => c (f a) (f b)).
Proof. intros G H. constructor; intros; [apply (g_anti _ _ G)|apply (g_trans _ _ G) with (f b)]; auto. Qed.

Lemma strcmp_lcmp x y : strcmp x y = lcmp sgn x y.
Proof.
  revert y; induction x as [|a x IH]; intros [|b y]; cbn [strcmp lcmp]; try reflexivity.
  rewrite IH. unfold sgn. destruct (Z.ltb_spec a b); [|destruct (Z.ltb_spec b a)].
  - rewrite Z.sgn_neg by lia. reflexivity.
  - rewrite Z.sgn_pos by lia. reflexivity.
  - replace (a - b) with 0 by lia. reflexivity.
Qed.
Lemma forall_true {A} (l : list A) : Forall (fun _ => True) l.
Proof. apply Forall_forall. auto. Qed.
Lemma good_strcmp : Good (fun _ => True) strcmp.
Proof.
  apply (good_ext _ (lcmp sgn)); [|intros; apply strcmp_lcmp].
  eapply good_sub; [apply good_list, good_sgn|]. intros; apply forall_true.
Qed.
Lemma sgn_eq0 x y : sgn x y = 0 -> x = y.
Proof. unfold sgn. rewrite Z.sgn_null_iff. lia. Qed.
Lemma strcmp_eq0 x y : strcmp x y = 0 <-> x = y.
Proof.
  rewrite strcmp_lcmp. split.
  - apply lcmp_eq0. intros a b _ _. apply sgn_eq0.
  - intros <-. induction x as [|a x IH]; cbn [lcmp]; [reflexivity|]. unfold sgn at 1. rewrite Z.sub_diag. exact IH.
Qed.
Lemma gt_sgn x y : x <> y -> gt_or_less x y = sgn x y.
Proof.
  intros H. unfold gt_or_less, sgn. destruct (Z.ltb_spec y x); [rewrite Z.sgn_pos by lia|rewrite Z.sgn_neg by lia]; reflexivity.
Qed.

(** Blobs: common part, then length. *)
Lemma strcmp_prefix x y :
  strcmp x y = let n := Nat.min (length x) (length y) in
    let r := strcmp (firstn n x) (firstn n y) in
    if r =? 0 then Z.sgn (Z.of_nat (length x) - Z.of_nat (length y)) else r.
Proof.
  revert y; induction x as [|a x IH]; intros [|b y].
  - reflexivity.
  - cbn [strcmp length Nat.min firstn]. cbv zeta. cbn [Z.eqb strcmp]. rewrite Z.sgn_neg by lia. reflexivity.
  - cbn [strcmp length Nat.min firstn]. cbv zeta. cbn [Z.eqb strcmp]. rewrite Z.sgn_pos by lia. reflexivity.
  - cbn [length Nat.min firstn strcmp]. cbv zeta. destruct (a <? b); [reflexivity|]. destruct (b <? a); [reflexivity|].
    rewrite IH. cbv zeta. rewrite !Nat2Z.inj_succ.
    replace (Z.succ (Z.of_nat (length x)) - Z.succ (Z.of_nat (length y))) with (Z.of_nat (length x) - Z.of_nat (length y)) by lia.
    reflexivity.
Qed.

(** ** Doubles *)
Definition not_nan (w : Z) : Prop := double_of_bits w <> S754_nan.
Definition dkey (w : Z) : Z := if 2 ^ 63 <=? w then - (w mod 2 ^ 63) else w mod 2 ^ 63.

(** Magnitude of a decoded double. *)
Inductive sfmag : spec_float -> bool -> Z -> Prop :=
| SMzero s : sfmag (S754_zero s) s 0
| SMinf s : sfmag (S754_infinity s) s (2047 * 2 ^ 52)
| SMfin s m e : -1074 <= e <= 971 -> Z.pos m < 2 ^ 53 -> (-1074 < e -> 2 ^ 52 <= Z.pos m) ->
    sfmag (S754_finite s m e) s ((e + 1074) * 2 ^ 52 + Z.pos m).

Lemma double_mag_aux sg E fr : 0 <= E <= 2047 -> 0 <= fr < 2 ^ 52 ->
  let f := if E =? 2047 then (if fr =? 0 then S754_infinity sg else S754_nan)
    else if E =? 0 then match fr with Z.pos p => S754_finite sg p (-1074) | _ => S754_zero sg end
    else match 2 ^ 52 + fr with Z.pos p => S754_finite sg p (E - 1075) | _ => S754_nan end in
  f <> S754_nan -> sfmag f sg (2 ^ 52 * E + fr).
Proof.
  intros HE Hf. cbv zeta. destruct (Z.eqb_spec E 2047) as [X|N1].
  - subst E. destruct (Z.eqb_spec fr 0) as [X|]; [|congruence]. subst fr. intros _.
    replace (2 ^ 52 * 2047 + 0) with (2047 * 2 ^ 52) by lia. constructor.
  - destruct (Z.eqb_spec E 0) as [X|N0].
    + subst E. intros _. destruct fr as [|p|p]; [apply SMzero| |lia].
      replace (2 ^ 52 * 0 + Z.pos p) with ((-1074 + 1074) * 2 ^ 52 + Z.pos p) by lia. constructor; lia.
    + intros _. destruct (2 ^ 52 + fr) as [|p|p] eqn:Ep; [lia| |lia].
      replace (2 ^ 52 * E + fr) with ((E - 1075 + 1074) * 2 ^ 52 + Z.pos p) by lia. constructor; lia.
Qed.
Lemma double_mag w : 0 <= w < 2 ^ 64 -> not_nan w -> sfmag (double_of_bits w) (2 ^ 63 <=? w) (w mod 2 ^ 63).
Proof.
  intros Hw N. assert (Hm : 0 <= w mod 2 ^ 63 < 2 ^ 63) by (apply Z.mod_pos_bound; lia).
  rewrite (Z.div_mod (w mod 2 ^ 63) (2 ^ 52)) by lia. apply double_mag_aux; [| |exact N].
  - split; [apply Z.div_pos; lia|]. assert (w mod 2 ^ 63 / 2 ^ 52 < 2048) by (apply Z.div_lt_upper_bound; lia). lia.
  - apply Z.mod_pos_bound; lia.
Qed.

Lemma sfmag_cmp f g s1 m1 s2 m2 : sfmag f s1 m1 -> sfmag g s2 m2 ->
  SFcompare f g = Some ((if s1 then - m1 else m1) ?= (if s2 then - m2 else m2)).
Proof.
  assert (Opp : forall a b, (- a ?= - b) = (b ?= a)) by (intros; apply Z.compare_opp).
  assert (Fin : forall m e m' e', -1074 <= e <= 971 -> Z.pos m < 2 ^ 53 -> (-1074 < e -> 2 ^ 52 <= Z.pos m) ->
     -1074 <= e' <= 971 -> Z.pos m' < 2 ^ 53 -> (-1074 < e' -> 2 ^ 52 <= Z.pos m') ->
     match e ?= e' with Lt => Lt | Eq => Pos.compare_cont Eq m m' | Gt => Gt end =
     ((e + 1074) * 2 ^ 52 + Z.pos m ?= (e' + 1074) * 2 ^ 52 + Z.pos m')).
  { intros m e m' e' H1 H2 H3 H4 H5 H6. destruct (Z.compare_spec e e') as [->|L|L].
    - change (Pos.compare_cont Eq m m') with (Z.pos m ?= Z.pos m').
      destruct (Z.compare_spec (Z.pos m) (Z.pos m')) as [Q|Q|Q]; symmetry.
      + apply Z.compare_eq_iff. lia.
      + apply Z.compare_lt_iff. lia.
      + apply Z.compare_gt_iff. lia.
    - symmetry. apply Z.compare_lt_iff. lia.
    - symmetry. apply Z.compare_gt_iff. lia. }
  intros [sa|sa|sa ma ea A1 A2 A3] [sb|sb|sb mb eb B1 B2 B3]; destruct sa, sb; cbn [SFcompare]; f_equal;
    try reflexivity; try (symmetry; apply Z.compare_lt_iff; lia); try (symmetry; apply Z.compare_gt_iff; lia).
  - rewrite Opp, <- Fin by assumption. rewrite (Z.compare_antisym ea eb).
    destruct (ea ?= eb); cbn [CompOpp]; try reflexivity. change (Pos.compare_cont Eq mb ma) with (Pos.compare mb ma).
    change (Pos.compare_cont Eq ma mb) with (Pos.compare ma mb). now rewrite <- Pos.compare_antisym.
  - now rewrite <- Fin by assumption.
Qed.

Lemma double_cmp x y : 0 <= x < 2 ^ 64 -> 0 <= y < 2 ^ 64 -> not_nan x -> not_nan y ->
  SFcompare (double_of_bits x) (double_of_bits y) = Some (dkey x ?= dkey y).
Proof. intros Hx Hy Nx Ny. unfold dkey. now apply sfmag_cmp; apply double_mag. Qed.

(** ** Storable values: what the encoders produce, NaN excluded, lengths in the
    range of int *)
Record storable (s : cstate) (t e : Z) : Prop := {
  st_prod : produced (words s) t e;
  st_nan : t = WG_DOUBLETYPE -> not_nan (wg_decode_double s e);
  st_blob : t = WG_BLOBTYPE -> 0 <= wg_decode_blob_len s e < 2 ^ 31;
  st_rec : t = WG_RECORDTYPE -> 0 <= wg_get_record_len s e < 2 ^ 31 }.

Lemma storable_type s t e : storable s t e -> encoded_type (words s) e = t.
Proof. intros H. apply (produced_type (words s) t e). apply H. Qed.

Lemma produced_ty m t e : produced m t e -> 1 <= t <= 14.
Proof. intros H. destruct H; cbv; try (split; discriminate). cbn in H1. destruct H1 as [<-|[<-|[<-|[<-|[]]]]]; split; discriminate. Qed.

(** Content of the strings. *)
Definition text (s : cstate) (e : Z) : list Z := ostring s (wg_decode_unistr e).
Definition extra (s : cstate) (e : Z) : list Z := ostring s (wg_decode_unistr_lang s e).
Definition blob (s : cstate) (e : Z) : list Z :=
  match wg_decode_unistr e with Some p => bytes_at s p (wg_decode_blob_len s e) | None => [] end.
Definition fields (s : cstate) (e : Z) : list Z :=
  map (fun i => wg_get_field s e (Z.of_nat i)) (seq 0 (Z.to_nat (wg_get_record_len s e))).

Lemma extra_cmp_eq s a b : extra_cmp s (wg_decode_unistr_lang s a) (wg_decode_unistr_lang s b) = strcmp (extra s a) (extra s b).
Proof.
  unfold extra_cmp, extra, ostring, WG_GREATER, WG_LESSTHAN.
  destruct (wg_decode_unistr_lang s a); destruct (wg_decode_unistr_lang s b); try reflexivity;
  destruct (cstring s z); reflexivity.
Qed.

(** The comparison inside one type. *)
Definition inner (s : cstate) (reccmp : Z -> Z -> Z) (t a b : Z) : Z :=
  if t =? WG_NULLTYPE then 0
  else if t =? WG_RECORDTYPE then reccmp a b
  else if t =? WG_INTTYPE then sgn (wg_decode_int s a) (wg_decode_int s b)
  else if t =? WG_DOUBLETYPE then sgn (dkey (wg_decode_double s a)) (dkey (wg_decode_double s b))
  else if t =? WG_STRTYPE then strcmp (text s a) (text s b)
  else if (t =? WG_URITYPE) || (t =? WG_XMLLITERALTYPE) then
    lex (fun a b => strcmp (extra s a) (extra s b)) (fun a b => strcmp (text s a) (text s b)) a b
  else if t =? WG_BLOBTYPE then strcmp (blob s a) (blob s b)
  else if t =? WG_CHARTYPE then sgn (wg_decode_char a mod 256) (wg_decode_char b mod 256)
  else if t =? WG_FIXPOINTTYPE then sgn (wg_decode_fixpoint a) (wg_decode_fixpoint b)
  else if t =? WG_DATETYPE then sgn (wg_decode_date a) (wg_decode_date b)
  else if t =? WG_TIMETYPE then sgn (wg_decode_time a) (wg_decode_time b)
  else if t =? WG_VARTYPE then sgn (wg_decode_var a) (wg_decode_var b)
  else sgn a b.

Definition reccmp (s : cstate) (depth : nat) (a b : Z) : Z :=
  match depth with
  | O => sgn a b
  | S d => lex (fun a b => sgn (wg_get_record_len s a) (wg_get_record_len s b))
               (fun a b => lcmp (WG_COMPARE_at s d) (fields s a) (fields s b)) a b
  end.

Lemma fields_cmp_eq s d a b : forall n i, 0 <= i ->
  fields_cmp s (wg_compare s d) a b i n =
  lcmp (WG_COMPARE_at s d) (map (fun j => wg_get_field s a (i + Z.of_nat j)) (seq 0 n))
                           (map (fun j => wg_get_field s b (i + Z.of_nat j)) (seq 0 n)).
Proof.
  induction n as [|n IH]; intros i Hi; [reflexivity|]. cbn [fields_cmp seq map lcmp]. rewrite Z.add_0_r.
  rewrite <- seq_shift, !map_map. rewrite IH by lia.
  assert (M : forall x, map (fun j => wg_get_field s x (i + 1 + Z.of_nat j)) (seq 0 n) = map (fun j => wg_get_field s x (i + Z.of_nat (S j))) (seq 0 n)).
  { intros x. apply map_ext. intros j. f_equal. lia. }
  rewrite !M. change (WG_COMPARE_at s d (wg_get_field s a i) (wg_get_field s b i)) with
    (if wg_get_field s a i =? wg_get_field s b i then 0 else wg_compare s d (wg_get_field s a i) (wg_get_field s b i)).
  change WG_EQUAL with 0.
  destruct (wg_get_field s a i =? wg_get_field s b i); reflexivity.
Qed.

Lemma bytes_at_firstn s p n m : 0 <= n <= m -> bytes_at s p n = firstn (Z.to_nat n) (bytes_at s p m).
Proof.
  intros H. unfold bytes_at. rewrite firstn_map. f_equal.
  replace (Z.to_nat m) with (Z.to_nat n + (Z.to_nat m - Z.to_nat n))%nat by lia.
  rewrite seq_app, firstn_app, firstn_all2 by (rewrite seq_length; lia). rewrite seq_length, Nat.sub_diag. cbn [firstn]. now rewrite app_nil_r.
Qed.

Lemma land_produced_long m t e : produced m t e -> t = WG_XMLLITERALTYPE \/ t = WG_URITYPE \/ t = WG_BLOBTYPE ->
  islongstr e = true /\ isshortstr e = false.
Proof.
  intros H Ht. destruct H; unfold WG_XMLLITERALTYPE, WG_URITYPE, WG_BLOBTYPE, WG_NULLTYPE, WG_RECORDTYPE, WG_INTTYPE, WG_DOUBLETYPE,
    WG_STRTYPE, WG_CHARTYPE, WG_FIXPOINTTYPE, WG_DATETYPE, WG_TIMETYPE, WG_ANONCONSTTYPE, WG_VARTYPE in *; try (exfalso; lia).
  unfold islongstr, isshortstr, encode_longstr_offset. rewrite lor8_eq, land_7 by lia.
  rewrite Z.add_mod, H0 by lia. split; reflexivity.
Qed.

Lemma strcmp_char c d : strcmp (charstr c) (charstr d) = sgn (c mod 256) (d mod 256).
Proof.
  unfold charstr, sgn. pose proof (Z.mod_pos_bound c 256 ltac:(lia)). pose proof (Z.mod_pos_bound d 256 ltac:(lia)).
  set (x := c mod 256) in *. set (y := d mod 256) in *. clearbody x y.
  destruct (Z.eqb_spec x 0); destruct (Z.eqb_spec y 0); cbn [strcmp].
  - replace (x - y) with 0 by lia. reflexivity.
  - rewrite Z.sgn_neg by lia. reflexivity.
  - rewrite Z.sgn_pos by lia. reflexivity.
  - destruct (Z.ltb_spec x y); [rewrite Z.sgn_neg by lia; reflexivity|]. destruct (Z.ltb_spec y x); [rewrite Z.sgn_pos by lia; reflexivity|].
    replace (x - y) with 0 by lia. reflexivity.
Qed.

Ltac by_type H E :=
  destruct H; try discriminate E;
  try match goal with I : In _ _ |- _ => cbn [In] in I; destruct I as [<-|[<-|[<-|[<-|[]]]]]; discriminate E end.
Lemma imm_date m t e : produced m t e -> t = WG_DATETYPE -> exists v, MINDATE <= v <= MAXDATE /\ e = wg_encode_date v.
Proof. intros H E. by_type H E. eauto. Qed.
Lemma imm_time m t e : produced m t e -> t = WG_TIMETYPE -> exists v, MINTIME <= v <= MAXTIME /\ e = wg_encode_time v.
Proof. intros H E. by_type H E. eauto. Qed.
Lemma imm_var m t e : produced m t e -> t = WG_VARTYPE -> exists v, - 2 ^ 59 <= v < 2 ^ 59 /\ e = wg_encode_var v.
Proof. intros H E. by_type H E. eauto. Qed.
Lemma imm_fix m t e : produced m t e -> t = WG_FIXPOINTTYPE -> exists v, - 8000000 <= v <= 8000000 /\ e = wg_encode_fixpoint v.
Proof. intros H E. by_type H E. eauto. Qed.
Lemma imm_char m t e : produced m t e -> t = WG_CHARTYPE -> exists v, - 128 <= v < 128 /\ e = wg_encode_char v.
Proof. intros H E. by_type H E. eauto. Qed.
Lemma imm_null m t e : produced m t e -> t = WG_NULLTYPE -> e = 0.
Proof. intros H E. by_type H E. reflexivity. Qed.
Lemma imm_rec m t e : produced m t e -> t = WG_RECORDTYPE -> wg_decode_record e = e.
Proof. intros H E. by_type H E. reflexivity. Qed.

(** Distinct encodings of an immediate type decode to different values. *)
Lemma imm_inj m t a b f : produced m t a -> produced m t b ->
  (t = WG_DATETYPE /\ f = wg_decode_date) \/ (t = WG_TIMETYPE /\ f = wg_decode_time) \/
  (t = WG_VARTYPE /\ f = wg_decode_var) \/ (t = WG_FIXPOINTTYPE /\ f = wg_decode_fixpoint) \/
  (t = WG_CHARTYPE /\ f = wg_decode_char) ->
  f a = f b -> a = b.
Proof.
  intros Ha Hb Hf E.
  destruct Hf as [[T ->]|[[T ->]|[[T ->]|[[T ->]|[T ->]]]]].
  - destruct (imm_date _ _ _ Ha T) as (x & Rx & ->). destruct (imm_date _ _ _ Hb T) as (y & Ry & ->).
    rewrite (proj1 (date_roundtrip _ Rx)), (proj1 (date_roundtrip _ Ry)) in E. now subst.
  - destruct (imm_time _ _ _ Ha T) as (x & Rx & ->). destruct (imm_time _ _ _ Hb T) as (y & Ry & ->).
    rewrite (proj1 (time_roundtrip _ Rx)), (proj1 (time_roundtrip _ Ry)) in E. now subst.
  - destruct (imm_var _ _ _ Ha T) as (x & Rx & ->). destruct (imm_var _ _ _ Hb T) as (y & Ry & ->).
    assert (is64 x) by (unfold is64; lia). assert (is64 y) by (unfold is64; lia).
    rewrite !var_roundtrip in E by (auto; apply var_accepts; auto). now subst.
  - destruct (imm_fix _ _ _ Ha T) as (x & Rx & ->). destruct (imm_fix _ _ _ Hb T) as (y & Ry & ->).
    rewrite (proj1 (fixpoint_roundtrip _ Rx)), (proj1 (fixpoint_roundtrip _ Ry)) in E. now subst.
  - destruct (imm_char _ _ _ Ha T) as (x & Rx & ->). destruct (imm_char _ _ _ Hb T) as (y & Ry & ->).
    rewrite (proj1 (char_roundtrip _ Rx)), (proj1 (char_roundtrip _ Ry)) in E. now subst.
Qed.

Lemma wg_decode_double_range s e : 0 <= wg_decode_double s e < 2 ^ 64.
Proof. unfold wg_decode_double. destruct (isfulldouble e); [|lia]. apply Z.mod_pos_bound. lia. Qed.

Lemma cmp_int x y : (if x =? y then WG_EQUAL else gt_or_less x y) = sgn x y.
Proof.
  destruct (Z.eqb_spec x y) as [<-|N]; [unfold sgn; now rewrite Z.sub_diag|now apply gt_sgn].
Qed.
Lemma cmp_dbl s a b : not_nan (wg_decode_double s a) -> not_nan (wg_decode_double s b) ->
  match SFcompare (double_of_bits (wg_decode_double s a)) (double_of_bits (wg_decode_double s b)) with
  | Some Eq => WG_EQUAL | Some Gt => WG_GREATER | _ => WG_LESSTHAN end
  = sgn (dkey (wg_decode_double s a)) (dkey (wg_decode_double s b)).
Proof.
  intros Na Nb. rewrite double_cmp by (auto using wg_decode_double_range). unfold sgn.
  destruct (Z.compare_spec (dkey (wg_decode_double s a)) (dkey (wg_decode_double s b))) as [E|E|E].
  - rewrite E, Z.sub_diag. reflexivity.
  - rewrite Z.sgn_neg by lia. reflexivity.
  - rewrite Z.sgn_pos by lia. reflexivity.
Qed.
Lemma strcmp_sgn x y : Z.sgn (strcmp x y) = strcmp x y.
Proof.
  revert y; induction x as [|a x IH]; intros [|b y]; cbn [strcmp]; try reflexivity.
  destruct (a <? b); [reflexivity|]. destruct (b <? a); [reflexivity|apply IH].
Qed.
Lemma memcmp_strcmp x y : memcmp x y = strcmp x y.
Proof. reflexivity. Qed.
Lemma bytes_at_length s p n : length (bytes_at s p n) = Z.to_nat n.
Proof. unfold bytes_at. now rewrite map_length, seq_length. Qed.
Lemma cmp_blob s t a b : t = WG_BLOBTYPE -> storable s t a -> storable s t b ->
  match wg_decode_unistr a with
  | Some pa => match wg_decode_unistr b with
    | Some pb =>
      let n := Z.min (wrap32 (wg_decode_blob_len s a)) (wrap32 (wg_decode_blob_len s b)) in
      let r := memcmp (bytes_at s pa n) (bytes_at s pb n) in
      let r := if r =? 0 then wrap32 (wrap32 (wg_decode_blob_len s a) - wrap32 (wg_decode_blob_len s b)) else r in
      if 0 <? r then WG_GREATER else if r <? 0 then WG_LESSTHAN else WG_EQUAL
    | None => WG_EQUAL end
  | None => WG_EQUAL end = strcmp (blob s a) (blob s b).
Proof.
  intros E Ha Hb. pose proof (st_blob _ _ _ Ha E) as La. pose proof (st_blob _ _ _ Hb E) as Lb.
  destruct (land_produced_long _ _ _ (st_prod _ _ _ Ha)) as (A1 & A2); [auto|].
  destruct (land_produced_long _ _ _ (st_prod _ _ _ Hb)) as (B1 & B2); [auto|].
  unfold blob, wg_decode_unistr. rewrite A1, A2, B1, B2. cbv zeta. rewrite !(wrap32_id (wg_decode_blob_len s _)) by (unfold is32; lia).
  set (la := wg_decode_blob_len s a) in *. set (lb := wg_decode_blob_len s b) in *. clearbody la lb.
  rewrite (wrap32_id (la - lb)) by (unfold is32; lia). rewrite !memcmp_strcmp.
  rewrite (strcmp_prefix (bytes_at s _ la) (bytes_at s _ lb)). cbv zeta. rewrite !bytes_at_length.
  rewrite (bytes_at_firstn s _ (Z.min la lb) la) by lia. rewrite (bytes_at_firstn s _ (Z.min la lb) lb) by lia.
  replace (Nat.min (Z.to_nat la) (Z.to_nat lb)) with (Z.to_nat (Z.min la lb)) by lia.
  rewrite !Z2Nat.id by lia.
  set (r := strcmp _ _). assert (R : Z.sgn r = r) by apply strcmp_sgn. clearbody r.
  unfold WG_GREATER, WG_LESSTHAN, WG_EQUAL.
  destruct (Z.eqb_spec r 0) as [->|N].
  - destruct (Z.ltb_spec 0 (la - lb)); [now rewrite Z.sgn_pos by lia|]. destruct (Z.ltb_spec (la - lb) 0); [now rewrite Z.sgn_neg by lia|].
    replace (la - lb) with 0 by lia. reflexivity.
  - rewrite <- R in *. destruct r; cbn; congruence.
Qed.

Lemma compare_cases s d a b t : storable s t a -> storable s t b ->
  WG_COMPARE_at s d a b = inner s (reccmp s d) t a b.
Proof.
  intros Ha Hb. unfold WG_COMPARE_at. destruct (Z.eqb_spec a b) as [<-|N].
  - (* equal encodings *)
    assert (R : forall x, sgn x x = 0) by (intros x; unfold sgn; rewrite Z.sub_diag; reflexivity).
    assert (Rs : forall x, strcmp x x = 0) by (intros x; now apply strcmp_eq0).
    assert (Rl : forall x dd, lcmp (WG_COMPARE_at s dd) x x = 0).
    { induction x as [|y x IH]; intros dd; cbn [lcmp]; [reflexivity|]. unfold WG_COMPARE_at at 1. rewrite Z.eqb_refl. cbn [Z.eqb]. apply IH. }
    unfold inner, reccmp, lex. rewrite !R, !Rs. cbn [Z.eqb]. rewrite ?Rs.
    destruct d; rewrite ?R; cbn [Z.eqb]; rewrite ?Rl; repeat match goal with |- context [if ?c then _ else _] => destruct c end; reflexivity.
  - pose proof (storable_type _ _ _ Ha) as Ta. pose proof (storable_type _ _ _ Hb) as Tb.
    pose proof (st_prod _ _ _ Ha) as Pa. pose proof (st_prod _ _ _ Hb) as Pb.
    pose proof (produced_ty _ _ _ Pa) as Tr.
    assert (U : wg_compare s d a b = wg_compare s d a b) by reflexivity.
    destruct d; cbn [wg_compare] in *; rewrite Ta, Tb, Z.eqb_refl; clear U;
    assert (Cases : t = 1 \/ t = 2 \/ t = 3 \/ t = 4 \/ t = 5 \/ t = 6 \/ t = 7 \/ t = 8 \/ t = 9 \/ t = 10 \/ t = 11 \/ t = 12 \/ t = 13 \/ t = 14) by lia.
    all: clear Tr; destruct Cases as [E|[E|[E|[E|[E|[E|[E|[E|[E|[E|[E|[E|[E|E]]]]]]]]]]]]]; rewrite E in Ha, Hb, Pa, Pb |- *; clear Ta Tb E; unfold inner.
    all: cbv [WG_NULLTYPE WG_RECORDTYPE WG_INTTYPE WG_DOUBLETYPE WG_STRTYPE WG_XMLLITERALTYPE WG_URITYPE WG_BLOBTYPE WG_CHARTYPE
       WG_FIXPOINTTYPE WG_DATETYPE WG_TIMETYPE WG_ANONCONSTTYPE WG_VARTYPE]; cbn [Z.eqb Z.ltb Z.compare Pos.eqb Pos.compare Pos.compare_cont orb].
    (* depth 0 *)
    1: exfalso; apply N; rewrite (imm_null _ _ _ Pa eq_refl), (imm_null _ _ _ Pb eq_refl); reflexivity.
    1: rewrite (imm_rec _ _ _ Pa eq_refl), (imm_rec _ _ _ Pb eq_refl); now apply gt_sgn.
    1: apply cmp_int.
    1: apply cmp_dbl; [now apply (st_nan _ _ _ Ha)|now apply (st_nan _ _ _ Hb)].
    1: reflexivity.
    1,2: rewrite extra_cmp_eq; reflexivity.
    1: apply cmp_blob with 8; auto.
    1: apply strcmp_char.
    1-3: apply gt_sgn; intros E; apply N; eapply imm_inj; [exact Pa|exact Pb| |exact E]; auto 8.
    1: now apply gt_sgn.
    1: apply gt_sgn; intros E; apply N; eapply imm_inj; [exact Pa|exact Pb| |exact E]; auto 8.
    (* deeper *)
    1: exfalso; apply N; rewrite (imm_null _ _ _ Pa eq_refl), (imm_null _ _ _ Pb eq_refl); reflexivity.
    1: rewrite (imm_rec _ _ _ Pa eq_refl), (imm_rec _ _ _ Pb eq_refl).
    1: { pose proof (st_rec _ _ _ Ha eq_refl) as La. pose proof (st_rec _ _ _ Hb eq_refl) as Lb.
         rewrite !wrap32_id by (unfold is32; lia). cbn [reccmp]. unfold lex.
         destruct (Z.eqb_spec (wg_get_record_len s a) (wg_get_record_len s b)) as [E|E]; cbn [negb].
         - unfold sgn. rewrite E, Z.sub_diag. cbn [Z.sgn Z.eqb]. rewrite fields_cmp_eq by lia. unfold fields. rewrite E. reflexivity.
         - rewrite gt_sgn by assumption. destruct (Z.eqb_spec (sgn (wg_get_record_len s a) (wg_get_record_len s b)) 0) as [X|_]; [|reflexivity].
           apply sgn_eq0 in X. congruence. }
    1: apply cmp_int.
    1: apply cmp_dbl; [now apply (st_nan _ _ _ Ha)|now apply (st_nan _ _ _ Hb)].
    1: reflexivity.
    1,2: rewrite extra_cmp_eq; reflexivity.
    1: apply cmp_blob with 8; auto.
    1: apply strcmp_char.
    1-3: apply gt_sgn; intros E; apply N; eapply imm_inj; [exact Pa|exact Pb| |exact E]; auto 8.
    1: now apply gt_sgn.
    1: apply gt_sgn; intros E; apply N; eapply imm_inj; [exact Pa|exact Pb| |exact E]; auto 8.
Qed.

(** ** The order *)
Section Order.
Variable s : cstate.
Variable ok : Z -> Prop.
(** The values considered: each storable, closed under record fields. *)
Hypothesis ok_storable : forall e, ok e -> exists t, storable s t e.
Hypothesis ok_closed : forall e i, ok e -> encoded_type (words s) e = WG_RECORDTYPE ->
  0 <= i < wg_get_record_len s e -> ok (wg_get_field s e i).

Definition ok_t (t e : Z) : Prop := ok e /\ storable s t e.

Lemma good_inner rc t : Good (ok_t WG_RECORDTYPE) rc -> Good (ok_t t) (inner s rc t).
Proof.
  intros Grc. unfold inner.
  assert (T : forall (f : Z -> Z) (P : Z -> Prop), Good P (fun a b => sgn (f a) (f b))).
  { intros f P. apply (good_map f P (fun _ => True)); [apply good_sgn|auto]. }
  assert (TS : forall (f : Z -> list Z) (P : Z -> Prop), Good P (fun a b => strcmp (f a) (f b))).
  { intros f P. apply (good_map f P (fun _ => True)); [apply good_strcmp|auto]. }
  destruct (Z.eqb_spec t WG_NULLTYPE). { constructor; intros; lia. }
  destruct (Z.eqb_spec t WG_RECORDTYPE) as [->|]. { exact Grc. }
  destruct (t =? WG_INTTYPE). { apply T. }
  destruct (t =? WG_DOUBLETYPE). { apply (T (fun e => dkey (wg_decode_double s e))). }
  destruct (t =? WG_STRTYPE). { apply TS. }
  destruct (_ || _). { apply good_lex; apply TS. }
  destruct (t =? WG_BLOBTYPE). { apply TS. }
  destruct (t =? WG_CHARTYPE). { apply (T (fun e => wg_decode_char e mod 256)). }
  destruct (t =? WG_FIXPOINTTYPE). { apply T. }
  destruct (t =? WG_DATETYPE). { apply T. }
  destruct (t =? WG_TIMETYPE). { apply T. }
  destruct (t =? WG_VARTYPE). { apply T. }
  apply (T (fun e => e)).
Qed.

Lemma compare_types d a b ta tb : storable s ta a -> storable s tb b -> ta <> tb -> WG_COMPARE_at s d a b = sgn ta tb.
Proof.
  intros Ha Hb N. apply storable_type in Ha, Hb. unfold WG_COMPARE_at.
  destruct (Z.eqb_spec a b) as [->|_]; [congruence|]. rewrite <- (gt_sgn ta tb N).
  destruct d; cbn [wg_compare]; rewrite Ha, Hb; (destruct (Z.eqb_spec tb ta); [congruence|reflexivity]).
Qed.

Lemma good_types d : (forall t, Good (ok_t t) (WG_COMPARE_at s d)) -> Good ok (WG_COMPARE_at s d).
Proof.
  intros H. constructor.
  - intros a b Oa Ob. destruct (ok_storable a Oa) as (ta & Ta). destruct (ok_storable b Ob) as (tb & Tb).
    destruct (Z.eq_dec ta tb) as [<-|N].
    + apply (g_anti _ _ (H ta)); split; assumption.
    + rewrite (compare_types d a b ta tb), (compare_types d b a tb ta) by (assumption || congruence).
      apply (g_anti _ _ good_sgn); exact I.
  - intros a b e Oa Ob Oe. destruct (ok_storable a Oa) as (ta & Ta). destruct (ok_storable b Ob) as (tb & Tb).
    destruct (ok_storable e Oe) as (te & Te).
    destruct (Z.eq_dec ta tb) as [<-|N]; [destruct (Z.eq_dec ta te) as [<-|N2]|].
    + apply (g_trans _ _ (H ta)); split; assumption.
    + rewrite (compare_types d b e ta te), (compare_types d a e ta te) by assumption. auto.
    + rewrite (compare_types d a b ta tb) by assumption. destruct (Z.eq_dec tb te) as [<-|N2].
      * rewrite (compare_types d a e ta tb) by assumption. auto.
      * rewrite (compare_types d b e tb te) by assumption. unfold sgn. rewrite !Z.sgn_nonpos. intros.
        rewrite (compare_types d a e ta te) by (assumption || lia). unfold sgn. rewrite Z.sgn_nonpos. lia.
Qed.

Theorem compare_good d : Good ok (WG_COMPARE_at s d).
Proof.
  assert (Red : forall d, Good (ok_t WG_RECORDTYPE) (reccmp s d) -> Good ok (WG_COMPARE_at s d)).
  { intros d' G. apply good_types. intros t. apply (good_ext _ (inner s (reccmp s d') t)); [now apply good_inner|].
    intros a b [_ Ha] [_ Hb]; now apply compare_cases. }
  induction d as [|d IH]; apply Red; cbn [reccmp].
  - apply (good_map (fun e => e) _ (fun _ => True)); [apply good_sgn|auto].
  - apply good_lex.
    + apply (good_map (wg_get_record_len s) _ (fun _ => True)); [apply good_sgn|auto].
    + apply (good_map (fields s) _ (Forall ok)); [now apply good_list|].
      intros a [Oa Sa]. unfold fields. apply Forall_forall. intros x Hx. apply in_map_iff in Hx. destruct Hx as (i & <- & Hi).
      apply in_seq in Hi. apply ok_closed; [assumption|now apply storable_type|].
      pose proof (st_rec _ _ _ Sa eq_refl). lia.
Qed.
End Order.

(** ** Result codes *)
Definition code (r : Z) : Prop := r = -1 \/ r = 0 \/ r = 1.
Lemma code_gt x y : code (gt_or_less x y).
Proof. unfold gt_or_less, code, WG_GREATER, WG_LESSTHAN. destruct (y <? x); auto. Qed.
Lemma code_strcmp x y : code (strcmp x y).
Proof.
  unfold code. revert y; induction x as [|a x IH]; intros [|b y]; cbn [strcmp]; auto.
  destruct (a <? b); auto. destruct (b <? a); auto.
Qed.
Lemma code_fields s c a b : (forall x y, code (c x y)) -> forall n i, code (fields_cmp s c a b i n).
Proof.
  intros H. induction n as [|n IH]; intros i; cbn [fields_cmp]; [right; now left|].
  destruct (_ =? _); [apply IH|]. destruct (_ =? _); [apply IH|apply H].
Qed.
Lemma code_compare s d a b : code (wg_compare s d a b).
Proof.
  revert a b. induction d as [|d IH]; intros a b; cbn [wg_compare]; cbv zeta;
  repeat match goal with
  | |- code (if ?c then _ else _) => destruct c
  | |- code (match SFcompare ?x ?y with _ => _ end) => destruct (SFcompare x y) as [[]|]
  | |- code (match wg_decode_unistr ?x with _ => _ end) => destruct (wg_decode_unistr x)
  end; try apply code_gt; try apply code_strcmp; try (apply code_fields; apply IH);
  try (unfold extra_cmp; destruct (wg_decode_unistr_lang s a), (wg_decode_unistr_lang s b); try apply code_strcmp;
       try match goal with |- code (match ?l with _ => _ end) => destruct l end);
  unfold code, WG_EQUAL, WG_GREATER, WG_LESSTHAN; auto.
Qed.

(** ** Equality *)
Lemma strcmp_eq x y : (strcmp x y = 0) <-> x = y.
Proof. apply strcmp_eq0. Qed.
Lemma sgn_iff x y : sgn x y = 0 <-> x = y.
Proof. split; [apply sgn_eq0|]. intros ->. unfold sgn. now rewrite Z.sub_diag. Qed.
