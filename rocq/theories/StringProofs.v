(** Reference counts and hash chains of the strings: the invariant and the operations on it. *)
From Coq Require Import ZArith List Bool Lia.
From Verif Require Import Base EncodingModel EncodingProofs RecordModel RecordProofs StringModel.
Import ListNotations.
Open Scope Z_scope.
#[local] Ltac Zify.zify_post_hook ::= idtac.

(** ** Handles *)
Lemma long_handle g : Z.land g 7 = 4 -> g = encode_longstr_offset (decode_longstr_offset g)
  /\ decode_longstr_offset g mod 8 = 0.
Proof.
  unfold encode_longstr_offset, decode_longstr_offset. rewrite land_7, land_n7. intros H.
  assert (M : (g - g mod 8) mod 8 = 0).
  { rewrite H. pose proof (Z.div_mod g 8 ltac:(lia)). replace (g - 4) with (0 + (g / 8) * 8) by lia.
    now rewrite Z_mod_plus_full. }
  split; [|exact M]. rewrite lor8_eq by (try lia; exact M). lia.
Qed.
Lemma short_handle g : Z.land g 7 = 6 -> g = encode_shortstr_offset (decode_shortstr_offset g)
  /\ decode_shortstr_offset g mod 8 = 0.
Proof.
  unfold encode_shortstr_offset, decode_shortstr_offset. rewrite land_7, land_n7. intros H.
  assert (M : (g - g mod 8) mod 8 = 0).
  { rewrite H. pose proof (Z.div_mod g 8 ltac:(lia)). replace (g - 6) with (0 + (g / 8) * 8) by lia.
    now rewrite Z_mod_plus_full. }
  split; [|exact M]. rewrite lor8_eq by (try lia; exact M). lia.
Qed.
Lemma enc_long o : o mod 8 = 0 -> decode_longstr_offset (encode_longstr_offset o) = o
  /\ Z.land (encode_longstr_offset o) 7 = 4.
Proof.
  intros H. unfold encode_longstr_offset, decode_longstr_offset. rewrite lor8_eq, land_7, land_n7 by lia.
  pose proof (Z.div_mod o 8 ltac:(lia)).
  assert (E : (o + 4) mod 8 = 4).
  { replace (o + 4) with (4 + (o / 8) * 8) by lia. now rewrite Z_mod_plus_full. }
  rewrite E. split; [lia|reflexivity].
Qed.
Lemma enc_short o : o mod 8 = 0 -> decode_shortstr_offset (encode_shortstr_offset o) = o
  /\ Z.land (encode_shortstr_offset o) 7 = 6.
Proof.
  intros H. unfold encode_shortstr_offset, decode_shortstr_offset. rewrite lor8_eq, land_7, land_n7 by lia.
  pose proof (Z.div_mod o 8 ltac:(lia)).
  assert (E : (o + 6) mod 8 = 6).
  { replace (o + 6) with (6 + (o / 8) * 8) by lia. now rewrite Z_mod_plus_full. }
  rewrite E. split; [lia|reflexivity].
Qed.
Lemma enc_long_idem o : o mod 8 = 0 -> encode_longstr_offset (encode_longstr_offset o) = encode_longstr_offset o.
Proof. intros _. unfold encode_longstr_offset. now rewrite <- Z.lor_assoc. Qed.
Lemma enc_long_nz o : 0 < o -> o mod 8 = 0 -> encode_longstr_offset o <> 0.
Proof. intros H M. unfold encode_longstr_offset. rewrite lor8_eq by lia. lia. Qed.
Lemma enc_short_nz o : 0 < o -> o mod 8 = 0 -> encode_shortstr_offset o <> 0.
Proof. intros H M. unfold encode_shortstr_offset. rewrite lor8_eq by lia. lia. Qed.
Lemma dec_long_inj g h : Z.land g 7 = 4 -> Z.land h 7 = 4 -> decode_longstr_offset g = decode_longstr_offset h -> g = h.
Proof. intros G H E. apply long_handle in G, H. destruct G as (-> & _), H as (-> & _). congruence. Qed.
Lemma dec_short_inj g h : Z.land g 7 = 6 -> Z.land h 7 = 6 -> decode_shortstr_offset g = decode_shortstr_offset h -> g = h.
Proof. intros G H E. apply short_handle in G, H. destruct G as (-> & _), H as (-> & _). congruence. Qed.
Lemma isptr_str h : Z.land h 7 = 4 \/ Z.land h 7 = 6 -> isptr h = true.
Proof.
  intros H. unfold isptr. rewrite land_3. rewrite land_7 in H.
  assert (h <> 0) by (intros ->; cbn in H; lia).
  destruct (Z.eqb_spec h 0); [contradiction|].
  assert (h mod 4 = (h mod 8) mod 4).
  { rewrite <- Znumtheory.Zmod_div_mod; try lia. now exists 2. }
  destruct H as [H | H]; rewrite H in *; destruct (Z.eqb_spec (h mod 4) 3) as [E | E]; auto; rewrite E in *; discriminate.
Qed.

(** ** Lists *)
Definition remz := remove Z.eq_dec.
Lemma remz_in a l x : In x (remz a l) <-> In x l /\ x <> a.
Proof.
  split; [apply in_remove|]. intros (H & N). now apply in_in_remove.
Qed.
Lemma remz_nd a l : NoDup l -> NoDup (remz a l).
Proof.
  induction 1 as [|x l N ND IH]; cbn; [constructor|]. destruct (Z.eq_dec a x); [exact IH|].
  constructor; [|exact IH]. intros H. apply remz_in in H. now apply N.
Qed.
Lemma remz_notin a l : ~ In a l -> remz a l = l.
Proof. apply notin_remove. Qed.
Lemma remz_length a l : (length (remz a l) <= length l)%nat.
Proof. induction l as [|x l IH]; cbn; [lia|]. destruct (Z.eq_dec a x); cbn; lia. Qed.
Lemma cnt_map_ext (f g : Z -> Z) l x : (forall o, In o l -> f o = g o) -> cnt (map f l) x = cnt (map g l) x.
Proof.
  induction l as [|a l IH]; intros H; cbn [map]; [reflexivity|].
  rewrite !cnt_cons, IH, (H a); [reflexivity|now left|]. intros o Ho. apply H. now right.
Qed.
Lemma cnt_map_rem (f : Z -> Z) a l x : NoDup l -> In a l -> cnt (map f (remz a l)) x = cnt (map f l) x - hit (f a) x.
Proof.
  induction 1 as [|b l N ND IH]; intros H; [contradiction|]. cbn [map remz remove].
  rewrite cnt_cons. destruct (Z.eq_dec a b) as [-> | Nb].
  - fold (remz b l). rewrite remz_notin by assumption. lia.
  - cbn [map]. rewrite cnt_cons. fold (remz a l). destruct H as [-> | H]; [contradiction|]. rewrite IH by assumption. lia.
Qed.

(** ** The state *)
Lemma set_long_same s o x : s_long (set_long s o x) o = x.
Proof. cbn. now rewrite Z.eqb_refl. Qed.
Lemma set_long_other s o x a : a <> o -> s_long (set_long s o x) a = s_long s a.
Proof. intros H. cbn. now destruct (Z.eqb_spec a o). Qed.
Lemma long_at_same s o x : long_at (set_long s o (Some (Some x))) o = Some x.
Proof. unfold long_at. now rewrite set_long_same. Qed.
Lemma long_at_other s o x a : a <> o -> long_at (set_long s o x) a = long_at s a.
Proof. intros H. unfold long_at. now rewrite set_long_other. Qed.

Definition extra_at (s : sst) (o : Z) : Z := match long_at s o with Some x => l_extra x | None => 0 end.
(** The encoded extra strings of the long strings at the offsets [M]. *)
Definition extras (M : list Z) (s : sst) : list Z := map (extra_at s) M.
(** References to a handle: from fields and from long strings. *)
Definition hc (M : list Z) (f : Z -> Z) (s : sst) (g : Z) : Z := f g + cnt (extras M s) g.

Definition tagged (g : Z) : Prop := Z.land g 7 = 4 \/ Z.land g 7 = 6.
Definition extra_ok (M : list Z) (s : sst) (e : Z) : Prop :=
  e = 0 \/ (Z.land e 7 = 6) \/
  (Z.land e 7 = 4 /\ In (decode_longstr_offset e) M /\ extra_at s (decode_longstr_offset e) = 0).

(** The chain starting with the encoded link [h] consists of the strings at the offsets [l]. *)
Fixpoint linked (s : sst) (h : Z) (l : list Z) : Prop :=
  match l with
  | [] => h = 0
  | o :: l => h = encode_longstr_offset o /\ exists x, long_at s o = Some x /\ linked s (l_chain x) l
  end.
Definition l_bytes (x : lstr) : list Z := firstn (Z.to_nat (l_strsize x)) (l_data x).
Definition body (x : lstr) := (l_size x, l_meta x, l_extra x, l_data x).

Section Inv.
Variable alen : Z.
Definition bucket_of (s : sst) (x : lstr) : option Z :=
  match l_lang s x with None => None | Some e => Some (wg_hash_typedstr alen (l_bytes x) e) end.

Record SI (M : list Z) (cl : Z -> list Z) (f : Z -> Z) (s : sst) : Prop := {
  si_nd : NoDup M;
  si_len : (length M <= s_made s)%nat;
  si_obj : forall o, In o M -> 0 < o /\ o mod 8 = 0 /\
     exists x, long_at s o = Some x /\ l_ref x = hc M f s (encode_longstr_offset o) /\ extra_ok M s (l_extra x);
  si_f : forall g, tagged g -> 0 <= f g;
  si_long : forall g, Z.land g 7 = 4 -> 0 < hc M f s g -> In (decode_longstr_offset g) M;
  si_short : forall g, Z.land g 7 = 6 -> hc M f s g <= 1 /\ (0 < hc M f s g -> s_short s (decode_shortstr_offset g) <> None);
  si_chain : forall b, linked s (s_hash s b) (cl b) /\ NoDup (cl b) /\ incl (cl b) M;
  si_hash : forall b o, In o (cl b) -> exists x, long_at s o = Some x /\ bucket_of s x = Some b }.

(** ** Frames *)
(** [M'] is the part of [M] that is left; what is still referred to has not changed. *)
Definition frame (M' : list Z) (s s' : sst) : Prop :=
  forall o, In o M' -> exists x x', long_at s o = Some x /\ long_at s' o = Some x' /\ body x' = body x.
Lemma frame_extra M' s s' o : frame M' s s' -> In o M' -> extra_at s' o = extra_at s o.
Proof.
  intros F H. destruct (F o H) as (x & x' & E & E' & B). unfold extra_at. rewrite E, E'. unfold body in B. congruence.
Qed.
Lemma frame_extras M' s s' g : frame M' s s' -> cnt (extras M' s') g = cnt (extras M' s) g.
Proof. intros F. apply cnt_map_ext. intros o H. now apply (frame_extra M'). Qed.

Lemma in_extras M s o x : In o M -> long_at s o = Some x -> 0 < cnt (extras M s) (l_extra x).
Proof.
  intros H E. apply cnt_in. unfold extras. apply in_map_iff. exists o. split; [|exact H]. unfold extra_at. now rewrite E.
Qed.

Lemma lang_frame M M' cl f s s' o x x' : SI M cl f s -> incl M' M -> frame M' s s' ->
  (forall e, e <> 0 -> Z.land e 7 = 4 -> 0 < cnt (extras M' s) e -> In (decode_longstr_offset e) M') ->
  (forall g, Z.land g 7 = 6 -> 0 < cnt (extras M' s) g -> s_short s' (decode_shortstr_offset g) = s_short s (decode_shortstr_offset g)) ->
  In o M' -> long_at s o = Some x -> long_at s' o = Some x' -> l_lang s' x' = l_lang s x /\ l_bytes x' = l_bytes x.
Proof.
  intros H Inc F HL HS Ho E E'.
  destruct (F o Ho) as (y & y' & Ey & Ey' & B). rewrite E in Ey. rewrite E' in Ey'. injection Ey as <-. injection Ey' as <-.
  injection B as B1 B2 B3 B4. split; [|unfold l_bytes, l_strsize; now rewrite B1, B2, B4].
  unfold l_lang. rewrite B3. destruct (Z.eqb_spec (l_extra x) 0) as [_ | N]; [reflexivity|].
  pose proof (in_extras M' s o x Ho E) as C.
  unfold wg_decode_unistr. destruct (Z.eqb_spec (Z.land (l_extra x) 7) 6) as [T | T].
  - now rewrite HS.
  - destruct (Z.eqb_spec (Z.land (l_extra x) 7) 4) as [T4 | T4]; [|reflexivity].
    destruct (F _ (HL _ N T4 C)) as (z & z' & Ez & Ez' & Bz). rewrite Ez, Ez'. unfold body in Bz. congruence.
Qed.

Lemma lang_some M cl f s o x : SI M cl f s -> In o M -> long_at s o = Some x -> exists e, l_lang s x = Some e.
Proof.
  intros H Ho E. destruct (si_obj _ _ _ _ H o Ho) as (_ & _ & y & Ey & _ & X). rewrite E in Ey. injection Ey as <-.
  unfold l_lang. destruct (Z.eqb_spec (l_extra x) 0) as [_ | N]; [eauto|].
  unfold wg_decode_unistr. destruct X as [X | [X | (X & I & _)]]; [contradiction| |].
  - rewrite X. destruct (si_short _ _ _ _ H _ X) as (_ & L). cbn [Z.eqb Pos.eqb].
    destruct (s_short s (decode_shortstr_offset (l_extra x))) as [c|]; [eauto|]. exfalso. apply L; [|reflexivity].
    pose proof (in_extras M s o x Ho E). pose proof (si_f _ _ _ _ H (l_extra x) (or_intror X)). unfold hc. lia.
  - rewrite X. cbn [Z.eqb Pos.eqb]. destruct (si_obj _ _ _ _ H _ I) as (_ & _ & z & Ez & _). rewrite Ez. eauto.
Qed.

Lemma SI_ext M cl f f' s : SI M cl f s -> (forall g, tagged g -> f' g = f g) -> SI M cl f' s.
Proof.
  intros [A1 A2 A3 A4 A5 A6 A7 A8] E.
  assert (Eh : forall g, tagged g -> hc M f' s g = hc M f s g) by (intros g T; unfold hc; now rewrite E).
  split; auto.
  - intros o Ho. destruct (A3 o Ho) as (P & Q & x & Ex & R & X). split; [exact P|]. split; [exact Q|].
    exists x. split; [exact Ex|]. split; [|exact X]. rewrite Eh; [exact R|]. left. now apply enc_long.
  - intros g T. rewrite E by assumption. now apply A4.
  - intros g T. rewrite Eh by now left. now apply A5.
  - intros g T. rewrite Eh by now right. now apply A6.
Qed.

Lemma linked_frame s s' l : forall h,
  (forall o x, In o l -> long_at s o = Some x -> exists x', long_at s' o = Some x' /\ l_chain x' = l_chain x) ->
  linked s h l -> linked s' h l.
Proof.
  induction l as [|o l IH]; cbn [linked]; intros h F H; [exact H|].
  destruct H as (-> & x & E & H). split; [reflexivity|].
  destruct (F o x (or_introl eq_refl) E) as (x' & E' & C). exists x'. split; [exact E'|]. rewrite C.
  apply IH; [|exact H]. intros p y Hp. apply F. now right.
Qed.

(** Changing counts only. *)
Lemma SI_recount M cl f f' s o x n : SI M cl f s -> In o M -> long_at s o = Some x ->
  n = f' (encode_longstr_offset o) + cnt (extras M s) (encode_longstr_offset o) ->
  (forall g, tagged g -> 0 <= f' g) ->
  (forall g, tagged g -> g <> encode_longstr_offset o -> f' g = f g) ->
  SI M cl f' (set_long s o (Some (Some (with_ref x n)))).
Proof.
  intros H Ho E Hn Hf He.
  set (s' := set_long s o (Some (Some (with_ref x n)))).
  assert (F : frame M s s').
  { intros p Hp. destruct (si_obj _ _ _ _ H p Hp) as (_ & _ & y & Ey & _). unfold s'.
    destruct (Z.eq_dec p o) as [-> | N].
    - exists x, (with_ref x n). now rewrite long_at_same.
    - exists y, y. now rewrite long_at_other. }
  assert (L : forall p y, In p M -> long_at s p = Some y -> exists y', long_at s' p = Some y' /\ l_chain y' = l_chain y /\
              l_lang s' y' = l_lang s y /\ l_bytes y' = l_bytes y).
  { intros p y Hp Ep. destruct (F p Hp) as (z & z' & Ez & Ez' & B). exists z'. split; [exact Ez'|].
    assert (l_lang s' z' = l_lang s y /\ l_bytes z' = l_bytes y) as (G1 & G2).
    { apply (lang_frame M M cl f s s' p y z'); auto; [apply incl_refl|].
      intros e Ne Te Ce. apply (si_long _ _ _ _ H e Te). pose proof (si_f _ _ _ _ H e (or_introl Te)). unfold hc. lia. }
    repeat split; auto. unfold s' in Ez'. destruct (Z.eq_dec p o) as [-> | N].
    - rewrite long_at_same in Ez'. injection Ez' as <-. rewrite E in Ep. injection Ep as <-. reflexivity.
    - rewrite long_at_other in Ez' by assumption. congruence. }
  assert (X : forall g, cnt (extras M s') g = cnt (extras M s) g) by (intros g; now apply frame_extras).
  assert (Eo : In (decode_longstr_offset (encode_longstr_offset o)) M).
  { destruct (si_obj _ _ _ _ H o Ho) as (_ & Q & _). now rewrite (proj1 (enc_long o Q)). }
  destruct H as [A1 A2 A3 A4 A5 A6 A7 A8]. split; auto.
  - intros p Hp. destruct (A3 p Hp) as (P & Q & y & Ey & R & XO). split; [exact P|]. split; [exact Q|].
    assert (XO' : extra_ok M s' (l_extra y)).
    { destruct XO as [XO | [XO | (T & I & Z0)]]; [now left|right; now left|]. right. right. split; [exact T|]. split; [exact I|].
      now rewrite (frame_extra M s s'). }
    unfold s' at 1. destruct (Z.eq_dec p o) as [-> | N].
    + exists (with_ref x n). rewrite long_at_same. split; [reflexivity|]. split; [unfold hc; now rewrite X|].
      rewrite E in Ey. injection Ey as <-. exact XO'.
    + exists y. rewrite long_at_other by assumption. split; [exact Ey|]. split; [|exact XO']. unfold hc. rewrite X, He; [exact R| |].
      * left. now apply enc_long.
      * intros C. apply N. destruct (A3 o Ho) as (_ & Q' & _). rewrite <- (proj1 (enc_long p Q)), C. now apply enc_long.
  - intros g T Hg. destruct (Z.eq_dec g (encode_longstr_offset o)) as [-> | N]; [exact Eo|].
    apply A5; [exact T|]. unfold hc in *. rewrite X, He in Hg by (auto; now left). exact Hg.
  - intros g T. unfold hc. rewrite X, He.
    + exact (A6 g T).
    + now right.
    + intros ->. destruct (A3 o Ho) as (_ & Q & _). rewrite (proj2 (enc_long o Q)) in T. discriminate.
  - intros b. destruct (A7 b) as (L1 & L2 & L3). split; [|split; [exact L2|exact L3]].
    apply (linked_frame s); [|exact L1]. intros p y Hp Ep. destruct (L p y (L3 p Hp) Ep) as (y' & ? & ? & _). eauto.
  - intros b p Hp. destruct (A8 b p Hp) as (y & Ey & B). destruct (A7 b) as (_ & _ & L3).
    destruct (L p y (L3 p Hp) Ey) as (y' & Ey' & _ & G1 & G2). exists y'. split; [exact Ey'|].
    unfold bucket_of in *. now rewrite G1, G2.
Qed.

Definition addf (f : Z -> Z) (h : Z) : Z -> Z := fun g => f g + hit h g.
Definition subf (f : Z -> Z) (h : Z) : Z -> Z := fun g => f g - hit h g.

Lemma SI_ref M cl f s h : SI M cl f s -> Z.land h 7 = 4 -> In (decode_longstr_offset h) M ->
  exists s', ref_long s h = Some s' /\ SI M cl (addf f h) s' /\ frame M s s' /\ s_short s' = s_short s
    /\ (forall a, a <> decode_longstr_offset h -> s_long s' a = s_long s a) /\ s_hash s' = s_hash s /\ s_made s' = s_made s
    /\ (exists x, long_at s (decode_longstr_offset h) = Some x /\ long_at s' (decode_longstr_offset h) = Some (with_ref x (l_ref x + 1))).
Proof.
  intros H T I. destruct (si_obj _ _ _ _ H _ I) as (P & Q & x & Ex & R & _).
  unfold ref_long. rewrite Ex. eexists. split; [reflexivity|].
  pose proof (proj1 (long_handle h T)) as Eh.
  split; [|split; [|split; [reflexivity|split; [|split; [reflexivity|split; [reflexivity|]]]]]].
  - apply (SI_recount M cl f); auto.
    + rewrite <- Eh in *. rewrite R. unfold hc, addf. rewrite hit_same. lia.
    + intros g Tg. unfold addf. pose proof (si_f _ _ _ _ H g Tg). pose proof (hit_range h g). lia.
    + intros g Tg N. rewrite <- Eh in N. unfold addf. rewrite hit_diff by congruence. lia.
  - intros p Hp. destruct (si_obj _ _ _ _ H p Hp) as (_ & _ & y & Ey & _).
    destruct (Z.eq_dec p (decode_longstr_offset h)) as [-> | N].
    + eexists x, _. rewrite long_at_same. repeat split; auto.
    + exists y, y. now rewrite long_at_other.
  - intros a N. now apply set_long_other.
  - exists x. split; [first [reflexivity|exact Ex]|apply long_at_same].
Qed.

(** A short string gets its only reference. *)
Lemma SI_add_short M cl f s h : SI M cl f s -> Z.land h 7 = 6 -> hc M f s h = 0 ->
  s_short s (decode_shortstr_offset h) <> None -> SI M cl (addf f h) s.
Proof.
  intros [A1 A2 A3 A4 A5 A6 A7 A8] T Z0 L.
  assert (D : forall g, Z.land g 7 = 4 -> addf f h g = f g).
  { intros g Tg. unfold addf. rewrite hit_diff; [lia|]. intros ->. rewrite T in Tg. discriminate. }
  split; auto.
  - intros o Ho. destruct (A3 o Ho) as (P & Q & x & Ex & R & X). split; [exact P|]. split; [exact Q|].
    exists x. split; [exact Ex|]. split; [|exact X]. unfold hc. rewrite D; [exact R|]. now apply enc_long.
  - intros g Tg. unfold addf. pose proof (A4 g Tg). pose proof (hit_range h g). lia.
  - intros g Tg. unfold hc. rewrite D by assumption. now apply A5.
  - intros g Tg. unfold hc, addf in *. destruct (Z.eq_dec g h) as [-> | N].
    + rewrite hit_same. split; [lia|]. intros _. exact L.
    + rewrite hit_diff by congruence. specialize (A6 g Tg). rewrite Z.add_0_r. exact A6.
Qed.

(** ** Removing a string from its chain *)
Lemma linked_split s : forall l1 h o l2, linked s h (l1 ++ o :: l2) -> exists x, long_at s o = Some x /\ linked s (l_chain x) l2.
Proof.
  induction l1 as [|a l1 IH]; intros h o l2; cbn [app linked].
  - intros (_ & H). exact H.
  - intros (_ & x & _ & H). now apply (IH (l_chain x)).
Qed.
Lemma linked_cut s p o l2 yp yo : forall l1 h, NoDup (l1 ++ p :: o :: l2) -> long_at s p = Some yp -> long_at s o = Some yo ->
  linked s h (l1 ++ p :: o :: l2) -> linked (set_long s p (Some (Some (with_chain yp (l_chain yo))))) h (l1 ++ p :: l2).
Proof.
  intros l1 h ND Ep Eo. revert h. induction l1 as [|a l1 IH]; intros h; cbn [app linked].
  - intros (-> & x & Ex & H). rewrite Ep in Ex. injection Ex as <-. split; [reflexivity|].
    eexists. rewrite long_at_same. split; [reflexivity|]. cbn [l_chain with_chain].
    destruct H as (_ & x & Ex & H). rewrite Eo in Ex. injection Ex as <-.
    apply (linked_frame s); [|exact H]. intros a y Ha Ea. exists y. rewrite long_at_other; [auto|].
    intros ->. cbn [app] in ND. apply NoDup_cons_iff in ND. apply ND. now right.
  - intros (-> & x & Ex & H). cbn [app] in ND. apply NoDup_cons_iff in ND. destruct ND as (Na & ND).
    split; [reflexivity|]. exists x. rewrite long_at_other.
    + split; [exact Ex|]. now apply IH.
    + intros ->. apply Na. apply in_or_app. right. now left.
Qed.

Definition prev_of (prev : option Z) (l1 : list Z) : option Z := match l1 with [] => prev | _ => Some (last l1 0) end.
Lemma remove_walk_ok s b h : forall l n prev chain, linked s chain l -> (forall o, In o l -> 0 < o /\ o mod 8 = 0) ->
  (length l <= n)%nat -> Z.land h 7 = 4 ->
  (~ In (decode_longstr_offset h) l /\ remove_walk n s b prev chain h = Some s) \/
  exists l1 l2 y, l = l1 ++ decode_longstr_offset h :: l2 /\ long_at s (decode_longstr_offset h) = Some y /\
    remove_walk n s b prev chain h = set_link s b (prev_of prev l1) (l_chain y).
Proof.
  induction l as [|o l IH]; intros n prev chain H W Hn T; cbn [linked length] in *.
  - left. split; [tauto|]. subst chain. destruct n; reflexivity.
  - destruct H as (-> & x & Ex & H). destruct n as [|n]; [lia|]. cbn [remove_walk].
    destruct (W o (or_introl eq_refl)) as (Po & Mo). destruct (enc_long o Mo) as (Do & To).
    destruct (Z.eqb_spec (encode_longstr_offset o) 0) as [C | _]; [now apply enc_long_nz in C|].
    rewrite Do, Ex. destruct (Z.eqb_spec (encode_longstr_offset o) h) as [<- | Nh].
    + right. exists [], l, x. rewrite Do. auto.
    + assert (No : decode_longstr_offset h <> o).
      { intros C. apply Nh. rewrite <- C. symmetry. now apply long_handle. }
      destruct (IH n (Some o) (l_chain x) H (fun a Ha => W a (or_intror Ha)) ltac:(lia) T) as [(N & E) | (l1 & l2 & y & E1 & E2 & E3)].
      * left. split; [|exact E]. intros [C | C]; [now apply No|now apply N].
      * right. exists (o :: l1), l2, y. rewrite E1. split; [reflexivity|]. split; [exact E2|]. rewrite E3.
        destruct l1; reflexivity.
Qed.

(** Counts, contents and short strings stay, chains are given anew. *)
Lemma SI_relink M cl cl' f s s1 : SI M cl f s ->
  (forall o, In o M -> exists x x', long_at s o = Some x /\ long_at s1 o = Some x' /\ body x' = body x /\ l_ref x' = l_ref x) ->
  s_short s1 = s_short s -> s_made s1 = s_made s ->
  (forall b, linked s1 (s_hash s1 b) (cl' b) /\ NoDup (cl' b) /\ incl (cl' b) (cl b)) -> SI M cl' f s1.
Proof.
  intros H FR Es Em Hc.
  assert (F : frame M s s1) by (intros o Ho; destruct (FR o Ho) as (x & x' & ? & ? & ? & _); eauto).
  assert (X : forall g, cnt (extras M s1) g = cnt (extras M s) g) by (intros g; now apply frame_extras).
  assert (Hx : forall g, hc M f s1 g = hc M f s g) by (intros g; unfold hc; now rewrite X).
  assert (LG : forall o x x', In o M -> long_at s o = Some x -> long_at s1 o = Some x' -> l_lang s1 x' = l_lang s x /\ l_bytes x' = l_bytes x).
  { intros o x x' Ho E E'. apply (lang_frame M M cl f s s1 o); auto; [apply incl_refl| |].
    - intros e Ne Te Ce. apply (si_long _ _ _ _ H e Te). pose proof (si_f _ _ _ _ H e (or_introl Te)). unfold hc. lia.
    - intros g Tg _. now rewrite Es. }
  destruct H as [A1 A2 A3 A4 A5 A6 A7 A8]. split; auto.
  - now rewrite Em.
  - intros o Ho. destruct (A3 o Ho) as (P & Q & x & Ex & R & XO). split; [exact P|]. split; [exact Q|].
    destruct (FR o Ho) as (y & y' & Ey & Ey' & B & Rf). rewrite Ex in Ey. injection Ey as <-.
    exists y'. split; [exact Ey'|]. split; [now rewrite Hx, Rf|]. injection B as _ _ -> _.
    destruct XO as [XO | [XO | (T & I & Z0)]]; [now left|right; now left|]. right. right. split; [exact T|]. split; [exact I|].
    now rewrite (frame_extra M s s1).
  - intros g T. rewrite Hx. now apply A5.
  - intros g T. rewrite Hx, Es. now apply A6.
  - intros b. destruct (Hc b) as (L1 & L2 & L3). split; [exact L1|]. split; [exact L2|].
    intros o Ho. destruct (A7 b) as (_ & _ & I). apply I, L3, Ho.
  - intros b o Ho. destruct (Hc b) as (_ & _ & L3). destruct (A8 b o (L3 o Ho)) as (x & Ex & B).
    assert (Im : In o M) by (destruct (A7 b) as (_ & _ & I); apply I, L3, Ho).
    destruct (FR o Im) as (y & y' & Ey & Ey' & _). exists y'. split; [exact Ey'|].
    destruct (LG o x y' Im Ex Ey') as (G1 & G2). unfold bucket_of in *. now rewrite G1, G2.
Qed.

Lemma chain_len M cl f s b : SI M cl f s -> (length (cl b) <= s_made s)%nat.
Proof.
  intros H. destruct (si_chain _ _ _ _ H b) as (_ & N & I). pose proof (NoDup_incl_length N I).
  pose proof (si_len _ _ _ _ H). lia.
Qed.

Lemma SI_remove M cl f s h : SI M cl f s -> Z.land h 7 = 4 -> In (decode_longstr_offset h) M ->
  exists s1, wg_remove_from_strhash alen s h = Some s1
    /\ SI M (fun b => remz (decode_longstr_offset h) (cl b)) f s1
    /\ s_short s1 = s_short s /\ s_made s1 = s_made s
    /\ (forall o, In o M -> exists x x', long_at s o = Some x /\ long_at s1 o = Some x' /\ body x' = body x /\ l_ref x' = l_ref x)
    /\ (forall o, ~ In o M -> s_long s1 o = s_long s o).
Proof.
  intros H T I. set (o := decode_longstr_offset h) in *.
  destruct (si_obj _ _ _ _ H o I) as (Po & Mo & x & Ex & _).
  destruct (lang_some _ _ _ _ _ _ H I Ex) as (e & Le).
  unfold wg_remove_from_strhash. fold o. rewrite Ex, Le. fold (l_bytes x).
  set (b := wg_hash_typedstr alen (l_bytes x) e).
  assert (Hb : forall a, In o (cl a) -> a = b).
  { intros a Ha. destruct (si_hash _ _ _ _ H a o Ha) as (y & Ey & B). rewrite Ex in Ey. injection Ey as <-.
    unfold bucket_of in B. rewrite Le in B. injection B as <-. reflexivity. }
  assert (Same : forall o0, In o0 M -> exists y y', long_at s o0 = Some y /\ long_at s o0 = Some y' /\ body y' = body y /\ l_ref y' = l_ref y).
  { intros p Hp. destruct (si_obj _ _ _ _ H p Hp) as (_ & _ & y & Ey & _). exists y, y. auto. }
  destruct (si_chain _ _ _ _ H b) as (L1 & L2 & L3).
  assert (W : forall a, In a (cl b) -> 0 < a /\ a mod 8 = 0).
  { intros a Ha. destruct (si_obj _ _ _ _ H a (L3 a Ha)) as (? & ? & _). auto. }
  pose proof (chain_len _ _ _ _ b H) as Hn.
  destruct (remove_walk_ok s b h (cl b) (s_made s) None (s_hash s b) L1 W Hn T) as [(N & E) | (l1 & l2 & y & E1 & E2 & E3)].
  - fold o in N. exists s. split; [exact E|].
    assert (Hall : forall a, remz o (cl a) = cl a).
    { intros a. apply remz_notin. intros C. pose proof (Hb a C). subst a. now apply N. }
    split; [|split; [reflexivity|split; [reflexivity|split; [exact Same|reflexivity]]]].
    apply (SI_relink M cl _ _ s); auto. intros a. rewrite Hall. destruct (si_chain _ _ _ _ H a) as (? & ? & ?).
    split; [assumption|]. split; [assumption|apply incl_refl].
  - fold o in E1, E2. rewrite Ex in E2. injection E2 as <-.
    assert (ND : NoDup (l1 ++ o :: l2)) by now rewrite <- E1.
    assert (Rb : remz o (cl b) = l1 ++ l2).
    { rewrite E1. apply NoDup_remove_2 in ND. unfold remz. rewrite remove_app. cbn [remove].
      destruct (Z.eq_dec o o) as [_ | C]; [|contradiction]. fold remz.
      rewrite !remz_notin; [reflexivity| |]; intros C; apply ND; apply in_or_app; auto. }
    assert (Ro : forall a, a <> b -> remz o (cl a) = cl a).
    { intros a Na. apply remz_notin. intros C. apply Na. now apply Hb. }
    rewrite E3. destruct l1 as [|l1h l1t] using rev_ind.
    + cbn [prev_of set_link]. eexists. split; [reflexivity|].
      split; [|split; [reflexivity|split; [reflexivity|split; [exact Same|reflexivity]]]].
      apply (SI_relink M cl _ _ s); auto. intros a. destruct (Z.eq_dec a b) as [-> | Na].
      * rewrite Rb. cbn [app]. split; [|split].
        -- cbn [set_bucket s_hash]. rewrite Z.eqb_refl. rewrite E1 in L1. destruct (linked_split s [] _ _ _ L1) as (z & Ez & Lz).
           rewrite Ex in Ez. injection Ez as <-. apply (linked_frame s); [|exact Lz]. intros p q _ Eq. exists q. auto.
        -- cbn [app] in ND. now apply NoDup_cons_iff in ND.
        -- rewrite E1. intros p Hp. now right.
      * rewrite Ro by assumption. destruct (si_chain _ _ _ _ H a) as (K1 & K2 & K3). split; [|split; [exact K2|apply incl_refl]].
        cbn [set_bucket s_hash]. destruct (Z.eqb_spec a b); [contradiction|].
        apply (linked_frame s); [|exact K1]. intros p q _ Eq. exists q. auto.
    + clear IHl1t. rename l1h into p, l1t into l1. idtac.
      assert (Ep : prev_of None (l1 ++ [p]) = Some p).
      { unfold prev_of. destruct (l1 ++ [p]) eqn:C; [now destruct l1|]. rewrite <- C, last_last. reflexivity. }
      rewrite Ep. cbn [set_link].
      assert (Hp : In p (cl b)) by (rewrite E1; apply in_or_app; left; apply in_or_app; right; now left).
      destruct (si_obj _ _ _ _ H p (L3 p Hp)) as (_ & _ & yp & Eyp & _). rewrite Eyp.
      eexists. split; [reflexivity|]. rewrite <- app_assoc in ND, E1. cbn [app] in ND, E1.
      assert (Hne : forall a q, a <> b -> In q (cl a) -> q <> p).
      { intros a q Na Hq ->. destruct (si_hash _ _ _ _ H a p Hq) as (z & Ez & B).
        destruct (si_hash _ _ _ _ H b p Hp) as (z' & Ez' & B'). rewrite Ez in Ez'. injection Ez' as <-. congruence. }
      assert (FR : forall q, In q M -> exists z z', long_at s q = Some z /\
         long_at (set_long s p (Some (Some (with_chain yp (l_chain x))))) q = Some z' /\ body z' = body z /\ l_ref z' = l_ref z).
      { intros q Hq. destruct (Z.eq_dec q p) as [-> | Nq].
        - exists yp, (with_chain yp (l_chain x)). rewrite long_at_same. auto.
        - rewrite long_at_other by assumption. now apply Same. }
      split; [|split; [reflexivity|split; [reflexivity|split; [exact FR|]]]].
      * apply (SI_relink M cl _ _ s); auto. intros a. destruct (Z.eq_dec a b) as [-> | Na].
        -- rewrite Rb, <- app_assoc. cbn [app]. split; [|split].
           ++ change (s_hash (set_long s p (Some (Some (with_chain yp (l_chain x))))) b) with (s_hash s b).
              rewrite E1 in L1. now apply (linked_cut s p o l2 yp x).
           ++ replace (l1 ++ p :: l2) with (remz o (cl b)); [now apply remz_nd|].
              rewrite Rb, <- app_assoc. reflexivity.
           ++ rewrite E1. intros q Hq. apply in_app_or in Hq. apply in_or_app. destruct Hq as [Hq | [-> | Hq]]; auto.
              ** right. now left.
              ** right. right. now right.
        -- rewrite Ro by assumption. destruct (si_chain _ _ _ _ H a) as (K1 & K2 & K3). split; [|split; [exact K2|apply incl_refl]].
           apply (linked_frame s); [|exact K1]. intros q z Hq Eq. exists z. rewrite long_at_other; [auto|]. now apply (Hne a).
      * intros q Nq. apply set_long_other. intros ->. apply Nq, L3, Hp.
Qed.

(** Dropping a string with one reference left. *)
Lemma SI_drop M cl f s h x : SI M cl f s -> Z.land h 7 = 4 -> In (decode_longstr_offset h) M ->
  long_at s (decode_longstr_offset h) = Some x -> 1 <= f h -> l_ref x <= 1 ->
  (forall b, ~ In (decode_longstr_offset h) (cl b)) ->
  SI (remz (decode_longstr_offset h) M) cl (addf (subf f h) (l_extra x)) s.
Proof.
  intros H T I Ex Hf Hr Hc. set (o := decode_longstr_offset h) in *.
  assert (Eh : encode_longstr_offset o = h) by (symmetry; now apply long_handle).
  assert (Xo : extra_at s o = l_extra x) by (unfold extra_at; now rewrite Ex).
  assert (Hx : forall g, hc (remz o M) (addf (subf f h) (l_extra x)) s g = hc M f s g - hit h g).
  { intros g. unfold hc, addf, subf, extras. rewrite cnt_map_rem by (auto; apply (si_nd _ _ _ _ H)). rewrite Xo. lia. }
  destruct (si_obj _ _ _ _ H o I) as (Po & Mo & x' & Ex' & Rx & _). rewrite Ex in Ex'. injection Ex' as <-.
  rewrite Eh in Rx.
  assert (Hh : hc M f s h = 1).
  { pose proof (cnt_nonneg (extras M s) h). unfold hc in *. lia. }
  assert (Xh : cnt (extras M s) h = 0).
  { pose proof (cnt_nonneg (extras M s) h). unfold hc in *. lia. }
  destruct H as [A1 A2 A3 A4 A5 A6 A7 A8]. split.
  - now apply remz_nd.
  - pose proof (remz_length o M). lia.
  - intros p Hp. apply remz_in in Hp. destruct Hp as (Hp & Np). destruct (A3 p Hp) as (P & Q & y & Ey & R & XO).
    split; [exact P|]. split; [exact Q|]. exists y. split; [exact Ey|]. split.
    + rewrite Hx, hit_diff; [lia|]. intros C. apply Np. rewrite <- (proj1 (enc_long p Q)), <- C. reflexivity.
    + destruct XO as [XO | [XO | (T1 & I1 & Z0)]]; [now left|right; now left|]. right. right. split; [exact T1|]. split; [|exact Z0].
      apply remz_in. split; [exact I1|]. intros C.
      assert (Eh' : l_extra y = h).
      { rewrite (proj1 (long_handle _ T1)), C. exact Eh. }
      pose proof (in_extras M s p y Hp Ey) as C1. rewrite Eh' in C1. lia.
  - intros g Tg. pose proof (A4 g Tg). unfold addf, subf. pose proof (hit_range (l_extra x) g).
    destruct (Z.eq_dec g h) as [-> | Ng]; [rewrite hit_same; lia|]. rewrite (hit_diff h g) by congruence. lia.
  - intros g Tg Hg. rewrite Hx in Hg. apply remz_in. split.
    + apply A5; [exact Tg|]. pose proof (hit_range h g). lia.
    + intros C. assert (g = h) by now apply dec_long_inj. subst g. rewrite hit_same in Hg. lia.
  - intros g Tg. rewrite Hx. rewrite hit_diff.
    + rewrite Z.sub_0_r. now apply A6.
    + intros ->. rewrite Tg in T. discriminate.
  - intros b. destruct (A7 b) as (L1 & L2 & L3). split; [exact L1|]. split; [exact L2|].
    intros p Hp. apply remz_in. split; [now apply L3|]. intros ->. now apply (Hc b).
  - exact A8.
Qed.

(** Freeing the object of a string that is not in the list any more. *)
Lemma SI_dead M cl f s o : SI M cl f s -> ~ In o M -> SI M cl f (set_long s o None).
Proof.
  intros H N.
  assert (L : forall p, In p M -> long_at (set_long s o None) p = long_at s p).
  { intros p Hp. apply long_at_other. intros ->. contradiction. }
  apply (SI_relink M cl _ _ s); auto.
  - intros p Hp. destruct (si_obj _ _ _ _ H p Hp) as (_ & _ & y & Ey & _). exists y, y. rewrite L by assumption. auto.
  - intros b. destruct (si_chain _ _ _ _ H b) as (K1 & K2 & K3). split; [|split; [exact K2|apply incl_refl]].
    apply (linked_frame s); [|exact K1]. intros p y Hp Ep. exists y. rewrite L; auto.
Qed.

(** ** Releasing a reference *)
Record step (M : list Z) (cl : Z -> list Z) (s : sst) (M' : list Z) (cl' : Z -> list Z) (s' : sst) : Prop := {
  st_incl : incl M' M;
  st_cl : forall b o, In o (cl' b) <-> In o (cl b) /\ In o M';
  st_frame : forall o, In o M' -> exists x x', long_at s o = Some x /\ long_at s' o = Some x' /\ body x' = body x
                         /\ (l_ref x' = 0 -> l_ref x <= 0);
  st_dead : forall o, In o M -> ~ In o M' -> s_long s' o = None;
  st_out : forall o, ~ In o M -> s_long s' o = s_long s o;
  st_short : forall a, s_short s' a = s_short s a \/ s_short s' a = None;
  st_made : s_made s' = s_made s }.
Lemma step_trans M cl s M1 cl1 s1 M2 cl2 s2 : step M cl s M1 cl1 s1 -> step M1 cl1 s1 M2 cl2 s2 ->
  (forall o x, In o M2 -> long_at s1 o = Some x -> 0 <= l_ref x) -> step M cl s M2 cl2 s2.
Proof.
  intros [A1 A2 A3 A4 A5 A6 A7] [B1 B2 B3 B4 B5 B6 B7] Pos. split.
  - intros o Ho. apply A1, B1, Ho.
  - intros b o. rewrite B2, A2. split; [intros ((? & ?) & ?); auto|intros (? & ?); auto].
  - intros o Ho. destruct (A3 o (B1 o Ho)) as (x & x1 & E & E1 & B & R).
    destruct (B3 o Ho) as (y & x2 & E1' & E2 & B' & R'). rewrite E1 in E1'. injection E1' as <-.
    exists x, x2. split; [exact E|]. split; [exact E2|]. split; [congruence|].
    intros Z0. apply R. pose proof (Pos o x1 Ho E1). pose proof (R' Z0). lia.
  - intros o Ho N. destruct (in_dec Z.eq_dec o M1) as [I | NI]; [now apply B4|]. rewrite B5 by assumption. now apply A4.
  - intros o No. rewrite B5; [now apply A5|]. intros C. apply No, A1, C.
  - intros a. destruct (B6 a) as [-> | ->]; [apply A6|now right].
  - congruence.
Qed.
Lemma step_refl M cl f s : SI M cl f s -> step M cl s M cl s.
Proof.
  intros H. split; auto.
  - apply incl_refl.
  - intros b o. split; [|tauto]. intros Ho. split; [exact Ho|]. destruct (si_chain _ _ _ _ H b) as (_ & _ & I). now apply I.
  - intros o Ho. destruct (si_obj _ _ _ _ H o Ho) as (_ & _ & x & Ex & _). exists x, x. repeat split; auto. lia.
  - intros o Ho N. contradiction.
Qed.
Lemma SI_refnn M cl f s o x : SI M cl f s -> In o M -> long_at s o = Some x -> 0 <= l_ref x.
Proof.
  intros H Ho E. destruct (si_obj _ _ _ _ H o Ho) as (_ & Q & y & Ey & R & _). rewrite E in Ey. injection Ey as <-.
  rewrite R. unfold hc. pose proof (si_f _ _ _ _ H (encode_longstr_offset o) (or_introl (proj2 (enc_long o Q)))).
  pose proof (cnt_nonneg (extras M s) (encode_longstr_offset o)). lia.
Qed.

(** A short string nobody refers to any more has been released. *)
Definition srel (M : list Z) (f : Z -> Z) (s : sst) (M' : list Z) (f' : Z -> Z) (s' : sst) : Prop :=
  forall g, Z.land g 7 = 6 -> 0 < hc M f s g -> hc M' f' s' g <= 0 -> s_short s' (decode_shortstr_offset g) = None.
Lemma srel_same M f s M' f' s' : (forall g, Z.land g 7 = 6 -> hc M f s g <= hc M' f' s' g) -> srel M f s M' f' s'.
Proof. intros H g T C C'. specialize (H g T). lia. Qed.
Lemma srel_trans M f s M1 cl1 f1 s1 M2 cl2 f2 s2 : srel M f s M1 f1 s1 -> srel M1 f1 s1 M2 f2 s2 -> step M1 cl1 s1 M2 cl2 s2 ->
  srel M f s M2 f2 s2.
Proof.
  intros A B St g T C C'. destruct (Z.lt_ge_cases 0 (hc M1 f1 s1 g)) as [P | P]; [now apply B|].
  destruct (st_short _ _ _ _ _ _ St (decode_shortstr_offset g)) as [-> | E]; [now apply A|exact E].
Qed.
(** A handle nobody refers to any more has been released. *)
Definition gone (s : sst) (g : Z) : Prop :=
  (Z.land g 7 = 4 -> s_long s (decode_longstr_offset g) = None) /\ (Z.land g 7 = 6 -> s_short s (decode_shortstr_offset g) = None).
Definition rel (M : list Z) (f : Z -> Z) (s : sst) (M' : list Z) (f' : Z -> Z) (s' : sst) : Prop :=
  forall g, tagged g -> 0 < hc M f s g -> hc M' f' s' g <= 0 -> gone s' g.
Lemma rel_of M cl f s M' cl' f' s' : SI M cl f s -> SI M' cl' f' s' -> step M cl s M' cl' s' -> srel M f s M' f' s' -> rel M f s M' f' s'.
Proof.
  intros H H' St Sr g T C C'. split; intros Tg; [|now apply Sr].
  pose proof (si_long _ _ _ _ H g Tg C) as I.
  destruct (in_dec Z.eq_dec (decode_longstr_offset g) M') as [I' | N']; [|now apply (st_dead _ _ _ _ _ _ St)]. exfalso.
  destruct (si_obj _ _ _ _ H _ I) as (_ & Q & x & Ex & Rx & _). destruct (si_obj _ _ _ _ H' _ I') as (_ & _ & x' & Ex' & Rx' & _).
  rewrite <- (proj1 (long_handle g Tg)) in Rx, Rx'.
  destruct (st_frame _ _ _ _ _ _ St _ I') as (y & y' & Ey & Ey' & _ & R). rewrite Ex in Ey. rewrite Ex' in Ey'.
  injection Ey as <-. injection Ey' as <-. pose proof (SI_refnn _ _ _ _ _ _ H' I' Ex') as P. lia.
Qed.

Definition deep (n : nat) (s : sst) (h : Z) : Prop :=
  (1 <= n)%nat /\ (Z.land h 7 = 4 -> extra_at s (decode_longstr_offset h) = 0 \/ (2 <= n)%nat).

Lemma SI_free_short M cl f s h : SI M cl f s -> Z.land h 7 = 6 -> 1 <= f h ->
  s_short s (decode_shortstr_offset h) <> None /\
  SI M cl (subf f h) (set_short s (decode_shortstr_offset h) None) /\
  step M cl s M cl (set_short s (decode_shortstr_offset h) None) /\
  srel M f s M (subf f h) (set_short s (decode_shortstr_offset h) None).
Proof.
  intros H T Hf. set (a := decode_shortstr_offset h). set (s' := set_short s a None).
  destruct (si_short _ _ _ _ H h T) as (H1 & H2). pose proof (cnt_nonneg (extras M s) h) as C0.
  assert (X0 : cnt (extras M s) h = 0) by (unfold hc in *; lia).
  assert (Hlive : s_short s a <> None) by (apply H2; unfold hc in *; lia).
  assert (Sh : forall g, Z.land g 7 = 6 -> g <> h -> s_short s' (decode_shortstr_offset g) = s_short s (decode_shortstr_offset g)).
  { intros g Tg N. unfold s'. cbn. destruct (Z.eqb_spec (decode_shortstr_offset g) a) as [C | _]; [|reflexivity].
    exfalso. apply N. now apply dec_short_inj. }
  assert (LG : forall o x, In o M -> long_at s o = Some x -> l_lang s' x = l_lang s x).
  { intros o x Ho E. apply (lang_frame M M cl f s s' o x x); auto; [apply incl_refl| | |].
    - intros p Hp. destruct (si_obj _ _ _ _ H p Hp) as (_ & _ & y & Ey & _). exists y, y. auto.
    - intros e Ne Te Ce. apply (si_long _ _ _ _ H e Te). pose proof (si_f _ _ _ _ H e (or_introl Te)). unfold hc. lia.
    - intros g Tg Cg. apply Sh; [exact Tg|]. intros ->. lia. }
  assert (Hg : forall g, hc M (subf f h) s' g = hc M f s g - hit h g).
  { intros g. unfold hc, subf. change (extras M s') with (extras M s). lia. }
  split; [exact Hlive|]. split; [|split].
  - pose proof H as H'. destruct H as [A1 A2 A3 A4 A5 A6 A7 A8]. split; auto.
    + intros o Ho. destruct (A3 o Ho) as (P & Q & x & Ex & R & X). split; [exact P|]. split; [exact Q|].
      exists x. split; [exact Ex|]. split; [|exact X]. rewrite Hg, hit_diff; [lia|]. intros ->.
      rewrite (proj2 (enc_long o Q)) in T. discriminate.
    + intros g Tg. unfold subf. destruct (Z.eq_dec g h) as [-> | N]; [rewrite hit_same; lia|].
      rewrite hit_diff by congruence. pose proof (A4 g Tg). lia.
    + intros g Tg. rewrite Hg. rewrite hit_diff by (intros ->; rewrite T in Tg; discriminate). rewrite Z.sub_0_r. now apply A5.
    + intros g Tg. rewrite Hg. destruct (Z.eq_dec g h) as [-> | N].
      * rewrite hit_same. unfold hc in *. split; [lia|]. intros C. exfalso. lia.
      * rewrite hit_diff by congruence. rewrite Z.sub_0_r, Sh by assumption. now apply A6.
    + intros b. destruct (A7 b) as (K1 & K2 & K3). split; [|split; assumption].
      apply (linked_frame s); [|exact K1]. intros p y _ Ep. exists y. auto.
    + intros b o Ho. destruct (A8 b o Ho) as (x & Ex & B). exists x. split; [exact Ex|]. unfold bucket_of in *.
      destruct (A7 b) as (_ & _ & K3). rewrite (LG o x (K3 o Ho) Ex). exact B.
  - pose proof (step_refl _ _ _ _ H) as [B1 B2 B3 B4 B5 B6 B7]. split; auto.
    intros c. unfold s'. cbn. destruct (c =? a); auto.
  - intros g Tg C C'. rewrite Hg in C'. destruct (Z.eq_dec g h) as [-> | N].
    + unfold s'. cbn [set_short s_short]. now rewrite Z.eqb_refl.
    + rewrite hit_diff in C' by congruence. lia.
Qed.

Lemma SI_free : forall n M cl f s h, SI M cl f s -> tagged h -> 1 <= f h -> deep n s h ->
  exists M' cl' s', free_field_encoffset alen n s h = Some s' /\ SI M' cl' (subf f h) s' /\ step M cl s M' cl' s' /\
    srel M f s M' (subf f h) s'.
Proof.
  induction n as [|n IH]; intros M cl f s h H T Hf (D1 & D2); [lia|].
  destruct T as [T | T].
  2:{ destruct (SI_free_short M cl f s h H T Hf) as (L & H' & S' & Sr'). cbn [free_field_encoffset]. rewrite T. cbn [Z.eqb Pos.eqb].
      destruct (s_short s (decode_shortstr_offset h)); [|contradiction]. eauto 8. }
  cbn [free_field_encoffset]. rewrite T. cbn [Z.eqb Pos.eqb].
  set (o := decode_longstr_offset h) in *.
  assert (Eh : encode_longstr_offset o = h) by (symmetry; now apply long_handle).
  assert (I : In o M).
  { apply (si_long _ _ _ _ H h T). unfold hc. pose proof (cnt_nonneg (extras M s) h). lia. }
  destruct (si_obj _ _ _ _ H o I) as (Po & Mo & x & Ex & Rx & Xx). rewrite Eh in Rx. rewrite Ex.
  destruct (Z.ltb_spec 0 (l_ref x - 1)) as [Big | Small].
  - eexists M, cl, _. split; [reflexivity|].
    assert (H' : SI M cl (subf f h) (set_long s o (Some (Some (with_ref x (l_ref x - 1)))))).
    { apply (SI_recount M cl f); auto.
      - rewrite Eh, Rx. unfold hc, subf. rewrite hit_same. lia.
      - intros g Tg. unfold subf. destruct (Z.eq_dec g h) as [-> | N]; [rewrite hit_same; lia|].
        rewrite hit_diff by congruence. pose proof (si_f _ _ _ _ H g Tg). lia.
      - intros g Tg N. rewrite Eh in N. unfold subf. rewrite hit_diff by congruence. lia. }
    split; [exact H'|]. split.
    2:{ apply srel_same. intros g Tg. unfold hc, subf. rewrite hit_diff by (intros ->; rewrite Tg in T; discriminate).
        rewrite (frame_extras M s (set_long s o (Some (Some (with_ref x (l_ref x - 1)))))); [lia|]. intros p Hp. destruct (si_obj _ _ _ _ H p Hp) as (_ & _ & y & Ey & _).
        destruct (Z.eq_dec p o) as [-> | N].
        - exists x, (with_ref x (l_ref x - 1)). rewrite long_at_same. auto.
        - exists y, y. rewrite long_at_other by assumption. auto. }
    pose proof (step_refl _ _ _ _ H) as [B1 B2 B3 B4 B5 B6 B7]. split; auto.
    + intros p Hp. destruct (Z.eq_dec p o) as [-> | N].
      * exists x, (with_ref x (l_ref x - 1)). rewrite long_at_same. repeat split; auto. cbn [l_ref with_ref]. lia.
      * rewrite long_at_other by assumption. now apply B3.
    + intros p Hp N. contradiction.
    + intros p Np. apply set_long_other. intros ->. contradiction.
  - destruct (SI_remove M cl f s h H T I) as (s1 & E1 & H1 & Sh1 & Md1 & FR1 & Out1). rewrite E1. fold o in H1.
    destruct (FR1 o I) as (x0 & x1 & Ex0 & Ex1 & B1 & R1). rewrite Ex in Ex0. injection Ex0 as <-.
    assert (X1 : l_extra x1 = l_extra x) by (unfold body in B1; congruence).
    assert (H2 : SI (remz o M) (fun b => remz o (cl b)) (addf (subf f h) (l_extra x)) s1).
    { rewrite <- X1. apply SI_drop; auto.
      - rewrite R1. lia.
      - intros b C. apply remz_in in C. now destruct C. }
    assert (No : ~ In o (remz o M)) by (intros C; apply remz_in in C; now destruct C).
    assert (F01 : frame M s s1).
    { intros p Hp. destruct (FR1 p Hp) as (z & z' & ? & ? & ? & _). eauto. }
    assert (Same : forall g, Z.land g 7 = 6 -> hc (remz o M) (addf (subf f h) (l_extra x)) s1 g = hc M f s g).
    { intros g Tg. unfold hc, addf, subf, extras. rewrite cnt_map_rem by (auto; apply (si_nd _ _ _ _ H)).
      change (map (extra_at s1) M) with (extras M s1). rewrite (frame_extras M s s1 g F01). unfold extras.
      unfold extra_at at 2. rewrite Ex1, X1, (hit_diff h g) by (intros ->; rewrite Tg in T; discriminate). lia. }
    (* the extra string *)
    assert (K : exists M2 cl2 s2, (if l_extra x =? 0 then Some s1 else free_field_encoffset alen n s1 (l_extra x)) = Some s2
        /\ SI M2 cl2 (subf f h) s2 /\ step (remz o M) (fun b => remz o (cl b)) s1 M2 cl2 s2 /\ srel M f s M2 (subf f h) s2).
    { destruct (Z.eqb_spec (l_extra x) 0) as [Z0 | NZ].
      - eexists _, _, s1. split; [reflexivity|]. split; [|split; [apply (step_refl _ _ _ _ H2)|]].
        + apply (SI_ext _ _ _ _ _ H2). intros g Tg. unfold addf. rewrite Z0, hit_diff; [lia|].
          intros <-. destruct Tg; discriminate.
        + apply srel_same. intros g Tg. rewrite <- (Same g Tg). unfold hc, addf. rewrite Z0, (hit_diff 0 g); [lia|].
          intros <-. discriminate.
      - assert (Tx : tagged (l_extra x)).
        { destruct Xx as [C | [C | (C & _)]]; [contradiction|now right|now left]. }
        assert (Fx : 1 <= addf (subf f h) (l_extra x) (l_extra x)).
        { unfold addf. rewrite hit_same. unfold subf. destruct (Z.eq_dec h (l_extra x)) as [<- | N].
          - rewrite hit_same. lia.
          - rewrite hit_diff by assumption. pose proof (si_f _ _ _ _ H _ Tx). lia. }
        assert (D2' : (2 <= S n)%nat).
        { destruct (D2 T) as [C | C]; [|exact C]. unfold extra_at in C. rewrite Ex in C. contradiction. }
        destruct (IH _ _ _ _ (l_extra x) H2 Tx Fx) as (M2 & cl2 & s2 & E2 & H3 & S2 & R2).
        { split; [lia|]. intros T4. left. destruct Xx as [C | [C | (_ & Ix & Zx)]]; [contradiction|rewrite C in T4; discriminate|].
          destruct (FR1 _ Ix) as (z & z' & Ez & Ez' & Bz & _). unfold extra_at in *. rewrite Ez in Zx. rewrite Ez'.
          unfold body in Bz. congruence. }
        exists M2, cl2, s2. split; [exact E2|]. split; [|split; [exact S2|]].
        + apply (SI_ext _ _ _ _ _ H3). intros g _. unfold addf, subf. lia.
        + intros g Tg C C'. apply R2; [exact Tg| |].
          * now rewrite Same.
          * revert C'. unfold hc, addf, subf. lia. }
    destruct K as (M2 & cl2 & s2 & E2 & H3 & S2 & R2). rewrite E2.
    assert (N2 : ~ In o M2) by (intros C; apply No, (st_incl _ _ _ _ _ _ S2), C).
    eexists M2, cl2, _. split; [reflexivity|]. split; [now apply SI_dead|]. split.
    2:{ intros g Tg C C'. cbn [set_long s_short]. apply R2; [exact Tg|exact C|]. revert C'. unfold hc.
        rewrite (frame_extras M2 s2 (set_long s2 o None)); [auto|]. intros p Hp. destruct (si_obj _ _ _ _ H3 p Hp) as (_ & _ & y & Ey & _).
        exists y, y. rewrite long_at_other by (intros ->; contradiction). auto. }
    destruct S2 as [A1 A2 A3 A4 A5 A6 A7]. split.
    + intros p Hp. apply A1 in Hp. apply remz_in in Hp. apply Hp.
    + intros b p. rewrite A2, remz_in. split; [tauto|]. intros (C1 & C2). repeat split; auto. intros ->. contradiction.
    + intros p Hp. destruct (A3 p Hp) as (y & y' & Ey & Ey' & By & Ry).
      assert (Hp' : In p M) by (apply A1 in Hp; apply remz_in in Hp; apply Hp).
      destruct (FR1 p Hp') as (z & z' & Ez & Ez' & Bz & Rz). rewrite Ey in Ez'. injection Ez' as <-.
      exists z, y'. rewrite long_at_other by (intros ->; contradiction). repeat split; auto; [congruence|]. rewrite <- Rz. exact Ry.
    + intros p Hp Np. destruct (Z.eq_dec p o) as [-> | No']; [apply set_long_same|].
      rewrite set_long_other by assumption. apply A4; [|exact Np]. apply remz_in. auto.
    + intros p Np. rewrite set_long_other by (intros ->; contradiction).
      rewrite A5, Out1; auto. intros C. apply remz_in in C. apply Np, C.
    + intros a. cbn [set_long s_short]. destruct (A6 a) as [-> | ->]; [rewrite Sh1; now left|now right].
    + cbn [set_long s_made]. congruence.
Qed.

(** ** Making strings *)
Record grow (M : list Z) (s : sst) (M' : list Z) (s' : sst) : Prop := {
  g_incl : incl M M';
  g_obj : forall p, In p M -> exists x x', long_at s p = Some x /\ long_at s' p = Some x' /\ body x' = body x
            /\ l_chain x' = l_chain x /\ l_ref x <= l_ref x';
  g_short : forall a, s_short s a <> None -> s_short s' a = s_short s a;
  g_full : (forall p, long_at s p <> None -> In p M) -> forall p, long_at s' p <> None -> In p M';
  g_len : (length M' + s_made s <= length M + s_made s')%nat }.
Lemma grow_refl M cl f s : SI M cl f s -> grow M s M s.
Proof.
  intros H. split; auto; [apply incl_refl|].
  intros p Hp. destruct (si_obj _ _ _ _ H p Hp) as (_ & _ & x & Ex & _). exists x, x. repeat split; auto. lia.
Qed.
Lemma grow_trans M s M1 s1 M2 s2 : grow M s M1 s1 -> grow M1 s1 M2 s2 -> grow M s M2 s2.
Proof.
  intros [A1 A2 A3 A4 A5] [B1 B2 B3 B4 B5]. split.
  - intros o Ho. apply B1, A1, Ho.
  - intros p Hp. destruct (A2 p Hp) as (x & x1 & E & E1 & F1 & F2 & F3). destruct (B2 p (A1 p Hp)) as (y & x2 & E1' & E2 & G1 & G2 & G3).
    rewrite E1 in E1'. injection E1' as <-. exists x, x2. repeat split; auto; [congruence|congruence|lia].
  - intros a Ha. rewrite B3, A3; auto. now rewrite A3.
  - intros H. now apply B4, A4.
  - lia.
Qed.
Lemma grow_fill M s M1 s1 M2 s2 : grow M s M1 s1 -> incl M1 M2 ->
  (forall p, In p M1 -> exists x x', long_at s1 p = Some x /\ long_at s2 p = Some x' /\ body x' = body x
            /\ l_chain x' = l_chain x /\ l_ref x <= l_ref x') ->
  s_short s2 = s_short s1 -> ((forall p, long_at s1 p <> None -> In p M1) -> forall p, long_at s2 p <> None -> In p M2) ->
  (length M2 + s_made s <= length M + s_made s2)%nat -> grow M s M2 s2.
Proof.
  intros [A1 A2 A3 A4 A5] B1 B2 B3 B4 B5. split; auto.
  - intros o Ho. apply B1, A1, Ho.
  - intros p Hp. destruct (A2 p Hp) as (x & x1 & E & E1 & F1 & F2 & F3). destruct (B2 p (A1 p Hp)) as (y & x2 & E1' & E2 & G1 & G2 & G3).
    rewrite E1 in E1'. injection E1' as <-. exists x, x2. repeat split; auto; [congruence|congruence|lia].
  - intros a Ha. rewrite B3. now apply A3.
Qed.
Lemma grow_frame M s M' s' : grow M s M' s' -> frame M s s'.
Proof. intros G p Hp. destruct (g_obj _ _ _ _ G p Hp) as (x & x' & ? & ? & ? & _). eauto. Qed.
Lemma grow_lang M cl f s M' s' o x x' : SI M cl f s -> grow M s M' s' -> In o M ->
  long_at s o = Some x -> long_at s' o = Some x' -> l_lang s' x' = l_lang s x /\ l_bytes x' = l_bytes x.
Proof.
  intros H G Ho E E'. apply (lang_frame M M cl f s s' o); auto; [apply incl_refl|now apply grow_frame in G| |].
  - intros e Ne Te Ce. apply (si_long _ _ _ _ H e Te). pose proof (si_f _ _ _ _ H e (or_introl Te)). unfold hc. lia.
  - intros g Tg Cg. apply (g_short _ _ _ _ G). apply (si_short _ _ _ _ H g Tg).
    pose proof (si_f _ _ _ _ H g (or_intror Tg)). unfold hc. lia.
Qed.

(** *** Sizes of a new object *)
Lemma l_new data type c tmp n : 0 <= type < 256 ->
  let x := LS (obj_size (zlen data)) (Z.lor (Z.shiftl (obj_size (zlen data) - zlen data) LONGSTR_META_LENDIFSHFT) type) n c tmp (padded data) in
  l_type x = type /\ l_strsize x = zlen data /\ l_bytes x = data /\ firstn (length data) (l_data x) = data /\ zlen (l_data x) >= zlen data.
Proof.
  intros Ht x. set (d := obj_size (zlen data) - zlen data).
  assert (Hd : 48 <= d < 56).
  { unfold d, obj_size, LONGSTR_HEADER_GINTS. pose proof (Z.div_mod (zlen data + 7) 8 ltac:(lia)) as E.
    pose proof (Z.mod_pos_bound (zlen data + 7) 8 ltac:(lia)). lia. }
  assert (M : Z.lor (Z.shiftl d 8) type = d * 256 + type).
  { rewrite Z.shiftl_mul_pow2 by lia. change (2 ^ 8) with 256. apply (lor_low d 8 type); lia. }
  assert (Hs : l_strsize x = zlen data).
  { unfold l_strsize, x. cbn [l_size l_meta]. unfold LONGSTR_META_LENDIFSHFT, LONGSTR_META_LENDIFMASK. fold d. rewrite M.
    rewrite Z.shiftr_land. change (Z.shiftr 0xff00 8) with 255. rewrite Z.shiftr_div_pow2 by lia. change (2 ^ 8) with 256.
    replace ((d * 256 + type) / 256) with d by (rewrite Z.div_add_l by lia; rewrite Z.div_small by lia; lia).
    rewrite land_255, Z.mod_small by lia. unfold d. lia. }
  assert (Hl : firstn (length data) (padded data) = data).
  { unfold padded. rewrite firstn_app, Nat.sub_diag, firstn_all. cbn. apply app_nil_r. }
  split; [|split; [exact Hs|split; [|split; [exact Hl|]]]].
  - unfold l_type, x. cbn [l_meta]. unfold LONGSTR_META_LENDIFSHFT, LONGSTR_META_TYPEMASK. fold d. rewrite M, land_255.
    rewrite Z.add_comm, Z_mod_plus_full. now apply Z.mod_small.
  - unfold l_bytes. rewrite Hs. unfold zlen. rewrite Nat2Z.id. exact Hl.
  - unfold x, padded, zlen. cbn [l_data]. rewrite app_length. lia.
Qed.

(** *** Looking up *)
Definition right_of (s : sst) (x : lstr) (data : list Z) (extra : option (list Z)) (type : Z) : Prop :=
  l_type x = type /\ wrap32 (l_strsize x) = zlen data /\ firstn (length data) (l_data x) = data /\ l_lang s x = Some extra.
Lemma opt_eqb_eq a b : opt_eqb a b = true <-> a = b.
Proof.
  destruct a as [a|], b as [b|]; cbn; try (split; congruence).
  destruct (list_eq_dec Z.eq_dec a b) as [-> | N]; split; congruence.
Qed.
Lemma right_spec s x data extra type e : l_lang s x = Some e ->
  exists v, wg_right_strhash_bucket s x data extra type (zlen data) = Some v /\ (v = true <-> right_of s x data extra type).
Proof.
  intros L. unfold wg_right_strhash_bucket, right_of. rewrite L. unfold zlen. rewrite Nat2Z.id.
  destruct (Z.eqb_spec (l_type x) type) as [E1 | E1]; cbn [negb]; [|exists false; split; [reflexivity|]; split; [discriminate|tauto]].
  destruct (Z.eqb_spec (wrap32 (l_strsize x)) (Z.of_nat (length data))) as [E2 | E2]; cbn [negb];
    [|exists false; split; [reflexivity|]; split; [discriminate|tauto]].
  destruct (list_eq_dec Z.eq_dec (firstn (length data) (l_data x)) data) as [E3 | E3];
    [|exists false; split; [reflexivity|]; split; [discriminate|tauto]].
  exists (opt_eqb extra e). split; [reflexivity|]. rewrite opt_eqb_eq. split; [intros ->; auto|]. intros (_ & _ & _ & C). congruence.
Qed.
Lemma find_ok M cl f s data extra type : SI M cl f s -> forall l n c, linked s c l -> incl l M -> (length l <= n)%nat ->
  exists r, wg_find_strhash_bucket n s data extra type (zlen data) c = Some r /\
   ((r = 0 /\ forall o x, In o l -> long_at s o = Some x -> ~ right_of s x data extra type) \/
    (exists o x, In o l /\ r = encode_longstr_offset o /\ long_at s o = Some x /\ right_of s x data extra type)).
Proof.
  intros H. induction l as [|o l IH]; intros n c L I Hn; cbn [linked] in L.
  - exists 0. subst c. split; [destruct n; reflexivity|]. left. split; [reflexivity|]. intros o x [].
  - destruct L as (-> & x & Ex & L). destruct n as [|n]; [cbn [length] in Hn; lia|].
    assert (Io : In o M) by (apply I; now left). destruct (si_obj _ _ _ _ H o Io) as (Po & Mo & _).
    cbn [wg_find_strhash_bucket]. destruct (Z.eqb_spec (encode_longstr_offset o) 0) as [C | _]; [now apply enc_long_nz in C|].
    rewrite (proj1 (enc_long o Mo)), Ex. destruct (lang_some _ _ _ _ _ _ H Io Ex) as (e & Le).
    destruct (right_spec s x data extra type e Le) as (v & Ev & Hv). rewrite Ev. destruct v.
    + eexists. split; [reflexivity|]. right. exists o, x. repeat split; auto; [now left| | | |]; now apply Hv.
    + destruct (IH n (l_chain x) L) as (r & Er & D).
      * intros p Hp. apply I. now right.
      * cbn [length] in Hn. lia.
      * exists r. split; [exact Er|]. destruct D as [(-> & D) | (p & y & Hp & -> & Ey & D)].
        -- left. split; [reflexivity|]. intros p y [<- | Hp] Ey.
           ++ rewrite Ex in Ey. injection Ey as <-. intros C. apply Hv in C. discriminate.
           ++ now apply (D p).
        -- right. exists p, y. repeat split; auto; [now right| | | |]; apply D.
Qed.

(** *** A block given out and not yet filled in *)
Lemma SI_block M cl f s o v : SI M cl f s -> ~ In o M -> SI M cl f (set_long (set_made s) o v).
Proof.
  intros H N.
  assert (L : forall p, In p M -> long_at (set_long (set_made s) o v) p = long_at s p).
  { intros p Hp. rewrite long_at_other by (intros ->; contradiction). reflexivity. }
  assert (H1 : SI M cl f (set_made s)).
  { destruct H as [A1 A2 A3 A4 A5 A6 A7 A8]. split; auto; [cbn; lia|].
    intros b. destruct (A7 b) as (K1 & K2). split; [|exact K2].
    apply (linked_frame s); [|exact K1]. intros p y _ Ep. exists y. auto. }
  apply (SI_relink M cl _ _ (set_made s)); auto.
  - intros p Hp. destruct (si_obj _ _ _ _ H p Hp) as (_ & _ & y & Ey & _). exists y, y. rewrite L by assumption. auto.
  - intros b. destruct (si_chain _ _ _ _ H b) as (K1 & K2 & K3). split; [|split; [exact K2|apply incl_refl]].
    apply (linked_frame s); [|exact K1]. intros p y Hp Ep. exists y. rewrite L; auto.
Qed.
Lemma grow_block M cl f s o : SI M cl f s -> ~ In o M -> grow M s M (set_long (set_made s) o (Some None)).
Proof.
  intros H N. split; auto; [apply incl_refl| | |cbn; lia].
  - intros p Hp. destruct (si_obj _ _ _ _ H p Hp) as (_ & _ & y & Ey & _). exists y, y.
    rewrite long_at_other by (intros ->; contradiction). repeat split; auto. lia.
  - intros F p Hp. destruct (Z.eq_dec p o) as [-> | Np].
    + unfold long_at in Hp. rewrite set_long_same in Hp. congruence.
    + rewrite long_at_other in Hp by assumption. now apply F.
Qed.

(** *** Filling it in *)
Lemma SI_insert M cl f s o b l x : SI M cl (addf f (l_extra x)) s -> ~ In o M -> 0 < o -> o mod 8 = 0 ->
  (length M < s_made s)%nat -> l_ref x = 0 -> extra_ok M s (l_extra x) ->
  (tagged (l_extra x) -> 0 <= f (l_extra x)) ->
  linked s (l_chain x) l -> NoDup l -> incl l (cl b) -> bucket_of s x = Some b ->
  SI (o :: M) (fun a => if a =? b then o :: l else cl a) f
     (set_bucket (set_long s o (Some (Some x))) b (encode_longstr_offset o)).
Proof.
  intros H N Po Mo Len R0 XO F0 Lk NDl Il Bk.
  set (s' := set_bucket (set_long s o (Some (Some x))) b (encode_longstr_offset o)).
  assert (L : forall p, p <> o -> long_at s' p = long_at s p) by (intros p Np; exact (long_at_other s o (Some (Some x)) p Np)).
  assert (Lo : long_at s' o = Some x) by exact (long_at_same s o x).
  assert (Ne : forall p, In p M -> p <> o) by (intros p Hp ->; contradiction).
  assert (Xs : forall g, cnt (extras (o :: M) s') g = hit (l_extra x) g + cnt (extras M s) g).
  { intros g. unfold extras. cbn [map]. rewrite cnt_cons. unfold extra_at at 1. rewrite Lo. f_equal.
    apply cnt_map_ext. intros p Hp. unfold extra_at. rewrite L; auto. }
  assert (Hx : forall g, hc (o :: M) f s' g = hc M (addf f (l_extra x)) s g) by (intros g; unfold hc, addf; rewrite Xs; lia).
  assert (Ho : hc M (addf f (l_extra x)) s (encode_longstr_offset o) = 0).
  { destruct (enc_long o Mo) as (D & T).
    pose proof (si_long _ _ _ _ H _ T) as C. rewrite D in C.
    pose proof (si_f _ _ _ _ H _ (or_introl T)). pose proof (cnt_nonneg (extras M s) (encode_longstr_offset o)).
    unfold hc in *. destruct (Z.eq_dec (addf f (l_extra x) (encode_longstr_offset o) + cnt (extras M s) (encode_longstr_offset o)) 0); auto.
    exfalso. apply N, C. lia. }
  assert (LL : forall y, extra_ok M s (l_extra y) -> l_lang s' y = l_lang s y).
  { intros y Y. unfold l_lang. destruct (Z.eqb_spec (l_extra y) 0) as [_ | NZ]; [reflexivity|]. unfold wg_decode_unistr.
    destruct Y as [Y | [Y | (Y & I & _)]]; [contradiction| |]; rewrite Y; cbn [Z.eqb Pos.eqb]; [reflexivity|]. now rewrite L by auto. }
  assert (XX : forall y, extra_ok M s (l_extra y) -> extra_ok (o :: M) s' (l_extra y)).
  { intros y [Y | [Y | (Y & I & Z0)]]; [now left|right; now left|]. right. right. split; [exact Y|]. split; [now right|].
    unfold extra_at in *. rewrite L by auto. exact Z0. }
  assert (LK : forall l c, ~ In o l -> linked s c l -> linked s' c l).
  { intros l0 c Nl. apply linked_frame. intros p y Hp Ep. exists y. rewrite L; [auto|]. intros ->. contradiction. }
  assert (Nc : forall a, ~ In o (cl a)).
  { intros a C. destruct (si_chain _ _ _ _ H a) as (_ & _ & I). now apply N, I. }
  destruct H as [A1 A2 A3 A4 A5 A6 A7 A8]. split.
  - now constructor.
  - cbn [length]. unfold s'. cbn [set_bucket set_long s_made]. lia.
  - intros p [<- | Hp].
    + split; [exact Po|]. split; [exact Mo|]. exists x. split; [exact Lo|]. split; [|auto]. rewrite Hx, Ho. exact R0.
    + destruct (A3 p Hp) as (P & Q & y & Ey & R & X). split; [exact P|]. split; [exact Q|]. exists y. rewrite L by auto.
      split; [exact Ey|]. split; [now rewrite Hx|auto].
  - intros g T. pose proof (A4 g T) as C. unfold addf in C. destruct (Z.eq_dec g (l_extra x)) as [-> | Ng]; [now apply F0|].
    rewrite hit_diff in C by congruence. lia.
  - intros g T Hg. rewrite Hx in Hg. right. now apply A5.
  - intros g T. rewrite Hx. now apply A6.
  - intros a. unfold s' at 2. cbn [set_bucket s_hash]. destruct (Z.eqb_spec a b) as [-> | Na].
    + destruct (A7 b) as (_ & _ & I). split; [|split].
      * cbn [linked]. split; [reflexivity|]. exists x. split; [exact Lo|]. apply LK; [|exact Lk]. intros C. now apply (Nc b), Il.
      * constructor; [|exact NDl]. intros C. now apply (Nc b), Il.
      * intros p [<- | Hp]; [now left|right]. now apply I, Il.
    + destruct (A7 a) as (K1 & K2 & I). split; [|split; [exact K2|]].
      * now apply LK.
      * intros p Hp. right. now apply I.
  - intros a p Hp.
    assert (Case : (p = o /\ a = b) \/ In p (cl a)).
    { destruct (Z.eqb_spec a b) as [-> | Na]; [|now right]. destruct Hp as [<- | Hp]; [now left|right]. now apply Il. }
    destruct Case as [(-> & ->) | C].
    + exists x. split; [exact Lo|]. unfold bucket_of in *. rewrite LL; auto.
    + destruct (A8 a p C) as (y & Ey & B). assert (Hm : In p M) by (destruct (A7 a) as (_ & _ & I); now apply I).
      exists y. rewrite L by auto. split; [exact Ey|]. unfold bucket_of in *. rewrite LL; [exact B|].
      destruct (A3 p Hm) as (_ & _ & z & Ez & _ & X). rewrite Ey in Ez. injection Ez as <-. exact X.
Qed.
Lemma grow_insert M cl f s o b x : SI M cl f s -> ~ In o M -> (length M < s_made s)%nat ->
  let s' := set_bucket (set_long s o (Some (Some x))) b (encode_longstr_offset o) in
  (forall p, In p M -> exists y y', long_at s p = Some y /\ long_at s' p = Some y' /\ body y' = body y
            /\ l_chain y' = l_chain y /\ l_ref y <= l_ref y') /\
  ((forall p, long_at s p <> None -> In p M) -> forall p, long_at s' p <> None -> In p (o :: M)) /\
  s_short s' = s_short s.
Proof.
  intros H N Len s'. split; [|split; [|reflexivity]].
  - intros p Hp. destruct (si_obj _ _ _ _ H p Hp) as (_ & _ & y & Ey & _). exists y, y.
    assert (Ep : long_at s' p = long_at s p) by (apply (long_at_other s o (Some (Some x)) p); intros ->; contradiction).
    rewrite Ep. repeat split; auto. lia.
  - intros F p Hp. destruct (Z.eq_dec p o) as [-> | Np]; [now left|right]. apply F.
    now rewrite <- (long_at_other s o (Some (Some x)) p Np).
Qed.

(** *** Histories in which no string is lost from its chain *)
Definition clean (M : list Z) (cl : Z -> list Z) : Prop := forall o, In o M -> exists b, In o (cl b).
Definition content (s : sst) (x : lstr) := (l_type x, l_bytes x, l_lang s x).
Definition sizes (M : list Z) (s : sst) : Prop := forall o x, In o M -> long_at s o = Some x ->
  0 <= l_strsize x < 2 ^ 31 /\ l_strsize x <= zlen (l_data x).
Definition uniq (M : list Z) (s : sst) : Prop := forall p q x y, In p M -> In q M -> long_at s p = Some x -> long_at s q = Some y ->
  content s x = content s y -> p = q.
Definition good M cl s := clean M cl /\ sizes M s /\ uniq M s.

Lemma wrap32_small n : 0 <= n < 2 ^ 31 -> wrap32 n = n.
Proof. intros H. apply wrap32_id. unfold is32. lia. Qed.
Lemma right_content s x data extra type : 0 <= l_strsize x < 2 ^ 31 -> l_strsize x <= zlen (l_data x) ->
  (right_of s x data extra type <-> content s x = (type, data, Some extra)).
Proof.
  intros H1 H2. unfold right_of, content, l_bytes. rewrite wrap32_small by assumption. split.
  - intros (E1 & E2 & E3 & E4). rewrite E1, E4, E2. unfold zlen. rewrite Nat2Z.id. now rewrite E3.
  - intros E. injection E as E1 E2 E3. 
    assert (Es : l_strsize x = zlen data).
    { rewrite <- E2. unfold zlen in *. rewrite firstn_length, Nat.min_l; lia. }
    repeat split; auto. rewrite <- E2 at 2. rewrite Es. unfold zlen. now rewrite Nat2Z.id.
Qed.

Lemma grow_content M cl f s M' s' o x x' : SI M cl f s -> grow M s M' s' -> In o M ->
  long_at s o = Some x -> long_at s' o = Some x' -> content s' x' = content s x.
Proof.
  intros H G Ho E E'. destruct (grow_lang _ _ _ _ _ _ _ _ _ H G Ho E E') as (G1 & G2). unfold content. rewrite G1, G2.
  destruct (g_obj _ _ _ _ G o Ho) as (y & y' & Ey & Ey' & B & _). rewrite E in Ey. rewrite E' in Ey'.
  injection Ey as <-. injection Ey' as <-. unfold l_type. unfold body in B. congruence.
Qed.
Lemma good_grow M cl f s s' : SI M cl f s -> grow M s M s' -> good M cl s -> good M cl s'.
Proof.
  intros H G (C & S & U). split; [exact C|]. split.
  - intros o x' Ho E'. destruct (g_obj _ _ _ _ G o Ho) as (y & y' & Ey & Ey' & B & _). rewrite E' in Ey'. injection Ey' as <-.
    specialize (S o y Ho Ey). unfold l_strsize, body in *. injection B as -> -> _ ->. exact S.
  - intros p q x y Hp Hq Ex Ey Exy.
    destruct (g_obj _ _ _ _ G p Hp) as (a & a' & Ea & Ea' & _). destruct (g_obj _ _ _ _ G q Hq) as (b & b' & Eb & Eb' & _).
    rewrite Ex in Ea'. injection Ea' as <-. rewrite Ey in Eb'. injection Eb' as <-.
    apply (U p q a b); auto. rewrite <- (grow_content _ _ _ _ _ _ _ _ _ H G Hp Ea Ex).
    now rewrite <- (grow_content _ _ _ _ _ _ _ _ _ H G Hq Eb Ey).
Qed.
Lemma good_insert M cl f s o b x data extra type : SI M cl f s -> ~ In o M -> 0 < o ->
  let s' := set_bucket (set_long s o (Some (Some x))) b (encode_longstr_offset o) in
  good M cl s -> content s' x = (type, data, Some extra) ->
  0 <= l_strsize x < 2 ^ 31 -> l_strsize x <= zlen (l_data x) ->
  (forall p y, In p M -> long_at s p = Some y -> content s y <> (type, data, Some extra)) ->
  good (o :: M) (fun a => if a =? b then o :: cl b else cl a) s'.
Proof.
  intros H N Po s' (C & S & U) Ct S1 S2 New.
  assert (Lo : long_at s' o = Some x) by exact (long_at_same s o x).
  assert (L : forall p, In p M -> long_at s' p = long_at s p).
  { intros p Hp. apply (long_at_other s o (Some (Some x)) p). intros ->. contradiction. }
  assert (Cs : forall p y, In p M -> long_at s p = Some y -> content s' y = content s y).
  { intros p y Hp Ey. unfold content. f_equal. destruct (si_obj _ _ _ _ H p Hp) as (_ & _ & z & Ez & _ & X).
    rewrite Ey in Ez. injection Ez as <-. unfold l_lang. destruct (Z.eqb_spec (l_extra y) 0) as [_ | NZ]; [reflexivity|]. unfold wg_decode_unistr.
    destruct X as [Y | [Y | (Y & I & _)]]; [contradiction| |]; rewrite Y; cbn [Z.eqb Pos.eqb]; [reflexivity|]. now rewrite L by auto. }
  split; [|split].
  - intros p [<- | Hp].
    + exists b. rewrite Z.eqb_refl. now left.
    + destruct (C p Hp) as (a & Ha). exists a. destruct (Z.eqb_spec a b) as [-> | _]; [now right|exact Ha].
  - intros p y [<- | Hp] Ey.
    + rewrite Lo in Ey. injection Ey as <-. auto.
    + rewrite L in Ey by assumption. now apply (S p).
  - intros p q y z [<- | Hp] [<- | Hq] Ey Ez Eq; auto.
    + exfalso. rewrite Lo in Ey. injection Ey as <-. rewrite L in Ez by assumption.
      rewrite (Cs q z Hq Ez), Ct in Eq. now apply (New q z).
    + exfalso. rewrite Lo in Ez. injection Ez as <-. rewrite L in Ey by assumption.
      rewrite (Cs p y Hp Ey), Ct in Eq. now apply (New p y).
    + rewrite L in Ey, Ez by assumption. rewrite (Cs p y Hp Ey), (Cs q z Hq Ez) in Eq. now apply (U p q y z).
Qed.

(** What the caller gets. *)
Definition result_ok (M' : list Z) (s' : sst) (r : Z) (data : list Z) (extra : option (list Z)) (type : Z) : Prop :=
  exists p x, In p M' /\ r = encode_longstr_offset p /\ long_at s' p = Some x /\ l_type x = type /\
    firstn (length data) (l_data x) = data /\ l_lang s' x = Some extra /\ (is32 (l_strsize x) -> l_bytes x = data).
Definition block_ok (s : sst) (o : Z) : Prop := o = 0 \/ (0 < o /\ o mod 8 = 0 /\ s_long s o = None).
Lemma right_result M s data extra type o x : In o M -> long_at s o = Some x -> right_of s x data extra type ->
  result_ok M s (encode_longstr_offset o) data extra type.
Proof.
  intros I E (R1 & R2 & R3 & R4). exists o, x. repeat split; auto. intros B. rewrite wrap32_id in R2 by assumption.
  unfold l_bytes. rewrite R2. unfold zlen. now rewrite Nat2Z.id.
Qed.
Lemma block_new M cl f s o : SI M cl f s -> s_long s o = None -> ~ In o M.
Proof. intros H E I. destruct (si_obj _ _ _ _ H o I) as (_ & _ & x & Ex & _). unfold long_at in Ex. rewrite E in Ex. discriminate. Qed.

(** Nothing of this content is live when it is not in its bucket. *)
Lemma not_found_new M cl f s data extra type : SI M cl f s -> good M cl s ->
  (forall o x, In o (cl (wg_hash_typedstr alen data extra)) -> long_at s o = Some x -> ~ right_of s x data extra type) ->
  forall p y, In p M -> long_at s p = Some y -> content s y <> (type, data, Some extra).
Proof.
  intros H (C & S & U) NF p y Hp Ey Ct. destruct (C p Hp) as (a & Ha).
  destruct (si_hash _ _ _ _ H a p Ha) as (z & Ez & B). rewrite Ey in Ez. injection Ez as <-.
  destruct (S p y Hp Ey) as (S1 & S2). pose proof (proj2 (right_content s y data extra type S1 S2) Ct) as R.
  apply (NF p y); auto. unfold content in Ct. injection Ct as _ C2 C3. unfold bucket_of in B. rewrite C2, C3 in B.
  injection B as ->. exact Ha.
Qed.

Lemma create_none enc M cl f s data type o : SI M cl f s -> 0 <= type < 256 -> block_ok s o ->
  exists M' cl' s' r, find_create_longstr alen enc s data None type o = Some (s', r) /\ SI M' cl' f s' /\ grow M s M' s' /\
    s_short s' = s_short s /\ (forall a, incl (cl a) (cl' a)) /\
    (forall a, cl' a = cl a \/ a = wg_hash_typedstr alen data None) /\
    (forall q, In q M' -> In q M \/ r = encode_longstr_offset q) /\ (forall p, p <> o -> s_long s' p = s_long s p) /\
    ((r = 0 /\ s' = s /\ M' = M /\ cl' = cl /\ o = 0) \/ result_ok M' s' r data None type) /\
    (good M cl s -> zlen data < 2 ^ 31 -> good M' cl' s').
Proof.
  intros H Ht Bo. unfold find_create_longstr. set (b := wg_hash_typedstr alen data None).
  destruct (si_chain _ _ _ _ H b) as (L1 & L2 & L3).
  destruct (find_ok M cl f s data None type H (cl b) (s_made s) (s_hash s b) L1 L3 (chain_len _ _ _ _ b H)) as (r & Er & D).
  rewrite Er. destruct D as [(-> & NF) | (p & x & Hp & -> & Ex & R)].
  2:{ destruct (si_obj _ _ _ _ H p (L3 p Hp)) as (Po & Mo & _).
      destruct (Z.eqb_spec (encode_longstr_offset p) 0) as [C | _]; [now apply enc_long_nz in C|]. cbn [negb].
      exists M, cl, s, (encode_longstr_offset p). split; [reflexivity|]. split; [exact H|]. split; [apply (grow_refl _ _ _ _ H)|].
      split; [reflexivity|]. split; [intros a; apply incl_refl|]. split; [auto|]. split; [auto|]. split; [auto|]. split; [|auto]. right. apply (right_result M s data None type p x); auto. }
  change (negb (0 =? 0)) with false. cbn iota.
  destruct (Z.eqb_spec o 0) as [-> | No].
  { exists M, cl, s, 0. split; [reflexivity|]. split; [exact H|]. split; [apply (grow_refl _ _ _ _ H)|].
    split; [reflexivity|]. split; [intros a; apply incl_refl|]. split; [auto|]. split; [auto|]. split; [auto|]. split; [|auto]. left. auto. }
  destruct Bo as [C | (Po & Mo & Eo)]; [contradiction|].
  pose proof (block_new _ _ _ _ _ H Eo) as NI.
  change (0 =? WG_ILLEGAL) with false. cbn iota zeta.
  set (s0 := set_long (set_made s) o (Some None)).
  set (x := LS (obj_size (zlen data)) (Z.lor (Z.shiftl (obj_size (zlen data) - zlen data) LONGSTR_META_LENDIFSHFT) type) 0 (s_hash s b) 0 (padded data)).
  destruct (l_new data type (s_hash s b) 0 0 Ht) as (N1 & N2 & N3 & N4 & N5). fold x in N1, N2, N3, N4, N5.
  pose proof (SI_block _ _ _ _ o (Some None) H NI) as H0. fold s0 in H0.
  pose proof (grow_block _ _ _ _ o H NI) as G0. fold s0 in G0.
  assert (Len : (length M < s_made s0)%nat) by (pose proof (si_len _ _ _ _ H); unfold s0; cbn; lia).
  assert (H0' : SI M cl (addf f (l_extra x)) s0).
  { apply (SI_ext _ _ _ _ _ H0). intros g Tg. unfold addf. cbn [l_extra x]. rewrite hit_diff; [lia|]. intros <-. destruct Tg; discriminate. }
  assert (Lk0 : linked s0 (s_hash s b) (cl b)).
  { change (s_hash s b) with (s_hash s0 b). apply (si_chain _ _ _ _ H0 b). }
  set (s' := set_bucket (set_long s0 o (Some (Some x))) b (encode_longstr_offset o)).
  exists (o :: M), (fun a => if a =? b then o :: cl b else cl a), s', (encode_longstr_offset o). split; [reflexivity|].
  assert (H' : SI (o :: M) (fun a => if a =? b then o :: cl b else cl a) f s').
  { apply SI_insert; auto; [now left| |apply incl_refl|].
    - intros [C | C]; discriminate.
    - unfold bucket_of, l_lang. cbn [l_extra x]. change (0 =? 0) with true. cbn iota. now rewrite N3. }
  split; [exact H'|].
  destruct (grow_insert _ _ _ _ o b x H0 NI Len) as (I1 & I2 & I3). fold s' in I1, I2, I3.
  assert (G' : grow M s (o :: M) s').
  { apply (grow_fill M s M s0); auto; [intros p Hp; now right|].
    cbn [length]. change (s_made s') with (S (s_made s)). lia. }
  split.
  { exact G'. }
  split; [reflexivity|]. split; [|split; [|split; [|split; [|split]]]].
  - intros a p Hp. destruct (Z.eqb_spec a b) as [-> | _]; [now right|exact Hp].
  - intros a. destruct (Z.eqb_spec a b) as [-> | _]; [now right|now left].
  - intros q [<- | Hq]; auto.
  - intros p Np. unfold s', s0. cbn [set_bucket s_long]. rewrite !set_long_other by assumption. reflexivity.
  - right. exists o, x. split; [now left|]. split; [reflexivity|]. split; [apply (long_at_same s0 o x)|].
    repeat split; auto.
  - intros Gd Sm. apply (good_insert M cl f s0 o b x data None type); auto.
    + now apply (good_grow M cl f s s0).
    + unfold content. rewrite N1, N3. reflexivity.
    + rewrite N2. unfold zlen in *. lia.
    + rewrite N2. lia.
    + intros p y Hp Ey. assert (Ey' : long_at s p = Some y).
      { rewrite <- Ey. unfold s0. symmetry. rewrite long_at_other by (intros ->; contradiction). reflexivity. }
      rewrite (grow_content _ _ _ _ _ _ _ _ _ H G0 Hp Ey' Ey).
      now apply (not_found_new M cl f s data None type H Gd NF p y).
Qed.

(** *** Short strings *)
Lemma SI_new_short M cl f s a c : SI M cl f s -> a mod 8 = 0 -> s_short s a = None ->
  SI M cl f (set_short s a (Some c)) /\ grow M s M (set_short s a (Some c)) /\ hc M f (set_short s a (Some c)) (encode_shortstr_offset a) = 0.
Proof.
  intros H Ma Ea. set (s' := set_short s a (Some c)).
  destruct (enc_short a Ma) as (D & T).
  assert (Z0 : hc M f s (encode_shortstr_offset a) = 0).
  { destruct (si_short _ _ _ _ H _ T) as (_ & L). rewrite D in L.
    pose proof (si_f _ _ _ _ H _ (or_intror T)). pose proof (cnt_nonneg (extras M s) (encode_shortstr_offset a)).
    unfold hc in *. destruct (Z.eq_dec (f (encode_shortstr_offset a) + cnt (extras M s) (encode_shortstr_offset a)) 0); auto.
    exfalso. apply L; [lia|exact Ea]. }
  assert (G : grow M s M s').
  { pose proof (grow_refl _ _ _ _ H) as [B1 B2 B3 B4 B5]. split; auto.
    intros p Hp. unfold s'. cbn. destruct (Z.eqb_spec p a) as [-> | _]; [contradiction|reflexivity]. }
  split; [|split; [exact G|exact Z0]].
  pose proof H as H'. destruct H as [A1 A2 A3 A4 A5 A6 A7 A8]. split; auto.
  - intros g Tg. destruct (A6 g Tg) as (C1 & C2). split; [exact C1|]. intros C. specialize (C2 C). unfold s'. cbn.
    destruct (decode_shortstr_offset g =? a); congruence.
  - intros b. destruct (A7 b) as (K1 & K2 & K3). split; [|auto].
    apply (linked_frame s); [|exact K1]. intros p y _ Ep. exists y. auto.
  - intros b o Ho. destruct (A8 b o Ho) as (x & Ex & B). exists x. split; [exact Ex|]. unfold bucket_of in *.
    destruct (A7 b) as (_ & _ & K3). now rewrite (proj1 (grow_lang M cl f s M s' o x x H' G (K3 o Ho) Ex Ex)).
Qed.

Definition cstring (l : list Z) : Prop := ~ In 0 l.
Lemma cstr_app e r : cstring e -> cstr (e ++ 0 :: r) = e.
Proof.
  unfold cstring. induction e as [|b e IH]; cbn [app cstr In]; intros N; [reflexivity|].
  destruct (Z.eqb_spec b 0) as [-> | _]; [exfalso; apply N; now left|]. f_equal. apply IH. intros C. apply N. now right.
Qed.
Lemma cstr_first e l : cstring e -> firstn (length (e ++ [0])) l = e ++ [0] -> cstr l = e.
Proof.
  intros N E. rewrite <- (firstn_skipn (length (e ++ [0])) l), E, <- app_assoc. now apply cstr_app.
Qed.

(** A string of the store is found. *)
Lemma found_again enc M cl f s data extra type o p x : SI M cl f s -> good M cl s -> In p M -> long_at s p = Some x ->
  content s x = (type, data, Some extra) -> find_create_longstr alen enc s data extra type o = Some (s, encode_longstr_offset p).
Proof.
  intros H Gd Hp Ex Ct. unfold find_create_longstr. set (b := wg_hash_typedstr alen data extra).
  destruct (si_chain _ _ _ _ H b) as (L1 & L2 & L3).
  destruct (find_ok M cl f s data extra type H (cl b) (s_made s) (s_hash s b) L1 L3 (chain_len _ _ _ _ b H)) as (r & Er & D).
  rewrite Er. destruct D as [(-> & NF) | (q & y & Hq & -> & Ey & R)].
  - exfalso. now apply (not_found_new M cl f s data extra type H Gd NF p x).
  - pose proof (L3 q Hq) as Iq. destruct Gd as (_ & S & U). destruct (S q y Iq Ey) as (S1 & S2).
    apply (right_content s y data extra type S1 S2) in R. rewrite <- R in Ct. rewrite <- (U p q x y Hp Iq Ex Ey Ct).
    destruct (si_obj _ _ _ _ H p Hp) as (Po & Mo & _).
    destruct (Z.eqb_spec (encode_longstr_offset p) 0) as [C | _]; [now apply enc_long_nz in C|]. reflexivity.
Qed.

(** *** The extra string *)
Definition fresh_for (s : sst) (e : list Z) (eo : Z) : Prop :=
  eo = 0 \/ (0 < eo /\ eo mod 8 = 0 /\ (if zlen e <? SHORTSTR_SIZE then s_short s eo = None else s_long s eo = None)).
Lemma extra_made eo M cl f s e : SI M cl f s -> cstring e -> fresh_for s e eo ->
  exists M1 cl1 s1 tmp, encode_extra alen eo s e = Some (s1, tmp) /\ SI M1 cl1 f s1 /\ grow M s M1 s1 /\
    (forall a, incl (cl a) (cl1 a)) /\
    (forall a, cl1 a = cl a \/ (SHORTSTR_SIZE <= zlen e /\ a = wg_hash_typedstr alen (e ++ [0]) None)) /\
    (forall p, p <> eo -> s_long s1 p = s_long s p) /\
    (good M cl s -> zlen e < 2 ^ 31 - 1 -> good M1 cl1 s1) /\
    (forall p y, In p M1 -> ~ In p M -> long_at s1 p = Some y -> l_extra y = 0) /\
    ((tmp = WG_ILLEGAL /\ eo = 0) \/
     tmp <> 0 /\ tmp <> WG_ILLEGAL /\
     exists s2, (if Z.land tmp 7 =? 4 then ref_long s1 tmp else Some s1) = Some s2 /\ SI M1 cl1 (addf f tmp) s2 /\ grow M1 s1 M1 s2
       /\ extra_ok M1 s2 tmp /\ (exists c, wg_decode_unistr s2 tmp = Some c /\ cstr c = e)
       /\ s_hash s2 = s_hash s1 /\ s_made s2 = s_made s1 /\ (forall p, ~ In p M1 -> s_long s2 p = s_long s1 p)).
Proof.
  intros H Ce Fo. unfold encode_extra, encode_unistr. change (WG_STRTYPE =? WG_STRTYPE) with true. cbn [andb].
  unfold fresh_for in Fo. destruct (Z.ltb_spec (zlen e) SHORTSTR_SIZE) as [Sh | Lg].
  - unfold new_short. destruct (Z.eqb_spec eo 0) as [-> | No].
    + exists M, cl, s, WG_ILLEGAL. split; [reflexivity|]. split; [exact H|]. split; [apply (grow_refl _ _ _ _ H)|].
      split; [intros a; apply incl_refl|]. split; [auto|]. split; [auto|]. split; [auto|]. split; [intros p y C1 C2; contradiction|]. left. auto.
    + destruct Fo as [C | (Po & Mo & Eo)]; [contradiction|].
      set (c := e ++ repeat 0 (Z.to_nat (SHORTSTR_SIZE - zlen e))).
      destruct (SI_new_short M cl f s eo c H Mo Eo) as (H1 & G1 & Z0). set (s1 := set_short s eo (Some c)) in *.
      destruct (enc_short eo Mo) as (D & T).
      exists M, cl, s1, (encode_shortstr_offset eo). split; [reflexivity|]. split; [exact H1|]. split; [exact G1|].
      split; [intros a; apply incl_refl|]. split; [auto|]. split; [auto|]. split; [intros Gd _; now apply (good_grow M cl f s)|].
      split; [intros p y C1 C2; contradiction|].
      right. split; [now apply enc_short_nz|]. split; [intros C; rewrite C in T; discriminate|].
      exists s1. rewrite T. change (6 =? 4) with false. split; [reflexivity|].
      assert (Lv : s_short s1 eo = Some c) by (unfold s1; cbn; now rewrite Z.eqb_refl).
      split; [apply SI_add_short; auto; rewrite D, Lv; discriminate|]. split; [apply (grow_refl _ _ _ _ H1)|].
      split; [right; now left|]. split; [|auto]. exists c. unfold wg_decode_unistr. rewrite T, D. change (6 =? 6) with true. split; [exact Lv|].
      unfold c. assert (Zs : exists k, Z.to_nat (SHORTSTR_SIZE - zlen e) = S k).
      { exists (Z.to_nat (SHORTSTR_SIZE - zlen e - 1)). lia. }
      destruct Zs as (k & ->). cbn [repeat]. now apply cstr_app.
  - assert (Bo : block_ok s eo) by exact Fo.
    destruct (create_none (fun _ _ => None) M cl f s (e ++ [0]) WG_STRTYPE eo H ltac:(unfold WG_STRTYPE; lia) Bo)
      as (M1 & cl1 & s1 & r & Er & H1 & G1 & Ss & Ic & Ec & En & Eout & Rr & Gd).
    rewrite Er. destruct Rr as [(-> & -> & -> & -> & Zo) | (p & x & Ip & -> & Ex & Tx & Fx & Lx & Bx)].
    + change (0 =? 0) with true. cbn iota.
      exists M, cl, s, WG_ILLEGAL. split; [reflexivity|]. split; [exact H|]. split; [apply (grow_refl _ _ _ _ H)|].
      split; [intros a; apply incl_refl|]. split; [auto|]. split; [auto|]. split; [auto|]. split; [intros p y C1 C2; contradiction|]. left. auto.
    + destruct (si_obj _ _ _ _ H1 p Ip) as (Pp & Mp & _). destruct (enc_long p Mp) as (D & T).
      destruct (Z.eqb_spec (encode_longstr_offset p) 0) as [C | _]; [now apply enc_long_nz in C|]. rewrite enc_long_idem by assumption.
      exists M1, cl1, s1, (encode_longstr_offset p). split; [reflexivity|]. split; [exact H1|]. split; [exact G1|].
      split; [exact Ic|]. split.
      { intros a. destruct (Ec a) as [E | E]; [now left|right]. now split. }
      split; [exact Eout|].
      split; [intros Gg Sm; apply Gd; [exact Gg|]; unfold zlen in *; rewrite app_length; cbn [length]; lia|].
      assert (Zx : l_extra x = 0).
      { unfold l_lang in Lx. destruct (Z.eqb_spec (l_extra x) 0); [assumption|]. destruct (wg_decode_unistr s1 (l_extra x)); discriminate. }
      split.
      { intros q y Iq Nq Ey. destruct (En q Iq) as [C | C]; [contradiction|].
        assert (q = p).
        { destruct (si_obj _ _ _ _ H1 q Iq) as (_ & Mq & _). rewrite <- D, C. symmetry. now apply enc_long. }
        subst q. rewrite Ex in Ey. now injection Ey as <-. }
      right. split; [now apply enc_long_nz|]. split; [intros C; rewrite C in T; discriminate|].
      rewrite T. change (4 =? 4) with true. cbn iota.
      destruct (SI_ref M1 cl1 f s1 (encode_longstr_offset p) H1 T) as (s2 & E2 & H2 & F2 & Ss2 & Out2 & Eh2 & Em2 & x2 & Ex2 & Ex2').
      { now rewrite D. }
      rewrite D in *. rewrite Ex in Ex2. injection Ex2 as <-.
      exists s2. split; [exact E2|]. split; [exact H2|]. split.
      { split; auto.
        - apply incl_refl.
        - intros q Hq. destruct (si_obj _ _ _ _ H1 q Hq) as (_ & _ & y & Ey & _). destruct (Z.eq_dec q p) as [-> | Nq].
          + exists x, (with_ref x (l_ref x + 1)). repeat split; auto. cbn [l_ref with_ref]. lia.
          + exists y, y. unfold long_at. rewrite Out2 by assumption. repeat split; auto. lia.
        - intros a _. now rewrite Ss2.
        - intros F q Hq. destruct (Z.eq_dec q p) as [-> | Nq]; [exact Ip|]. apply F. unfold long_at in *. now rewrite Out2 in Hq.
        - lia. }
      split.
      { right. right. rewrite D. split; [exact T|]. split; [exact Ip|]. unfold extra_at. rewrite Ex2'. exact Zx. }
      split; [|split; [exact Eh2|split; [exact Em2|]]].
      * exists (l_data x). unfold wg_decode_unistr. rewrite T, D, Ex2'. split; [reflexivity|]. now apply cstr_first.
      * intros q Nq. apply Out2. intros ->. contradiction.
Qed.

(** *** Any string *)
Definition extra_args (s : sst) (extra : option (list Z)) (o eo : Z) : Prop :=
  match extra with None => True | Some e => cstring e /\ fresh_for s e eo /\ (eo = 0 \/ eo <> o) end.
(** The extra string does not fall in the bucket of the string. *)
Definition apart (data : list Z) (extra : option (list Z)) : Prop :=
  match extra with
  | None => True
  | Some e => zlen e < 2 ^ 31 - 1 /\ (zlen e < SHORTSTR_SIZE \/ wg_hash_typedstr alen (e ++ [0]) None <> wg_hash_typedstr alen data (Some e))
  end.
Lemma create_any eo M cl f s data extra type o : SI M cl f s -> 0 <= type < 256 -> block_ok s o -> extra_args s extra o eo ->
  exists M' cl' s' r, find_create_longstr alen (encode_extra alen eo) s data extra type o = Some (s', r) /\ SI M' cl' f s' /\ grow M s M' s' /\
    ((r = 0 /\ (o = 0 \/ (extra <> None /\ eo = 0))) \/ result_ok M' s' r data extra type) /\
    (good M cl s -> zlen data < 2 ^ 31 -> apart data extra -> good M' cl' s').
Proof.
  intros H Ht Bo Ax. destruct extra as [e|].
  2:{ destruct (create_none (encode_extra alen eo) M cl f s data type o H Ht Bo) as (M1 & cl1 & s1 & r & Er & H1 & G1 & _ & _ & _ & _ & _ & R & Gd).
      exists M1, cl1, s1, r. split; [exact Er|]. split; [exact H1|]. split; [exact G1|]. split; [|auto].
      destruct R as [(-> & _ & _ & _ & Zo) | R]; auto. }
  destruct Ax as (Ce & Fe & Ne).
  unfold find_create_longstr. set (b := wg_hash_typedstr alen data (Some e)).
  destruct (si_chain _ _ _ _ H b) as (L1 & L2 & L3).
  destruct (find_ok M cl f s data (Some e) type H (cl b) (s_made s) (s_hash s b) L1 L3 (chain_len _ _ _ _ b H)) as (r & Er & D).
  rewrite Er. destruct D as [(-> & NF) | (p & x & Hp & -> & Ex & R)].
  2:{ destruct (si_obj _ _ _ _ H p (L3 p Hp)) as (Po & Mo & _).
      destruct (Z.eqb_spec (encode_longstr_offset p) 0) as [C | _]; [now apply enc_long_nz in C|]. cbn [negb].
      exists M, cl, s, (encode_longstr_offset p). split; [reflexivity|]. split; [exact H|]. split; [apply (grow_refl _ _ _ _ H)|].
      split; [|auto]. right. apply (right_result M s data (Some e) type p x); auto. }
  change (negb (0 =? 0)) with false. cbn iota.
  destruct (Z.eqb_spec o 0) as [-> | No].
  { exists M, cl, s, 0. split; [reflexivity|]. split; [exact H|]. split; [apply (grow_refl _ _ _ _ H)|]. auto. }
  destruct Bo as [C | (Po & Mo & Eo)]; [contradiction|].
  pose proof (block_new _ _ _ _ _ H Eo) as NI. cbn zeta.
  set (s0 := set_long (set_made s) o (Some None)).
  pose proof (SI_block _ _ _ _ o (Some None) H NI) as H0. fold s0 in H0.
  pose proof (grow_block _ _ _ _ o H NI) as G0. fold s0 in G0.
  assert (Fe0 : fresh_for s0 e eo).
  { destruct Fe as [-> | (P1 & P2 & P3)]; [now left|]. right. split; [exact P1|]. split; [exact P2|].
    destruct (zlen e <? SHORTSTR_SIZE); [exact P3|]. unfold s0. rewrite set_long_other; [exact P3|]. destruct Ne; [lia|assumption]. }
  destruct (extra_made eo M cl f s0 e H0 Ce Fe0) as (M1 & cl1 & s1 & tmp & Et & H1 & G1 & Ic & Ec & Out1 & Gd1 & New1 & R1).
  rewrite Et.
  assert (So1 : s_long s1 o = Some None).
  { destruct (Z.eq_dec o eo) as [-> | N1].
    - destruct Ne as [-> | C]; [lia|contradiction].
    - rewrite Out1 by assumption. apply set_long_same. }
  assert (NI1 : ~ In o M1).
  { intros C. destruct (si_obj _ _ _ _ H1 o C) as (_ & _ & y & Ey & _). unfold long_at in Ey. rewrite So1 in Ey. discriminate. }
  destruct R1 as [(-> & Zo) | (Nt & Ni & s2 & E2 & H2 & G2 & XO & (c & Dc & Cc) & Eh2 & Em2 & Out2)].
  { change (WG_ILLEGAL =? WG_ILLEGAL) with true. cbn iota. exists M1, cl1, s1, 0. split; [reflexivity|]. split; [exact H1|].
    split; [now apply (grow_trans M s M s0)|]. split; [left; split; [reflexivity|]; right; split; [discriminate|exact Zo]|]. intros Gd _ (Sm & _). apply Gd1; [|exact Sm]. now apply (good_grow M cl f s). }
  destruct (Z.eqb_spec tmp WG_ILLEGAL) as [C | _]; [contradiction|]. rewrite E2.
  destruct (Z.eqb_spec tmp WG_ILLEGAL) as [C | _]; [contradiction|].
  set (x := LS (obj_size (zlen data)) (Z.lor (Z.shiftl (obj_size (zlen data) - zlen data) LONGSTR_META_LENDIFSHFT) type) 0 (s_hash s b) tmp (padded data)).
  destruct (l_new data type (s_hash s b) tmp 0 Ht) as (N1 & N2 & N3 & N4 & N5). fold x in N1, N2, N3, N4, N5.
  set (s' := set_bucket (set_long s2 o (Some (Some x))) b (encode_longstr_offset o)).
  assert (G02 : grow M s0 M1 s2) by now apply (grow_trans M s0 M1 s1).
  assert (Gs2 : grow M s M1 s2) by now apply (grow_trans M s M s0).
  assert (Lk2 : linked s2 (s_hash s b) (cl b)).
  { apply (linked_frame s); [|exact L1]. intros p y Hp Ep.
    destruct (g_obj _ _ _ _ Gs2 p (L3 p Hp)) as (z & z' & Ez & Ez' & _ & Cz & _). rewrite Ep in Ez. injection Ez as <-. eauto. }
  assert (Len : (length M1 < s_made s2)%nat).
  { pose proof (si_len _ _ _ _ H). pose proof (g_len _ _ _ _ G02). unfold s0 in *. cbn [set_long set_made s_made] in *. lia. }
  assert (Lx : l_lang s2 x = Some (Some e)).
  { unfold l_lang. cbn [l_extra x]. destruct (Z.eqb_spec tmp 0); [contradiction|]. now rewrite Dc, Cc. }
  assert (Lx' : l_lang s' x = Some (Some e)).
  { rewrite <- Lx. unfold l_lang. destruct (Z.eqb_spec (l_extra x) 0) as [_ | NZ]; [reflexivity|]. unfold wg_decode_unistr. cbn [l_extra x] in *.
    destruct XO as [Y | [Y | (Y & I & _)]]; [contradiction| |]; rewrite Y; cbn [Z.eqb Pos.eqb]; [reflexivity|].
    replace (long_at s' (decode_longstr_offset tmp)) with (long_at s2 (decode_longstr_offset tmp)); [reflexivity|].
    symmetry. apply (long_at_other s2 o). intros C. rewrite C in I. contradiction. }
  assert (H' : SI (o :: M1) (fun a => if a =? b then o :: cl b else cl1 a) f s').
  { apply SI_insert; auto.
    - cbn [l_extra x]. intros T. apply (si_f _ _ _ _ H tmp T).
    - unfold bucket_of. now rewrite Lx, N3. }
  destruct (grow_insert _ _ _ _ o b x H2 NI1 Len) as (I1 & I2 & I3). fold s' in I1, I2, I3.
  exists (o :: M1), (fun a => if a =? b then o :: cl b else cl1 a), s', (encode_longstr_offset o).
  split; [reflexivity|]. split; [exact H'|]. split; [|split].
  - apply (grow_fill M s M1 s2); auto; [intros p Hp; now right|].
    cbn [length]. change (s_made s') with (s_made s2). pose proof (g_len _ _ _ _ G02). unfold s0 in *. cbn [set_long set_made s_made] in *. lia.
  - right. exists o, x. split; [now left|]. split; [reflexivity|]. split; [apply (long_at_same s2 o x)|]. repeat split; auto.
  - intros Gd Sm (Se & Ap).
    assert (Eb : cl1 b = cl b).
    { destruct (Ec b) as [E | (E1 & E3)]; [exact E|]. exfalso. destruct Ap as [Ap | Ap]; [lia|]. apply Ap. symmetry. exact E3. }
    rewrite <- Eb. apply (good_insert M1 cl1 (addf f tmp) s2 o b x data (Some e) type); auto.
    + apply (good_grow M1 cl1 f s1); auto. apply Gd1; auto. now apply (good_grow M cl f s).
    + unfold content. fold s'. rewrite N1, N3, Lx'. reflexivity.
    + rewrite N2. unfold zlen in *. lia.
    + rewrite N2. lia.
    + intros p y Hp Ey Ct. destruct (in_dec Z.eq_dec p M) as [I | NIp].
      * destruct (g_obj _ _ _ _ Gs2 p I) as (z & z' & Ez & Ez' & _). rewrite Ey in Ez'. injection Ez' as <-.
        rewrite (grow_content _ _ _ _ _ _ _ _ _ H Gs2 I Ez Ey) in Ct.
        now apply (not_found_new M cl f s data (Some e) type H Gd NF p z).
      * destruct (g_obj _ _ _ _ G2 p Hp) as (z & z' & Ez & Ez' & Bz & _). rewrite Ey in Ez'. injection Ez' as <-.
        pose proof (New1 p z Hp NIp Ez) as Z0. assert (Zy : l_extra y = 0) by (unfold body in Bz; congruence).
        unfold content, l_lang in Ct. rewrite Zy in Ct. change (0 =? 0) with true in Ct. cbn iota in Ct. congruence.
Qed.

(** wg_free_encoded: the count goes up and down again. *)
Lemma SI_free_encoded M cl f s h : SI M cl f s ->
  (Z.land h 7 = 4 -> long_at s (decode_longstr_offset h) <> None) -> (forall p, long_at s p <> None -> In p M) ->
  (Z.land h 7 = 6 -> s_short s (decode_shortstr_offset h) <> None /\ hc M f s h = 0) ->
  exists M' cl' s', wg_free_encoded alen s h = Some s' /\ SI M' cl' f s' /\
    incl M' M /\ (forall b o, In o (cl' b) <-> In o (cl b) /\ In o M') /\
    (forall o, In o M' -> exists x x', long_at s o = Some x /\ long_at s' o = Some x' /\ body x' = body x) /\
    (forall o, In o M -> ~ In o M' -> s_long s' o = None) /\ (forall o, ~ In o M -> s_long s' o = s_long s o) /\
    (forall a, s_short s' a = s_short s a \/ s_short s' a = None) /\ rel M (addf f h) s M' f s'.
Proof.
  intros H Hl Fu Hs. unfold wg_free_encoded.
  assert (Same : ~ tagged h -> exists M' cl' s', Some s = Some s' /\ SI M' cl' f s' /\
    incl M' M /\ (forall b o, In o (cl' b) <-> In o (cl b) /\ In o M') /\
    (forall o, In o M' -> exists x x', long_at s o = Some x /\ long_at s' o = Some x' /\ body x' = body x) /\
    (forall o, In o M -> ~ In o M' -> s_long s' o = None) /\ (forall o, ~ In o M -> s_long s' o = s_long s o) /\
    (forall a, s_short s' a = s_short s a \/ s_short s' a = None) /\ rel M (addf f h) s M' f s').
  { intros Nt. assert (Rl : rel M (addf f h) s M f s).
    { intros g T C C'. exfalso. unfold hc, addf in *. rewrite hit_diff in C; [lia|]. intros <-. contradiction. }
    exists M, cl, s. pose proof (step_refl _ _ _ _ H) as [B1 B2 B3 B4 B5 B6 B7]. split; [reflexivity|]. split; [exact H|].
    split; [exact B1|]. split; [exact B2|]. split; [|auto].
    intros o Ho. destruct (B3 o Ho) as (x & x' & ? & ? & ? & _). eauto. }
  assert (Up : forall M' cl' s1 s', SI M cl (addf f h) s1 -> SI M' cl' (subf (addf f h) h) s' -> step M cl s1 M' cl' s' ->
      srel M (addf f h) s1 M' (subf (addf f h) h) s' -> frame M s s1 -> rel M (addf f h) s M' f s').
  { intros M' cl' s1 s' H1 H' St Sr F1 g T C C'. apply (rel_of _ _ _ _ _ _ _ _ H1 H' St Sr g T).
    - unfold hc, addf in *. rewrite (frame_extras M s s1 g F1). lia.
    - revert C'. unfold hc, addf, subf. lia. }
  destruct (isptr h) eqn:P; [|apply Same; intros C; rewrite (isptr_str h C) in P; discriminate].
  destruct (Z.eqb_spec (Z.land h 7) 4) as [T | T].
  - pose proof (Fu _ (Hl T)) as I.
    destruct (SI_ref M cl f s h H T I) as (s1 & E1 & H1 & F1 & Sh1 & Out1 & _ & _ & x & Ex & Ex1).
    rewrite E1.
    destruct (SI_free NEST M cl (addf f h) s1 h H1 (or_introl T)) as (M' & cl' & s' & E' & H' & St & Sr).
    + unfold addf. rewrite hit_same. pose proof (si_f _ _ _ _ H h (or_introl T)). lia.
    + split; [unfold NEST; lia|]. intros _. right. unfold NEST. lia.
    + exists M', cl', s'. split; [exact E'|]. split; [apply (SI_ext _ _ _ _ _ H'); intros g _; unfold subf, addf; lia|].
      pose proof (Up _ _ _ _ H1 H' St Sr F1) as Rl.
      destruct St as [B1 B2 B3 B4 B5 B6 B7]. split; [exact B1|]. split; [exact B2|]. split; [|split; [exact B4|split; [|split; [|exact Rl]]]].
      * intros o Ho. destruct (B3 o Ho) as (y & y' & Ey & Ey' & By & _). destruct (F1 o (B1 o Ho)) as (z & z' & Ez & Ez' & Bz).
        rewrite Ey in Ez'. injection Ez' as <-. exists z, y'. repeat split; auto. congruence.
      * intros o No. rewrite B5 by assumption. apply Out1. intros ->. contradiction.
      * intros a. destruct (B6 a) as [-> | ->]; [rewrite Sh1; now left|now right].
  - destruct (Z.eqb_spec (Z.land h 7) 6) as [T6 | T6].
    + destruct (Hs T6) as (Lv & Z0).
      pose proof (SI_add_short M cl f s h H T6 Z0 Lv) as H1.
      destruct (SI_free NEST M cl (addf f h) s h H1 (or_intror T6)) as (M' & cl' & s' & E' & H' & St & Sr).
      * unfold addf. rewrite hit_same. pose proof (si_f _ _ _ _ H h (or_intror T6)). lia.
      * split; [unfold NEST; lia|]. intros C. contradiction.
      * exists M', cl', s'. split; [exact E'|]. split; [apply (SI_ext _ _ _ _ _ H'); intros g _; unfold subf, addf; lia|].
        assert (Rl : rel M (addf f h) s M' f s').
        { apply (Up _ _ _ _ H1 H' St Sr). intros p Hp. destruct (si_obj _ _ _ _ H p Hp) as (_ & _ & y & Ey & _). eauto. }
        destruct St as [B1 B2 B3 B4 B5 B6 B7]. split; [exact B1|]. split; [exact B2|]. split; [|auto].
        intros o Ho. destruct (B3 o Ho) as (y & y' & Ey & Ey' & By & _). eauto.
    + cbn [free_field_encoffset NEST]. destruct (Z.eqb_spec (Z.land h 7) 4); [contradiction|].
      destruct (Z.eqb_spec (Z.land h 7) 6); [contradiction|]. apply Same. intros [C | C]; contradiction.
Qed.
End Inv.
