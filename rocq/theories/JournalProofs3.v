(** Proofs about the journal: replay with other addresses. *)
From Coq Require Import ZArith List Bool Lia.
From Verif Require Import Base EncodingModel VarintModel VarintProofs VarintProps DhashModel GinthashModel GinthashProofs GinthashProps
  JournalModel JournalProofs JournalProofs2.
Import ListNotations.
Open Scope Z_scope.
Local Opaque rehash_gint scramble.

(** The address inside an encoded value (Db/dbdata.h l.316-345: the low two bits are the
    type of a full integer, the low three bits that of the others). *)
Definition addr (enc : Z) : Z :=
  if Z.land enc 3 =? 1 then Z.land enc (Z.lnot 3) else Z.land enc (Z.lnot 7).
(** The same reference when the object at address [a] of the original run is at [h a]. *)
Definition moved (h : Z -> Z) (enc : Z) : Z :=
  if isptr enc then
    if Z.land enc 3 =? 1 then Z.lor (h (addr enc)) 1 else Z.lor (h (addr enc)) (Z.land enc 7)
  else enc.
(** Two references of the same kind of value, not records. *)
Definition same_kind (e1 e2 : Z) : Prop :=
  isptr e1 = true /\ (Z.land e1 3 = 1 /\ Z.land e2 3 = 1 \/ Z.land e1 3 <> 1 /\ Z.land e1 7 <> 0 /\ Z.land e1 7 = Z.land e2 7).

Lemma land7_cases e : Z.land e 7 = 0 \/ Z.land e 7 = 1 \/ Z.land e 7 = 2 \/ Z.land e 7 = 3 \/
  Z.land e 7 = 4 \/ Z.land e 7 = 5 \/ Z.land e 7 = 6 \/ Z.land e 7 = 7.
Proof. change 7 with (2 ^ 3 - 1). rewrite land_ones_mod by lia. change (2 ^ 3) with 8. pose proof (Z.mod_pos_bound e 8 ltac:(lia)). lia. Qed.
Lemma land_lnot7 e : Z.land e 7 = 0 -> Z.land e (Z.lnot 7) = e.
Proof. intros H. pose proof (decode_encode e 3 0 ltac:(lia) H) as E. rewrite Z.lor_0_r in E. exact E. Qed.
Lemma moved_same h enc new : same_kind enc new -> h (addr enc) = addr new -> moved h enc = new.
Proof.
  intros (I & K) H. unfold moved. rewrite I, H. unfold addr. destruct K as [[K1 K2]|(K1 & _ & K2)].
  - rewrite K1, K2. cbn [Z.eqb Pos.eqb]. apply (decode_encode new 2 1 ltac:(lia) K2).
  - destruct (Z.eqb_spec (Z.land enc 3) 1); [contradiction|].
    assert (K3 : Z.land new 3 <> 1) by (rewrite land_7_3, <- K2, <- land_7_3; assumption).
    destruct (Z.eqb_spec (Z.land new 3) 1); [contradiction|].
    apply (decode_encode new 3 (Z.land enc 7) ltac:(lia)). symmetry. exact K2.
Qed.

(** translate_encoded is [moved] by the table. *)
Lemma translate_moved t h enc : (forall a, translate_offset t a = h a) -> translate_encoded t enc = moved h enc.
Proof.
  intros H. unfold translate_encoded, moved, addr. rewrite !H. destruct (isptr enc) eqn:I; [|reflexivity].
  unfold isptr in I. apply andb_true_iff in I. destruct I as [_ I].
  unfold encode_longstr_offset, encode_shortstr_offset, encode_fulldouble_offset, encode_fullint_offset,
    decode_longstr_offset, decode_shortstr_offset, decode_fulldouble_offset, decode_fullint_offset.
  rewrite land_7_3 in *. destruct (land7_cases enc) as [E|[E|[E|[E|[E|[E|[E|E]]]]]]]; rewrite E in *; try discriminate I;
    try reflexivity.
  change (Z.land 0 3 =? 1) with false. change (0 =? 0) with true. cbn iota. rewrite Z.lor_0_r. now rewrite (land_lnot7 enc E).
Qed.
(** add_tran_enc adds the addresses. *)
Lemma add_tran_addr t enc new : same_kind enc new -> add_tran_enc t enc new = add_tran_offset t (addr enc) (addr new).
Proof.
  intros (I & K). unfold add_tran_enc, addr. rewrite I.
  unfold decode_longstr_offset, decode_shortstr_offset, decode_fulldouble_offset, decode_fullint_offset.
  unfold isptr in I. apply andb_true_iff in I. destruct I as [_ I].
  rewrite (land_7_3 enc), (land_7_3 new) in *.
  destruct (land7_cases enc) as [E|[E|[E|[E|[E|[E|[E|E]]]]]]]; rewrite E in *; try discriminate I;
    destruct K as [[K1 K2]|(K1 & K3 & K2)]; try (discriminate K1); try (exfalso; apply K1; reflexivity);
    try (exfalso; apply K3; reflexivity); first [rewrite K2; reflexivity|rewrite <- K2; reflexivity].
Qed.
Lemma same_kind_new enc new : same_kind enc new -> (enc =? new) = (addr enc =? addr new).
Proof.
  intros K. destruct (Z.eqb_spec enc new) as [->|N]; [symmetry; apply Z.eqb_refl|]. symmetry. apply Z.eqb_neq. intros E.
  apply N. rewrite <- (moved_same (fun a => a) enc new K E). symmetry.
  assert (K1 : same_kind enc enc).
  { destruct K as (I & [[K1 K2]|(K1 & K2 & K3)]); split; auto. }
  now apply moved_same.
Qed.

(** ** The table as a map *)
Definition home_of (m : list (Z * Z)) (a : Z) : Z := match find (fun e => fst e =? a) m with Some e => snd e | None => a end.
Lemma home_cons k v m a : home_of ((k, v) :: m) a = upd (home_of m) k v a.
Proof. unfold home_of, upd. cbn [find fst]. rewrite (Z.eqb_sym k a). destruct (a =? k); reflexivity. Qed.
Lemma home_not m a : ~ In a (map fst m) -> home_of m a = a.
Proof.
  induction m as [|[k v] m IH]; intros H; [reflexivity|]. rewrite home_cons. cbn [map fst In] in H.
  rewrite upd_other by (intros E; apply H; left; congruence). apply IH. tauto.
Qed.
Lemma home_in m k v : NoDup (map fst m) -> In (k, v) m -> home_of m k = v.
Proof.
  induction m as [|[k0 v0] m IH]; intros N H; [contradiction|]. rewrite home_cons. cbn [map fst] in N.
  inversion N; subst. destruct H as [E|H].
  - injection E as -> ->. apply upd_same.
  - rewrite upd_other; [auto|]. intros ->. apply H2. apply in_map_iff. exists (k0, v). auto.
Qed.

Record J (t : gtable) (m : list (Z * Z)) (h : Z -> Z) : Prop := {
  j_gi : GI t m 0;
  j_nd : NoDup (map fst m);
  j_ne : forall k v, In (k, v) m -> k <> v;
  j_home : forall a, h a = home_of m a }.

Lemma J_translate t m h a : J t m h -> translate_offset t a = h a.
Proof.
  intros [G N _ H]. rewrite H. unfold translate_offset. destruct (wg_ginthash_getkey t a) as [v|] eqn:E.
  - symmetry. apply home_in; [assumption|]. eapply getkey_in; eauto.
  - symmetry. apply home_not. intros Q. apply in_map_iff in Q. destruct Q as ([k v] & Ek & Q). cbn in Ek. subst k.
    destruct (getkey_some _ _ _ _ _ G Q) as [v' Ev]. congruence.
Qed.
Lemma J_unmoved t m h a : J t m h -> h a = a -> ~ In a (map fst m).
Proof.
  intros [G N Ne H] E Q. apply in_map_iff in Q. destruct Q as ([k v] & Ek & Q). cbn in Ek. subst k.
  apply (Ne a v Q). rewrite <- (home_in m a v N Q), <- H. auto.
Qed.
Lemma J_stay t m h a : J t m h -> h a = a -> J t m (upd h a a).
Proof.
  intros I E. destruct I as [G N Ne H]. constructor; try assumption. intros x. unfold upd. destruct (Z.eqb_spec x a) as [->|]; [|apply H].
  rewrite <- H. auto.
Qed.

(** Eight distinct keys with the same low 22 bits of the hash, all from a list. *)
Definition crowded (ks : list Z) : Prop :=
  exists l r, NoDup l /\ (8 <= length l)%nat /\ incl l ks /\ forall k, In k l -> rehash_gint k mod 2 ^ 22 = r.

Lemma J_move t m h a b : J t m h -> h a = a -> a <> b ->
  match add_tran_offset t a b with
  | None => False
  | Some (t1, c) => c = 0 /\ J t1 ((a, b) :: m) (upd h a b) \/ c = -1 /\ crowded (a :: map fst m)
  end.
Proof.
  intros I E N. pose proof (J_unmoved _ _ _ _ I E) as U. pose proof (addkey_spec t m a b (j_gi _ _ _ I) U) as A.
  unfold add_tran_offset. destruct (wg_ginthash_addkey t a b) as [u t1|t1|]; [left|right|contradiction].
  - split; [reflexivity|]. constructor; [exact A| | |].
    + cbn [map fst]. constructor; [assumption|apply I].
    + intros k v [Q|Q]; [congruence|eapply j_ne; eauto].
    + intros x. rewrite home_cons. unfold upd. destruct (x =? a); [reflexivity|apply I].
  - split; [reflexivity|]. destruct A as [(m1 & G1 & I1 & I2) (s & Hs & Hn & Hl & Hb)].
    pose proof (gi_slot' _ _ _ s G1 Hs Hn) as S.
    exists (map fst (ents (gheap t1 (gdir t1 s)))), (s mod 2 ^ 22).
    split; [apply (so_nd _ _ _ S)|]. split; [now rewrite map_length|]. split.
    + intros k Q. apply in_map_iff in Q. destruct Q as ([k0 v0] & <- & Hx). cbn [fst].
      assert (Q : In (k0, v0) m1) by (apply (gi_map _ _ _ G1); exists s; auto).
      destruct (I2 _ Q) as [Q'|Q']; [injection Q' as -> ->; now left|]. right. apply in_map_iff. exists (k0, v0). auto.
    + intros k Q. apply in_map_iff in Q. destruct Q as ([k0 v0] & <- & Hx). cbn [fst].
      pose proof (so_ent _ _ _ S k0 v0 Hx) as Q. rewrite Hb in Q. rewrite <- scramble_eq. exact Q.
Qed.

Section Ideal.
Context {D : Type}.
Variable P : prims D.

(** The effect of an entry when, for every address of the original run, the object created
    last at that address is at [h a] in this database. *)
Definition ideal (s : st D) (h : Z -> Z) (e : entry) : option (st D * (Z -> Z) * bool) :=
  match e with
  | ECre len off =>
      match wg_create_record P s len with
      | None => None
      | Some (s, rec) =>
          if off =? 0 then Some (s, h, true)
          else if rec =? 0 then Some (s, h, false)
          else Some (s, upd h off rec, true)
      end
  | EDel off =>
      match wg_delete_record P s (h off) with
      | None => None
      | Some (s, c) => Some (s, h, -1 <=? c)
      end
  | ESet off col enc =>
      match wg_set_field P s (h off) col (moved h enc) with
      | None => None
      | Some (s, c) => Some (s, h, c =? 0)
      end
  | EMeta off meta =>
      match p_meta P (s_db s) (h off) meta with
      | None => None
      | Some d => Some (with_db s d, h, true)
      end
  | EInt _ enc | EDouble _ enc | EStr _ _ _ enc =>
      match exec_value P s e with
      | None => None
      | Some (s, newenc) =>
          if enc =? WG_ILLEGAL then Some (s, h, true)
          else if newenc =? WG_ILLEGAL then Some (s, h, false)
          else Some (s, upd h (addr enc) (addr newenc), true)
      end
  end.
Fixpoint ideals (s : st D) (h : Z -> Z) (es : list entry) : option (st D * (Z -> Z) * bool) :=
  match es with
  | [] => Some (s, h, true)
  | e :: es =>
      match ideal s h e with
      | None => None
      | Some (s, h, true) => ideals s h es
      | Some (s, h, false) => Some (s, h, false)
      end
  end.
(** The addresses given to objects in the original run. *)
Definition created (e : entry) : list Z :=
  match e with
  | ECre _ off => [off]
  | EInt _ enc | EDouble _ enc | EStr _ _ _ enc => [addr enc]
  | _ => []
  end.
(** A creation at an address from which no object was moved before; an encoded value of
    the same kind as in the original run. *)
Definition creation_ok (s : st D) (h : Z -> Z) (e : entry) : Prop :=
  match e with
  | ECre _ off => off <> 0 -> h off = off
  | EInt _ enc | EDouble _ enc | EStr _ _ _ enc =>
      enc <> WG_ILLEGAL -> h (addr enc) = addr enc /\
      forall s1 newenc, exec_value P s e = Some (s1, newenc) -> newenc <> WG_ILLEGAL -> same_kind enc newenc
  | _ => True
  end.
Fixpoint creations_ok (s : st D) (h : Z -> Z) (es : list entry) : Prop :=
  match es with
  | [] => True
  | e :: es => creation_ok s h e /\
      match ideal s h e with Some (s1, h1, true) => creations_ok s1 h1 es | _ => True end
  end.

Lemma ideal_step t m h s e : J t m h -> creation_ok s h e ->
  match exec P s t e with
  | None => ideal s h e = None
  | Some (s1, t1, true) => exists h1 m1, ideal s h e = Some (s1, h1, true) /\ J t1 m1 h1 /\
      incl (map fst m1) (created e ++ map fst m)
  | Some (s1, t1, false) => (exists h1, ideal s h e = Some (s1, h1, false)) \/ crowded (created e ++ map fst m)
  end.
Proof.
  intros I C. pose proof (fun a => J_translate t m h a I) as T.
  assert (Val : forall enc (ev : option (st D * Z)),
    (enc <> WG_ILLEGAL -> h (addr enc) = addr enc /\
      forall s1 newenc, ev = Some (s1, newenc) -> newenc <> WG_ILLEGAL -> same_kind enc newenc) ->
    match
      match ev with
      | None => None
      | Some (s, newenc) =>
          if enc =? WG_ILLEGAL then Some (s, t, true)
          else if newenc =? WG_ILLEGAL then Some (s, t, false)
          else if newenc =? enc then Some (s, t, true)
          else match add_tran_enc t enc newenc with None => None | Some (t, c) => Some (s, t, c =? 0) end
      end with
    | None => match ev with
      | None => None
      | Some (s, newenc) =>
          if enc =? WG_ILLEGAL then Some (s, h, true)
          else if newenc =? WG_ILLEGAL then Some (s, h, false)
          else Some (s, upd h (addr enc) (addr newenc), true)
      end = None
    | Some (s1, t1, true) => exists h1 m1, match ev with
      | None => None
      | Some (s, newenc) =>
          if enc =? WG_ILLEGAL then Some (s, h, true)
          else if newenc =? WG_ILLEGAL then Some (s, h, false)
          else Some (s, upd h (addr enc) (addr newenc), true)
      end = Some (s1, h1, true) /\ J t1 m1 h1 /\ incl (map fst m1) ([addr enc] ++ map fst m)
    | Some (s1, t1, false) => (exists h1, match ev with
      | None => None
      | Some (s, newenc) =>
          if enc =? WG_ILLEGAL then Some (s, h, true)
          else if newenc =? WG_ILLEGAL then Some (s, h, false)
          else Some (s, upd h (addr enc) (addr newenc), true)
      end = Some (s1, h1, false)) \/ crowded ([addr enc] ++ map fst m)
    end).
  { clear C. intros enc ev C. destruct ev as [[s1 new]|]; [|reflexivity].
    destruct (Z.eqb_spec enc WG_ILLEGAL) as [|N]; [exists h, m; split; [reflexivity|]; split; [assumption|apply incl_appr, incl_refl]|].
    destruct (C N) as [C1 C2]. destruct (Z.eqb_spec new WG_ILLEGAL) as [|N2]; [left; eauto|].
    specialize (C2 s1 new eq_refl N2). destruct (Z.eqb_spec new enc) as [->|N3].
    - exists (upd h (addr enc) (addr enc)), m. split; [reflexivity|]. split; [now apply J_stay|apply incl_appr, incl_refl].
    - rewrite (add_tran_addr _ _ _ C2).
      assert (NA : addr enc <> addr new).
      { pose proof (same_kind_new _ _ C2) as Q. intros E. rewrite E, Z.eqb_refl in Q. apply Z.eqb_eq in Q. congruence. }
      pose proof (J_move t m h _ _ I C1 NA) as A. destruct (add_tran_offset t (addr enc) (addr new)) as [[t1 c]|]; [|contradiction].
      destruct A as [[-> A]|[-> A]].
      + cbn [Z.eqb]. eexists _, _. split; [reflexivity|]. split; [exact A|]. apply incl_refl.
      + cbn [Z.eqb]. right. exact A. }
  destruct e as [len off|off|w enc|w enc|ty str x enc|off col enc|off meta]; cbn [exec ideal creation_ok created] in *.
  - destruct (wg_create_record P s len) as [[s1 rec]|]; [|reflexivity].
    destruct (Z.eqb_spec off 0) as [->|N]; [exists h, m; split; [reflexivity|]; split; [assumption|apply incl_appr, incl_refl]|].
    destruct (Z.eqb_spec rec 0); [left; eauto|]. destruct (Z.eqb_spec rec off) as [->|N2].
    + exists (upd h off off), m. split; [reflexivity|]. split; [now apply J_stay; auto|apply incl_appr, incl_refl].
    + pose proof (J_move t m h off rec I (C N) ltac:(congruence)) as A. destruct (add_tran_offset t off rec) as [[t1 c]|]; [|contradiction].
      destruct A as [[-> A]|[-> A]].
      * cbn [Z.eqb]. eexists _, _. split; [reflexivity|]. split; [exact A|]. apply incl_refl.
      * cbn [Z.eqb]. right. exact A.
  - rewrite T. destruct (wg_delete_record P s (h off)) as [[s1 c]|]; [|reflexivity].
    destruct (-1 <=? c); [|left; eauto]. exists h, m. split; [reflexivity|]. split; [assumption|apply incl_refl].
  - apply Val. exact C.
  - apply Val. exact C.
  - apply Val. exact C.
  - rewrite T, (translate_moved t h enc T). destruct (wg_set_field P s (h off) col (moved h enc)) as [[s1 c]|]; [|reflexivity].
    destruct (c =? 0); [|left; eauto]. exists h, m. split; [reflexivity|]. split; [assumption|apply incl_refl].
  - rewrite T. destruct (p_meta P (s_db s) (h off) meta); [|reflexivity].
    exists h, m. split; [reflexivity|]. split; [assumption|apply incl_refl].
Qed.

Lemma crowded_incl a b : incl a b -> crowded a -> crowded b.
Proof. intros I (l & r & N & L & Q & H). exists l, r. repeat split; auto. eapply incl_tran; eauto. Qed.

Lemma ideals_sim es : forall t m h s ks, J t m h -> creations_ok s h es -> incl (map fst m) ks ->
  match execs P s t es with
  | None => ideals s h es = None
  | Some (s1, t1, true) => exists h1, ideals s h es = Some (s1, h1, true)
  | Some (s1, t1, false) => (exists h1, ideals s h es = Some (s1, h1, false)) \/ crowded (ks ++ flat_map created es)
  end.
Proof.
  induction es as [|e es IH]; intros t m h s ks I C K; cbn [execs ideals creations_ok flat_map] in *; [eauto|].
  destruct C as [C1 C2]. pose proof (ideal_step t m h s e I C1) as St.
  destruct (exec P s t e) as [[[s1 t1] [|]]|].
  - destruct St as (h1 & m1 & E & I1 & K1). rewrite E in *.
    specialize (IH t1 m1 h1 s1 (ks ++ created e) I1 C2). rewrite <- app_assoc in IH. apply IH.
    intros x Q. apply K1 in Q. apply in_app_iff in Q. apply in_app_iff. destruct Q as [Q|Q]; [now right|left; auto].
  - destruct St as [(h1 & E)|St]; [rewrite E; left; eauto|]. right. eapply crowded_incl; [|exact St].
    intros x Q. apply in_app_iff in Q. apply in_app_iff. rewrite in_app_iff. destruct Q as [Q|Q]; [right; now left|left; auto].
  - now rewrite St.
Qed.
Lemma init_J : exists t0, wg_ginthash_init = Some t0 /\ J t0 [] (fun a => a).
Proof.
  destruct init_GI as (t0 & E & G). exists t0. split; [exact E|]. constructor; [exact G|constructor|intros ? ? []|reflexivity].
Qed.
End Ideal.
