(** Proofs about the journal: reading back entries, journals cut off, replay. *)
From Coq Require Import ZArith List Bool Lia.
From Verif Require Import Base EncodingModel VarintModel VarintProofs VarintProps DhashModel GinthashModel JournalModel.
Import ListNotations.
Open Scope Z_scope.

(** ** Bytes *)
Lemma le_length n : forall v, length (le n v) = n.
Proof. induction n as [|n IH]; intros v; cbn [le length]; [reflexivity|now rewrite IH]. Qed.
Lemma unle_le n : forall v, 0 <= v < 256 ^ Z.of_nat n -> unle (le n v) = v.
Proof.
  induction n as [|n IH]; intros v H; [cbn [le unle]; change (256 ^ Z.of_nat 0) with 1 in H; lia|].
  cbn [le unle]. rewrite Nat2Z.inj_succ, Z.pow_succ_r in H by lia.
  rewrite IH; [pose proof (Z.div_mod v 256); lia|].
  split; [apply Z.div_pos; lia|]. apply Z.div_lt_upper_bound; lia.
Qed.
Lemma wrap32_u32 v : is32 v -> wrap32 (u32 v) = v.
Proof. unfold is32, wrap32, u32. intros H. lia. Qed.
Lemma zlen_app a b : zlen (a ++ b) = zlen a + zlen b.
Proof. unfold zlen. rewrite app_length. lia. Qed.
Lemma read_bytes_app a f : read_bytes (zlen a) (a ++ f) = Some (a, f).
Proof.
  unfold read_bytes. rewrite zlen_app. destruct (Z.leb_spec (zlen a) (zlen a + zlen f)).
  - unfold zlen. rewrite Nat2Z.id. rewrite firstn_app, skipn_app, Nat.sub_diag, firstn_all, skipn_all.
    cbn [firstn skipn]. now rewrite app_nil_r.
  - unfold zlen in *. lia.
Qed.
Lemma read_bytes_short a p x : a = p ++ x -> x <> [] -> read_bytes (zlen a) p = None.
Proof.
  intros -> H. unfold read_bytes. rewrite zlen_app. destruct (Z.leb_spec (zlen p + zlen x) (zlen p)); [|reflexivity].
  destruct x; [contradiction|]. unfold zlen in *. cbn [length] in *. lia.
Qed.
Lemma cstr_id s : Forall (fun b => b <> 0) s -> cstr s = s.
Proof.
  induction 1 as [|b s H _ IH]; [reflexivity|]. cbn [cstr]. destruct (Z.eqb_spec b 0); [contradiction|]. now rewrite IH.
Qed.
Lemma app_cut {A} (p r a b : list A) : p ++ r = a ++ b -> r <> [] ->
  (exists x, x <> [] /\ a = p ++ x) \/ (exists q, p = a ++ q /\ b = q ++ r).
Proof.
  revert a. induction p as [|y p IH]; intros a E N.
  - cbn [app] in E. destruct a as [|z a].
    + right. exists []. cbn in *. auto.
    + left. exists (z :: a). split; [discriminate|reflexivity].
  - destruct a as [|z a].
    + right. exists (y :: p). cbn in *. auto.
    + cbn [app] in E. injection E as -> E. destruct (IH a E N) as [(x & N1 & ->)|(q & -> & ->)].
      * left. exists x. auto.
      * right. exists q. auto.
Qed.
Lemma cons_eq {A} (x y : A) l m : x :: l = y :: m -> x = y /\ l = m.
Proof. intros H. injection H as -> ->. auto. Qed.

(** ** Entries of the journal *)
(** What the replay reads (Db/dblog.c l.993-1005): creation with the length and the offset
    given to the record, deletion, the three kinds of encoded values with the encoded
    value, assignment, meta word. *)
Inductive entry :=
| ECre (len off : Z) | EDel (off : Z)
| EInt (w enc : Z) | EDouble (w enc : Z) | EStr (type : Z) (str ext : list Z) (enc : Z)
| ESet (off col enc : Z) | EMeta (off meta : Z).
(** The format described at Db/dblog.c l.993-1005 and Db/dblog.h l.42-48. *)
Definition entry_bytes (e : entry) : list Z :=
  match e with
  | ECre len off => 0x40 :: log_gint len ++ log_gint off
  | EDel off => 0x80 :: log_gint off
  | EInt w enc => 3 :: le 4 (u32 w) ++ log_gint enc
  | EDouble w enc => 4 :: le 8 w ++ log_gint enc
  | EStr ty s x enc => ty :: log_gint (zlen s) ++ log_gint (zlen x) ++ s ++ x ++ log_gint enc
  | ESet off col enc => 0xc0 :: log_gint off ++ log_gint col ++ log_gint enc
  | EMeta off meta => 0x20 :: log_gint off ++ log_gint meta
  end.
(** Db/dblog.c l.551-555. *)
Definition str_type (ty : Z) : bool :=
  (ty =? WG_STRTYPE) || (ty =? WG_URITYPE) || (ty =? WG_XMLLITERALTYPE) || (ty =? WG_ANONCONSTTYPE) || (ty =? WG_BLOBTYPE).
(** A C string shorter than 2^31. *)
Definition good_str (s : list Z) : Prop := Forall (fun b => b <> 0) s /\ zlen s < 2 ^ 31.
Definition wf_entry (e : entry) : Prop :=
  match e with
  | ECre len off => is64 len /\ is64 off
  | EDel off => is64 off
  | EInt w enc => is32 w /\ is64 enc
  | EDouble w enc => 0 <= w < 2 ^ 64 /\ is64 enc
  | EStr ty s x enc => str_type ty = true /\ good_str s /\ good_str x /\ is64 enc
  | ESet off col enc => is64 off /\ is64 col /\ is64 enc
  | EMeta off meta => is64 off /\ is64 meta
  end.

Lemma str_type_cases ty : str_type ty = true -> ty = 5 \/ ty = 7 \/ ty = 6 \/ ty = 13 \/ ty = 8.
Proof.
  unfold str_type, WG_STRTYPE, WG_URITYPE, WG_XMLLITERALTYPE, WG_ANONCONSTTYPE, WG_BLOBTYPE.
  rewrite !orb_true_iff, !Z.eqb_eq. tauto.
Qed.
Lemma zlen_is64 s : zlen s < 2 ^ 31 -> is64 (zlen s).
Proof. unfold is64, zlen. lia. Qed.

Section Replay.
Context {D : Type}.
Variable P : prims D.

(** The encoding part of an entry, with the value encoded in the replay. *)
Definition exec_value (s : st D) (e : entry) : option (st D * Z) :=
  match e with
  | EInt w _ => wg_encode_int P s w
  | EDouble w _ => wg_encode_double P s w
  | EStr ty str x _ => wg_encode_unistr P s str (match x with [] => None | _ => Some x end) ty
  | _ => Some (s, 0)
  end.
(** The effect of one complete entry (Db/dblog.c l.614-678): the state, the translation
    table, and whether the replay goes on. *)
Definition exec (s : st D) (t : gtable) (e : entry) : option (st D * gtable * bool) :=
  match e with
  | ECre len off =>
      match wg_create_record P s len with
      | None => None
      | Some (s, rec) =>
          if off =? 0 then Some (s, t, true)
          else if rec =? 0 then Some (s, t, false)
          else if rec =? off then Some (s, t, true)
          else match add_tran_offset t off rec with None => None | Some (t, c) => Some (s, t, c =? 0) end
      end
  | EDel off =>
      match wg_delete_record P s (translate_offset t off) with
      | None => None
      | Some (s, c) => Some (s, t, -1 <=? c)
      end
  | ESet off col enc =>
      match wg_set_field P s (translate_offset t off) col (translate_encoded t enc) with
      | None => None
      | Some (s, c) => Some (s, t, c =? 0)
      end
  | EMeta off meta =>
      match p_meta P (s_db s) (translate_offset t off) meta with
      | None => None
      | Some d => Some (with_db s d, t, true)
      end
  | EInt _ enc | EDouble _ enc | EStr _ _ _ enc =>
      match exec_value s e with
      | None => None
      | Some (s, newenc) =>
          if enc =? WG_ILLEGAL then Some (s, t, true)
          else if newenc =? WG_ILLEGAL then Some (s, t, false)
          else if newenc =? enc then Some (s, t, true)
          else match add_tran_enc t enc newenc with None => None | Some (t, c) => Some (s, t, c =? 0) end
      end
  end.
(** The effect of a list of complete entries; the replay stops at the first failure. *)
Fixpoint execs (s : st D) (t : gtable) (es : list entry) : option (st D * gtable * bool) :=
  match es with
  | [] => Some (s, t, true)
  | e :: es =>
      match exec s t e with
      | None => None
      | Some (s, t, true) => execs s t es
      | Some (s, t, false) => Some (s, t, false)
      end
  end.

(** Values read by recover_encode from complete data. *)
Lemma recover_encode_ok s e f :
  wf_entry e ->
  match e with
  | EInt w enc => recover_encode P s (le 4 (u32 w) ++ f) 3 =
      match exec_value s e with None => None | Some (s, v) => Some (s, f, v) end
  | EDouble w enc => recover_encode P s (le 8 w ++ f) 4 =
      match exec_value s e with None => None | Some (s, v) => Some (s, f, v) end
  | EStr ty str x enc => recover_encode P s (log_gint (zlen str) ++ log_gint (zlen x) ++ str ++ x ++ f) ty =
      match exec_value s e with None => None | Some (s, v) => Some (s, f, v) end
  | _ => True
  end.
Proof.
  destruct e as [| |w enc|w enc|ty str x enc| |]; intros W; try exact Logic.I; cbn [wf_entry] in W.
  - destruct W as [W1 W2]. unfold recover_encode. change (3 =? WG_INTTYPE) with true. cbn iota.
    replace 4 with (zlen (le 4 (u32 w))) at 1 by (unfold zlen; now rewrite le_length).
    rewrite read_bytes_app. cbn iota beta. rewrite unle_le, wrap32_u32 by (try assumption; unfold u32; change (256 ^ Z.of_nat 4) with (2 ^ 32); lia).
    reflexivity.
  - destruct W as [W1 W2]. unfold recover_encode. change (4 =? WG_INTTYPE) with false. change (4 =? WG_DOUBLETYPE) with true. cbn iota.
    replace 8 with (zlen (le 8 w)) at 1 by (unfold zlen; now rewrite le_length).
    rewrite read_bytes_app. cbn iota beta. rewrite unle_le by (change (256 ^ Z.of_nat 8) with (2 ^ 64); lia). reflexivity.
  - destruct W as (Ty & (S1 & S2) & (X1 & X2) & E). unfold recover_encode.
    fold (str_type ty). rewrite Ty.
    assert (T3 : (ty =? WG_INTTYPE) = false /\ (ty =? WG_DOUBLETYPE) = false)
      by (apply str_type_cases in Ty; unfold WG_INTTYPE, WG_DOUBLETYPE; split; apply Z.eqb_neq; lia).
    destruct T3 as [-> ->]. rewrite gint_roundtrip by now apply zlen_is64. rewrite gint_roundtrip by now apply zlen_is64.
    assert (P0 : 0 <= zlen str) by (unfold zlen; lia).
    destruct (Z.eqb_spec (zlen str) (-1)); [lia|]. destruct (Z.ltb_spec (zlen str) 0); [lia|].
    rewrite read_bytes_app. cbn [exec_value]. rewrite (cstr_id str S1). destruct x as [|b x].
    + reflexivity.
    + assert (P1 : 0 < zlen (b :: x)) by (unfold zlen; cbn [length]; lia).
      destruct (Z.eqb_spec (zlen (b :: x)) 0); [lia|]. destruct (Z.eqb_spec (zlen (b :: x)) (-1)); [lia|].
      destruct (Z.ltb_spec (zlen (b :: x)) 0); [lia|].
      change (b :: x ++ f) with ((b :: x) ++ f). rewrite read_bytes_app. rewrite (cstr_id (b :: x) X1). reflexivity.
Qed.

(** One complete entry at the front of the file. *)
Lemma recover_entry fuel s t e f : wf_entry e ->
  recover_journal P (S fuel) s t (entry_bytes e ++ f) =
  match exec s t e with
  | None => None
  | Some (s, t, true) => recover_journal P fuel s t f
  | Some (s, t, false) => Some (s, t, -1)
  end.
Proof.
  intros W. pose proof (recover_encode_ok s e) as R.
  destruct e as [len off|off|w enc|w enc|ty str x enc|off col enc|off meta]; cbn [wf_entry] in W.
  - destruct W. cbn [entry_bytes app recover_journal].
    change (Z.land 64 CMDMASK =? ENTRY_CRE) with true. cbn iota. rewrite <- app_assoc.
    rewrite !gint_roundtrip by assumption. cbn [exec].
    destruct (wg_create_record P s len) as [[s1 rec]|]; [|reflexivity].
    destruct (off =? 0); [reflexivity|]. destruct (rec =? 0); [reflexivity|]. destruct (rec =? off); [reflexivity|].
    destruct (add_tran_offset t off rec) as [[t1 c]|]; [|reflexivity]. destruct (c =? 0); reflexivity.
  - cbn [entry_bytes app recover_journal].
    change (Z.land 128 CMDMASK =? ENTRY_CRE) with false. change (Z.land 128 CMDMASK =? ENTRY_DEL) with true. cbn iota.
    rewrite !gint_roundtrip by assumption. cbn [exec].
    destruct (wg_delete_record P s (translate_offset t off)) as [[s1 c]|]; [|reflexivity].
    rewrite Z.leb_antisym. destruct (c <? -1); reflexivity.
  - cbn [entry_bytes app]. rewrite <- app_assoc. cbn [recover_journal].
    change (Z.land 3 CMDMASK =? ENTRY_CRE) with false. change (Z.land 3 CMDMASK =? ENTRY_DEL) with false.
    change (Z.land 3 CMDMASK =? ENTRY_ENC) with true. change (Z.land 3 TYPEMASK) with 3. cbn iota.
    rewrite R by exact W. cbn [exec]. destruct (exec_value s (EInt w enc)) as [[s1 v]|]; [|reflexivity].
    rewrite gint_roundtrip by apply W. destruct (enc =? WG_ILLEGAL); [reflexivity|]. destruct (v =? WG_ILLEGAL); [reflexivity|].
    destruct (v =? enc); [reflexivity|]. destruct (add_tran_enc t enc v) as [[t1 c]|]; [|reflexivity]. destruct (c =? 0); reflexivity.
  - cbn [entry_bytes app]. rewrite <- app_assoc. cbn [recover_journal].
    change (Z.land 4 CMDMASK =? ENTRY_CRE) with false. change (Z.land 4 CMDMASK =? ENTRY_DEL) with false.
    change (Z.land 4 CMDMASK =? ENTRY_ENC) with true. change (Z.land 4 TYPEMASK) with 4. cbn iota.
    rewrite R by exact W. cbn [exec]. destruct (exec_value s (EDouble w enc)) as [[s1 v]|]; [|reflexivity].
    rewrite gint_roundtrip by apply W. destruct (enc =? WG_ILLEGAL); [reflexivity|]. destruct (v =? WG_ILLEGAL); [reflexivity|].
    destruct (v =? enc); [reflexivity|]. destruct (add_tran_enc t enc v) as [[t1 c]|]; [|reflexivity]. destruct (c =? 0); reflexivity.
  - cbn [entry_bytes app]. rewrite <- !app_assoc. cbn [recover_journal].
    assert (T : (Z.land ty CMDMASK =? ENTRY_CRE) = false /\ (Z.land ty CMDMASK =? ENTRY_DEL) = false /\
                (Z.land ty CMDMASK =? ENTRY_ENC) = true /\ Z.land ty TYPEMASK = ty).
    { destruct W as [W _]. apply str_type_cases in W.
      destruct W as [->|[->|[->|[->| ->]]]]; repeat split; reflexivity. }
    destruct T as (-> & -> & -> & ->). cbn iota.
    rewrite R by exact W. cbn [exec]. destruct (exec_value s (EStr ty str x enc)) as [[s1 v]|]; [|reflexivity].
    rewrite gint_roundtrip by apply W. destruct (enc =? WG_ILLEGAL); [reflexivity|]. destruct (v =? WG_ILLEGAL); [reflexivity|].
    destruct (v =? enc); [reflexivity|]. destruct (add_tran_enc t enc v) as [[t1 c]|]; [|reflexivity]. destruct (c =? 0); reflexivity.
  - destruct W as (W1 & W2 & W3). cbn [entry_bytes app recover_journal].
    change (Z.land 192 CMDMASK =? ENTRY_CRE) with false. change (Z.land 192 CMDMASK =? ENTRY_DEL) with false.
    change (Z.land 192 CMDMASK =? ENTRY_ENC) with false. change (Z.land 192 CMDMASK =? ENTRY_SET) with true. cbn iota.
    rewrite <- !app_assoc. rewrite !gint_roundtrip by assumption. cbn [exec].
    destruct (wg_set_field P s (translate_offset t off) col (translate_encoded t enc)) as [[s1 c]|]; [|reflexivity].
    destruct (c =? 0); reflexivity.
  - destruct W as (W1 & W2). cbn [entry_bytes app recover_journal].
    change (Z.land 32 CMDMASK =? ENTRY_CRE) with false. change (Z.land 32 CMDMASK =? ENTRY_DEL) with false.
    change (Z.land 32 CMDMASK =? ENTRY_ENC) with false. change (Z.land 32 CMDMASK =? ENTRY_SET) with false.
    change (Z.land 32 CMDMASK =? ENTRY_META) with true. cbn iota.
    rewrite <- !app_assoc. rewrite !gint_roundtrip by assumption. cbn [exec].
    destruct (p_meta P (s_db s) (translate_offset t off) meta); reflexivity.
Qed.

(** An entry cut off inside. *)
Lemma recover_cut s t e q r : wf_entry e -> entry_bytes e = q ++ r -> q <> [] -> r <> [] ->
  (forall fuel, recover_journal P (S fuel) s t q = Some (s, t, -1)) \/
  (forall fuel, recover_journal P (S fuel) s t q = match exec_value s e with None => None | Some (s1, _) => Some (s1, t, -1) end).
Proof.
  intros W E Q N.
  assert (R : forall v p x, is64 v -> log_gint v = p ++ x -> x <> [] -> read_gint p = None)
    by (intros; eapply C37_truncated; eauto).
  destruct q as [|c q]; [contradiction|]. clear Q.
  pose proof (recover_encode_ok s e) as RE.
  destruct e as [len off|off|w enc|w enc|ty str x enc|off col enc|off meta]; cbn [wf_entry] in W;
    cbn [entry_bytes app] in E; apply cons_eq in E; destruct E as [<- E]; symmetry in E.
  - destruct W as [W1 W2]. left. intros fuel. cbn [recover_journal].
    change (Z.land 64 CMDMASK =? ENTRY_CRE) with true. cbn iota.
    destruct (app_cut _ _ _ _ E N) as [(x & Nx & Ex)|(p & -> & Ep)]; [now rewrite (R _ _ _ W1 Ex Nx)|].
    rewrite gint_roundtrip by assumption. now rewrite (R _ _ _ W2 Ep N).
  - left. intros fuel. cbn [recover_journal].
    change (Z.land 128 CMDMASK =? ENTRY_CRE) with false. change (Z.land 128 CMDMASK =? ENTRY_DEL) with true. cbn iota.
    symmetry in E. now rewrite (R _ _ _ W E N).
  - cbn [recover_journal].
    change (Z.land 3 CMDMASK =? ENTRY_CRE) with false. change (Z.land 3 CMDMASK =? ENTRY_DEL) with false.
    change (Z.land 3 CMDMASK =? ENTRY_ENC) with true. change (Z.land 3 TYPEMASK) with 3. cbn iota.
    destruct (app_cut _ _ _ _ E N) as [(x & Nx & Ex)|(p & -> & Ep)].
    + left. intros fuel. unfold recover_encode. change (3 =? WG_INTTYPE) with true. cbn iota.
      replace 4 with (zlen (le 4 (u32 w))) at 1 by (unfold zlen; now rewrite le_length).
      now rewrite (read_bytes_short _ _ _ Ex Nx).
    + right. intros fuel. rewrite RE by exact W. destruct (exec_value s (EInt w enc)) as [[s1 v]|]; [|reflexivity].
      destruct W as [W1 W2]. now rewrite (R _ _ _ W2 Ep N).
  - cbn [recover_journal].
    change (Z.land 4 CMDMASK =? ENTRY_CRE) with false. change (Z.land 4 CMDMASK =? ENTRY_DEL) with false.
    change (Z.land 4 CMDMASK =? ENTRY_ENC) with true. change (Z.land 4 TYPEMASK) with 4. cbn iota.
    destruct (app_cut _ _ _ _ E N) as [(x & Nx & Ex)|(p & -> & Ep)].
    + left. intros fuel. unfold recover_encode. change (4 =? WG_INTTYPE) with false. change (4 =? WG_DOUBLETYPE) with true. cbn iota.
      replace 8 with (zlen (le 8 w)) at 1 by (unfold zlen; now rewrite le_length).
      now rewrite (read_bytes_short _ _ _ Ex Nx).
    + right. intros fuel. rewrite RE by exact W. destruct (exec_value s (EDouble w enc)) as [[s1 v]|]; [|reflexivity].
      destruct W as [W1 W2]. now rewrite (R _ _ _ W2 Ep N).
  - cbn [recover_journal].
    assert (T : (Z.land ty CMDMASK =? ENTRY_CRE) = false /\ (Z.land ty CMDMASK =? ENTRY_DEL) = false /\
                (Z.land ty CMDMASK =? ENTRY_ENC) = true /\ Z.land ty TYPEMASK = ty /\
                (ty =? WG_INTTYPE) = false /\ (ty =? WG_DOUBLETYPE) = false).
    { destruct W as [W _]. apply str_type_cases in W.
      destruct W as [->|[->|[->|[->| ->]]]]; repeat split; reflexivity. }
    destruct T as (-> & -> & -> & -> & T1 & T2). cbn iota.
    assert (L1 : is64 (zlen str)) by (apply zlen_is64, W). assert (L2 : is64 (zlen x)) by (apply zlen_is64, W).
    assert (P0 : 0 <= zlen str) by (unfold zlen; lia).
    destruct (app_cut _ _ _ _ E N) as [(y & Ny & Ey)|(p & -> & Ep)].
    { left. intros fuel. unfold recover_encode. rewrite T1, T2. fold (str_type ty). rewrite (proj1 W).
      rewrite (R _ _ _ L1 Ey Ny). reflexivity. }
    symmetry in Ep. destruct (app_cut _ _ _ _ Ep N) as [(y & Ny & Ey)|(p2 & -> & Ep2)].
    { left. intros fuel. unfold recover_encode. rewrite T1, T2. fold (str_type ty). rewrite (proj1 W).
      rewrite gint_roundtrip by assumption. rewrite (R _ _ _ L2 Ey Ny). reflexivity. }
    symmetry in Ep2. destruct (app_cut _ _ _ _ Ep2 N) as [(y & Ny & Ey)|(p3 & -> & Ep3)].
    { left. intros fuel. unfold recover_encode. rewrite T1, T2. fold (str_type ty). rewrite (proj1 W).
      rewrite !gint_roundtrip by assumption.
      destruct (Z.eqb_spec (zlen str) (-1)); [lia|]. destruct (Z.ltb_spec (zlen str) 0); [lia|].
      rewrite (read_bytes_short _ _ _ Ey Ny). reflexivity. }
    symmetry in Ep3. destruct (app_cut _ _ _ _ Ep3 N) as [(y & Ny & Ey)|(p4 & -> & Ep4)].
    { left. intros fuel. unfold recover_encode. rewrite T1, T2. fold (str_type ty). rewrite (proj1 W).
      rewrite !gint_roundtrip by assumption.
      destruct (Z.eqb_spec (zlen str) (-1)); [lia|]. destruct (Z.ltb_spec (zlen str) 0); [lia|].
      rewrite read_bytes_app.
      assert (P1 : 0 < zlen x).
      { rewrite Ey, zlen_app. destruct y; [contradiction|]. unfold zlen. cbn [length]. lia. }
      destruct (Z.eqb_spec (zlen x) 0); [lia|]. destruct (Z.eqb_spec (zlen x) (-1)); [lia|].
      destruct (Z.ltb_spec (zlen x) 0); [lia|].
      rewrite (read_bytes_short _ _ _ Ey Ny). reflexivity. }
    right. intros fuel. rewrite RE by exact W. destruct (exec_value s (EStr ty str x enc)) as [[s1 v]|]; [|reflexivity].
    destruct W as (_ & _ & _ & W2). now rewrite (R _ _ _ W2 Ep4 N).
  - destruct W as (W1 & W2 & W3). left. intros fuel. cbn [recover_journal].
    change (Z.land 192 CMDMASK =? ENTRY_CRE) with false. change (Z.land 192 CMDMASK =? ENTRY_DEL) with false.
    change (Z.land 192 CMDMASK =? ENTRY_ENC) with false. change (Z.land 192 CMDMASK =? ENTRY_SET) with true. cbn iota.
    destruct (app_cut _ _ _ _ E N) as [(x & Nx & Ex)|(p & -> & Ep)]; [now rewrite (R _ _ _ W1 Ex Nx)|].
    rewrite gint_roundtrip by assumption. symmetry in Ep.
    destruct (app_cut _ _ _ _ Ep N) as [(x & Nx & Ex)|(p2 & -> & Ep2)]; [now rewrite (R _ _ _ W2 Ex Nx)|].
    rewrite gint_roundtrip by assumption. now rewrite (R _ _ _ W3 Ep2 N).
  - destruct W as (W1 & W2). left. intros fuel. cbn [recover_journal].
    change (Z.land 32 CMDMASK =? ENTRY_CRE) with false. change (Z.land 32 CMDMASK =? ENTRY_DEL) with false.
    change (Z.land 32 CMDMASK =? ENTRY_ENC) with false. change (Z.land 32 CMDMASK =? ENTRY_SET) with false.
    change (Z.land 32 CMDMASK =? ENTRY_META) with true. cbn iota.
    destruct (app_cut _ _ _ _ E N) as [(x & Nx & Ex)|(p & -> & Ep)]; [now rewrite (R _ _ _ W1 Ex Nx)|].
    rewrite gint_roundtrip by assumption. now rewrite (R _ _ _ W2 Ep N).
Qed.

(** A journal of complete entries followed by [q]. *)
Lemma recover_entries es : forall fuel s t q, Forall wf_entry es ->
  recover_journal P (length es + fuel) s t (flat_map entry_bytes es ++ q) =
  match execs s t es with
  | None => None
  | Some (s, t, true) => recover_journal P fuel s t q
  | Some (s, t, false) => Some (s, t, -1)
  end.
Proof.
  induction es as [|e es IH]; intros fuel s t q W; [reflexivity|].
  inversion W; subst. cbn [length Nat.add flat_map execs]. rewrite <- app_assoc, recover_entry by assumption.
  destruct (exec s t e) as [[[s1 t1] [|]]|]; [apply IH; assumption|reflexivity|reflexivity].
Qed.
Lemma entry_bytes_pos e : (1 <= length (entry_bytes e))%nat.
Proof. destruct e; cbn [entry_bytes length]; lia. Qed.
Lemma entries_length es : (length es <= length (flat_map entry_bytes es))%nat.
Proof.
  induction es as [|e es IH]; [reflexivity|]. cbn [flat_map length]. rewrite app_length.
  pose proof (entry_bytes_pos e). lia.
Qed.
(** Any prefix of the bytes of a list of entries. *)
Lemma prefix_split es : forall p r, flat_map entry_bytes es = p ++ r ->
  exists k q, p = flat_map entry_bytes (firstn k es) ++ q /\ (k <= length es)%nat /\
    (q = [] \/ exists e r', nth_error es k = Some e /\ entry_bytes e = q ++ r' /\ q <> [] /\ r' <> []).
Proof.
  induction es as [|e es IH]; intros p r E.
  - cbn in E. destruct p; [|discriminate]. exists 0%nat, []. cbn. auto.
  - cbn [flat_map] in E. destruct r as [|b r].
    + exists (S (length es)), []. rewrite !app_nil_r in *. subst p. split; [|split; [reflexivity|auto]].
      cbn [firstn]. now rewrite firstn_all.
    + destruct (app_cut p (b :: r) (entry_bytes e) (flat_map entry_bytes es) (eq_sym E)) as [(x & Nx & Ex)|(q & -> & Eq)]; [discriminate| |].
      * destruct p as [|c p].
        -- exists 0%nat, []. cbn. split; [reflexivity|]. split; [lia|auto].
        -- exists 0%nat, (c :: p). split; [reflexivity|]. split; [cbn; lia|]. right. exists e, x.
           repeat split; try assumption; discriminate.
      * destruct (IH q (b :: r) Eq) as (k & q' & -> & L & H). exists (S k), q'.
        cbn [firstn flat_map]. rewrite app_assoc. split; [reflexivity|]. split; [cbn; lia|exact H].
Qed.
End Replay.
