(** Proofs about the journal: replay of a logged run on a copy of the database. *)
From Coq Require Import ZArith List Bool Lia.
From Verif Require Import Base EncodingModel VarintModel VarintProofs VarintProps DhashModel GinthashModel JournalModel JournalProofs.
Import ListNotations.
Open Scope Z_scope.

Lemma lor_small_is64 o c : is64 o -> 0 <= c < 8 -> is64 (Z.lor o c).
Proof.
  unfold is64. intros H C.
  assert (E : Z.shiftr (Z.lor o c) 3 = Z.shiftr o 3).
  { rewrite Z.shiftr_lor. replace (Z.shiftr c 3) with 0; [apply Z.lor_0_r|].
    rewrite Z.shiftr_div_pow2 by lia. symmetry. apply Z.div_small. lia. }
  rewrite !Z.shiftr_div_pow2 in E by lia. change (2 ^ 3) with 8 in E. lia.
Qed.

(** A table without entries translates nothing. *)
Definition no_keys (t : gtable) : Prop := forall k, wg_ginthash_getkey t k = None.
Lemma init_no_keys : exists t, wg_ginthash_init = Some t /\ no_keys t.
Proof. eexists. split; [reflexivity|]. intros k. reflexivity. Qed.
Lemma no_keys_offset t o : no_keys t -> translate_offset t o = o.
Proof. intros H. unfold translate_offset. now rewrite H. Qed.
Lemma decode_encode e m b : 0 <= m -> Z.land e (2 ^ m - 1) = b -> Z.lor (Z.land e (Z.lnot (2 ^ m - 1))) b = e.
Proof.
  intros M <-. rewrite <- Z.land_lor_distr_r. rewrite Z.lor_comm, Z.lor_lnot_diag. apply Z.land_m1_r.
Qed.
Lemma land_7_3 e : Z.land e 3 = Z.land (Z.land e 7) 3.
Proof. rewrite <- Z.land_assoc. reflexivity. Qed.
Lemma no_keys_encoded t e : no_keys t -> translate_encoded t e = e.
Proof.
  intros H. unfold translate_encoded. rewrite !no_keys_offset by assumption.
  unfold encode_longstr_offset, encode_shortstr_offset, encode_fulldouble_offset, encode_fullint_offset,
    decode_longstr_offset, decode_shortstr_offset, decode_fulldouble_offset, decode_fullint_offset.
  destruct (isptr e); [|reflexivity]. destruct (Z.eqb_spec (Z.land e 7) 0); [reflexivity|].
  destruct (Z.eqb_spec (Z.land e 7) 4) as [E|]; [exact (decode_encode e 3 4 ltac:(lia) E)|].
  destruct (Z.eqb_spec (Z.land e 7) 6) as [E|]; [exact (decode_encode e 3 6 ltac:(lia) E)|].
  destruct (Z.eqb_spec (Z.land e 7) 2) as [E|]; [exact (decode_encode e 3 2 ltac:(lia) E)|].
  destruct ((Z.land e 7 =? 1) || (Z.land e 7 =? 5)) eqn:E; [|reflexivity].
  apply (decode_encode e 2 1 ltac:(lia)). change (2 ^ 2 - 1) with 3. rewrite land_7_3.
  apply orb_true_iff in E. destruct E as [E|E]; apply Z.eqb_eq in E; rewrite E; reflexivity.
Qed.

Section Run.
Context {D : Type}.
Variable P : prims D.

(** There is no index: adding a record to the indexes does nothing, and assigning a new
    field is assigning a field which was empty. *)
Definition no_index : Prop :=
  (forall d o, p_add_rec P d o = Some (d, 0)) /\
  (forall d o i v d', v <> 0 -> p_set_new P d o i v = Some (d', 0) -> p_set P d o i v = Some (d', 0)).

(** Arguments of the calls covered: gints; strings of non-zero bytes with fewer than 2^31
    bytes and no empty language; integers which need no memory. *)
Definition plain (o : op) : Prop :=
  match o with
  | OpCreate n => is64 n
  | OpRaw n => is64 n /\ no_index
  | OpDelete r => is64 r
  | OpSet r i v => is64 r /\ is64 i /\ is64 v
  | OpNew r i v => is64 r /\ is64 i /\ is64 v /\ v <> 0 /\ no_index
  | OpArray n _ _ | OpObject n _ _ => is64 n /\ no_index
  | OpInt v => fits_smallint v = true
  | OpDouble v => 0 <= v < 2 ^ 64
  | OpStr x l ty => str_type ty = true /\ good_str x /\
      match l with None => True | Some l => good_str l /\ l <> [] end
  | OpBlob _ _ _ | OpFree _ => False
  end.
(** The call did not fail in a way which stops the replay: a record was created or there
    was no memory for it; the deletion did not end in an error below -1; the assignment
    succeeded or its arguments were refused; a string with an extra string was already
    stored (a new one puts the entry of the extra string inside its own entry). *)
Definition fine (d : D) (o : op) (r : Z) : Prop :=
  is64 r /\
  match o with
  | OpCreate n => r <> 0 \/ n < 0 \/ exists d', p_alloc P d n = Some (d', 0)
  | OpDelete _ => -1 <= r
  | OpSet o i _ | OpNew o i _ => r = 0 \/ p_check P d o i = Some false
  | OpStr x (Some l) ty => exists old c, p_find P d x (Some l) ty (zlen x + 1) = Some (old, c) /\ old <> 0
  | _ => True
  end.
Fixpoint run_fine (s : st D) (l : list op) : Prop :=
  match l with
  | [] => True
  | o :: l => match call P s o with
              | None => True
              | Some (s1, r) => fine (s_db s) o r /\ run_fine s1 l
              end
  end.

(** A call on a logged database, seen from its journal. *)
Definition logged (d : D) (f : list Z) (o : op) (d1 : D) (log : option (list Z)) : Prop :=
  exists es, log = Some (f ++ flat_map entry_bytes es) /\ Forall wf_entry es /\
    forall t, no_keys t -> execs P (ST d None) t es = Some (ST d1 None, t, true).

Lemma logged_none d f o : logged d f o d (Some f).
Proof. exists []. cbn. rewrite app_nil_r. split; [reflexivity|]. split; [constructor|reflexivity]. Qed.

Lemma raw_cases d f n s1 r : wg_create_raw_record P (ST d (Some f)) n = Some (s1, r) ->
  (n < 0 /\ s1 = ST d (Some f) /\ r = 0) \/
  (0 <= n /\ exists d1, p_alloc P d n = Some (d1, r) /\ s1 = ST d1 (Some (f ++ entry_bytes (ECre n r))) /\
     wg_create_raw_record P (ST d None) n = Some (ST d1 None, r)).
Proof.
  unfold wg_create_raw_record. cbn [logw with_db s_db s_log]. destruct (Z.ltb_spec n 0).
  - intros E. injection E as <- <-. left. auto.
  - destruct (p_alloc P d n) as [[d1 o]|]; [|discriminate]. destruct (Z.eqb_spec o 0) as [->|N]; intros E; injection E as <- <-;
      right; (split; [assumption|]); exists d1; (split; [reflexivity|]); (split; [|reflexivity]);
      unfold logw, with_db; cbn [entry_bytes s_db s_log]; unfold wg_log_create_record, wg_log_encval; rewrite <- app_assoc; reflexivity.
Qed.

Lemma call_logged d f o s1 r : plain o -> call P (ST d (Some f)) o = Some (s1, r) -> fine d o r ->
  exists d1 f1, s1 = ST d1 (Some f1) /\ logged d f o d1 (Some f1).
Proof.
  intros Pl C [R64 F]. destruct o as [n|n|rec|rec i v|rec i v|n a b|n a b|v|v|x l ty|x l len|v]; cbn [call plain] in *.
  - (* create *)
    unfold wg_create_record in C. destruct (wg_create_raw_record P (ST d (Some f)) n) as [[s2 o]|] eqn:E; [|discriminate].
    apply raw_cases in E. destruct E as [(N & -> & ->)|(N & d1 & A & -> & U)].
    + cbn in C. injection C as <- <-. exists d, f. split; [reflexivity|apply logged_none].
    + destruct (Z.eqb_spec o 0) as [->|O].
      * injection C as <- <-. eexists d1, _. split; [reflexivity|]. exists [ECre n 0].
        cbn [flat_map]. rewrite app_nil_r. split; [reflexivity|]. split; [constructor; [split; assumption|constructor]|].
        intros t _. cbn [execs exec]. unfold wg_create_record. rewrite U. cbn iota. reflexivity.
      * unfold add_rec in C. cbn [s_db with_db s_log] in C. destruct (p_add_rec P d1 o) as [[d2 c]|] eqn:A2; [|discriminate].
        injection C as <- <-. revert R64 F. destruct (Z.ltb_spec c (-1)); intros R64 F.
        { destruct F as [F|[F|(d' & F)]]; [congruence|lia|]. rewrite A in F. congruence. }
        eexists d2, _. split; [reflexivity|]. exists [ECre n o].
        cbn [flat_map]. rewrite app_nil_r. split; [reflexivity|]. split; [constructor; [split; assumption|constructor]|].
        intros t _. cbn [execs exec]. unfold wg_create_record. rewrite U.
        destruct (Z.eqb_spec o 0); [contradiction|]. unfold add_rec. cbn [s_db with_db s_log]. rewrite A2.
        destruct (Z.ltb_spec c (-1)); [lia|]. destruct (Z.eqb_spec o 0); [contradiction|]. rewrite Z.eqb_refl. reflexivity.
  - (* raw *)
    destruct Pl as (Pl & N1 & _). apply raw_cases in C. destruct C as [(N & -> & ->)|(N & d1 & A & -> & U)].
    + exists d, f. split; [reflexivity|apply logged_none].
    + eexists d1, _. split; [reflexivity|]. exists [ECre n r].
      cbn [flat_map]. rewrite app_nil_r. split; [reflexivity|]. split; [constructor; [split; assumption|constructor]|].
      intros t _. cbn [execs exec]. unfold wg_create_record. rewrite U. destruct (Z.eqb_spec r 0) as [->|R0]; [reflexivity|].
      unfold add_rec. cbn [s_db with_db s_log]. rewrite N1. change (0 <? -1) with false. cbn iota.
      destruct (Z.eqb_spec r 0); [contradiction|]. rewrite Z.eqb_refl. reflexivity.
  - (* delete *)
    unfold wg_delete_record in C. cbn [s_db] in C. destruct (p_parents P d rec) as [[|]|] eqn:E; [| |discriminate].
    + injection C as <- <-. exists d, f. split; [reflexivity|apply logged_none].
    + cbn [logw with_db s_db s_log] in C. destruct (p_delete P d rec) as [[d1 c]|] eqn:E2; [|discriminate].
      injection C as <- <-. eexists d1, _. split; [reflexivity|]. exists [EDel rec].
      cbn [flat_map]. rewrite app_nil_r. split; [reflexivity|]. split; [constructor; [assumption|constructor]|].
      intros t T. cbn [execs exec]. rewrite no_keys_offset by assumption. unfold wg_delete_record.
      cbn [logw with_db s_db s_log]. rewrite E, E2. destruct (Z.leb_spec (-1) c); [reflexivity|lia].
  - (* set *)
    destruct Pl as (P1 & P2 & P3). unfold wg_set_field in C. cbn [s_db] in C.
    destruct (p_check P d rec i) as [[|]|] eqn:E; [| |discriminate].
    + cbn [logw with_db s_db s_log] in C. destruct (p_set P d rec i v) as [[d1 c]|] eqn:E2; [|discriminate].
      injection C as <- <-. destruct F as [->|F]; [|discriminate].
      eexists d1, _. split; [reflexivity|]. exists [ESet rec i v].
      cbn [flat_map]. rewrite app_nil_r. split; [reflexivity|]. split; [constructor; [exact (conj P1 (conj P2 P3))|constructor]|].
      intros t T. cbn [execs exec]. rewrite no_keys_offset, no_keys_encoded by assumption. unfold wg_set_field.
      cbn [logw with_db s_db s_log]. rewrite E, E2. reflexivity.
    + injection C as <- <-. exists d, f. split; [reflexivity|apply logged_none].
  - (* set_new *)
    destruct Pl as (P1 & P2 & P3 & P4 & _ & N2). unfold wg_set_new_field in C. cbn [s_db] in C.
    destruct (p_check P d rec i) as [[|]|] eqn:E; [| |discriminate].
    + cbn [logw with_db s_db s_log] in C. destruct (p_set_new P d rec i v) as [[d1 c]|] eqn:E2; [|discriminate].
      injection C as <- <-. destruct F as [->|F]; [|discriminate]. apply N2 in E2; [|assumption].
      eexists d1, _. split; [reflexivity|]. exists [ESet rec i v].
      cbn [flat_map]. rewrite app_nil_r. split; [reflexivity|]. split; [constructor; [exact (conj P1 (conj P2 P3))|constructor]|].
      intros t T. cbn [execs exec]. rewrite no_keys_offset, no_keys_encoded by assumption. unfold wg_set_field.
      cbn [logw with_db s_db s_log]. rewrite E, E2. reflexivity.
    + injection C as <- <-. exists d, f. split; [reflexivity|apply logged_none].
  - revert C. unfold wg_create_array. generalize (eq_refl META_ARRAY). intros K C.
    destruct Pl as (Pl & N1 & _). unfold create_document in C.
    destruct (wg_create_raw_record P (ST d (Some f)) n) as [[s2 o]|] eqn:E; [|discriminate].
    apply raw_cases in E. destruct E as [(N & -> & ->)|(N & d1 & A & -> & U)].
    + cbn in C. injection C as <- <-. exists d, f. split; [reflexivity|apply logged_none].
    + destruct (Z.eqb_spec o 0) as [->|O].
      * injection C as <- <-. eexists d1, _. split; [reflexivity|]. exists [ECre n 0].
        cbn [flat_map]. rewrite app_nil_r. split; [reflexivity|]. split; [constructor; [split; assumption|constructor]|].
        intros t _. cbn [execs exec]. unfold wg_create_record. rewrite U. cbn iota. reflexivity.
      * cbn [logw with_db s_db s_log] in C. set (meta := Z.lor META_ARRAY _) in C.
        assert (M64 : is64 meta) by (unfold meta, is64; destruct a, b; vm_compute; split; congruence).
        destruct (p_meta P d1 o meta) as [d2|] eqn:E2; [|discriminate].
        assert (RO : r = o /\ s1 = ST d2 (Some ((f ++ entry_bytes (ECre n o)) ++ wg_log_set_meta o meta))).
        { destruct b; [now injection C as <- <-|]. unfold add_rec in C. cbn [logw with_db s_db s_log] in C.
          rewrite N1 in C. change (0 <? -1) with false in C. now injection C as <- <-. }
        destruct RO as [-> ->]. eexists d2, _. split; [reflexivity|]. exists [ECre n o; EMeta o meta].
        cbn [flat_map]. rewrite app_nil_r, <- app_assoc. split; [reflexivity|].
        split; [constructor; [exact (conj Pl R64)|constructor; [exact (conj R64 M64)|constructor]]|].
        intros t T. cbn [execs exec]. unfold wg_create_record. rewrite U.
        destruct (Z.eqb_spec o 0); [contradiction|]. unfold add_rec. cbn [s_db with_db s_log]. rewrite N1.
        change (0 <? -1) with false. cbn iota. destruct (Z.eqb_spec o 0); [contradiction|]. rewrite Z.eqb_refl.
        rewrite no_keys_offset by assumption. cbn [s_db with_db s_log]. rewrite E2. reflexivity.
  - revert C. unfold wg_create_object. generalize (eq_refl META_OBJECT). intros K C.
    destruct Pl as (Pl & N1 & _). unfold create_document in C.
    destruct (wg_create_raw_record P (ST d (Some f)) n) as [[s2 o]|] eqn:E; [|discriminate].
    apply raw_cases in E. destruct E as [(N & -> & ->)|(N & d1 & A & -> & U)].
    + cbn in C. injection C as <- <-. exists d, f. split; [reflexivity|apply logged_none].
    + destruct (Z.eqb_spec o 0) as [->|O].
      * injection C as <- <-. eexists d1, _. split; [reflexivity|]. exists [ECre n 0].
        cbn [flat_map]. rewrite app_nil_r. split; [reflexivity|]. split; [constructor; [split; assumption|constructor]|].
        intros t _. cbn [execs exec]. unfold wg_create_record. rewrite U. cbn iota. reflexivity.
      * cbn [logw with_db s_db s_log] in C. set (meta := Z.lor META_OBJECT _) in C.
        assert (M64 : is64 meta) by (unfold meta, is64; destruct a, b; vm_compute; split; congruence).
        destruct (p_meta P d1 o meta) as [d2|] eqn:E2; [|discriminate].
        assert (RO : r = o /\ s1 = ST d2 (Some ((f ++ entry_bytes (ECre n o)) ++ wg_log_set_meta o meta))).
        { destruct b; [now injection C as <- <-|]. unfold add_rec in C. cbn [logw with_db s_db s_log] in C.
          rewrite N1 in C. change (0 <? -1) with false in C. now injection C as <- <-. }
        destruct RO as [-> ->]. eexists d2, _. split; [reflexivity|]. exists [ECre n o; EMeta o meta].
        cbn [flat_map]. rewrite app_nil_r, <- app_assoc. split; [reflexivity|].
        split; [constructor; [exact (conj Pl R64)|constructor; [exact (conj R64 M64)|constructor]]|].
        intros t T. cbn [execs exec]. unfold wg_create_record. rewrite U.
        destruct (Z.eqb_spec o 0); [contradiction|]. unfold add_rec. cbn [s_db with_db s_log]. rewrite N1.
        change (0 <? -1) with false. cbn iota. destruct (Z.eqb_spec o 0); [contradiction|]. rewrite Z.eqb_refl.
        rewrite no_keys_offset by assumption. cbn [s_db with_db s_log]. rewrite E2. reflexivity.
  - (* int *)
    unfold wg_encode_int in C. rewrite Pl in C. injection C as <- <-. exists d, f. split; [reflexivity|apply logged_none].
  - (* double *)
    unfold wg_encode_double, encoded, lift in C. cbn [logw with_db s_db s_log] in C.
    destruct (p_double P d v) as [[d1 o]|] eqn:E; [|discriminate].
    assert (V : u64 v = v) by (unfold u64; apply Z.mod_small; lia).
    assert (G : s1 = ST d1 (Some (f ++ entry_bytes (EDouble v r))) /\ wg_encode_double P (ST d None) v = Some (ST d1 None, r)).
    { unfold wg_encode_double, encoded, lift. cbn [logw with_db s_db s_log]. rewrite E.
      destruct (o =? 0); injection C as <- <-; (split; [|reflexivity]);
        unfold logw, with_db; cbn [entry_bytes s_db s_log]; unfold wg_log_encode_double, wg_log_encval; rewrite V, <- app_assoc; reflexivity. }
    destruct G as [-> U]. eexists d1, _. split; [reflexivity|]. exists [EDouble v r].
    cbn [flat_map]. rewrite app_nil_r. split; [reflexivity|]. split; [constructor; [split; assumption|constructor]|].
    intros t _. cbn [execs exec exec_value]. rewrite U. destruct (r =? WG_ILLEGAL); [reflexivity|]. rewrite Z.eqb_refl. reflexivity.
  - (* string *)
    destruct Pl as (T & X & L). unfold wg_encode_unistr, encode_unistr in C.
    set (ext := match l with None => [] | Some l => l end) in *.
    assert (Ex : match ext with [] => None | _ => Some ext end = l).
    { unfold ext. destruct l as [[|c l]|]; try reflexivity. destruct L as [_ L]. contradiction. }
    assert (GX : good_str ext).
    { unfold ext. destruct l as [l|]; [apply L|]. split; [constructor|reflexivity]. }
    assert (T0 : Z.lor ENTRY_ENC ty = ty) by apply Z.lor_0_l.
    assert (G : exists d1, s1 = ST d1 (Some (f ++ entry_bytes (EStr ty x ext r))) /\
      wg_encode_unistr P (ST d None) x l ty = Some (ST d1 None, r)).
    { unfold wg_encode_unistr, encode_unistr. unfold encoded, find_create_longstr in *. unfold lift in *. cbn [logw with_db s_db s_log] in *.
      assert (B : forall e, (f ++ wg_log_encode_str ty x ext) ++ wg_log_encval e = f ++ entry_bytes (EStr ty x ext e)).
      { intros e. unfold wg_log_encode_str. rewrite T0. cbn [entry_bytes]. rewrite <- app_assoc. f_equal.
        cbn [app]. f_equal. rewrite <- !app_assoc. reflexivity. }
      destruct l as [l|].
      - destruct F as (old & c & F & O). cbn [andb] in *. rewrite F in *. destruct (Z.eqb_spec old 0); [contradiction|]. cbn [negb] in *.
        exists d. destruct (Z.eqb_spec old 0); [contradiction|]. injection C as <- <-. rewrite <- B. auto.
      - destruct ((ty =? WG_STRTYPE) && (zlen x <? SHORTSTR_SIZE)) eqn:Sh; cbn [andb] in *; rewrite Sh in *.
        + destruct (p_short P d x) as [[d1 o]|]; [|discriminate].
          exists d1. cbn [with_db s_log s_db] in *. destruct (o =? 0); injection C as <- <-; rewrite <- B; auto.
        + destruct (p_find P d x None ty (zlen x + 1)) as [[old c]|]; [|discriminate].
          destruct (negb (old =? 0)) eqn:O.
          * exists d. destruct (old =? 0); [discriminate|]. injection C as <- <-. rewrite <- B. auto.
          * destruct (p_long P d x (zlen x + 1)) as [[d1 o]|]; [|discriminate]. cbn [with_db s_log s_db] in *.
            destruct (o =? 0).
            { exists d1. change (0 =? 0) with true in *. cbn iota in *. injection C as <- <-. rewrite <- B. auto. }
            destruct (p_link P d1 o 0 x None ty (zlen x + 1) c) as [d2|]; [|discriminate]. exists d2.
            cbn [with_db s_log s_db] in *.
            destruct (encode_longstr_offset o =? 0); injection C as <- <-; rewrite <- B; auto. }
    destruct G as (d1 & -> & U). eexists d1, _. split; [reflexivity|]. exists [EStr ty x ext r].
    cbn [flat_map]. rewrite app_nil_r. split; [reflexivity|].
    split; [constructor; [exact (conj T (conj X (conj GX R64)))|constructor]|].
    intros t _. cbn [execs exec exec_value]. rewrite Ex, U.
    destruct (r =? WG_ILLEGAL); [reflexivity|]. rewrite Z.eqb_refl. reflexivity.
  - contradiction.
  - contradiction.
Qed.

Lemma execs_app es1 : forall s t es2 s1 t1, execs P s t es1 = Some (s1, t1, true) ->
  execs P s t (es1 ++ es2) = execs P s1 t1 es2.
Proof.
  induction es1 as [|e es1 IH]; intros s t es2 s1 t1 E; cbn [execs app] in *.
  - now injection E as -> ->.
  - destruct (exec P s t e) as [[[s2 t2] [|]]|]; [eauto|discriminate|discriminate].
Qed.

Lemma calls_logged ops : forall d f s1 rs, Forall plain ops -> calls P (ST d (Some f)) ops = Some (s1, rs) ->
  run_fine (ST d (Some f)) ops ->
  exists d1 es, s1 = ST d1 (Some (f ++ flat_map entry_bytes es)) /\ Forall wf_entry es /\
    forall t, no_keys t -> execs P (ST d None) t es = Some (ST d1 None, t, true).
Proof.
  induction ops as [|o ops IH]; intros d f s1 rs Pl C F; cbn [calls run_fine] in *.
  - injection C as <- <-. exists d, []. cbn. rewrite app_nil_r. split; [reflexivity|]. split; [constructor|reflexivity].
  - inversion Pl; subst. destruct (call P (ST d (Some f)) o) as [[s2 r]|] eqn:E; [|discriminate].
    destruct F as [F1 F2]. cbn [s_db] in F1.
    destruct (call_logged d f o s2 r) as (d2 & f2 & -> & es & Lg & W & X); try assumption.
    injection Lg as ->. destruct (calls P (ST d2 _) ops) as [[s3 rs3]|] eqn:E3; [|discriminate]. injection C as <- <-.
    destruct (IH d2 (f ++ flat_map entry_bytes es) s3 rs3) as (d3 & es3 & -> & W3 & X3); try assumption.
    exists d3, (es ++ es3). rewrite flat_map_app, app_assoc. split; [reflexivity|]. split; [now apply Forall_app|].
    intros t T. rewrite (execs_app es _ _ es3 _ _ (X t T)). now apply X3.
Qed.

Lemma check_magic r : check_journal (MAGIC ++ r) = true.
Proof.
  unfold check_journal. change 4 with (zlen MAGIC). rewrite read_bytes_app.
  destruct (list_eq_dec Z.eq_dec MAGIC MAGIC); [reflexivity|contradiction].
Qed.
(** Replaying the magic number and a list of entries cut anywhere. *)
Lemma replay_entries d l es q s t e t0 : wg_ginthash_init = Some t0 -> Forall wf_entry es ->
  (forall fuel, match execs P (ST d None) t0 es with
   | None => False
   | Some (s1, t1, true) => recover_journal P (S fuel) s1 t1 q = Some (s, t, e)
   | Some (s1, t1, false) => s = s1 /\ t = t1 /\ e = -1
   end) ->
  exists l', wg_replay_log P d l (Some (MAGIC ++ flat_map entry_bytes es ++ q)) =
    Some (s_db s, l', if e =? 0 then 0 else -2) /\
    l_dirty l' = (if e =? 0 then false else l_dirty l) /\
    l_active l' = (if e =? 0 then l_active l else false).
Proof.
  intros I W H. unfold wg_replay_log. rewrite check_magic. cbn [negb]. rewrite I.
  change (skipn 4 (MAGIC ++ flat_map entry_bytes es ++ q)) with (flat_map entry_bytes es ++ q).
  assert (F : exists fuel, length (MAGIC ++ flat_map entry_bytes es ++ q) = (length es + S fuel)%nat).
  { pose proof (entries_length es). rewrite !app_length. cbn [MAGIC length].
    exists (3 + length (flat_map entry_bytes es) - length es + length q)%nat. lia. }
  destruct F as [fuel ->]. rewrite recover_entries by assumption. specialize (H fuel).
  destruct (execs P (ST d None) t0 es) as [[[s1 t1] [|]]|]; [|destruct H as (<- & <- & ->)|contradiction].
  - rewrite H. destruct (Z.eqb_spec e 0); cbn [negb].
    + destruct (l_active l) eqn:A.
      * unfold wg_start_logging. cbn [l_active l_dirty negb l_file]. eexists. split; [reflexivity|]. cbn. auto.
      * eexists. split; [reflexivity|]. cbn. auto.
    + eexists. split; [reflexivity|]. cbn. auto.
  - cbn. eexists. split; [reflexivity|]. cbn. auto.
Qed.
End Run.
