(** C38, C39, C40: replaying the journal. *)
From Coq Require Import ZArith List Bool Lia.
From Verif Require Import Base EncodingModel VarintModel VarintProofs VarintProps DhashModel GinthashModel GinthashProofs GinthashProps
  JournalModel JournalProofs JournalProofs2 JournalProofs3 JournalInst.
From Verif Require RecordModel.
Import ListNotations.
Open Scope Z_scope.

(** ** C38 *)

(** Replaying the journal of any sequence of covered calls on a copy of the database in
    which logging started gives the same database, and the log state it had, for every
    database behind the journal. Missing: integers which need memory, blobs, new strings
    with an extra string, values freed by wg_free_encoded, refused wg_set_new_field, raw
    records and documents when there are indexes (see the refutations below). *)
Theorem C38_replay_partial {D} (P : prims D) : forall d0 l ops d F rs,
  Forall (plain P) ops -> calls P (ST d0 (Some MAGIC)) ops = Some (ST d (Some F), rs) ->
  run_fine P (ST d0 (Some MAGIC)) ops ->
  exists l', wg_replay_log P d0 l (Some F) = Some (d, l', 0) /\ l_dirty l' = false /\ l_active l' = l_active l.
Proof.
  intros d0 l ops d F rs Pl C R. destruct (calls_logged P ops d0 MAGIC _ rs Pl C R) as (d1 & es & E & W & X).
  injection E as -> ->. destruct init_no_keys as (t0 & I0 & K0). pose proof (X t0 K0) as X0.
  destruct (replay_entries P d0 l es [] (ST d1 None) t0 0 t0 I0 W) as (l' & E1 & E2 & E3).
  { intros fuel. rewrite X0. reflexivity. }
  rewrite app_nil_r in E1. exists l'. cbn [s_db Z.eqb] in *. auto.
Qed.
Print Assumptions C38_replay_partial.

(** Logging that is stopped and started again before the database has been dumped goes on with the
    same journal: replaying it gives the result of both runs. *)
Theorem C38_restart_partial {D} (P : prims D) : forall d0 l ops1 d1 F1 rs1 l1 rc ops2 F2 d2 F3 rs2,
  Forall (plain P) ops1 -> calls P (ST d0 (Some MAGIC)) ops1 = Some (ST d1 (Some F1), rs1) -> run_fine P (ST d0 (Some MAGIC)) ops1 ->
  wg_start_logging (LG false true (Some F1)) = (l1, rc) -> l_file l1 = Some F2 ->
  Forall (plain P) ops2 -> calls P (ST d1 (Some F2)) ops2 = Some (ST d2 (Some F3), rs2) -> run_fine P (ST d1 (Some F2)) ops2 ->
  rc = 0 /\ l_active l1 = true /\
  exists l', wg_replay_log P d0 l (Some F3) = Some (d2, l', 0) /\ l_dirty l' = false /\ l_active l' = l_active l.
Proof.
  intros d0 l ops1 d1 F1 rs1 l1 rc ops2 F2 d2 F3 rs2 Pl1 C1 R1 St Fl Pl2 C2 R2.
  destruct (calls_logged P ops1 d0 MAGIC _ rs1 Pl1 C1 R1) as (dA & es1 & E1 & W1 & X1).
  assert (HF : F1 = MAGIC ++ flat_map entry_bytes es1) by congruence. assert (HD : dA = d1) by congruence. clear E1. subst dA.
  unfold wg_start_logging in St. cbn beta iota zeta delta [l_active l_dirty l_file negb] in St.
  rewrite HF in St at 1. rewrite check_magic in St. injection St as <- <-.
  cbn [l_file] in Fl. injection Fl as <-. split; [reflexivity|]. split; [reflexivity|].
  destruct (calls_logged P ops2 d1 _ _ rs2 Pl2 C2 R2) as (dB & es2 & E2 & W2 & X2).
  assert (HF3 : F3 = F1 ++ flat_map entry_bytes es2) by congruence. assert (HD2 : dB = d2) by congruence. clear E2. subst dB F3 F1.
  rewrite <- app_assoc, <- flat_map_app.
  destruct init_no_keys as (t0 & I0 & K0). pose proof (X1 t0 K0) as Y1. pose proof (X2 t0 K0) as Y2.
  destruct (replay_entries P d0 l (es1 ++ es2) [] (ST d2 None) t0 0 t0 I0) as (l' & Z1 & Z2 & Z3).
  { apply Forall_app. auto. }
  { intros fuel. rewrite (execs_app P es1 _ _ es2 _ _ Y1), Y2. reflexivity. }
  rewrite app_nil_r in Z1. exists l'. cbn [s_db Z.eqb] in *. auto.
Qed.
Print Assumptions C38_restart_partial.

(** The database left by calls without logging. *)
Definition after (d : cdb) (ops : list op) : cdb :=
  match calls CP (ST d None) ops with Some (s, _) => s_db s | None => d end.
(** A run with logging, and the replay of its journal in another database: the values
    returned by the calls, that of the replay, and a record in both databases. *)
Definition run_and_replay (d0 d1 : cdb) (ops : list op) (o o1 : Z) :=
  match calls CP (ST d0 (Some MAGIC)) ops with
  | Some (ST d (Some F), rs) =>
      match wg_replay_log CP d1 (LG true false None) (Some F) with
      | Some (d', _, rc) => Some (rs, rc, cfields d o, cfields d' o1)
      | None => None
      end
  | _ => None
  end.

(** Deciding the hypothesis of the theorem on a given run. *)
Definition is64b (x : Z) : bool := (- 2 ^ 63 <=? x) && (x <? 2 ^ 63).
Definition fineb (d : cdb) (o : op) (r : Z) : bool :=
  is64b r &&
  match o with
  | OpCreate n => negb (r =? 0)
  | OpDelete _ => -1 <=? r
  | OpSet o i _ | OpNew o i _ => (r =? 0) || match p_check CP d o i with Some false => true | _ => false end
  | OpStr x (Some l) ty => match p_find CP d x (Some l) ty (zlen x + 1) with Some (old, _) => negb (old =? 0) | None => false end
  | _ => true
  end.
Fixpoint run_fineb (s : st cdb) (l : list op) : bool :=
  match l with
  | [] => true
  | o :: l => match call CP s o with
              | None => true
              | Some (s1, r) => fineb (s_db s) o r && run_fineb s1 l
              end
  end.
Lemma fineb_fine d o r : fineb d o r = true -> fine CP d o r.
Proof.
  unfold fineb, fine. intros H. apply andb_true_iff in H. destruct H as [H1 H2]. split.
  - unfold is64b in H1. unfold is64. lia.
  - destruct o; try exact I.
    + left. apply negb_true_iff, Z.eqb_neq in H2. exact H2.
    + lia.
    + apply orb_true_iff in H2. destruct H2 as [H2|H2]; [left; lia|right].
      destruct (p_check CP d rec fieldnr) as [[|]|]; congruence.
    + apply orb_true_iff in H2. destruct H2 as [H2|H2]; [left; lia|right].
      destruct (p_check CP d rec fieldnr) as [[|]|]; congruence.
    + destruct lang as [x|]; [|exact I]. destruct (p_find CP d str (Some x) type (zlen str + 1)) as [[old c]|]; [|discriminate].
      exists old, c. split; [reflexivity|]. apply negb_true_iff, Z.eqb_neq in H2. exact H2.
Qed.
Lemma run_fineb_fine l : forall s, run_fineb s l = true -> run_fine CP s l.
Proof.
  induction l as [|o l IH]; intros s H; [exact I|]. cbn [run_fineb run_fine] in *.
  destruct (call CP s o) as [[s1 r]|]; [|exact I]. apply andb_true_iff in H. split; [apply fineb_fine|apply IH]; apply H.
Qed.

(** A run meeting the hypotheses: records made in all ways, a short, a long and a known
    tagged string, a double, assignments, a refused assignment and deletions. *)
Definition tagged : op := OpStr [104; 105] (Some [101; 110]) WG_STRTYPE.
Definition long : list Z := repeat 65 40%nat.
Definition run38 : list op :=
  [OpCreate 3; OpStr [120] None WG_STRTYPE; OpSet 1024 0 131206; tagged; OpNew 1024 1 131076;
   OpStr long None WG_STRTYPE; OpSet 1024 2 131268; OpRaw 2; OpArray 1 true false; OpObject 2 false true;
   OpDouble 4607182418800017408; OpSet 1072 0 131330; OpSet 1072 1 1024; OpSet 1072 9 0; OpDelete 1024; OpInt 7;
   OpSet 1072 1 (encode_smallint 7); OpDelete 1024].
Example C38_example :
  let d0 := after cdb0 [tagged] in
  Forall (plain CP) run38 /\ run_fine CP (ST d0 (Some MAGIC)) run38 /\
  match calls CP (ST d0 (Some MAGIC)) run38 with
  | Some (ST d (Some F), rs) =>
      rs = [1024; 131206; 0; 131076; 0; 131268; 0; 1072; 1120; 1152; 131330; 0; 0; -2; -1; 59; 0; 0] /\
      cfields d 1072 = Some [(0, Some (CWord 4607182418800017408)); (59, None)] /\ length F = 145%nat
  | _ => False
  end.
Proof.
  cbv zeta. split; [|split].
  - repeat apply Forall_cons; [..|apply Forall_nil]; cbn [plain tagged]; repeat match goal with |- _ /\ _ => split end;
      try exact I; try exact CP_no_index; try reflexivity; try (unfold is64; split; vm_compute; congruence); try congruence.
    all: try (split; [repeat apply Forall_cons; try apply Forall_nil; discriminate|reflexivity]).
    lia.
  - apply run_fineb_fine. vm_compute. reflexivity.
  - vm_compute. repeat split; reflexivity.
Qed.

(** The same calls with logging stopped and started after the eighth. *)
Example C38_restart_example :
  let d0 := after cdb0 [tagged] in
  Forall (plain CP) (firstn 8 run38) /\ Forall (plain CP) (skipn 8 run38) /\
  match calls CP (ST d0 (Some MAGIC)) (firstn 8 run38) with
  | Some (ST d1 (Some F1), _) =>
      run_fine CP (ST d0 (Some MAGIC)) (firstn 8 run38) /\
      wg_start_logging (LG false true (Some F1)) = (LG true true (Some F1), 0) /\
      run_fine CP (ST d1 (Some F1)) (skipn 8 run38) /\
      match calls CP (ST d1 (Some F1)) (skipn 8 run38) with
      | Some (ST d (Some F), rs) => rs = [1120; 1152; 131330; 0; 0; -2; -1; 59; 0; 0] /\ length F = 145%nat
      | _ => False
      end
  | _ => False
  end.
Proof.
  cbv zeta. destruct C38_example as (A & _). rewrite <- (firstn_skipn 8 run38) in A at 1. apply Forall_app in A. destruct A as (A & B).
  split; [exact A|]. split; [exact B|].
  assert (H : match calls CP (ST (after cdb0 [tagged]) (Some MAGIC)) (firstn 8 run38) with
    | Some (ST d1 (Some F1), _) =>
        (run_fineb (ST (after cdb0 [tagged]) (Some MAGIC)) (firstn 8 run38) && run_fineb (ST d1 (Some F1)) (skipn 8 run38) && check_journal F1 &&
        match calls CP (ST d1 (Some F1)) (skipn 8 run38) with
        | Some (ST d (Some F), rs) => (if list_eq_dec Z.eq_dec rs [1120; 1152; 131330; 0; 0; -2; -1; 59; 0; 0] then true else false) && Nat.eqb (length F) 145
        | _ => false
        end)%bool
    | _ => false end = true) by (vm_compute; reflexivity).
  destruct (calls CP (ST (after cdb0 [tagged]) (Some MAGIC)) (firstn 8 run38)) as [[[d1 [F1|]] r1]|]; try discriminate H.
  rewrite !andb_true_iff in H. destruct H as (((H1 & H2) & H3) & H4).
  split; [apply run_fineb_fine; exact H1|]. split; [unfold wg_start_logging; cbn [l_active l_dirty l_file negb]; rewrite H3; reflexivity|].
  split; [apply run_fineb_fine; exact H2|].
  destruct (calls CP (ST d1 (Some F1)) (skipn 8 run38)) as [[[d2 [F2|]] r2]|]; try discriminate H4.
  apply andb_true_iff in H4. destruct H4 as (H4 & H5). destruct (list_eq_dec _ _ _); [|discriminate]. split; [assumption|apply Nat.eqb_eq; exact H5].
Qed.

(** Refuted in general. An integer which needs memory and whose low 32 bits are a small
    integer leaves only its address in the journal (Db/dblog.c l.1083-1089,
    Db/dbdata.c l.1498): here the address of the number is replayed as the deletion of
    record 1024, with return code 0. *)
Theorem C38_stray_int_refuted :
  run_and_replay cdb0 cdb0 [OpCreate 1; OpInt (2 ^ 60 + 5)] 1024 1024 =
    Some ([1024; 131073], 0, Some [(0, None)], None).
Proof. vm_compute. reflexivity. Qed.
(** An integer of more than 32 bits is written as 32 bits: after the replay the field does
    not hold the number. *)
Theorem C38_wide_int_refuted :
  run_and_replay cdb0 cdb0 [OpCreate 1; OpInt (2 ^ 60 + 2 ^ 29); OpSet 1024 0 131073] 1024 1024 =
    Some ([1024; 131073; 0], 0, Some [(0, Some (CWord (2 ^ 60 + 2 ^ 29)))], Some [(0, None)]).
Proof. vm_compute. reflexivity. Qed.
(** A blob is not written (Db/dbdata.c l.2572-2585): after the replay the field refers to a
    place where nothing was allocated. *)
Theorem C38_blob_refuted :
  run_and_replay cdb0 cdb0 [OpCreate 1; OpBlob [1; 0; 2] None 3; OpSet 1024 0 131076] 1024 1024 =
    Some ([1024; 131076; 0], 0, Some [(0, Some (CLong [1; 0; 2] None WG_BLOBTYPE 3 0 1))], Some [(0, None)]).
Proof. vm_compute. reflexivity. Qed.
(** A new string with a language: the entry of the language string is written inside the
    entry of the string (Db/dbdata.c l.2500, l.2639), and the replay fails. *)
Theorem C38_language_refuted :
  run_and_replay cdb0 cdb0 [OpCreate 1; tagged; OpSet 1024 0 131076] 1024 1024 =
    Some ([1024; 131076; 0], -2,
      Some [(0, Some (CLong [104; 105] (Some [101; 110]) WG_STRTYPE 3 131142 1))], Some [(0, None)]).
Proof. vm_compute. reflexivity. Qed.
(** wg_set_new_field writes the entry before it refuses a field which is not empty
    (Db/dbdata.c l.840, l.859): the replay carries out the refused assignment. *)
Theorem C38_new_field_refuted :
  run_and_replay cdb0 cdb0 [OpCreate 1; OpNew 1024 0 (encode_smallint 7); OpNew 1024 0 (encode_smallint 9)] 1024 1024 =
    Some ([1024; 0; -2], 0, Some [(encode_smallint 7, None)], Some [(encode_smallint 9, None)]).
Proof. vm_compute. reflexivity. Qed.

(** ** C39 *)
Section Cut.
Context {D : Type}.
Variable P : prims D.

(** Nothing is logged during the replay. *)
Definition quiet {A} (r : option (st D * A)) : Prop := match r with Some (s, _) => s_log s = None | None => True end.
Lemma quiet_encoded r f : quiet r -> quiet (encoded r f).
Proof. destruct r as [[s o]|]; cbn; [|auto]. intros E. destruct (o =? 0); cbn; rewrite E; reflexivity. Qed.
Lemma quiet_lift (s : st D) r : s_log s = None -> quiet (lift s r).
Proof. destruct r as [[d o]|]; cbn; auto. Qed.
Lemma quiet_logw (s : st D) b : s_log s = None -> s_log (logw s b) = None.
Proof. intros E. cbn. now rewrite E. Qed.
Lemma quiet_longstr extra s x l ty n : (forall s y, s_log s = None -> quiet (extra s y)) -> s_log s = None ->
  quiet (find_create_longstr P extra s x l ty n).
Proof.
  intros H E. unfold find_create_longstr. destruct (p_find P (s_db s) x l ty n) as [[old c]|]; [|exact I].
  destruct (negb (old =? 0)); [exact E|]. destruct (p_long P (s_db s) x n) as [[d1 o]|]; cbn [lift quiet]; [|exact I].
  destruct (o =? 0); [exact E|]. destruct l as [l|].
  - assert (E1 : s_log (with_db s d1) = None) by exact E. specialize (H _ l E1).
    destruct (extra (with_db s d1) l) as [[s2 tmp]|]; [|exact I]. cbn in H. destruct (tmp =? WG_ILLEGAL); [exact H|].
    destruct (p_link P (s_db s2) o tmp x (Some l) ty n c); [exact H|exact I].
  - destruct (p_link P (s_db (with_db s d1)) o 0 x None ty n c); [exact E|exact I].
Qed.
Lemma quiet_unistr extra s x l ty : (forall s y, s_log s = None -> quiet (extra s y)) -> s_log s = None ->
  quiet (encode_unistr P extra s x l ty).
Proof.
  intros H E. unfold encode_unistr. destruct (_ && _); apply quiet_encoded;
    [apply quiet_lift|apply quiet_longstr; [exact H|]]; now apply quiet_logw.
Qed.
Lemma quiet_value s e : s_log s = None -> quiet (exec_value P s e).
Proof.
  intros E. destruct e; cbn [exec_value quiet]; try exact E.
  - unfold wg_encode_int. destruct (fits_smallint _); [exact E|]. apply quiet_encoded, quiet_lift. now apply quiet_logw.
  - apply quiet_encoded, quiet_lift. now apply quiet_logw.
  - apply quiet_unistr; [|exact E]. intros s1 y E1. apply quiet_unistr; [|exact E1]. intros; exact I.
Qed.
Lemma quiet_exec s t e : s_log s = None -> match exec P s t e with Some (s1, _, _) => s_log s1 = None | None => True end.
Proof.
  intros E. assert (V := quiet_value s e E). destruct e as [n o|o|w v|w v|ty x y v|o c v|o m]; cbn [exec].
  - unfold wg_create_record, wg_create_raw_record. assert (B : forall b, s_log (logw s b) = None) by (intros; now apply quiet_logw).
    assert (R : quiet (if n <? 0 then Some (s, 0) else match p_alloc P (s_db (logw s (wg_log_create_record n))) n with
       | None => None | Some (d, offset) => if offset =? 0 then Some (logw (with_db (logw s (wg_log_create_record n)) d) (wg_log_encval 0), 0)
        else Some (logw (with_db (logw s (wg_log_create_record n)) d) (wg_log_encval offset), offset) end)).
    { destruct (n <? 0); [exact E|]. destruct (p_alloc P _ n) as [[d1 r]|]; [|exact I].
      destruct (r =? 0); apply quiet_logw; apply B. }
    cbv zeta. destruct (if n <? 0 then _ else _) as [[s1 r]|]; [|exact I]. cbn in R.
    assert (A : quiet (if r =? 0 then Some (s1, 0) else add_rec P s1 r)).
    { destruct (r =? 0); [exact R|]. unfold add_rec. destruct (p_add_rec P (s_db s1) r) as [[d2 c]|]; [exact R|exact I]. }
    destruct (if r =? 0 then _ else _) as [[s2 r2]|]; [|exact I]. cbn in A. destruct (o =? 0); [exact A|].
    destruct (r2 =? 0); [exact A|]. destruct (r2 =? o); [exact A|]. destruct (add_tran_offset t o r2) as [[t2 c]|]; [exact A|exact I].
  - unfold wg_delete_record. destruct (p_parents P (s_db s) _) as [[|]|]; [exact E| |exact I].
    cbv zeta. destruct (p_delete P _ _) as [[d1 c]|]; [|exact I]. now apply (quiet_logw s).
  - destruct (exec_value P s _) as [[s1 v1]|]; [|exact I]. cbn in V. destruct (v =? WG_ILLEGAL); [exact V|].
    destruct (v1 =? WG_ILLEGAL); [exact V|]. destruct (v1 =? v); [exact V|]. destruct (add_tran_enc t v v1) as [[t2 c]|]; [exact V|exact I].
  - destruct (exec_value P s _) as [[s1 v1]|]; [|exact I]. cbn in V. destruct (v =? WG_ILLEGAL); [exact V|].
    destruct (v1 =? WG_ILLEGAL); [exact V|]. destruct (v1 =? v); [exact V|]. destruct (add_tran_enc t v v1) as [[t2 c]|]; [exact V|exact I].
  - destruct (exec_value P s _) as [[s1 v1]|]; [|exact I]. cbn in V. destruct (v =? WG_ILLEGAL); [exact V|].
    destruct (v1 =? WG_ILLEGAL); [exact V|]. destruct (v1 =? v); [exact V|]. destruct (add_tran_enc t v v1) as [[t2 c2]|]; [exact V|exact I].
  - unfold wg_set_field. destruct (p_check P (s_db s) _ c) as [[|]|]; [|exact E|exact I].
    cbv zeta. destruct (p_set P _ _ c _) as [[d1 r]|]; [|exact I]. now apply (quiet_logw s).
  - destruct (p_meta P (s_db s) _ m); [exact E|exact I].
Qed.
Lemma quiet_execs es : forall s t s1 t1 b, s_log s = None -> execs P s t es = Some (s1, t1, b) -> s_log s1 = None.
Proof.
  induction es as [|e es IH]; intros s t s1 t1 b E X; cbn [execs] in X; [congruence|].
  pose proof (quiet_exec s t e E) as Q. destruct (exec P s t e) as [[[s2 t2] [|]]|]; [eauto| |discriminate]. congruence.
Qed.

Lemma execs_firstn k es s t s1 t1 : execs P s t es = Some (s1, t1, true) ->
  exists s2 t2, execs P s t (firstn k es) = Some (s2, t2, true) /\ execs P s2 t2 (skipn k es) = Some (s1, t1, true).
Proof.
  revert k s t. induction es as [|e es IH]; intros k s t E.
  - destruct k; cbn in *; eauto.
  - destruct k as [|k]; [cbn [firstn skipn execs] in *; eauto|]. cbn [firstn skipn execs] in *.
    destruct (exec P s t e) as [[[s2 t2] [|]]|]; [eauto|discriminate|discriminate].
Qed.
Lemma replay_zero d l es d' l' : Forall wf_entry es ->
  wg_replay_log P d l (Some (MAGIC ++ flat_map entry_bytes es)) = Some (d', l', 0) ->
  exists t0 s t, wg_ginthash_init = Some t0 /\ execs P (ST d None) t0 es = Some (s, t, true) /\ d' = s_db s.
Proof.
  intros W H. destruct init_no_keys as (t0 & I0 & _). exists t0.
  destruct (execs P (ST d None) t0 es) as [[[s t] [|]]|] eqn:E.
  - exists s, t. split; [exact I0|]. split; [reflexivity|].
    destruct (replay_entries P d l es [] s t 0 t0 I0 W) as (l1 & E1 & _); [intros fuel; rewrite E; reflexivity|].
    rewrite app_nil_r in E1. rewrite E1 in H. congruence.
  - destruct (replay_entries P d l es [] s t (-1) t0 I0 W) as (l1 & E1 & _); [intros fuel; rewrite E; auto|].
    rewrite app_nil_r in E1. rewrite E1 in H. discriminate.
  - exfalso. revert H. unfold wg_replay_log. rewrite check_magic, I0. cbn [negb].
    change (skipn 4 (MAGIC ++ flat_map entry_bytes es)) with (flat_map entry_bytes es).
    assert (F : exists fuel, length (MAGIC ++ flat_map entry_bytes es) = (length es + fuel)%nat).
    { pose proof (entries_length es). rewrite app_length. exists (length MAGIC + length (flat_map entry_bytes es) - length es)%nat. lia. }
    destruct F as [fuel ->]. rewrite <- (app_nil_r (flat_map entry_bytes es)). rewrite recover_entries by assumption.
    rewrite E. discriminate.
Qed.
Lemma exec_value_some e s t r : exec P s t e = Some r ->
  match e with EInt _ _ | EDouble _ _ | EStr _ _ _ _ => exists s1 v, exec_value P s e = Some (s1, v) | _ => True end.
Proof.
  destruct e; cbn [exec]; try (intros; exact I); destruct (exec_value P s _) as [[s1 v]|]; try discriminate; eauto.
Qed.
End Cut.

(** A journal of whole entries which can be replayed, cut anywhere: [k] entries are
    complete; the replay of the cut journal gives the same database as the replay of those
    entries and returns 0 if nothing follows them; otherwise it returns -2 with logging
    off, and the database is that of the complete entries or that and the value of the cut
    entry. Missing: in the last case the value of the cut entry is allocated as well (see
    C39_exact_refuted). *)
Theorem C39_cut_partial {D} (P : prims D) : forall es p r d l d' l',
  Forall wf_entry es -> flat_map entry_bytes es = p ++ r ->
  wg_replay_log P d l (Some (MAGIC ++ flat_map entry_bytes es)) = Some (d', l', 0) ->
  exists k q dk lk,
    p = flat_map entry_bytes (firstn k es) ++ q /\
    wg_replay_log P d l (Some (MAGIC ++ flat_map entry_bytes (firstn k es))) = Some (dk, lk, 0) /\
    (q <> [] ->
      exists e r' dq lq, nth_error es k = Some e /\ entry_bytes e = q ++ r' /\ r' <> [] /\
        wg_replay_log P d l (Some (MAGIC ++ p)) = Some (dq, lq, -2) /\ l_active lq = false /\ l_dirty lq = l_dirty l /\
        (dq = dk \/ exists s v, exec_value P (ST dk None) e = Some (s, v) /\ dq = s_db s)).
Proof.
  intros es p r d l d' l' W E R. destruct (replay_zero P d l es d' l' W R) as (t0 & s & t & I0 & X & ->).
  destruct (prefix_split es p r E) as (k & q & -> & Lk & Q).
  destruct (execs_firstn P k es _ _ _ _ X) as (s2 & t2 & X1 & X2).
  assert (Wk : Forall wf_entry (firstn k es)).
  { rewrite <- (firstn_skipn k es) in W. apply Forall_app in W. apply W. }
  destruct (replay_entries P d l (firstn k es) [] s2 t2 0 t0 I0 Wk) as (lk & Ek & _); [intros fuel; rewrite X1; reflexivity|].
  rewrite app_nil_r in Ek. exists k, q, (s_db s2), lk. split; [reflexivity|]. split; [exact Ek|].
  intros Nq. destruct Q as [Q|(e & r' & Ne & Ee & _ & Nr)]; [contradiction|].
  assert (Sk : exists es2, skipn k es = e :: es2).
  { clear - Ne. revert k Ne. induction es as [|a es IH]; intros [|k] N; try discriminate; cbn in *; [|auto].
    injection N as ->. eauto. }
  destruct Sk as [es2 Sk]. rewrite Sk in X2. cbn [execs] in X2.
  destruct (exec P s2 t2 e) as [[[s3 t3] b]|] eqn:Xe; [|discriminate].
  assert (We : wf_entry e).
  { rewrite Forall_forall in W. apply W. eapply nth_error_In; eauto. }
  pose proof (quiet_execs P _ _ _ _ _ _ (eq_refl : s_log (ST d None) = None) X1) as LN.
  assert (S2 : s2 = ST (s_db s2) None) by (destruct s2; cbn in LN |- *; congruence).
  pose proof (recover_cut P s2 t2 e q r' We Ee Nq Nr) as C.
  assert (Cut : exists s4, (forall fuel, recover_journal P (S fuel) s2 t2 q = Some (s4, t2, -1)) /\
    (s4 = s2 \/ exists v, exec_value P s2 e = Some (s4, v))).
  { destruct C as [C|C]; [exists s2; auto|].
    destruct (exec_value P s2 e) as [[s4 v]|] eqn:V; [exists s4; eauto|]. exfalso.
    destruct e; cbn [exec] in Xe; rewrite ?V in Xe; discriminate. }
  destruct Cut as (s4 & Cq & Cs).
  destruct (replay_entries P d l (firstn k es) q s4 t2 (-1) t0 I0 Wk) as (lq & Eq & A1 & A2); [intros fuel; rewrite X1; apply Cq|].
  exists e, r', (s_db s4), lq. change (-1 =? 0) with false in *. cbn iota in *. repeat split; try assumption.
  destruct Cs as [->|(v & V)]; [now left|right]. exists s4, v. rewrite <- S2. auto.
Qed.
Print Assumptions C39_cut_partial.

(** A journal cut inside the magic number is refused and nothing changes. *)
Theorem C39_cut_magic {D} (P : prims D) : forall p r d l, MAGIC = p ++ r -> r <> [] ->
  wg_replay_log P d l (Some p) = Some (d, l, -1).
Proof.
  intros p r d l E N. unfold wg_replay_log, check_journal. change 4 with (zlen MAGIC).
  now rewrite (read_bytes_short MAGIC p r E N).
Qed.
Print Assumptions C39_cut_magic.
Example C39_cut_magic_example : MAGIC = [119; 103] ++ [100; 98].
Proof. reflexivity. Qed.

(** A journal and a cut meeting the hypotheses: two complete entries and 3 bytes of the
    assignment of the string. *)
Definition journal39 : list entry := [ECre 2 1024; EStr WG_STRTYPE [104; 105] [] 131078; ESet 1024 0 131078].
Example C39_example :
  Forall wf_entry journal39 /\
  flat_map entry_bytes journal39 =
    [64; 2; 128; 8; 5; 2; 0; 104; 105; 134; 128; 8; 192; 128; 8] ++ [0; 134; 128; 8] /\
  match wg_replay_log CP cdb0 (LG true false None) (Some (MAGIC ++ flat_map entry_bytes journal39)),
        wg_replay_log CP cdb0 (LG true false None)
          (Some (MAGIC ++ [64; 2; 128; 8; 5; 2; 0; 104; 105; 134; 128; 8; 192; 128; 8])) with
  | Some (d, _, c), Some (d', l', c') =>
      (c, cfields d 1024, c', cfields d' 1024, l_active l') =
      (0, Some [(0, Some (CStr [104; 105])); (0, None)], -2, Some [(0, None); (0, None)], false)
  | _, _ => False
  end.
Proof.
  split; [|split; [reflexivity|vm_compute; reflexivity]].
  repeat apply Forall_cons; [..|apply Forall_nil]; cbn [wf_entry]; unfold is64, good_str; repeat split; try lia;
    repeat apply Forall_cons; try apply Forall_nil; try discriminate; reflexivity.
Qed.

(** "Exactly the complete entries" is refuted: of a journal cut inside the address of a
    string no entry is complete, but the string is allocated. *)
Theorem C39_exact_refuted :
  exists es p r, Forall wf_entry es /\ flat_map entry_bytes es = p ++ r /\ zlen p < zlen (entry_bytes (hd (EDel 0) es)) /\
  match wg_replay_log CP cdb0 (LG true false None) (Some (MAGIC ++ p)) with
  | Some (d, _, c) => c = -2 /\ v_map (c_val cdb0) = [] /\ v_map (c_val d) = [(131072, CStr [104; 105])]
  | None => False
  end.
Proof.
  exists [EStr WG_STRTYPE [104; 105] [] 131078], [5; 2; 0; 104; 105; 134; 128], [8].
  split; [|split; [reflexivity|split; [reflexivity|vm_compute; repeat split; reflexivity]]].
  constructor; [|constructor]. cbn [wf_entry]. unfold is64, good_str. repeat split; try lia;
    repeat apply Forall_cons; try apply Forall_nil; try discriminate; reflexivity.
Qed.
Print Assumptions C39_exact_refuted.

(** ** C40 *)

(** When no object is created at an address from which one was moved before, and every
    value is of the same kind as in the original run, a replay which succeeds has the
    effect of each entry on the object created for the address it names ([ideals]: [h a] is
    the place of the object created last at [a]). Missing: the reuse of addresses (see
    C40_stale_refuted). *)
Theorem C40_translation_partial {D} (P : prims D) : forall es d l d' l',
  Forall wf_entry es -> creations_ok P (ST d None) (fun a => a) es ->
  wg_replay_log P d l (Some (MAGIC ++ flat_map entry_bytes es)) = Some (d', l', 0) ->
  exists s h, ideals P (ST d None) (fun a => a) es = Some (s, h, true) /\ s_db s = d'.
Proof.
  intros es d l d' l' W C R. destruct (replay_zero P d l es d' l' W R) as (t0 & s & t & I0 & X & ->).
  destruct init_J as (t0' & I0' & J0). rewrite I0 in I0'. injection I0' as <-.
  pose proof (ideals_sim P es t0 [] (fun a => a) (ST d None) [] J0 C (incl_refl _)) as Sim. rewrite X in Sim.
  destruct Sim as [h Sim]. eauto.
Qed.
Print Assumptions C40_translation_partial.

(** Conversely the replay succeeds and gives that database when the entries can be carried
    out, unless eight of the addresses agree in the low 22 bits of their hash. *)
Theorem C40_replay_succeeds_partial {D} (P : prims D) : forall es d l s h,
  Forall wf_entry es -> creations_ok P (ST d None) (fun a => a) es ->
  ideals P (ST d None) (fun a => a) es = Some (s, h, true) -> ~ crowded (flat_map created es) ->
  exists l', wg_replay_log P d l (Some (MAGIC ++ flat_map entry_bytes es)) = Some (s_db s, l', 0).
Proof.
  intros es d l s h W C X N. destruct init_J as (t0 & I0 & J0).
  pose proof (ideals_sim P es t0 [] (fun a => a) (ST d None) [] J0 C (incl_refl _)) as Sim.
  destruct (execs P (ST d None) t0 es) as [[[s1 t1] [|]]|] eqn:E.
  - destruct Sim as [h1 Sim]. rewrite X in Sim. injection Sim as -> ->.
    destruct (replay_entries P d l es [] s1 t1 0 t0 I0 W) as (l1 & E1 & _); [intros fuel; rewrite E; reflexivity|].
    rewrite app_nil_r in E1. eauto.
  - destruct Sim as [[h1 Sim]|Sim]; [congruence|contradiction].
  - congruence.
Qed.
Print Assumptions C40_replay_succeeds_partial.

(** In [ideals] a reference to a value is the reference to the value created for it, and
    a reference to another address is as before. *)
Theorem C40_references : forall h enc new, same_kind enc new ->
  moved (upd h (addr enc) (addr new)) enc = new /\
  forall e, addr e <> addr enc -> moved (upd h (addr enc) (addr new)) e = moved h e.
Proof.
  intros h enc new K. split; [apply moved_same; [exact K|apply upd_same]|].
  intros e N. unfold moved. rewrite upd_other by assumption. reflexivity.
Qed.
Print Assumptions C40_references.
Example C40_references_example : same_kind 131078 131142.
Proof. vm_compute. repeat split; auto. right. repeat split; congruence. Qed.

(** A database in which other addresses are free. *)
Definition cdb1 : cdb := after cdb0 [OpCreate 3; OpStr [120] None WG_STRTYPE].
Definition journal40 : list entry :=
  [ECre 2 1024; EStr WG_STRTYPE [104; 105] [] 131078; ESet 1024 0 131078; ECre 1 1072; ESet 1024 1 1072].
(** Deciding the hypothesis on a given journal. *)
Definition same_kindb (e1 e2 : Z) : bool :=
  isptr e1 && (((Z.land e1 3 =? 1) && (Z.land e2 3 =? 1)) ||
               (negb (Z.land e1 3 =? 1) && negb (Z.land e1 7 =? 0) && (Z.land e1 7 =? Z.land e2 7))).
Definition creation_okb (s : st cdb) (h : Z -> Z) (e : entry) : bool :=
  match e with
  | ECre _ off => (off =? 0) || (h off =? off)
  | EInt _ enc | EDouble _ enc | EStr _ _ _ enc =>
      (enc =? WG_ILLEGAL) || ((h (addr enc) =? addr enc) &&
        match exec_value CP s e with Some (_, new) => (new =? WG_ILLEGAL) || same_kindb enc new | None => true end)
  | _ => true
  end.
Fixpoint creations_okb (s : st cdb) (h : Z -> Z) (es : list entry) : bool :=
  match es with
  | [] => true
  | e :: es => creation_okb s h e &&
      match ideal CP s h e with Some (s1, h1, true) => creations_okb s1 h1 es | _ => true end
  end.
Lemma same_kindb_ok e1 e2 : same_kindb e1 e2 = true -> same_kind e1 e2.
Proof.
  unfold same_kindb, same_kind. intros H. apply andb_true_iff in H. destruct H as [-> H]. split; [reflexivity|].
  apply orb_true_iff in H. rewrite !andb_true_iff, !negb_true_iff, !Z.eqb_eq, !Z.eqb_neq in H. tauto.
Qed.
Lemma creation_okb_ok s h e : creation_okb s h e = true -> creation_ok CP s h e.
Proof.
  assert (V : forall enc (r : option (st cdb * Z)),
    (enc =? WG_ILLEGAL) || ((h (addr enc) =? addr enc) &&
        match r with Some (_, new) => (new =? WG_ILLEGAL) || same_kindb enc new | None => true end) = true ->
    enc <> WG_ILLEGAL -> h (addr enc) = addr enc /\
      forall s1 newenc, r = Some (s1, newenc) -> newenc <> WG_ILLEGAL -> same_kind enc newenc).
  { intros enc r H N. apply orb_true_iff in H. destruct H as [H|H]; [apply Z.eqb_eq in H; contradiction|].
    apply andb_true_iff in H. destruct H as [H1 H2]. apply Z.eqb_eq in H1. split; [exact H1|].
    intros s1 new -> Nn. apply orb_true_iff in H2. destruct H2 as [H2|H2]; [apply Z.eqb_eq in H2; contradiction|].
    now apply same_kindb_ok. }
  destruct e; cbn [creation_okb creation_ok]; try (intros; exact I); try apply V.
  intros H N. apply orb_true_iff in H. rewrite !Z.eqb_eq in H. tauto.
Qed.
Lemma creations_okb_ok es : forall s h, creations_okb s h es = true -> creations_ok CP s h es.
Proof.
  induction es as [|e es IH]; intros s h H; [exact I|]. cbn [creations_okb creations_ok] in *.
  apply andb_true_iff in H. split; [apply creation_okb_ok, H|]. destruct (ideal CP s h e) as [[[s1 h1] [|]]|]; try exact I. apply IH, H.
Qed.
Example C40_example :
  Forall wf_entry journal40 /\ creations_ok CP (ST cdb1 None) (fun a => a) journal40 /\ ~ crowded (flat_map created journal40) /\
  match ideals CP (ST cdb1 None) (fun a => a) journal40 with
  | Some (s, h, true) => cfields (s_db s) (h 1024) = Some [(0, Some (CStr [104; 105])); (1120, None)] /\
      (h 1024, h 1072, h 131072) = (1072, 1120, 131136)
  | _ => False
  end /\
  run_and_replay cdb0 cdb1
    [OpCreate 2; OpStr [104; 105] None WG_STRTYPE; OpSet 1024 0 131078; OpCreate 1; OpSet 1024 1 1072] 1024 1072 =
  Some ([1024; 131078; 0; 1072; 0], 0, Some [(0, Some (CStr [104; 105])); (1072, None)],
        Some [(0, Some (CStr [104; 105])); (1120, None)]).
Proof.
  split; [|split; [|split; [|split; [vm_compute; auto|vm_compute; reflexivity]]]].
  - repeat apply Forall_cons; [..|apply Forall_nil]; cbn [wf_entry]; unfold is64, good_str; repeat split; try lia;
      repeat apply Forall_cons; try apply Forall_nil; try discriminate; reflexivity.
  - apply creations_okb_ok. vm_compute. reflexivity.
  - intros (l & r & N & L & Q & _). pose proof (NoDup_incl_length N Q) as B. cbn in B. lia.
Qed.

(** Refuted in general. Freed values: string "b" is put at the address of the freed "a",
    which is not free in the replay; later "h" is made at the same address as in the
    original run, no translation is added, and the old one makes the assignment refer to
    "g". The replay returns 0. *)
Theorem C40_stale_refuted :
  run_and_replay cdb0 cdb0
    [OpCreate 2; OpStr [97] None WG_STRTYPE; OpFree 131078; OpStr [98] None WG_STRTYPE; OpSet 1024 0 131078;
     OpStr [101] None WG_STRTYPE; OpSet 1024 1 131142; OpSet 1024 0 0; OpSet 1024 1 0;
     OpStr [103] None WG_STRTYPE; OpFree 131142; OpStr [104] None WG_STRTYPE; OpSet 1024 0 131142] 1024 1024 =
  Some ([1024; 131078; 0; 131078; 0; 131142; 0; 0; 0; 131142; 0; 131142; 0], 0,
    Some [(0, Some (CStr [104])); (0, None)], Some [(0, Some (CStr [103])); (0, None)]).
Proof. vm_compute. reflexivity. Qed.
(** The same stored string encoded eight times at a moved address: each time the same key
    is added to the table again, its bucket is full, and the replay fails. *)
Theorem C40_repeated_refuted :
  run_and_replay cdb0 cdb1 (OpCreate 1 :: repeat (OpStr [104; 105] None WG_URITYPE) 7) 1024 1072 =
    Some (1024 :: repeat 131076 7, 0, Some [(0, None)], Some [(0, None)]) /\
  run_and_replay cdb0 cdb1 (OpCreate 1 :: repeat (OpStr [104; 105] None WG_URITYPE) 8) 1024 1072 =
    Some (1024 :: repeat 131076 8, -2, Some [(0, None)], Some [(0, None)]).
Proof. split; vm_compute; reflexivity. Qed.
