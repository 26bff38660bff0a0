(** A database for the journal model: the records of RecordModel (Db/dbdata.c l.118-936)
    without any index, and a store of encoded values with the counts of the long strings
    (Db/dbdata.c l.1229-1335, l.1465-1589, l.2484-2674). Freed value cells are used again
    last first, as the lists of free objects are (Db/dballoc.c l.725-748, l.858-861). *)
From Coq Require Import ZArith List Bool Lia.
From Verif Require Import Base EncodingModel VarintModel JournalModel JournalProofs2.
From Verif Require RecordModel.
Import ListNotations.
Open Scope Z_scope.

(** Db/dballoc.h l.150-166, Db/dbdata.h l.281-291: the contents of a cell: a full integer
    or double, a short string, a long string which has only its contents, and a finished
    long string with its extra string, type, length, encoded extra string and count. *)
Inductive cval :=
| CWord (w : Z) | CStr (s : list Z) | CRaw (s : list Z)
| CLong (s : list Z) (lang : option (list Z)) (ty len extra cnt : Z).
(** Cells in use by offset, free offsets, and the next offset never used. *)
Record vstore := VS { v_map : list (Z * cval); v_list : list Z; v_next : Z }.
Definition vget (v : vstore) (o : Z) : option cval :=
  match find (fun e => fst e =? o) (v_map v) with Some e => Some (snd e) | None => None end.
Definition vdel (v : vstore) (o : Z) : list (Z * cval) := filter (fun e => negb (fst e =? o)) (v_map v).
Definition vput (v : vstore) (o : Z) (c : cval) : vstore := VS ((o, c) :: vdel v o) (v_list v) (v_next v).
(** Db/dballoc.c l.725-748: taking a cell. *)
Definition valloc (v : vstore) (c : cval) : vstore * Z :=
  match v_list v with
  | o :: l => (vput (VS (v_map v) l (v_next v)) o c, o)
  | [] => (vput (VS (v_map v) [] (v_next v + 64)) (v_next v) c, v_next v)
  end.
(** Db/dballoc.c l.858-861: giving a cell back. *)
Definition vfree (v : vstore) (o : Z) : vstore := VS (vdel v o) (o :: v_list v) (v_next v).
(** Db/dbdata.c l.730-738, l.1209-1210. *)
Definition v_ref (v : vstore) (data : Z) : vstore :=
  let o := decode_longstr_offset data in
  match vget v o with
  | Some (CLong s lang ty len extra cnt) => vput v o (CLong s lang ty len extra (cnt + 1))
  | _ => v
  end.
(** Db/dbdata.c l.1229-1335: free_field_encoffset; the extra string has no extra string of
    its own, so [n] = 2 is enough. *)
Fixpoint free_field_encoffset (n : nat) (v : vstore) (data : Z) : vstore :=
  match n with
  | O => v
  | S n =>
    let b := Z.land data 7 in
    if b =? 0 then v
    else if b =? 4 then
      let o := decode_longstr_offset data in
      match vget v o with
      | Some (CLong s lang ty len extra cnt) =>
          if 0 <? cnt - 1 then vput v o (CLong s lang ty len extra (cnt - 1))
          else vfree (if extra =? 0 then v else free_field_encoffset n v extra) o
      | _ => v
      end
    else if b =? 6 then vfree v (decode_shortstr_offset data)
    else if b =? 2 then vfree v (decode_fulldouble_offset data)
    else if (b =? 1) || (b =? 5) then vfree v (decode_fullint_offset data)
    else v
  end.
Definition v_free := free_field_encoffset 2.
(** Db/dbhash.c l.168-208: wg_find_strhash_bucket, by comparing. *)
Definition same_string (s : list Z) (lang : option (list Z)) (ty len : Z) (c : cval) : bool :=
  match c with
  | CLong s' lang' ty' len' _ _ =>
      (if list_eq_dec Z.eq_dec s s' then true else false) && (ty =? ty') && (len =? len') &&
      match lang, lang' with
      | None, None => true
      | Some a, Some b => if list_eq_dec Z.eq_dec a b then true else false
      | _, _ => false
      end
  | _ => false
  end.

(** The database: records, no index, values, and the next offset for a record. *)
Record cdb := CD { c_db : @RecordModel.rdb unit vstore; c_next : Z }.
Definition c_val (d : cdb) : vstore := RecordModel.d_val (c_db d).
Definition c_rec (d : cdb) (o : Z) : option RecordModel.rec := RecordModel.d_rec (c_db d) o.
Definition with_val (d : cdb) (v : vstore) : cdb :=
  CD (RecordModel.RDB (RecordModel.d_rec (c_db d)) (RecordModel.d_ix (c_db d)) v) (c_next d).
(** Db/dbindex.c l.2677-2990: nothing to do without an index. *)
Definition no_ix (_ : unit) (_ : Z) : bool := false.
Definition no_op (_ : RecordModel.rmap) (_ : vstore) (i : unit) (_ : Z) : option (unit * Z) := Some (i, 0).
Definition no_op2 (_ : RecordModel.rmap) (_ : vstore) (i : unit) (_ _ : Z) : option (unit * Z) := Some (i, 0).
Definition on (n : Z) (r : option (@RecordModel.rdb unit vstore * Z)) : option (cdb * Z) :=
  match r with None => None | Some (d, c) => Some (CD d n, c) end.
Definition new_val (d : cdb) (c : cval) : option (cdb * Z) :=
  let '(v, o) := valloc (c_val d) c in Some (with_val d v, o).

(** See the list of the parts in JournalModel. No record is at offset 0; a list cell can
    always be had; records are at different offsets (Db/dballoc.c l.873-997). *)
Definition CP : prims cdb := {|
  p_alloc d length :=
    let '(r, o) := RecordModel.wg_create_raw_record (c_db d) length (c_next d) in
    Some (CD r (c_next d + 8 * (length + 3) + 8 * Z.modulo (length + 3) 2), o);
  p_add_rec d _ := Some (d, 0);
  p_parents d o :=
    match c_rec d o with
    | None => None
    | Some r => Some (match RecordModel.r_back r with [] => false | _ => true end)
    end;
  p_delete d o := on (c_next d) (RecordModel.wg_delete_record no_op v_free (c_db d) o true);
  p_check d o i := match c_rec d o with None => None | Some r => Some (RecordModel.field_ok r i) end;
  p_set d o i v := if o =? 0 then None
    else on (c_next d) (RecordModel.wg_set_field no_ix no_ix no_op2 no_op2 v_ref v_free (c_db d) o i v true);
  p_set_new d o i v := if o =? 0 then None
    else on (c_next d) (RecordModel.wg_set_new_field no_ix no_ix no_op2 v_ref (c_db d) o i v true);
  p_meta d o meta :=
    match c_rec d o with
    | None => None
    | Some r => Some (CD (RecordModel.RDB (RecordModel.rput (RecordModel.d_rec (c_db d)) o
                   (Some (RecordModel.Rec meta (RecordModel.r_fields r) (RecordModel.r_back r))))
                   (RecordModel.d_ix (c_db d)) (RecordModel.d_val (c_db d))) (c_next d))
    end;
  p_int d w := new_val d (CWord w);
  p_double d w := new_val d (CWord w);
  p_short d s := new_val d (CStr s);
  p_find d s lang ty len :=
    Some (match find (fun e => same_string s lang ty len (snd e)) (v_map (c_val d)) with
          | Some e => encode_longstr_offset (fst e)
          | None => 0
          end, 0);
  p_long d s len := new_val d (CRaw s);
  p_link d o extra s lang ty len chain :=
    let v := if Z.land extra 7 =? 4 then v_ref (c_val d) extra else c_val d in
    Some (with_val d (vput v o (CLong s lang ty len extra 0)));
  p_free d data :=
    let v := if Z.land data 7 =? 4 then v_ref (c_val d) data else c_val d in
    Some (with_val d (v_free v data), 0) |}.

(** An empty database: records from offset 1024, values from offset 131072. *)
Definition cdb0 : cdb := CD (RecordModel.RDB (fun _ => None) tt (VS [] [] 131072)) 1024.

(** What a client reads: the fields of a record with the contents of the values. *)
Definition cread (d : cdb) (data : Z) : Z * option cval :=
  if isptr data && negb (Z.land data 7 =? 0) then (0, vget (c_val d) (Z.land data (if Z.land data 3 =? 1 then -4 else -8)))
  else (data, None).
Definition cfields (d : cdb) (o : Z) : option (list (Z * option cval)) :=
  match c_rec d o with None => None | Some r => Some (map (cread d) (RecordModel.r_fields r)) end.

(** ** Without index, assigning a new field is assigning an empty field *)
Lemma entry_cols_none upd v fs : forall c, RecordModel.entry_cols no_ix upd tt v fs c = Some (tt, 0).
Proof.
  induction fs as [|f fs IH]; intros c; cbn [RecordModel.entry_cols]; [reflexivity|].
  destruct (_ <? c); [reflexivity|]. unfold no_ix at 1. rewrite andb_false_r. apply IH.
Qed.
Lemma chain_none (f : unit -> Z -> option (unit * Z)) l : (forall i p u e, f i p = Some (u, e) -> e = 0) ->
  forall i, match RecordModel.chain f i l with
            | None => True
            | Some (u, e) => e = 0 /\ forall p, In p l -> exists i u e, f i p = Some (u, e)
            end.
Proof.
  intros H. induction l as [|p l IH]; intros i; cbn [RecordModel.chain]; [split; [reflexivity|intros p []]|].
  destruct (f i p) as [[u e]|] eqn:E; [|exact I]. pose proof (H _ _ _ _ E) as ->. cbn.
  specialize (IH u). destruct (RecordModel.chain f u l) as [[u2 e2]|]; [|exact I]. destruct IH as [-> IH].
  split; [reflexivity|]. intros q [<-|Q]; eauto.
Qed.
Lemma chain_all (f : unit -> Z -> option (unit * Z)) l : (forall i p, In p l -> f i p = Some (tt, 0)) ->
  forall i, exists u, RecordModel.chain f i l = Some (u, 0).
Proof.
  intros H. induction l as [|p l IH]; intros i; cbn [RecordModel.chain]; [eauto|].
  rewrite H by (now left). cbn. apply IH. intros j q Q. apply H. now right.
Qed.
Lemma entries_zero upd m n : forall i r v u e, RecordModel.backlink_entries no_ix upd m n i r v = Some (u, e) -> e = 0.
Proof.
  induction n as [|n IH]; intros [] r v u e; cbn [RecordModel.backlink_entries]; destruct (m r) as [c|]; [|discriminate| |discriminate];
    rewrite entry_cols_none; destruct (RecordModel.is_special_record c); cbn [Z.eqb negb]; try (intros E; now injection E).
  - pose proof (chain_none (fun ix p => RecordModel.backlink_entries no_ix upd m n ix p (wg_encode_record r)) (RecordModel.r_back c)
      (fun i p u e E => IH _ _ _ _ _ E) tt) as Q. intros E. rewrite E in Q. tauto.
  - pose proof (chain_none (fun ix p => RecordModel.backlink_entries no_ix upd m n ix p (wg_encode_record r)) (RecordModel.r_back c)
      (fun i p u e E => IH _ _ _ _ _ E) tt) as Q. intros E. rewrite E in Q. tauto.
Qed.
Lemma entries_less upd1 upd2 m1 m2 n :
  (forall x r2, m2 x = Some r2 -> exists r1, m1 x = Some r1 /\ incl (RecordModel.r_back r1) (RecordModel.r_back r2)) ->
  forall i j r v1 v2 u e, RecordModel.backlink_entries no_ix upd2 m2 n i r v2 = Some (u, e) ->
    RecordModel.backlink_entries no_ix upd1 m1 n j r v1 = Some (tt, 0).
Proof.
  intros H. induction n as [|n IH]; intros [] [] r v1 v2 u e E; cbn [RecordModel.backlink_entries] in *;
    destruct (m2 r) as [c2|] eqn:M; try discriminate; destruct (H _ _ M) as (c1 & -> & B);
    rewrite entry_cols_none in *.
  - now destruct (RecordModel.is_special_record c1).
  - assert (Q : exists u e, RecordModel.chain (fun ix p => RecordModel.backlink_entries no_ix upd2 m2 n ix p (wg_encode_record r)) tt (RecordModel.r_back c2) = Some (u, e)).
    { destruct (RecordModel.is_special_record c2); cbn in E; eauto. }
    destruct Q as (u1 & e1 & Q).
    pose proof (chain_none (fun ix p => RecordModel.backlink_entries no_ix upd2 m2 n ix p (wg_encode_record r)) (RecordModel.r_back c2)
      (fun i p u e E => entries_zero _ _ _ _ _ _ _ _ E) tt) as C. rewrite Q in C. destruct C as [_ C].
    destruct (chain_all (fun ix p => RecordModel.backlink_entries no_ix upd1 m1 n ix p (wg_encode_record r)) (RecordModel.r_back c1)) with (i := tt) as [[] A].
    { intros i p I. destruct (C p (B p I)) as (i1 & u2 & e2 & C2). eapply IH, C2. }
    destruct (RecordModel.is_special_record c1); cbn [Z.eqb negb]; exact A.
Qed.

Lemma CP_no_index : no_index CP.
Proof.
  split; [reflexivity|]. intros d o i v d' V. cbn [p_set_new p_set CP]. destruct (Z.eqb_spec o 0) as [|O]; [discriminate|].
  destruct d as [[m [] vs] n]. cbn [c_db c_next]. unfold RecordModel.wg_set_new_field, RecordModel.wg_set_field.
  cbn [RecordModel.d_rec RecordModel.d_ix RecordModel.d_val]. destruct (m o) as [r|] eqn:M; [|discriminate].
  destruct (negb (RecordModel.field_ok r i)); [discriminate|].
  destruct (Z.eqb_spec (RecordModel.field r i) 0) as [F|F]; cbn [negb]; [|discriminate]. rewrite F.
  destruct (Z.eqb_spec 0 v) as [|_]; [congruence|].
  assert (NI : forall r i, RecordModel.indexed no_ix tt r i = false) by (intros; unfold RecordModel.indexed, no_ix; apply andb_false_r).
  rewrite !NI. change (0 <? -1) with false. cbn iota.
  change (RecordModel.is_record_ref 0) with false. change (isptr 0) with false. cbn iota.
  set (m1 := RecordModel.rput m o (Some (RecordModel.with_field r i v))).
  destruct (RecordModel.add_backlink m1 o v true) as [m2|] eqn:A; [|discriminate].
  destruct (m2 o) as [r2|] eqn:M2; [|discriminate].
  assert (Sub : forall x q2, m2 x = Some q2 -> exists q1, m x = Some q1 /\ incl (RecordModel.r_back q1) (RecordModel.r_back q2)).
  { assert (S1 : forall x q2, m1 x = Some q2 -> exists q1, m x = Some q1 /\ incl (RecordModel.r_back q1) (RecordModel.r_back q2)).
    { intros x q2. unfold m1, RecordModel.rput. destruct (Z.eqb_spec x o) as [->|]; [|intros E; exists q2; split; [assumption|apply incl_refl]].
      intros E. injection E as <-. exists r. split; [assumption|apply incl_refl]. }
    revert A. unfold RecordModel.add_backlink. destruct (RecordModel.is_record_ref v); [|intros E; injection E as <-; exact S1].
    destruct (m1 v) as [c|] eqn:C; [|discriminate]. intros E. injection E as <-. intros x q2. unfold RecordModel.rput at 1.
    destruct (Z.eqb_spec x v) as [->|]; [|apply S1]. intros E. injection E as <-. destruct (S1 v c C) as (q1 & Q1 & Q2).
    exists q1. split; [assumption|]. cbn [RecordModel.with_back RecordModel.r_back]. now apply incl_appl. }
  set (f2 := fun ix p => RecordModel.backlink_entries no_ix (no_op2 m2 _) m2 RecordModel.CHAIN_DEPTH ix p (wg_encode_record o)).
  pose proof (chain_none f2 (RecordModel.r_back r2) (fun i p u e E => entries_zero _ _ _ _ _ _ _ _ E) tt) as C.
  fold f2. destruct (RecordModel.chain f2 tt (RecordModel.r_back r2)) as [[[] e]|] eqn:CE; [|discriminate].
  destruct C as [-> C]. change (0 =? 0) with true. cbn [on]. intros E. injection E as <-.
  destruct (Sub o r2 M2) as (q1 & Q1 & Q2). rewrite M in Q1. injection Q1 as <-.
  match goal with |- context [RecordModel.chain ?f tt (RecordModel.r_back r)] =>
    destruct (chain_all f (RecordModel.r_back r)) with (i := tt) as [[] ->] end.
  { intros j p I. destruct (C p (Q2 p I)) as (i1 & u2 & e2 & C2). eapply entries_less; [exact Sub|exact C2]. }
  change (0 =? 0) with true. cbn [negb]. rewrite M. fold m1. rewrite ?NI. change (0 <? -1) with false. cbn iota. rewrite A. destruct (RecordModel.r_back r) as [|p l].
  - reflexivity.
  - destruct (Z.eqb_spec 0 o) as [|_]; [congruence|]. cbn [andb]. rewrite M2. fold f2. rewrite CE. reflexivity.
Qed.
