(** C18: a referenced record is not deleted. C19: iteration over referring records. *)
From Coq Require Import ZArith List Bool Lia.
From Verif Require Import Base EncodingModel RecordModel RecordProofs.
Import ListNotations.
Open Scope Z_scope.
#[local] Ltac Zify.zify_post_hook ::= idtac.

(** [p] is a live record with a field holding a reference to [o]. *)
Definition refers {I V} (d : @rdb I V) (p o : Z) : Prop :=
  exists q, d_rec d p = Some q /\ In o (r_fields q).

Section Reach.
Context {I V : Type}.
Variable ix_any ix_tab : I -> Z -> bool.
Variable ix_add_rec ix_del_rec : rmap -> V -> I -> Z -> option (I * Z).
Variable ix_add_field ix_del_field : rmap -> V -> I -> Z -> Z -> option (I * Z).
Variable v_ref v_free : V -> Z -> V.

(** The caller passes an encoded value that is no record reference or refers to a
    live record. *)
Definition good_data (d : @rdb I V) (data : Z) : Prop := is_record_ref data = true -> d_rec d data <> None.

(** All histories: creating records at unused offsets, assigning fields, deleting,
    changing meta words, and any change of indexes and values. Steps that return the
    fatal code -3 end the history (see [C18_index_error_refuted]). *)
Inductive rreach : @rdb I V -> Prop :=
| rr_init ix v : rreach (RDB (fun _ => None) ix v)
| rr_raw d len o d' x : rreach d -> is_record_ref o = true -> d_rec d o = None ->
    wg_create_raw_record d len o = (d', x) -> rreach d'
| rr_create d len o d' x : rreach d -> is_record_ref o = true -> d_rec d o = None ->
    wg_create_record ix_add_rec d len o = Some (d', x) -> rreach d'
| rr_set d o i data cell d' c : rreach d -> good_data d data ->
    wg_set_field ix_any ix_tab ix_add_field ix_del_field v_ref v_free d o i data cell = Some (d', c) -> c <> -3 ->
    rreach d'
| rr_new d o i data cell d' c : rreach d -> good_data d data ->
    wg_set_new_field ix_any ix_tab ix_add_field v_ref d o i data cell = Some (d', c) -> c <> -3 -> rreach d'
| rr_delete d o freed d' c : rreach d ->
    wg_delete_record ix_del_rec v_free d o freed = Some (d', c) -> c <> -3 -> rreach d'
| rr_meta d o r meta : rreach d -> d_rec d o = Some r ->
    rreach (RDB (rput (d_rec d) o (Some (Rec meta (r_fields r) (r_back r)))) (d_ix d) (d_val d))
| rr_other d ix v : rreach d -> rreach (RDB (d_rec d) ix v).

Lemma set_field_RI d o i data cell d' c : RI (d_rec d) -> good_data d data ->
  wg_set_field ix_any ix_tab ix_add_field ix_del_field v_ref v_free d o i data cell = Some (d', c) -> c <> -3 ->
  RI (d_rec d') /\ (c = 0 -> exists r, d_rec d o = Some r /\ forall p, data_of (d_rec d') p =
     if p =? o then Some (r_meta r, set_nth (r_fields r) (Z.to_nat i) data) else data_of (d_rec d) p).
Proof.
  intros R G E N. unfold wg_set_field in E.
  destruct (d_rec d o) as [r|] eqn:Eo; [|discriminate].
  destruct (field_ok r i) eqn:F; cbn [negb] in E.
  2:{ injection E as <- <-. split; [assumption|discriminate]. }
  destruct (Z.eqb_spec (field r i) data) as [Ed | Nd].
  { injection E as <- <-. split; [assumption|]. intros _. exists r. split; [reflexivity|].
    intros p. destruct (Z.eqb_spec p o) as [-> | _]; [|reflexivity]. unfold data_of. rewrite Eo.
    f_equal. f_equal. rewrite <- Ed. unfold field. clear.
    generalize (Z.to_nat i). induction (r_fields r) as [|a l IH]; intros [|n]; cbn [set_nth nth]; auto.
    now rewrite <- IH. }
  destruct (if indexed ix_any (d_ix d) r i then _ else _) as [[ix1 c1]|]; [|discriminate].
  destruct (c1 <? -1). { injection E as <- <-. contradiction. }
  destruct (chain _ ix1 (r_back r)) as [[ix2 e2]|]; [|discriminate].
  destruct (negb (e2 =? 0)). { injection E as <- <-. split; [exact R|discriminate]. }
  match type of E with match ?x with _ => _ end = _ => destruct x as [[m1|]|] eqn:E1 end; [| |discriminate].
  2:{ injection E as <- <-. split; [exact R|discriminate]. }
  set (v := if isptr (field r i) then _ else _) in E.
  destruct (m1 o) as [r1|] eqn:Er; [|discriminate].
  destruct (if indexed ix_any ix2 r i then _ else _) as [[ix3 c3]|]; [|discriminate].
  destruct (c3 <? -1). { injection E as <- <-. contradiction. }
  destruct (add_backlink _ o data cell) as [m3|] eqn:A; [|discriminate].
  assert (R3 : RI m3 /\ forall p, data_of m3 p =
      if p =? o then Some (r_meta r, set_nth (r_fields r) (Z.to_nat i) data) else data_of (d_rec d) p).
  { destruct (RI_set (d_rec d) o r i data cell m1 m3 R Eo F G E1) as (r1' & Er' & H).
    rewrite Er in Er'. injection Er' as <-. now apply H. }
  destruct (r_back r) as [|p back].
  { injection E as <- <-. cbn [d_rec]. split; [apply R3|]. intros _. exists r. split; [reflexivity|apply R3]. }
  destruct ((field r i =? o) && (p =? o)); [discriminate|].
  destruct (m3 o) as [r2|]; [|discriminate].
  destruct (chain _ ix3 (r_back r2)) as [[ix4 e4]|]; [|discriminate].
  injection E as <- <-. cbn [d_rec]. split; [apply R3|]. intros _. exists r. split; [reflexivity|apply R3].
Qed.

Lemma set_new_field_RI d o i data cell d' c : RI (d_rec d) -> good_data d data ->
  wg_set_new_field ix_any ix_tab ix_add_field v_ref d o i data cell = Some (d', c) -> c <> -3 -> RI (d_rec d').
Proof.
  intros R G E N. unfold wg_set_new_field in E.
  destruct (d_rec d o) as [r|] eqn:Eo; [|discriminate].
  destruct (field_ok r i) eqn:F; cbn [negb] in E; [|injection E as <- <-; assumption].
  destruct (Z.eqb_spec (field r i) 0) as [Z0 | NZ]; cbn [negb] in E; [|injection E as <- <-; assumption].
  destruct (if indexed ix_any (d_ix d) r i then _ else _) as [[ix3 c3]|]; [|discriminate].
  destruct (c3 <? -1). { injection E as <- <-. contradiction. }
  destruct (add_backlink _ o data cell) as [m3|] eqn:A; [|discriminate].
  assert (R3 : RI m3).
  { destruct (RI_set (d_rec d) o r i data cell (d_rec d) m3 R Eo F G) as (r1' & Er' & H).
    - now rewrite Z0.
    - rewrite Eo in Er'. injection Er' as <-. now apply H. }
  destruct (m3 o) as [r2|]; [|discriminate].
  destruct (chain _ ix3 (r_back r2)) as [[ix4 e4]|]; [|discriminate].
  injection E as <- <-. exact R3.
Qed.

Lemma rreach_RI d : rreach d -> RI (d_rec d).
Proof.
  induction 1 as [ix v|d len o d' x R IH Ho Eo E|d len o d' x R IH Ho Eo E|d o i data cell d' c R IH G E N
                 |d o i data cell d' c R IH G E N|d o freed d' c R IH E N|d o r meta R IH E|d ix v R IH].
  - cbn [d_rec]. split; [congruence|]. intros c p _. reflexivity.
  - unfold wg_create_raw_record in E. destruct (len <? 0); [injection E as <- <-; assumption|].
    destruct (o =? 0); injection E as <- <-; [assumption|]. cbn [d_rec]. now apply RI_create.
  - unfold wg_create_record, wg_create_raw_record in E.
    destruct (len <? 0); [cbn in E; injection E as <- <-; assumption|].
    destruct (o =? 0) eqn:Ez; [cbn in E; injection E as <- <-; assumption|]. rewrite Ez in E.
    destruct (ix_add_rec _ _ _ _) as [[ix c]|]; [|discriminate]. injection E as <- <-. cbn [d_rec]. now apply RI_create.
  - now apply (set_field_RI d o i data cell d' c).
  - now apply (set_new_field_RI d o i data cell d' c).
  - unfold wg_delete_record in E. destruct (d_rec d o) as [r|] eqn:Eo; [|discriminate].
    destruct (r_back r) as [|b bs] eqn:Eb; [|injection E as <- <-; assumption].
    destruct (if is_special_record r then _ else _) as [[ix c1]|]; [|discriminate].
    destruct (c1 <? -1). { injection E as <- <-. contradiction. }
    destruct (delete_ok v_free (d_rec d) (d_val d) o r IH Eo Eb) as (m' & v' & E' & D & RI').
    rewrite E' in E. cbn [Z.eqb negb] in E. destruct freed; injection E as <- <-; [exact RI'|contradiction].
  - cbn [d_rec]. destruct IH as (H1 & H2). split.
    + intros x Hx. apply H1. destruct (Z.eq_dec x o) as [-> | Nx]; [congruence|]. now rewrite rput_other in Hx.
    + intros c p Hc. rewrite <- (H2 c p Hc) at 1 || idtac. specialize (H2 c p Hc). unfold backs, refs in *.
      destruct (Z.eq_dec c o) as [-> | Nc], (Z.eq_dec p o) as [-> | Np];
        rewrite ?rput_same, ?(rput_other _ o _ _ Np), ?(rput_other _ o _ _ Nc); cbn [r_back r_fields];
        rewrite ?E in H2; exact H2.
  - exact IH.
Qed.

(** A record some field refers to is not deleted and nothing changes. *)
Theorem C18_refused d o freed : rreach d -> d_rec d o <> None -> (exists p, refers d p o) ->
  wg_delete_record ix_del_rec v_free d o freed = Some (d, -1).
Proof.
  intros R L (p & q & Ep & Hin). destruct (rreach_RI d R) as (H1 & H2).
  specialize (H2 o p (H1 o L)). apply cnt_in in Hin.
  unfold wg_delete_record. unfold backs, refs in H2. rewrite Ep in H2.
  destruct (d_rec d o) as [r|]; [|contradiction]. destruct (r_back r) as [|b bs]; [|reflexivity].
  change (cnt [] p) with 0 in H2. lia.
Qed.

(** A record nothing refers to is deleted, and nothing else is touched, provided the
    indexes and the memory manager report no error. *)
Theorem C18_deleted d o r : rreach d -> d_rec d o = Some r -> ~ (exists p, refers d p o) ->
  (is_special_record r = true \/
   exists ix c, ix_del_rec (d_rec d) (d_val d) (d_ix d) o = Some (ix, c) /\ -1 <= c) ->
  exists d', wg_delete_record ix_del_rec v_free d o true = Some (d', 0) /\ d_rec d' o = None /\
    forall p, p <> o -> data_of (d_rec d') p = data_of (d_rec d) p.
Proof.
  intros R Eo Nr Hix. pose proof (rreach_RI d R) as RI0.
  assert (Eb : r_back r = []).
  { destruct (r_back r) as [|b bs] eqn:Eb; [reflexivity|]. exfalso. apply Nr.
    destruct RI0 as (H1 & H2). specialize (H2 o b (H1 o ltac:(congruence))).
    unfold backs, refs in H2. rewrite Eo, Eb, cnt_cons, hit_same in H2. pose proof (cnt_nonneg bs b).
    destruct (d_rec d b) as [q|] eqn:Eq; [|lia]. exists b, q. split; [assumption|]. apply cnt_in. lia. }
  destruct (delete_ok v_free (d_rec d) (d_val d) o r RI0 Eo Eb) as (m' & v' & E' & D & RI').
  unfold wg_delete_record. rewrite Eo, Eb, E'. cbn [Z.eqb negb].
  assert (Hx : exists ix c, (if is_special_record r then Some (d_ix d, 0)
                 else ix_del_rec (d_rec d) (d_val d) (d_ix d) o) = Some (ix, c) /\ -1 <= c).
  { destruct (is_special_record r).
    - exists (d_ix d), 0. split; [reflexivity|lia].
    - destruct Hix as [H | H]; [discriminate|exact H]. }
  destruct Hx as (ix & c & -> & Hc). destruct (Z.ltb_spec c (-1)); [lia|].
  eexists. split; [reflexivity|]. cbn [d_rec]. split; [apply rput_same|].
  intros p Np. unfold data_of at 1. rewrite rput_other by assumption. apply D.
Qed.

(** No field of a live record ever refers to a record that does not exist. *)
Theorem C18_no_dangling d p q f : rreach d -> d_rec d p = Some q -> In f (r_fields q) -> is_record_ref f = true ->
  d_rec d f <> None.
Proof.
  intros R Ep Hin Hf. destruct (RI_live _ _ _ _ (rreach_RI d R) Ep Hin Hf) as (c & ->). discriminate.
Qed.

(** Assigning a field changes that field and nothing else. *)
Theorem C18_assign_only d o i data cell d' : rreach d -> good_data d data ->
  wg_set_field ix_any ix_tab ix_add_field ix_del_field v_ref v_free d o i data cell = Some (d', 0) ->
  exists r r', d_rec d o = Some r /\ d_rec d' o = Some r' /\ r_meta r' = r_meta r /\
    (forall j, 0 <= j -> field r' j = if j =? i then data else field r j) /\
    length (r_fields r') = length (r_fields r) /\
    forall p, p <> o -> data_of (d_rec d') p = data_of (d_rec d) p.
Proof.
  intros R G E.
  assert (Fi : exists r, d_rec d o = Some r /\ field_ok r i = true).
  { unfold wg_set_field in E. destruct (d_rec d o) as [r|]; [|discriminate]. exists r. split; [reflexivity|].
    destruct (field_ok r i); [reflexivity|]. cbn [negb] in E. discriminate. }
  destruct (set_field_RI d o i data cell d' 0 (rreach_RI d R) G E ltac:(discriminate)) as (_ & H).
  destruct (H eq_refl) as (r & Er & D). destruct Fi as (r0 & E0 & F). rewrite Er in E0. injection E0 as <-.
  pose proof (D o) as Do. rewrite Z.eqb_refl in Do. unfold data_of in Do.
  destruct (d_rec d' o) as [r'|] eqn:Er'; [|discriminate]. injection Do as Dm Df.
  assert (Hi : 0 <= i /\ (Z.to_nat i < length (r_fields r))%nat).
  { unfold field_ok, reclen in F. destruct (Z.ltb_spec i 0), (Z.leb_spec (Z.of_nat (length (r_fields r))) i); cbn in F; try discriminate. lia. }
  exists r, r'. repeat split; auto.
  - intros j Hj. unfold field. rewrite Df. destruct (Z.eqb_spec j i) as [-> | N].
    + apply nth_set_nth_same. lia.
    + apply nth_set_nth_other. lia.
  - now rewrite Df, set_nth_length.
  - intros p Np. rewrite D. destruct (Z.eqb_spec p o); [contradiction|reflexivity].
Qed.

(** Iteration over the referring records yields each of them once and ends, if no
    record refers to the given one from two fields. Full statement: the same without
    this condition, which [C19_two_fields_refuted] shows to be false. *)
Theorem C19_parents_partial d o r : rreach d -> d_rec d o = Some r ->
  (forall p q, d_rec d p = Some q -> cnt (r_fields q) o <= 1) ->
  exists l, parents (S (length l)) r = Some l /\ NoDup l /\ forall p, In p l <-> refers d p o.
Proof.
  intros R Eo H1. destruct (rreach_RI d R) as (L & B).
  assert (Ho : is_record_ref o = true) by (apply L; congruence).
  assert (Hb : forall p, cnt (r_back r) p = refs (d_rec d) p o).
  { intros p. rewrite <- (B o p Ho). unfold backs. now rewrite Eo. }
  assert (ND : NoDup (r_back r)).
  { apply (NoDup_count_occ Z.eq_dec). intros p. specialize (Hb p). unfold cnt, refs in Hb.
    destruct (d_rec d p) as [q|] eqn:Ep; [|lia]. specialize (H1 p q Ep). lia. }
  assert (Hin : forall p, In p (r_back r) <-> refers d p o).
  { intros p. rewrite cnt_in, Hb. unfold refs, refers. destruct (d_rec d p) as [q|].
    - rewrite <- cnt_in. split; [intros; eauto|]. intros (q' & E & Hq). now injection E as <-.
    - split; [lia|]. intros (q' & E & _). discriminate. }
  assert (N0 : ~ In 0 (r_back r)).
  { intros H. apply Hin in H. destruct H as (q & E & _).
    assert (is_record_ref 0 = true) by (apply L; congruence). discriminate. }
  exists (r_back r). split; [|auto].
  unfold parents, wg_get_first_parent. destruct (r_back r) as [|p b] eqn:Eb; [reflexivity|].
  cbn [hd length]. rewrite <- Eb in ND, N0. now apply parents_walk with (a := []).
Qed.

(** A record that refers to the given one from two fields makes the iteration go
    round for ever. *)
Theorem C19_two_fields_refuted d o r p q : rreach d -> d_rec d o = Some r ->
  d_rec d p = Some q -> 2 <= cnt (r_fields q) o -> forall n, parents n r = None.
Proof.
  intros R Eo Ep H2 n. destruct (rreach_RI d R) as (L & B).
  assert (Ho : is_record_ref o = true) by (apply L; congruence).
  pose proof (B o p Ho) as Hb. unfold backs, refs in Hb. rewrite Eo, Ep in Hb.
  assert (NN : ~ NoDup (r_back r)).
  { intros ND. rewrite (NoDup_count_occ Z.eq_dec) in ND. specialize (ND p). unfold cnt in *. lia. }
  assert (N0 : ~ In 0 (r_back r)).
  { intros H. apply cnt_in in H. pose proof (B o 0 Ho) as H0. unfold backs, refs in H0. rewrite Eo in H0.
    destruct (d_rec d 0) eqn:E; [|lia]. assert (is_record_ref 0 = true) by (apply L; congruence). discriminate. }
  destruct (dup_split _ NN) as (a & y & b & E & Hy & Na).
  unfold parents, wg_get_first_parent. apply (parents_loop r a y b E Hy Na N0).
  rewrite E. destruct a as [|x a]; [contradiction|]. now left.
Qed.
End Reach.
Print Assumptions C18_refused.
Print Assumptions C18_deleted.
Print Assumptions C18_no_dangling.
Print Assumptions C18_assign_only.
Print Assumptions C19_parents_partial.
Print Assumptions C19_two_fields_refuted.

(** ** Concrete cases: no indexes, values not tracked. *)
Definition no_ix (_ : unit) (_ : Z) : bool := false.
Definition ok_rec (_ : rmap) (_ u : unit) (_ : Z) : option (unit * Z) := Some (u, 0).
Definition ok_field (_ : rmap) (_ u : unit) (_ _ : Z) : option (unit * Z) := Some (u, 0).
Definition nop (u : unit) (_ : Z) : unit := u.
Notation ex_reach := (rreach no_ix no_ix ok_rec ok_rec ok_field ok_field nop nop).
Notation ex_set := (wg_set_field no_ix no_ix ok_field ok_field nop nop).
Notation ex_del := (wg_delete_record ok_rec nop).

Inductive exop := Create (len o : Z) | Assign (o i data : Z) | Delete (o : Z).
Definition ex_step (d : @rdb unit unit) (a : exop) : option (@rdb unit unit) :=
  match a with
  | Create len o =>
      if is_record_ref o then
        match d_rec d o with
        | None => match wg_create_record ok_rec d len o with Some (d', _) => Some d' | None => None end
        | Some _ => None
        end
      else None
  | Assign o i data =>
      if is_record_ref data && (match d_rec d data with Some _ => false | None => true end) then None
      else match ex_set d o i data true with
           | Some (d', c) => if c =? -3 then None else Some d'
           | None => None
           end
  | Delete o => match ex_del d o true with
                | Some (d', c) => if c =? -3 then None else Some d'
                | None => None
                end
  end.
Fixpoint ex_run (d : @rdb unit unit) (l : list exop) : option (@rdb unit unit) :=
  match l with
  | [] => Some d
  | a :: l => match ex_step d a with Some d' => ex_run d' l | None => None end
  end.
Lemma ex_run_reach l : forall d d', ex_reach d -> ex_run d l = Some d' -> ex_reach d'.
Proof.
  induction l as [|a l IH]; intros d d' R E; cbn [ex_run] in E; [now injection E as <-|].
  destruct (ex_step d a) as [d1|] eqn:E1; [|discriminate]. apply (IH d1); [|assumption].
  destruct a as [len o|o i data|o]; cbn [ex_step] in E1.
  - destruct (is_record_ref o) eqn:Ro; [|discriminate]. destruct (d_rec d o) eqn:Eo; [discriminate|].
    destruct (wg_create_record ok_rec d len o) as [[d2 x]|] eqn:E2; [|discriminate]. injection E1 as <-.
    eapply rr_create; eauto.
  - destruct (is_record_ref data && _) eqn:G; [discriminate|].
    destruct (ex_set d o i data true) as [[d2 c]|] eqn:E2; [|discriminate].
    destruct (Z.eqb_spec c (-3)); [discriminate|]. injection E1 as <-.
    eapply rr_set; eauto. intros H. rewrite H in G. destruct (d_rec d data); [discriminate|discriminate G].
  - destruct (ex_del d o true) as [[d2 c]|] eqn:E2; [|discriminate].
    destruct (Z.eqb_spec c (-3)); [discriminate|]. injection E1 as <-. eapply rr_delete; eauto.
Qed.
Definition ex0 : @rdb unit unit := RDB (fun _ => None) tt tt.
Definition ex_get (l : list exop) (o : Z) : option rec :=
  match ex_run ex0 l with Some d => d_rec d o | None => None end.

(** Three records; 64 refers to 128 and 192, 128 refers to 192. *)
Definition ex_ops := [Create 2 64; Create 2 128; Create 1 192; Assign 64 0 128; Assign 64 1 192; Assign 128 0 192;
  Assign 128 1 (encode_smallint 5)].
Example C18_hyp : exists d, ex_run ex0 ex_ops = Some d /\ ex_reach d /\
  d_rec d 192 = Some (Rec 0 [0] [64; 128]) /\ refers d 64 192 /\
  (** deleting 192 is refused, deleting 64 works and takes its link out of 192 *)
  ex_del d 192 true = Some (d, -1) /\
  exists d', ex_del d 64 true = Some (d', 0) /\ d_rec d' 64 = None /\ d_rec d' 192 = Some (Rec 0 [0] [128]).
Proof.
  destruct (ex_run ex0 ex_ops) as [d|] eqn:E.
  2:{ exfalso. assert (H : match ex_run ex0 ex_ops with Some _ => true | None => false end = true) by (vm_compute; reflexivity).
      rewrite E in H. discriminate H. }
  exists d. split; [reflexivity|]. split; [apply (ex_run_reach ex_ops ex0); [constructor|assumption]|].
  unfold ex_ops in E. vm_compute in E. injection E as <-.
  split; [reflexivity|]. split; [exists (Rec 0 [128; 192] []); split; [reflexivity|right; left; reflexivity]|].
  split; [reflexivity|]. eexists. split; [vm_compute; reflexivity|]. split; reflexivity.
Qed.

Example C19_hyp : match ex_run ex0 ex_ops with
  | Some d => match d_rec d 192 with Some r => parents 3 r = Some [64; 128] | None => False end
  | None => False
  end.
Proof. vm_compute. reflexivity. Qed.
(** Both fields of 64 refer to 192: the parents of 192 are 64, 64, 64, ... *)
Example C19_two_fields_hyp : exists d r q, ex_reach d /\ d_rec d 192 = Some r /\ d_rec d 64 = Some q /\
  cnt (r_fields q) 192 = 2 /\ parents 100 r = None.
Proof.
  destruct (ex_run ex0 [Create 2 64; Create 1 192; Assign 64 0 192; Assign 64 1 192]) as [d|] eqn:E.
  2:{ vm_compute in E. discriminate. }
  exists d, (Rec 0 [0] [64; 64]), (Rec 0 [192; 192] []).
  split; [eapply ex_run_reach; [constructor|exact E]|]. vm_compute in E. injection E as <-.
  repeat split; vm_compute; reflexivity.
Qed.

(** A record that refers to itself is never deleted. *)
Theorem C18_self_reference_kept : exists d, ex_reach d /\ (forall p, refers d p 64 -> p = 64) /\
  forall freed, ex_del d 64 freed = Some (d, -1).
Proof.
  destruct (ex_run ex0 [Create 1 64; Assign 64 0 64]) as [d|] eqn:E; [|vm_compute in E; discriminate].
  exists d. split; [eapply ex_run_reach; [constructor|exact E]|]. vm_compute in E. injection E as <-.
  split; [|reflexivity]. intros p (q & H & _). cbn [d_rec] in H.
  destruct (Z.eqb_spec p 64); [assumption|]. unfold rput in H. cbn in H.
  repeat match type of H with context [if ?b then _ else _] => destruct b eqn:?; try discriminate end.
  all: try (apply Z.eqb_eq; assumption).
Qed.
Print Assumptions C18_self_reference_kept.

(** An index error (code -3) while a field is assigned leaves the new value in the field
    without the link back, so the record referred to can then be deleted although the
    field still refers to it. The index here reports -2 for every insertion, as
    wg_index_add_field does when a T-tree node cannot be allocated. *)
Theorem C18_index_error_refuted : exists ix_add_field d d1 d2 q,
  ex_reach d /\
  wg_set_field (fun _ _ => true) no_ix ix_add_field ok_field nop nop d 64 0 128 true = Some (d1, -3) /\
  ex_del d1 128 true = Some (d2, 0) /\
  d_rec d2 128 = None /\ d_rec d2 64 = Some q /\ In 128 (r_fields q).
Proof.
  destruct (ex_run ex0 [Create 1 64; Create 1 128]) as [d|] eqn:E; [|vm_compute in E; discriminate].
  assert (R : ex_reach d) by (eapply ex_run_reach; [constructor|exact E]).
  vm_compute in E. injection E as <-.
  exists (fun _ _ u _ _ => Some (u, -2)). eexists. eexists. eexists. eexists. split; [exact R|].
  split; [vm_compute; reflexivity|]. split; [vm_compute; reflexivity|]. split; [reflexivity|]. split; [reflexivity|].
  left. reflexivity.
Qed.
Print Assumptions C18_index_error_refuted.

(** Overwriting the first self-reference of a record that is its own first parent makes
    wg_set_field follow a list cell it has freed. *)
Theorem C18_self_overwrite_refuted : exists d, ex_reach d /\ ex_set d 64 0 (encode_smallint 1) true = None /\
  exists r, d_rec d 64 = Some r /\ field_ok r 0 = true.
Proof.
  destruct (ex_run ex0 [Create 1 64; Assign 64 0 64]) as [d|] eqn:E; [|vm_compute in E; discriminate].
  exists d. split; [eapply ex_run_reach; [constructor|exact E]|]. vm_compute in E. injection E as <-.
  split; [vm_compute; reflexivity|]. eexists. split; reflexivity.
Qed.
Print Assumptions C18_self_overwrite_refuted.
