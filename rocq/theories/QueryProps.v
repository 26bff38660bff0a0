(** C25, C47: queries and index templates. *)
From Coq Require Import ZArith List Bool Lia Permutation.
From Verif Require Import Base EncodingModel EncodingProofs CompareModel CompareProofs CompareProps TtreeModel TtreeOrd TtreeAdd TtreeReach TtreeProps ResultModel ResultProps RangeModel RangeProofs QueryModel QueryProofs.
Import ListNotations.
Open Scope Z_scope.
#[local] Ltac Zify.zify_post_hook ::= idtac.

(** A condition, given the result of comparing the field with the value. Unknown
    conditions do not restrict. *)
Definition holds (cond c : Z) : Prop :=
  (cond = WG_COND_EQUAL -> c = WG_EQUAL) /\
  (cond = WG_COND_NOT_EQUAL -> c <> WG_EQUAL) /\
  (cond = WG_COND_LESSTHAN -> c = WG_LESSTHAN) /\
  (cond = WG_COND_GREATER -> c = WG_GREATER) /\
  (cond = WG_COND_LTEQUAL -> c = WG_LESSTHAN \/ c = WG_EQUAL) /\
  (cond = WG_COND_GTEQUAL -> c = WG_GREATER \/ c = WG_EQUAL).
(** A record satisfies an argument: it has the column and its value is right. *)
Definition satisfies (cs : cstate) (r : Z) (a : qarg) : Prop :=
  a_col a < wg_get_record_len cs r /\ holds (a_cond a) (WG_COMPARE cs (wg_get_field cs r (a_col a)) (a_val a)).
(** A record agrees with a match record: every field of the match record that is
    not a variable is in the record with an equal value. *)
Definition agrees (cs : cstate) (r : Z) (m : list Z) : Prop :=
  forall i, (i < length m)%nat -> encoded_type (words cs) (nth i m 0) <> WG_VARTYPE ->
  Z.of_nat i < wg_get_record_len cs r /\ WG_COMPARE cs (wg_get_field cs r (Z.of_nat i)) (nth i m 0) = WG_EQUAL.
(** The template ends in a fixed column (add_index_template, C47). *)
Definition trimmed (cs : cstate) (t : list Z) : Prop := t <> [] /\ encoded_type (words cs) (last t 0) <> WG_VARTYPE.

(** The state of the database: values are comparable, records have fewer than
    2^31 fields, index headers are below [lim], and each T-tree index was made
    and maintained (C21) so that it has the records with its column that agree
    with its template (C26). *)
Record consistent_below (lim : Z) (db : qdb) (ok : Z -> Prop) : Prop := {
  co_ok : comparable (d_cs db) ok;
  co_rec : forall r, In r (d_recs db) -> r <> 0 /\ 0 <= wg_get_record_len (d_cs db) r < 2 ^ 31 /\
    forall i, 0 <= i < wg_get_record_len (d_cs db) r -> ok (wg_get_field (d_cs db) r i);
  co_id : forall col, NoDup (map ix_id (d_index db col)) /\ forall ix, In ix (d_index db col) -> 0 < ix_id ix < lim;
  co_tmpl : forall col ix t, In ix (d_index db col) -> ix_tmpl ix = Some t ->
    trimmed (d_cs db) t /\ forall e, In e t -> encoded_type (words (d_cs db)) e <> WG_VARTYPE -> ok e;
  co_tree : forall col ix, In ix (d_index db col) -> ix_type ix = WG_INDEX_TYPE_TTREE ->
    exists key g f, treach (WG_COMPARE (d_cs db)) ok (ix_tree ix) key (Some g) /\
      (forall r, In r g -> key r = wg_get_field (d_cs db) r col) /\ Permutation g (filter f (d_recs db)) /\
      forall r, In r (d_recs db) -> f r = true <-> col < wg_get_record_len (d_cs db) r /\ match ix_tmpl ix with None => True | Some t => agrees (d_cs db) r t end }.
Definition consistent := consistent_below (2 ^ 31).

(** ** C47 *)
Lemma nth_last_fixed cs t : trimmed cs t -> encoded_type (words cs) (nth (length t - 1) t 0) <> WG_VARTYPE.
Proof.
  intros (N & H). destruct (exists_last N) as (l & x & ->). rewrite last_last in H. rewrite app_length. cbn [length].
  rewrite app_nth2 by lia. replace (length l + 1 - 1 - length l)%nat with 0%nat by lia. exact H.
Qed.
(** wg_match_template tells whether the record has all the fixed columns of the
    template with equal values. *)
Theorem C47_match_template cs ok t r : comparable cs ok -> trimmed cs t ->
  (forall e, In e t -> encoded_type (words cs) e <> WG_VARTYPE -> ok e) ->
  (forall i, 0 <= i < wg_get_record_len cs r -> ok (wg_get_field cs r i)) ->
  wg_match_template cs t r = true <-> agrees cs r t.
Proof.
  intros Hc Tr Ht Hr. pose proof (C21_compare_is_keyorder cs ok Hc) as KO. unfold wg_match_template.
  assert (Sym : forall i, (i < length t)%nat -> encoded_type (words cs) (nth i t 0) <> WG_VARTYPE -> Z.of_nat i < wg_get_record_len cs r ->
    WG_COMPARE cs (nth i t 0) (wg_get_field cs r (Z.of_nat i)) = WG_EQUAL <-> WG_COMPARE cs (wg_get_field cs r (Z.of_nat i)) (nth i t 0) = WG_EQUAL).
  { intros i Hi Hv Hl. apply (ko_eq _ _ KO); [apply Ht; [now apply nth_In|exact Hv]|apply Hr; lia]. }
  destruct (Z.ltb_spec (wg_get_record_len cs r) (Z.of_nat (length t))) as [L|L].
  - split; [discriminate|]. intros A. exfalso. assert (length t <> 0%nat) by (destruct Tr as (N & _); destruct t; [now elim N|cbn; lia]).
    destruct (A (length t - 1)%nat ltac:(lia) (nth_last_fixed cs t Tr)) as (B & _). lia.
  - rewrite (match_fields_ok (QDB cs [] (fun _ => [])) t r 0). cbn [d_cs]. unfold agrees. split.
    + intros H i Hi Hv. split; [lia|]. apply Sym; auto; [lia|]. apply (H i Hi Hv).
    + intros H k Hk Hv. apply Sym; auto; [lia|]. now apply H.
Qed.
Print Assumptions C47_match_template.

Lemma check_satisfies db ok r args : keyorder (WG_COMPARE (d_cs db)) ok -> 0 <= wg_get_record_len (d_cs db) r < 2 ^ 31 ->
  check_arglist db r args = true <-> Forall (satisfies (d_cs db) r) args.
Proof.
  intros KO Hl. rewrite check_forallb, forallb_forall, Forall_forall. assert (W : wrap32 (wg_get_record_len (d_cs db) r) = wg_get_record_len (d_cs db) r) by (unfold wrap32; rewrite Z.mod_small; lia). rewrite W.
  assert (G : forall a, (a_col a <? wg_get_record_len (d_cs db) r) && check_cond db (wg_get_field (d_cs db) r (a_col a)) a = true <-> satisfies (d_cs db) r a).
  { intros a. rewrite andb_true_iff, Z.ltb_lt. unfold satisfies. apply and_iff_compat_l. unfold check_cond, holds. destruct a as [c cond v]. cbn [a_col a_cond a_val].
    unfold WG_COND_EQUAL, WG_COND_LESSTHAN, WG_COND_GREATER, WG_COND_LTEQUAL, WG_COND_GTEQUAL, WG_COND_NOT_EQUAL.
    destruct (ko_tri _ _ KO (wg_get_field (d_cs db) r c) v) as [E|[E|E]]; rewrite E;
    (destruct (Z.eqb_spec cond 1) as [->|]; [cbn; intuition discriminate|];
     destruct (Z.eqb_spec cond 4) as [->|]; [cbn; intuition discriminate|];
     destruct (Z.eqb_spec cond 8) as [->|]; [cbn; intuition discriminate|];
     destruct (Z.eqb_spec cond 16) as [->|]; [cbn; intuition discriminate|];
     destruct (Z.eqb_spec cond 32) as [->|]; [cbn; intuition discriminate|];
     destruct (Z.eqb_spec cond 2) as [->|]; [cbn; intuition discriminate|]; intuition congruence). }
  split; intros H a Ha; apply G; auto.
Qed.

(** A usable index covers every record that satisfies the arguments. *)
Lemma usable_covers db ok args ix r : keyorder (WG_COMPARE (d_cs db)) ok -> usable db args ix -> Forall (fun a => 0 <= a_col a /\ ok (a_val a)) args ->
  (forall t, ix_tmpl ix = Some t -> forall e, In e t -> encoded_type (words (d_cs db)) e <> WG_VARTYPE -> ok e) ->
  (forall i, 0 <= i < wg_get_record_len (d_cs db) r -> ok (wg_get_field (d_cs db) r i)) ->
  Forall (satisfies (d_cs db) r) args -> match ix_tmpl ix with None => True | Some t => agrees (d_cs db) r t end.
Proof.
  intros KO U Fa Ht Hr Fs. unfold usable in U. destruct (ix_tmpl ix) as [t|] eqn:Et; [|exact I]. destruct U as (sc & U). intros i Hi Hv.
  destruct (template_ok db args t 0 sc U i Hi Hv) as (a & Ha & Ec & Eq & Ev). rewrite Z.add_0_l in Ec. rewrite Forall_forall in Fa, Fs.
  destruct (Fa a Ha) as (_ & Da). destruct (Fs a Ha) as (S1 & (S2 & _)). specialize (S2 Eq). rewrite Ec in S1, S2. split; [exact S1|].
  assert (De : ok (nth i t 0)) by (apply (Ht t eq_refl); [now apply nth_In|exact Hv]). assert (Df : ok (wg_get_field (d_cs db) r (Z.of_nat i))) by (apply Hr; lia).
  rewrite (cmp_eq_r db ok KO (wg_get_field (d_cs db) r (Z.of_nat i)) (nth i t 0) (a_val a) Df De Da Ev). exact S2.
Qed.

(** The index chosen for a query covers every record that satisfies the query. *)
Theorem C47_chosen_index_covers db ok args col id ix r : consistent db ok -> Forall (fun a => 0 <= a_col a /\ ok (a_val a)) args ->
  most_restricting_column db args = (col, id) -> 0 < id -> In ix (d_index db col) -> ix_id ix = id -> In r (d_recs db) ->
  Forall (satisfies (d_cs db) r) args -> match ix_tmpl ix with None => True | Some t => wg_match_template (d_cs db) t r = true end.
Proof.
  intros C Fa E Hid Hix Eid Hr Fs. destruct C as [C1 C2 C3 C4 C5]. pose proof (C21_compare_is_keyorder _ _ C1) as KO.
  destruct (best_column_ok db args _ _ _ _ _ _ E) as [E1|(s0 & H1 & [->|(ix' & H2 & H3 & H4 & H5)])]; [injection E1 as -> ->; lia|lia|].
  destruct (C3 col) as (N & B). assert (Ei : ix' = ix).
  { specialize (B ix' H2). assert (W : wrap32 (ix_id ix') = ix_id ix') by (unfold wrap32; rewrite Z.mod_small; lia). rewrite W in H5.
    assert (Eq : ix_id ix' = ix_id ix) by congruence. clear - N H2 Hix Eq. induction (d_index db col) as [|y l IH]; [easy|]. cbn [map] in N. apply NoDup_cons_iff in N. destruct N as (N1 & N2).
    destruct H2 as [->|H2], Hix as [->|Hix]; auto; exfalso; apply N1; [rewrite Eq|rewrite <- Eq]; now apply in_map. }
  subst ix'. destruct (C2 r Hr) as (_ & L & Hf). pose proof (usable_covers db ok args ix r KO H4 Fa (fun t Et => proj2 (C4 col ix t Hix Et)) Hf Fs) as Cv.
  destruct (ix_tmpl ix) as [t|] eqn:Et; [|exact I]. destruct (C4 col ix t Hix Et) as (T1 & T2). now apply (C47_match_template (d_cs db) ok t r).
Qed.
Print Assumptions C47_chosen_index_covers.

(** Making a template: trailing variables are dropped and an equal template may
    be used instead, but the same records agree with it. *)
Lemma fixed_len_spec cs m : forall i acc, 0 <= acc <= i -> let n := fixed_len cs m i acc in
  (n = acc /\ forall k, (k < length m)%nat -> encoded_type (words cs) (nth k m 0) = WG_VARTYPE) \/
  (exists k, (k < length m)%nat /\ n = i + Z.of_nat k + 1 /\ encoded_type (words cs) (nth k m 0) <> WG_VARTYPE /\
   forall j, (k < j < length m)%nat -> encoded_type (words cs) (nth j m 0) = WG_VARTYPE).
Proof.
  induction m as [|e m IH]; intros i acc Ha n; unfold n; cbn [fixed_len]; [left; split; [reflexivity|cbn; intros; lia]|].
  destruct (Z.eqb_spec (encoded_type (words cs) e) WG_VARTYPE) as [Ev|Ev].
  - destruct (IH (i + 1) acc ltac:(lia)) as [(E & H)|(k & K1 & K2 & K3 & K4)].
    + left. split; [exact E|]. intros [|k] Hk; cbn [nth length] in *; [exact Ev|apply H; lia].
    + right. exists (S k). cbn [length nth]. split; [lia|]. split; [lia|]. split; [exact K3|]. intros [|j] Hj; [lia|]. cbn [nth]. apply K4. lia.
  - destruct (IH (i + 1) (i + 1) ltac:(lia)) as [(E & H)|(k & K1 & K2 & K3 & K4)].
    + right. exists 0%nat. cbn [length nth]. split; [lia|]. split; [lia|]. split; [exact Ev|]. intros [|j] Hj; [lia|]. cbn [nth]. apply H. lia.
    + right. exists (S k). cbn [length nth]. split; [lia|]. split; [lia|]. split; [exact K3|]. intros [|j] Hj; [lia|]. cbn [nth]. apply K4. lia.
Qed.
Lemma nth_firstn {A} (l : list A) d : forall n k, (k < n)%nat -> nth k (firstn n l) d = nth k l d.
Proof. induction l as [|x l IH]; intros [|n] k H; try lia; [now destruct k|]. destruct k as [|k]; [reflexivity|]. cbn [firstn nth]. apply IH. lia. Qed.
Lemma filter_len_le {A} (f g : A -> bool) l : (forall x, In x l -> f x = true -> g x = true) -> (length (filter f l) <= length (filter g l))%nat.
Proof.
  induction l as [|x l IH]; intros H; [reflexivity|]. cbn [filter]. specialize (IH (fun y Hy => H y (or_intror Hy))). destruct (f x) eqn:Ef.
  - rewrite (H x (or_introl eq_refl) Ef). cbn [length]. lia.
  - destruct (g x); cbn [length]; lia.
Qed.
Section Tmpl.
Variables (cs : cstate) (ok : Z -> Prop).
Hypothesis Hc : comparable cs ok.
Notation var e := (encoded_type (words cs) e =? WG_VARTYPE).
Notation nfix l := (length (filter (fun e => negb (var e)) l)).
(** Equal values have equal types. *)
Lemma equal_var e f : ok e -> encoded_type (words cs) e <> WG_VARTYPE -> WG_COMPARE cs e f = WG_EQUAL -> encoded_type (words cs) f <> WG_VARTYPE.
Proof.
  intros De He E Ef. unfold WG_COMPARE, WG_COMPARE_at in E. destruct (Z.eqb_spec e f) as [->|_]; [contradiction|].
  destruct (Nat.eq_dec WG_COMPARE_REC_DEPTH 7) as [E7|E7]; [|now elim E7]. rewrite E7 in E. cbn [wg_compare] in E. cbv zeta in E. rewrite Ef in E.
  destruct (Z.eqb_spec WG_VARTYPE (encoded_type (words cs) e)) as [Eq|_]; [congruence|]. unfold gt_or_less in E. destruct (WG_VARTYPE <? encoded_type (words cs) e); discriminate.
Qed.
Lemma same_fixed m : forall t, length m = length t -> (forall e, In e m -> encoded_type (words cs) e <> WG_VARTYPE -> ok e) -> same_template cs m t = true ->
  (nfix m <= nfix t)%nat /\ (nfix m = nfix t -> forall k, (k < length m)%nat -> (encoded_type (words cs) (nth k m 0) <> WG_VARTYPE <-> encoded_type (words cs) (nth k t 0) <> WG_VARTYPE)) /\
  forall k, (k < length m)%nat -> encoded_type (words cs) (nth k m 0) <> WG_VARTYPE -> WG_COMPARE cs (nth k m 0) (nth k t 0) = WG_EQUAL.
Proof.
  induction m as [|e m IH]; intros [|f t] L O E; try discriminate L; [split; [reflexivity|]; split; cbn; intros; lia|]. cbn [same_template] in E. cbn [length] in L.
  destruct (negb (var e) && negb (WG_COMPARE cs e f =? WG_EQUAL)) eqn:Eb; [discriminate|]. destruct (IH t ltac:(lia) (fun x Hx => O x (or_intror Hx)) E) as (I1 & I2 & I3). cbn [filter].
  destruct (Z.eqb_spec (encoded_type (words cs) e) WG_VARTYPE) as [Ee|Ee]; cbn [negb andb] in *.
  - destruct (Z.eqb_spec (encoded_type (words cs) f) WG_VARTYPE) as [Ef|Ef]; cbn [negb].
    + split; [exact I1|]. split.
      * intros Eq [|k] Hk; cbn [nth]; [rewrite Ee, Ef; tauto|]. apply I2; [exact Eq|cbn in Hk; lia].
      * intros [|k] Hk Hv; cbn [nth] in *; [now elim Hv|]. apply I3; [cbn in Hk; lia|exact Hv].
    + cbn [length]. split; [lia|]. split; [intros Eq; lia|]. intros [|k] Hk Hv; cbn [nth] in *; [now elim Hv|]. apply I3; [lia|exact Hv].
  - apply negb_false_iff, Z.eqb_eq in Eb. pose proof (equal_var e f (O e (or_introl eq_refl) Ee) Ee Eb) as Ef. rewrite (proj2 (Z.eqb_neq _ _) Ef). cbn [negb length].
    split; [lia|]. split.
    + intros Eq [|k] Hk; cbn [nth]; [tauto|]. apply I2; lia.
    + intros [|k] Hk Hv; cbn [nth] in *; [exact Eb|]. apply I3; [lia|exact Hv].
Qed.
Lemma find_template_in l m fixed t : find_template cs l m fixed = Some t -> In t l /\ fixed_columns cs t = fixed /\ length m = length t /\ same_template cs m t = true.
Proof.
  induction l as [|u l IH]; cbn [find_template]; [discriminate|]. destruct (Z.eqb_spec (fixed_columns cs u) fixed) as [Ef|Ef].
  - destruct (Nat.eqb_spec (length m) (length u)) as [El|El]; cbn [andb]; [destruct (same_template cs m u) eqn:Es|].
    + intros E. injection E as <-. split; [now left|auto].
    + intros E. destruct (IH E) as (A & B). split; [now right|exact B].
    + intros E. destruct (IH E) as (A & B). split; [now right|exact B].
  - destruct (fixed_columns cs u <? fixed); [discriminate|]. intros E. destruct (IH E) as (A & B). split; [now right|exact B].
Qed.
Theorem C47_template_made l m t r : (forall e, In e m \/ (exists u, In u l /\ In e u) -> encoded_type (words cs) e <> WG_VARTYPE -> ok e) ->
  (forall i, 0 <= i < wg_get_record_len cs r -> ok (wg_get_field cs r i)) -> (forall u, In u l -> trimmed cs u) ->
  add_index_template cs l m = Some t -> trimmed cs t /\ (agrees cs r t <-> agrees cs r m).
Proof.
  intros O Hr Tl. unfold add_index_template. destruct (existsb _ m); [discriminate|]. cbv zeta.
  pose proof (C21_compare_is_keyorder cs ok Hc) as KO.
  destruct (fixed_len_spec cs m 0 0 ltac:(lia)) as [(E & _)|(k & K1 & K2 & K3 & K4)]; [rewrite E; discriminate|].
  destruct (Z.eqb_spec (fixed_len cs m 0 0) 0) as [|_]; [discriminate|]. set (m' := firstn (Z.to_nat (fixed_len cs m 0 0)) m).
  assert (Ln : Z.to_nat (fixed_len cs m 0 0) = S k) by lia. assert (Lm : length m' = S k) by (unfold m'; rewrite firstn_length; lia).
  assert (Nm : forall j, (j <= k)%nat -> nth j m' 0 = nth j m 0) by (intros j Hj; unfold m'; apply nth_firstn; lia).
  assert (Ag : agrees cs r m' <-> agrees cs r m).
  { unfold agrees. rewrite Lm. split.
    - intros H i Hi Hv. destruct (Nat.le_gt_cases i k) as [Hk|Hk]; [rewrite <- Nm by exact Hk; rewrite <- Nm in Hv by exact Hk; apply H; [lia|exact Hv]|]. elim Hv. apply K4. lia.
    - intros H i Hi Hv. rewrite Nm in * by lia. apply H; [lia|exact Hv]. }
  assert (Tm : trimmed cs m'). { split; [intros E0; rewrite E0 in Lm; discriminate|]. replace (last m' 0) with (nth k m' 0); [rewrite Nm by lia; exact K3|]. replace k with (length m' - 1)%nat by lia. clear. induction m' as [|x [|y l] IH]; [reflexivity|reflexivity|]. cbn [length] in *. replace (S (S (length l)) - 1)%nat with (S (length l)) by lia. change (nth (length l) (y :: l) 0 = last (y :: l) 0). rewrite <- IH. f_equal. lia. }
  assert (Fx : fixed_columns cs m = fixed_columns cs m').
  { unfold fixed_columns. f_equal. transitivity (length (filter (fun e => negb (var e)) (m' ++ skipn (S k) m))); [unfold m'; now rewrite Ln, firstn_skipn|].
    rewrite filter_app, app_length. replace (filter (fun e => negb (var e)) (skipn (S k) m)) with (@nil Z); [cbn; lia|]. symmetry. apply filter_none. rewrite Forall_forall. intros e He.
    apply In_nth with (d := 0) in He. destruct He as (j & Hj & Ej). rewrite skipn_length in Hj. apply negb_false_iff, Z.eqb_eq. rewrite <- Ej.
    assert (Sk : forall (l : list Z) n j, nth j (skipn n l) 0 = nth (n + j) l 0) by (clear; induction l as [|x l IH]; intros [|n] j; cbn [skipn nth Nat.add]; auto; now destruct j).
    rewrite Sk. apply K4. lia. }
  destruct (find_template cs l m' (fixed_columns cs m)) as [u|] eqn:Ef; intros E; injection E as <-.
  2:{ split; [exact Tm|exact Ag]. }
  apply find_template_in in Ef. destruct Ef as (F1 & F2 & F3 & F4). split; [auto|]. rewrite <- Ag.
  assert (O' : forall e, In e m' -> encoded_type (words cs) e <> WG_VARTYPE -> ok e).
  { intros e He. apply O. left. rewrite <- (firstn_skipn (Z.to_nat (fixed_len cs m 0 0)) m), in_app_iff. now left. }
  destruct (same_fixed m' u F3 O' F4) as (_ & S2 & S3). assert (En : nfix m' = nfix u) by (unfold fixed_columns in F2, Fx; lia). specialize (S2 En). unfold agrees. rewrite <- F3.
  assert (Eq : forall i, (i < length m')%nat -> encoded_type (words cs) (nth i m' 0) <> WG_VARTYPE -> Z.of_nat i < wg_get_record_len cs r ->
     WG_COMPARE cs (wg_get_field cs r (Z.of_nat i)) (nth i m' 0) = WG_COMPARE cs (wg_get_field cs r (Z.of_nat i)) (nth i u 0)).
  { intros i Hi Hv Hl. apply (cmp_eq_r (QDB cs [] (fun _ => [])) ok KO); [apply Hr; lia|apply O'; [now apply nth_In|exact Hv]| |now apply S3].
    apply O; [right; exists u; split; [exact F1|apply nth_In; lia]|now apply S2]. }
  split; intros H i Hi Hv.
  - destruct (H i Hi ltac:(apply S2; auto)) as (A & B). split; [exact A|]. now rewrite Eq.
  - destruct (H i Hi ltac:(apply S2; auto)) as (A & B). split; [exact A|]. rewrite <- Eq; auto. apply S2; auto.
Qed.
End Tmpl.
Print Assumptions C47_template_made.

(** ** C25 *)
Lemma match_args_spec db r m : forall i, Forall (satisfies (d_cs db) r) (match_args db m i) <->
  forall k, (k < length m)%nat -> encoded_type (words (d_cs db)) (nth k m 0) <> WG_VARTYPE ->
  i + Z.of_nat k < wg_get_record_len (d_cs db) r /\ WG_COMPARE (d_cs db) (wg_get_field (d_cs db) r (i + Z.of_nat k)) (nth k m 0) = WG_EQUAL.
Proof.
  induction m as [|e m IH]; intros i; cbn [match_args length]; [split; [intros; lia|constructor]|].
  assert (Nx : (forall k, (k < length m)%nat -> encoded_type (words (d_cs db)) (nth k m 0) <> WG_VARTYPE ->
      i + 1 + Z.of_nat k < wg_get_record_len (d_cs db) r /\ WG_COMPARE (d_cs db) (wg_get_field (d_cs db) r (i + 1 + Z.of_nat k)) (nth k m 0) = WG_EQUAL) <->
    (forall k, (S k < S (length m))%nat -> encoded_type (words (d_cs db)) (nth (S k) (e :: m) 0) <> WG_VARTYPE ->
      i + Z.of_nat (S k) < wg_get_record_len (d_cs db) r /\ WG_COMPARE (d_cs db) (wg_get_field (d_cs db) r (i + Z.of_nat (S k))) (nth (S k) (e :: m) 0) = WG_EQUAL)).
  { split; intros H k Hk; specialize (H k ltac:(lia)); cbn [nth] in *; replace (i + Z.of_nat (S k)) with (i + 1 + Z.of_nat k) in * by lia; exact H. }
  destruct (Z.eqb_spec (encoded_type (words (d_cs db)) e) WG_VARTYPE) as [Ev|Ev]; cbn [negb].
  - rewrite IH, Nx. split; [intros H [|k] Hk Hv; [now elim Hv|auto]|intros H k Hk Hv; auto].
  - rewrite Forall_cons_iff, IH, Nx. unfold satisfies, holds. cbn [a_col a_cond a_val]. split.
    + intros ((A & B & _) & H) [|k] Hk Hv; [cbn [nth]; rewrite Z.add_0_r; auto|auto].
    + intros H. destruct (H 0%nat ltac:(lia) Ev) as (A & B). cbn [nth] in B. rewrite Z.add_0_r in A, B. split; [|intros k Hk Hv; auto]. split; [exact A|].
      split; [auto|]. repeat split; intros; try discriminate.
Qed.

(** The conditions of a query: arguments and the match record. *)
Definition selected (cs : cstate) (matchrec : option (list Z)) (arglist : option (list qarg)) (r : Z) : Prop :=
  match arglist with None => True | Some l => Forall (satisfies cs r) l end /\ match matchrec with None => True | Some m => agrees cs r m end.
(** The conditions [> v] and [< w] on the same column with [v] equal to [w]. *)
Definition open_empty (cs : cstate) (l : list qarg) : Prop :=
  exists c v w, In (QA c WG_COND_GREATER v) l /\ In (QA c WG_COND_LESSTHAN w) l /\ WG_COMPARE cs v w = WG_EQUAL.
(** Parameters of a query that is not refused. *)
Definition good_params (db : qdb) (ok : Z -> Prop) (matchrec : option (list Z)) (arglist : option (list qarg)) : Prop :=
  match arglist with None => True | Some l => l <> [] /\ Forall (fun a => 0 <= a_col a /\ ok (a_val a)) l /\ ~ open_empty (d_cs db) l end /\
  match matchrec with None => True | Some m => m <> [] /\ forall e, In e m -> encoded_type (words (d_cs db)) e <> WG_VARTYPE -> ok e end.

Lemma match_args_good db m : forall i, 0 <= i -> Forall (fun a => 0 <= a_col a /\ a_cond a = WG_COND_EQUAL /\ In (a_val a) m /\ encoded_type (words (d_cs db)) (a_val a) <> WG_VARTYPE) (match_args db m i).
Proof.
  induction m as [|e m IH]; intros i Hi; cbn [match_args]; [constructor|].
  assert (G : Forall (fun a => 0 <= a_col a /\ a_cond a = WG_COND_EQUAL /\ In (a_val a) (e :: m) /\ encoded_type (words (d_cs db)) (a_val a) <> WG_VARTYPE) (match_args db m (i + 1))).
  { specialize (IH (i + 1) ltac:(lia)). eapply Forall_impl; [|exact IH]. cbn beta. intros a (A & B & C & D). split; [exact A|]. split; [exact B|]. split; [now right|exact D]. }
  destruct (Z.eqb_spec (encoded_type (words (d_cs db)) e) WG_VARTYPE); cbn [negb]; [exact G|]. constructor; [|exact G]. cbn. auto.
Qed.

(** C25. Whatever T-tree indexes exist, a query returns the records that have all
    the columns and satisfy all the conditions, each once. Missing: the query
    [x > v and x < v] (refuted below), databases with an index header beyond
    2^31 bytes (refuted below), a value WG_ILLEGAL in the arguments. *)
Theorem C25_query_partial db ok matchrec arglist n : consistent db ok -> good_params db ok matchrec arglist -> (length (d_recs db) < n)%nat ->
  exists q rows sel, build_query db n matchrec arglist = Some (Some q) /\ fetch_rows db n q = Some rows /\
  Permutation rows (filter sel (d_recs db)) /\ forall r, In r (d_recs db) -> sel r = true <-> selected (d_cs db) matchrec arglist r.
Proof.
  intros C (Ga & Gm) Hn. pose proof C as [C1 C2 C3 C4 C5]. pose proof (C21_compare_is_keyorder _ _ C1) as KO. unfold build_query.
  set (l := match arglist with Some l => l | None => [] end). set (ml := match matchrec with Some r => match_args db r 0 | None => [] end).
  assert (Ep : prepare_params db matchrec arglist = Some (l ++ ml)).
  { unfold prepare_params, l, ml. destruct matchrec as [[|]|], arglist as [[|]|]; try reflexivity; try (destruct Gm as (Gm & _); now elim Gm); try (destruct Ga as (Ga & _); now elim Ga). }
  rewrite Ep. set (args := l ++ ml).
  assert (Fm : Forall (fun a => (0 <= a_col a /\ ok (a_val a)) /\ a_cond a = WG_COND_EQUAL) ml).
  { unfold ml. destruct matchrec as [m|]; [|constructor]. destruct Gm as (_ & Gm). eapply Forall_impl; [|exact (match_args_good db m 0 ltac:(lia))]. cbn beta. intros a (A1 & A2 & A3 & A4). auto. }
  assert (Fa : Forall (fun a => 0 <= a_col a /\ ok (a_val a)) args).
  { unfold args. rewrite Forall_app. split; [unfold l; destruct arglist; [apply Ga|constructor]|]. eapply Forall_impl; [|exact Fm]. cbn. tauto. }
  assert (Fv : Forall (fun a => ok (a_val a)) args) by (eapply Forall_impl; [|exact Fa]; cbn; tauto).
  assert (No : ~ open_empty (d_cs db) args).
  { intros (c & v & w & H1 & H2 & H3). unfold args in H1, H2. rewrite in_app_iff in H1, H2. rewrite Forall_forall in Fm.
    destruct H1 as [H1|H1]; [|apply Fm in H1; destruct H1 as (_ & H1); discriminate]. destruct H2 as [H2|H2]; [|apply Fm in H2; destruct H2 as (_ & H2); discriminate].
    unfold l in H1, H2. destruct arglist as [al|]; [|easy]. destruct Ga as (_ & _ & Ga). apply Ga. exists c, v, w. auto. }
  assert (Sp : forall r, In r (d_recs db) -> check_arglist db r args = true <-> selected (d_cs db) matchrec arglist r).
  { intros r Hr. destruct (C2 r Hr) as (_ & L & _). rewrite (check_satisfies db ok r args KO L). unfold args, selected. rewrite Forall_app. unfold l, ml.
    destruct arglist as [al|], matchrec as [m|]; cbn [app]; rewrite ?match_args_spec; unfold agrees; cbn [Z.add]; intuition. }
  destruct (match args with [] => (-1, -1) | _ => most_restricting_column db args end) as (col & id) eqn:Em.
  destruct (Z.ltb_spec 0 id) as [Hid|Hid].
  2:{ exists (QScan (d_recs db) args), (filter (fun r => check_arglist db r args) (d_recs db)), (fun r => check_arglist db r args). split; [reflexivity|]. split; [|split; [reflexivity|exact Sp]].
      apply fetch_rows_scan. transitivity (length (d_recs db)); [|lia]. clear. induction (d_recs db) as [|x k IH]; cbn [filter length]; [lia|]. destruct (check_arglist db x args); cbn [length]; lia. }
  assert (Em' : most_restricting_column db args = (col, id)) by (destruct args; [injection Em as <- <-; lia|exact Em]). clear Em.
  destruct (best_column_ok db args _ _ _ _ _ _ Em') as [E1|(s0 & H1 & [->|(ix & H2 & H3 & H4 & H5)])]; [injection E1 as -> ->; lia|lia|].
  destruct (C3 col) as (N & B). assert (Wi : wrap32 (ix_id ix) = ix_id ix) by (specialize (B ix H2); unfold wrap32; rewrite Z.mod_small; lia). rewrite Wi in H5. subst id.
  assert (Ef : find (fun x => ix_id x =? ix_id ix) (d_index db col) = Some ix).
  { clear - N H2. induction (d_index db col) as [|y k IH]; [easy|]. cbn [map] in N. apply NoDup_cons_iff in N. destruct N as (N1 & N2). cbn [find].
    destruct H2 as [->|H2]; [now rewrite Z.eqb_refl|]. destruct (Z.eqb_spec (ix_id y) (ix_id ix)) as [E|_]; [|auto]. exfalso. apply N1. rewrite E. now apply in_map. }
  rewrite Ef. cbv zeta. destruct (column_scores_in args col s0 H1) as (a0 & Ha0 & Ec0).
  assert (Hcol : 0 <= col) by (rewrite Forall_forall in Fa; specialize (Fa a0 Ha0); lia).
  destruct (C5 col ix H2 H3) as (key & g & f & R & Hk & Pg & Hf). destruct (TR_treach0 _ _ _ _ _ R) as (T & HT & HG).
  set (key' := fun r => wg_get_field (d_cs db) r col).
  assert (Ing : forall x, In x (cont (ix_tree ix) T) -> In x (d_recs db) /\ f x = true).
  { intros x Hx. apply (Permutation_in x HG), (Permutation_in x Pg), filter_In in Hx. exact Hx. }
  assert (Dk : forall x, In x (cont (ix_tree ix) T) -> ok (key' x)).
  { intros x Hx. destruct (Ing x Hx) as (I1 & I2). apply (Hf x I1) in I2. destruct (C2 x I1) as (_ & _ & D). apply D. lia. }
  assert (HT' : TI (WG_COMPARE (d_cs db)) ok key' (ix_tree ix) T).
  { apply (TI_view (WG_COMPARE (d_cs db)) ok (ix_tree ix) key (WG_COMPARE (d_cs db)) ok key' T); [|auto|exact HT]. intros x Hx. assert (Ek : key' x = key x) by (symmetry; apply Hk, (Permutation_in x HG Hx)).
    split; [exact Ek|]. rewrite <- Ek. auto. }
  assert (Len : (length (cont (ix_tree ix) T) <= length (d_recs db))%nat).
  { rewrite (Permutation_length HG), (Permutation_length Pg). clear. induction (d_recs db) as [|x k IH]; cbn [filter length]; [lia|]. destruct (f x); cbn [length]; lia. }
  pose proof (bounds_ok db ok KO col args Fv) as BI. set (b := bounds db col args) in *. pose proof BI as [B1 B2 _ _ B5 B6 _].
  destruct (range_ok (WG_COMPARE (d_cs db)) ok KO key' (ix_tree ix) T (b_start b) (b_end b) (b_sincl b) (b_eincl b) n HT' B1 B2) as (q & Eq & Fq).
  { destruct (Z.eq_dec (b_start b) WG_ILLEGAL) as [|Ns]; [auto|]. destruct (Z.eq_dec (b_end b) WG_ILLEGAL) as [|Ne]; [auto|]. left. intros (A1 & A2 & A3). apply No.
    exists col, (b_start b), (b_end b). auto. }
  { pose proof (TI_len _ _ _ _ _ HT). lia. }
  set (rest := if b_full b then args else filter (fun a => negb (a_col a =? col)) args).
  assert (Rows : forall chk, (forall x, In x (cont (ix_tree ix) T) -> lo_b (WG_COMPARE (d_cs db)) key' (b_start b) (b_sincl b) x && hi_b (WG_COMPARE (d_cs db)) key' (b_end b) (b_eincl b) x && chk x = check_arglist db x args) ->
     exists rows, fetch_all n chk (ix_tree ix) q = Some rows /\ Permutation rows (filter (fun r => check_arglist db r args) (d_recs db))).
  { intros chk Hchk. eexists. split; [apply Fq; lia|]. rewrite filter_filter. rewrite (filter_eq _ (fun r => check_arglist db r args)) by exact Hchk.
    rewrite (filter_perm _ _ _ HG), (filter_perm _ _ _ Pg), filter_filter. replace (filter (fun x => f x && check_arglist db x args) (d_recs db)) with (filter (fun r => check_arglist db r args) (d_recs db)); [reflexivity|].
    apply filter_eq. intros x Hx. destruct (check_arglist db x args) eqn:Ec; [|now rewrite andb_false_r]. rewrite andb_true_r. symmetry. apply (Hf x Hx). destruct (C2 x Hx) as (_ & L & D).
    apply (check_satisfies db ok x args KO L) in Ec. split.
    - rewrite Forall_forall in Ec. destruct (Ec a0 Ha0) as (A & _). lia.
    - exact (usable_covers db ok args ix x KO H4 Fa (fun t Et => proj2 (C4 col ix t H2 Et)) D Ec). }
  assert (Rc : forall x, In x (cont (ix_tree ix) T) -> lo_b (WG_COMPARE (d_cs db)) key' (b_start b) (b_sincl b) x && hi_b (WG_COMPARE (d_cs db)) key' (b_end b) (b_eincl b) x && check_arglist db x rest = check_arglist db x args).
  { intros x Hx. destruct (Ing x Hx) as (I1 & I2). apply (Hf x I1) in I2. destruct (C2 x I1) as (_ & L & _).
    apply (range_check db ok KO col args x Fv (Dk x Hx)). unfold wrap32. rewrite Z.mod_small; lia. }
  unfold range_query in Eq. destruct (negb (b_start b =? WG_ILLEGAL) && negb (b_end b =? WG_ILLEGAL) && (WG_COMPARE (d_cs db) (b_start b) (b_end b) =? WG_GREATER)) eqn:Eg.
  - injection Eq as <-. destruct (Rows (fun x => check_arglist db x rest) Rc) as (rows & E1 & E2).
    assert (E0 : forall chk, fetch_all n chk (ix_tree ix) (TQ 0 (-1) 0 (-1)) = Some []) by (intros; destruct n; reflexivity).
    rewrite E0 in E1. injection E1 as <-. eexists _, [], (fun r => check_arglist db r args). split; [reflexivity|]. split; [rewrite fetch_rows_tree; apply E0|]. split; [exact E2|exact Sp].
  - rewrite Eq. destruct (Rows (fun x => check_arglist db x rest) Rc) as (rows & E1 & E2). eexists _, rows, (fun r => check_arglist db r args). split; [reflexivity|].
    split; [rewrite fetch_rows_tree; exact E1|]. split; [exact E2|exact Sp].
Qed.
Print Assumptions C25_query_partial.

(** The same with the rows collected by wg_make_query or wg_make_query_rc: the
    fetches return the matching records (as many as the limit allows), then
    NULL; without a limit the count is the number of matching records. *)
Theorem C25_make_query_partial db ok matchrec arglist n mp rowlimit h c cnt : consistent db ok -> good_params db ok matchrec arglist -> (length (d_recs db) < n)%nat ->
  0 <= rowlimit < 2 ^ 64 -> Z.of_nat (length (d_recs db)) < 2 ^ 64 ->
  exists q rows sel, build_query db n matchrec arglist = Some (Some q) /\ fetch_rows db n q = Some rows /\
  (forall r, In r (d_recs db) -> sel r = true <-> selected (d_cs db) matchrec arglist r) /\
  (prefetch mp rowlimit rows = Some (h, c, cnt) ->
   exists got rest, Permutation (got ++ rest) (filter sel (d_recs db)) /\ cnt = Z.of_nat (length got) /\ (rowlimit = 0 -> rest = []) /\ (rest <> [] -> cnt = rowlimit) /\
   forall k, fetches k h c = firstn k (got ++ repeat 0 k)).
Proof.
  intros C G Hn Hl Hb. destruct (C25_query_partial db ok matchrec arglist n C G Hn) as (q & rows & sel & E1 & E2 & E3 & E4). exists q, rows, sel. split; [exact E1|]. split; [exact E2|]. split; [exact E4|].
  intros Ep. assert (Le : (length rows <= length (d_recs db))%nat).
  { rewrite (Permutation_length E3). clear. induction (d_recs db) as [|x k IH]; cbn [filter length]; [lia|]. destruct (sel x); cbn [length]; lia. }
  assert (Nz : ~ In 0 rows). { intros H0. apply (Permutation_in 0 E3), filter_In in H0. destruct H0 as (H0 & _). now destruct (co_rec _ _ _ C 0 H0). }
  pose proof (C28_prefetch mp rowlimit rows Hl Nz ltac:(lia)) as P. cbv zeta in P. rewrite Ep in P. destruct P as (P1 & P2).
  set (k := if rowlimit =? 0 then length rows else Z.to_nat rowlimit) in *. exists (firstn k rows), (skipn k rows). rewrite firstn_skipn. split; [exact E3|]. split; [exact P1|]. split; [|split; [|exact P2]].
  - intros ->. unfold k. cbn. apply skipn_all.
  - intros Hr. rewrite P1, firstn_length. assert (k < length rows)%nat by (destruct (Nat.le_gt_cases (length rows) k) as [H|H]; [elim Hr; now apply skipn_all2|exact H]).
    rewrite Nat.min_l by lia. unfold k in *. destruct (rowlimit =? 0); lia.
Qed.
Print Assumptions C25_make_query_partial.

(** *** Examples *)
(** Record k, at 64 * k, has two fields; its header word says 5 words. *)
Definition ex_mem (f0 f1 : Z -> Z) : cstate :=
  CSt (fun a => if a mod 64 =? 0 then 40 else if a mod 64 =? 24 then encode_smallint (f0 (a / 64)) else if a mod 64 =? 32 then encode_smallint (f1 (a / 64)) else 0) 8192.
Definition ex_recs (n : nat) : list Z := map (fun k => 64 * Z.of_nat k) (rev (seq 1 n)).
Definition ex_tree (cs : cstate) (col : Z) (l : list Z) : option (tt * list Z) :=
  run (WG_COMPARE cs) (fun r => wg_get_field cs r col) ex_domb (map (fun r => Add r (r + 1)) (rev l)).
Definition ex_index (cs : cstate) (id col : Z) (tmpl : option (list Z)) (recs : list Z) : qindex :=
  QI id WG_INDEX_TYPE_TTREE tmpl (match ex_tree cs col (filter (MATCH_TEMPLATE cs tmpl) recs) with Some (s, _) => s | None => zero_tt end).
Lemma ex_index_treach cs id col tmpl recs : (match ex_tree cs col (filter (MATCH_TEMPLATE cs tmpl) recs) with Some (_, g) => if list_eq_dec Z.eq_dec g (filter (MATCH_TEMPLATE cs tmpl) recs) then true else false | None => false end = true) ->
  treach (WG_COMPARE cs) smallints (ix_tree (ex_index cs id col tmpl recs)) (fun r => wg_get_field cs r col) (Some (filter (MATCH_TEMPLATE cs tmpl) recs)).
Proof.
  unfold ex_index. cbn [ix_tree]. unfold ex_tree. destruct (run _ _ _ _) as [(s & g)|] eqn:E; [|discriminate]. destruct (list_eq_dec Z.eq_dec g _) as [->|]; [|discriminate]. intros _.
  exact (run_treach _ _ _ smallints _ (C21_compare_is_keyorder cs smallints (smallints_comparable cs)) ex_dom s _ E).
Qed.
Lemma ex_fields f0 f1 r i : r mod 64 = 0 -> (forall k, 0 <= f0 k < 1000 /\ 0 <= f1 k < 1000) ->
  wg_get_record_len (ex_mem f0 f1) r = 2 /\ (0 <= i < 2 -> smallints (wg_get_field (ex_mem f0 f1) r i)).
Proof.
  intros Hr Hf. assert (E : words (ex_mem f0 f1) r = 40) by (cbn [ex_mem words]; now rewrite Hr). split; [unfold wg_get_record_len; rewrite E; reflexivity|]. intros Hi. unfold wg_get_field. rewrite E.
  assert (i = 0 \/ i = 1) as [-> | ->] by lia; cbn [Z.ltb orb]; change (getusedobjectwantedgintsnr 40) with 5; cbn [Z.ltb Z.compare Z.leb Z.add Pos.add RECORD_HEADER_GINTS orb Z.mul Pos.mul ex_mem words Pos.compare Pos.compare_cont];
  rewrite Zplus_mod, Hr; change ((0 + 24 mod 64) mod 64) with 24; change ((0 + 32 mod 64) mod 64) with 32; cbn; eexists; (split; [|reflexivity]); apply Hf.
Qed.
(** A template: column 1 is 2. *)
Definition ex_tmpl : list Z := [encode_var 1; encode_smallint 2].
Lemma in_ex_recs n r : In r (ex_recs n) -> r mod 64 = 0 /\ r <> 0.
Proof. unfold ex_recs. rewrite in_map_iff. intros (k & <- & Hk). rewrite <- in_rev, in_seq in Hk. split; [rewrite Z.mul_comm; apply Z.mod_mul; lia|lia]. Qed.
Lemma ex_smallint i : 0 <= i < 1000 -> smallints (encode_smallint i).
Proof. intros H. exists i. auto. Qed.
Lemma ex_tmpl_trimmed cs : trimmed cs ex_tmpl /\ forall e, In e ex_tmpl -> encoded_type (words cs) e <> WG_VARTYPE -> smallints e.
Proof.
  split; [split; [discriminate|cbn; discriminate]|]. intros e [<-|[<-|[]]] H; [now elim H|apply ex_smallint; lia].
Qed.
Lemma ex_consistent lim (f0 f1 : Z -> Z) n (L : list (Z * Z * option (list Z))) : 0 < lim -> (forall k, 0 <= f0 k < 1000 /\ 0 <= f1 k < 1000) ->
  Forall (fun '(col, id, tmpl) => 0 < id < lim /\ 0 <= col < 2 /\ (tmpl = None \/ tmpl = Some ex_tmpl) /\
    match ex_tree (ex_mem f0 f1) col (filter (MATCH_TEMPLATE (ex_mem f0 f1) tmpl) (ex_recs n)) with Some (_, g) => if list_eq_dec Z.eq_dec g (filter (MATCH_TEMPLATE (ex_mem f0 f1) tmpl) (ex_recs n)) then true else false | None => false end = true) L ->
  NoDup (map (fun x => snd (fst x)) L) ->
  consistent_below lim (QDB (ex_mem f0 f1) (ex_recs n) (fun col => map (fun '(c, id, tmpl) => ex_index (ex_mem f0 f1) id c tmpl (ex_recs n)) (filter (fun x => fst (fst x) =? col) L))) smallints.
Proof.
  intros Hlim Hf FL ND. rewrite Forall_forall in FL. set (cs := ex_mem f0 f1) in *.
  assert (In' : forall col ix, In ix (map (fun '(c, id, tmpl) => ex_index cs id c tmpl (ex_recs n)) (filter (fun x => fst (fst x) =? col) L)) -> exists id tmpl, In (col, id, tmpl) L /\ ix = ex_index cs id col tmpl (ex_recs n)).
  { intros col ix. rewrite in_map_iff. intros (((c & id) & tmpl) & <- & H). apply filter_In in H. destruct H as (H & E). cbn [fst] in E. apply Z.eqb_eq in E. subst c. eauto. }
  constructor; cbn [d_cs d_recs d_index].
  - apply smallints_comparable.
  - intros r Hr. apply in_ex_recs in Hr. destruct Hr as (Hr & Hn). split; [exact Hn|]. destruct (ex_fields f0 f1 r 0 Hr Hf) as (E & _). fold cs in E. rewrite E. split; [lia|]. intros i Hi. apply (ex_fields f0 f1 r i Hr Hf). exact Hi.
  - intros col. split.
    + rewrite map_map. assert (E : map (fun x => ix_id (let '(c, id, tmpl) := x in ex_index cs id c tmpl (ex_recs n))) (filter (fun x => fst (fst x) =? col) L) = map (fun x => snd (fst x)) (filter (fun x => fst (fst x) =? col) L)) by (apply map_ext; intros ((c & id) & tmpl); reflexivity).
      rewrite E. clear - ND. induction L as [|x l IH]; cbn [filter map]; [constructor|]. cbn [map] in ND. apply NoDup_cons_iff in ND. destruct ND as (N1 & N2). destruct (fst (fst x) =? col); [|auto]. cbn [map]. apply NoDup_cons_iff. split; [|auto].
      intros H. apply N1. apply in_map_iff in H. destruct H as (y & Ey & Hy). apply filter_In in Hy. apply in_map_iff. exists y. tauto.
    + intros ix H. apply In' in H. destruct H as (id & tmpl & Hi & ->). destruct (FL _ Hi) as (A & _). exact A.
  - intros col ix t H Et. apply In' in H. destruct H as (id & tmpl & Hi & ->). cbn [ix_tmpl ex_index] in Et. destruct (FL _ Hi) as (_ & _ & [A|A] & _); rewrite A in Et; [discriminate|]. injection Et as <-. apply ex_tmpl_trimmed.
  - intros col ix H _. apply In' in H. destruct H as (id & tmpl & Hi & ->). destruct (FL _ Hi) as (_ & Hcol & Htm & T).
    exists (fun r => wg_get_field cs r col), (filter (MATCH_TEMPLATE cs tmpl) (ex_recs n)), (MATCH_TEMPLATE cs tmpl). split; [now apply ex_index_treach|]. split; [reflexivity|]. split; [reflexivity|].
    intros r Hr. apply in_ex_recs in Hr. destruct Hr as (Hr & _). destruct (ex_fields f0 f1 r 0 Hr Hf) as (E & _). fold cs in E. rewrite E. cbn [ix_tmpl ex_index].
    destruct Htm as [-> | ->]; cbn [MATCH_TEMPLATE]; [split; [intros _; split; [lia|exact I]|reflexivity]|].
    rewrite (C47_match_template cs smallints ex_tmpl r (smallints_comparable cs)).
    + split; [intros A; split; [lia|exact A]|tauto].
    + apply ex_tmpl_trimmed.
    + apply ex_tmpl_trimmed.
    + intros i Hj. rewrite E in Hj. now apply (ex_fields f0 f1 r i Hr Hf).
Qed.
Definition ex_db (f0 f1 : Z -> Z) (n : nat) (L : list (Z * Z * option (list Z))) : qdb :=
  QDB (ex_mem f0 f1) (ex_recs n) (fun col => map (fun '(c, id, tmpl) => ex_index (ex_mem f0 f1) id c tmpl (ex_recs n)) (filter (fun x => fst (fst x) =? col) L)).
(** Twenty records; indexes on column 0 (without and with a template that fixes
    column 1) and on column 1. The query is 3 <= column 0 < 9, column 1 = 2 (from
    the match record). *)
Definition ex_f0 (k : Z) : Z := (5 * k) mod 13.
Definition ex_f1 (k : Z) : Z := k mod 3.
Definition ex_c25 (L : list (Z * Z * option (list Z))) : qdb := ex_db ex_f0 ex_f1 20 L.
Definition ex_L : list (Z * Z * option (list Z)) := [(0, 2000, Some ex_tmpl); (0, 1600, None); (1, 2400, None)].
Definition ex_args : list qarg := [QA 0 WG_COND_GTEQUAL (encode_smallint 3); QA 0 WG_COND_LESSTHAN (encode_smallint 9)].
Definition ex_rows (db : qdb) (m : option (list Z)) (a : option (list qarg)) : option (list Z) :=
  match build_query db 30 m a with Some (Some q) => fetch_rows db 30 q | _ => None end.
Lemma ex_f_ok k : 0 <= ex_f0 k < 1000 /\ 0 <= ex_f1 k < 1000.
Proof. unfold ex_f0, ex_f1. pose proof (Z.mod_pos_bound (5 * k) 13). pose proof (Z.mod_pos_bound k 3). lia. Qed.
Example C25_hyp : consistent (ex_c25 ex_L) smallints /\ good_params (ex_c25 ex_L) smallints (Some ex_tmpl) (Some ex_args) /\
  ex_rows (ex_c25 ex_L) (Some ex_tmpl) (Some ex_args) = Some [704; 896; 1088] /\ ex_rows (ex_c25 []) (Some ex_tmpl) (Some ex_args) = Some [1088; 896; 704] /\
  snd (most_restricting_column (ex_c25 ex_L) (ex_args ++ match_args (ex_c25 ex_L) ex_tmpl 0)) = 2000.
Proof.
  split; [|split; [|repeat split; vm_compute; reflexivity]].
  - apply ex_consistent; [lia|exact ex_f_ok| |].
    + repeat constructor; try lia; try (now left); try (now right); vm_compute; reflexivity.
    + cbn. repeat constructor; cbn; intuition discriminate.
  - split.
    + split; [discriminate|]. split; [repeat (apply Forall_cons; [split; [cbn; lia|cbn [a_val]; apply ex_smallint; lia]|]); apply Forall_nil|]. intros (c & v & w & [H|[H|[]]] & [H'|[H'|[]]] & _); discriminate.
    + split; [discriminate|]. apply ex_tmpl_trimmed.
Qed.
Example C47_hyp : comparable (ex_mem ex_f0 ex_f1) smallints /\ trimmed (ex_mem ex_f0 ex_f1) ex_tmpl /\
  wg_match_template (ex_mem ex_f0 ex_f1) ex_tmpl (64 * 5) = true /\ wg_match_template (ex_mem ex_f0 ex_f1) ex_tmpl (64 * 6) = false /\
  add_index_template (ex_mem ex_f0 ex_f1) [] (ex_tmpl ++ [encode_var 1]) = Some ex_tmpl /\
  add_index_template (ex_mem ex_f0 ex_f1) [ex_tmpl] [encode_var 3; encode_smallint 2; encode_var 4] = Some ex_tmpl.
Proof. split; [apply smallints_comparable|]. split; [apply ex_tmpl_trimmed|repeat split; vm_compute; reflexivity]. Qed.

(** *** Findings *)
(** With an index, [x > 5 and x < 5] returns a record; without it, none. *)
Definition ex_g0 (k : Z) : Z := if k <=? 8 then 5 else if k =? 9 then 1 else 9.
Theorem C25_open_interval_refuted : exists L args, consistent (ex_db ex_g0 ex_g0 10 L) smallints /\ consistent (ex_db ex_g0 ex_g0 10 []) smallints /\
  Forall (fun a => 0 <= a_col a /\ smallints (a_val a)) args /\
  ex_rows (ex_db ex_g0 ex_g0 10 []) None (Some args) = Some [] /\ ex_rows (ex_db ex_g0 ex_g0 10 L) None (Some args) = Some [640] /\
  ~ selected (ex_mem ex_g0 ex_g0) None (Some args) 640.
Proof.
  exists [(0, 1600, None)], [QA 0 WG_COND_GREATER (encode_smallint 5); QA 0 WG_COND_LESSTHAN (encode_smallint 5)].
  assert (Hf : forall k, 0 <= ex_g0 k < 1000 /\ 0 <= ex_g0 k < 1000) by (intros k; unfold ex_g0; destruct (k <=? 8), (k =? 9); lia).
  split; [|split; [|split; [|split; [vm_compute; reflexivity|split; [vm_compute; reflexivity|]]]]].
  - apply ex_consistent; [lia|exact Hf| |].
    + repeat constructor; try lia; try (now left); vm_compute; reflexivity.
    + cbn. repeat constructor; cbn; intuition discriminate.
  - apply (ex_consistent (2 ^ 31) ex_g0 ex_g0 10 []); [lia|exact Hf|constructor|constructor].
  - repeat (apply Forall_cons; [split; [cbn; lia|cbn [a_val]; apply ex_smallint; lia]|]); apply Forall_nil.
  - intros (H & _). apply Forall_inv_tail, Forall_inv in H. destruct H as (_ & H). vm_compute in H. destruct H as (_ & _ & H & _). discriminate (H eq_refl).
Qed.
Print Assumptions C25_open_interval_refuted.
(** The index number is an int (Db/dbquery.c l.140-144): an index whose header is
    beyond 2^32 bytes is looked up at a wrong address. *)
Theorem C25_large_database_refuted : exists L, consistent_below (2 ^ 63) (ex_c25 L) smallints /\ good_params (ex_c25 L) smallints None (Some ex_args) /\
  snd (most_restricting_column (ex_c25 L) ex_args) = 1600 /\ Forall (fun ix => ix_id ix = 2 ^ 32 + 1600) (d_index (ex_c25 L) 0) /\
  forall n, build_query (ex_c25 L) n None (Some ex_args) = None.
Proof.
  exists [(0, 2 ^ 32 + 1600, None)]. split; [|split; [|split; [|split; [|intros n; reflexivity]]]].
  - apply ex_consistent; [lia|exact ex_f_ok| |].
    + repeat constructor; try lia; try (now left); vm_compute; reflexivity.
    + cbn. repeat constructor; cbn; intuition discriminate.
  - split; [|exact I]. split; [discriminate|]. split; [repeat (apply Forall_cons; [split; [cbn; lia|cbn [a_val]; apply ex_smallint; lia]|]); apply Forall_nil|]. intros (c & v & w & [H|[H|[]]] & [H'|[H'|[]]] & _); discriminate.
  - vm_compute. reflexivity.
  - cbn. repeat constructor.
Qed.
Print Assumptions C25_large_database_refuted.
