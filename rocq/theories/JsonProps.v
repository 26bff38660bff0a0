(** Properties C43, C44 and C45: JSON documents. *)
From Coq Require Import ZArith List Bool Lia Permutation.
From Verif Require Import Base EncodingModel RecordModel RecordProofs RecordProps SchemaModel SchemaProofs SchemaTree JsonModel JsonProofs JsonRead.
Import ListNotations.
Open Scope Z_scope.
#[local] Ltac Zify.zify_post_hook ::= idtac.

Section Props.
Context {I V : Type}.
Variable ix_any ix_tab : I -> Z -> bool.
Variable ix_add_rec ix_del_rec : rmap -> V -> I -> Z -> option (I * Z).
Variable ix_add_field ix_del_field : rmap -> V -> I -> Z -> Z -> option (I * Z).
Variable v_ref v_free : V -> Z -> V.
Variable alloc_rec : @rdb I V -> Z -> Z.
Variable cell_ok malloc_ok : @rdb I V -> bool.
Variable free_ok : @rdb I V -> Z -> bool.
Variable encode : V -> lit -> V * Z.
Variable decode : V -> Z -> option lit.
Notation db := (@rdb I V).
Notation data d := (data_of (d_rec d)).
(** wg_parse_json_document and its two variants on the callbacks of a JSON value. *)
Notation parse isparam isdocument d j := (run_json_parser ix_any ix_tab ix_add_rec ix_add_field ix_del_field v_ref v_free alloc_rec cell_ok encode malloc_ok isparam isdocument d (events j) true).
Notation delete := (wg_delete_document ix_any ix_tab ix_del_rec ix_add_field ix_del_field v_ref v_free cell_ok free_ok).

(** The allocator gives 0 or an unused offset (C14, C16). *)
Hypothesis alloc_fresh : forall d n, alloc_rec d n = 0 \/ (is_record_ref (alloc_rec d n) = true /\ d_rec d (alloc_rec d n) = None).
(** Encoding keeps the values there are; what it gives decodes to the literal (C01, C20); assigning
    a value to a field changes no value. *)
Hypothesis encode_ok : forall v l v' e, encode v l = (v', e) ->
  (forall x y, decode v x = Some y -> decode v' x = Some y) /\ (e <> WG_ILLEGAL -> is_record_ref e = false /\ decode v' e = Some l).
Hypothesis ref_ok : forall v x e l, decode v e = Some l -> decode (v_ref v x) e = Some l.

(** The record was created by the step from [d] to [d']. *)
Definition new (d d' : db) (o : Z) : Prop := data d o = None /\ data d' o <> None.

(** What parsing gives: the trees. *)
Lemma parse_tree ip isdoc d j d' doc : RI (d_rec d) -> parse ip isdoc d j = Some (d', 0, doc) -> doc <> 0 ->
  exists j' t p, strip j = Some j' /\ root t = doc /\ value p = j' /\ trees ip isdoc p = [t] /\ encoding p = doc /\ RI (d_rec d') /\
    (forall o, data d o <> None -> data d' o = data d o) /\ (forall o, In o (nodes t) <-> new d d' o) /\ NoDup (nodes t) /\
    holds (d_rec d') (recs t) /\ (forall x, In x (lits p) -> is_record_ref (fst x) = false /\ decode (d_val d') (fst x) = Some (snd x)).
Proof.
  intros R E Nd. pose proof (parse_ok ix_any ix_tab ix_add_rec ix_add_field ix_del_field v_ref v_free alloc_rec cell_ok encode malloc_ok decode ip isdoc
    alloc_fresh encode_ok ref_ok d j d' 0 doc R E eq_refl) as H.
  assert (W : exists j', strip j = Some j' /\ whole decode ip isdoc d d' j' doc).
  { destruct j as [|b|l|l|l]; [destruct H; congruence|destruct H; congruence|contradiction| |]; destruct H as (_ & H); eexists; (split; [reflexivity|apply H; reflexivity]). }
  clear H. destruct W as (j' & Sj & p & n & Vp & Ep & ((R' & K & L & N & D) & Kv) & P & (Hh & Hl) & t & Et & Rt).
  rewrite Et in P, Hh. unfold top_nodes, nodes_all in P. cbn [flat_map] in P, Hh. rewrite app_nil_r in P, Hh.
  exists j', t, p. split; [exact Sj|]. split; [exact Rt|]. split; [exact Vp|]. split; [exact Et|]. split; [exact Ep|]. split; [exact R'|]. split; [exact K|]. split; [|split; [|split]].
  - intros o. split.
    + intros Ho. apply N. exact (Permutation_in _ (Permutation_sym P) Ho).
    + intros (A & B). apply (Permutation_in _ P). destruct (L o B); [contradiction|assumption].
  - exact (Permutation_NoDup P D).
  - exact Hh.
  - exact Hl.
Qed.
Lemma new_closed d d' : RI (d_rec d) -> (forall o, data d o <> None -> data d' o = data d o) ->
  forall p c, new d d' c -> ~ new d d' p -> is_record_ref c = true -> refs (d_rec d') p c = 0.
Proof.
  intros R K p c (Nc & _) Np Rc. destruct (data d p) as [(meta & fs)|] eqn:E.
  - rewrite (refs_data_fields _ _ meta fs); [|rewrite K; [exact E|congruence]]. apply cnt_zero. intros Hin. now apply (RI_child _ _ _ _ _ R E Hin Rc).
  - destruct (data d' p) eqn:E'; [|now apply refs_none]. exfalso. apply Np. split; congruence.
Qed.

(** ** C45: a document is stored as parsed *)
(** The record returned stands for the value parsed without null and boolean values, with strings
    up to a zero byte and keys of at most 79 bytes; nothing else changed. *)
Theorem C45_stored ip isdoc d j d' doc : RI (d_rec d) -> parse ip isdoc d j = Some (d', 0, doc) -> doc <> 0 ->
  exists j', strip j = Some j' /\ reads decode (d_rec d') (d_val d') doc j' /\ RI (d_rec d') /\ forall o, data d o <> None -> data d' o = data d o.
Proof.
  intros R E Nd. destruct (parse_tree _ _ _ _ _ _ R E Nd) as (j' & t & p & Sj & Rt & Vp & Et & Ep & R' & K & Hn & D & Hh & Hl).
  exists j'. split; [exact Sj|]. split; [|split; [exact R'|exact K]]. rewrite <- Ep, <- Vp. apply (put_reads decode _ _ ip R' p isdoc). split; [|exact Hl]. rewrite Et. cbn [flat_map]. now rewrite app_nil_r.
Qed.
(** A value without these is stored as it is and printed as it is. *)
Theorem C45_roundtrip ip isdoc d j d' doc : RI (d_rec d) -> clean j -> parse ip isdoc d j = Some (d', 0, doc) ->
  doc <> 0 /\ reads decode (d_rec d') (d_val d') doc j /\
  (isdoc = true -> forall n, (depth j <= n)%nat -> wg_print_json_document decode n d' doc = Some (gens j, true)).
Proof.
  intros R C E. assert (Nd : doc <> 0).
  { intros ->. pose proof (parse_ok ix_any ix_tab ix_add_rec ix_add_field ix_del_field v_ref v_free alloc_rec cell_ok encode malloc_ok decode ip isdoc
    alloc_fresh encode_ok ref_ok d j d' 0 0 R E eq_refl) as H.
    assert (W : exists j', whole decode ip isdoc d d' j' 0) by (destruct j as [|b|l|l|l]; [contradiction|contradiction|contradiction| |]; destruct H as (_ & H); eexists; apply H; reflexivity).
    destruct W as (j' & p & n & _ & _ & ((R' & _ & _ & N & _) & _) & P & _ & t & Et & Rt). rewrite Et in P. unfold top_nodes, nodes_all in P. cbn [flat_map] in P. rewrite app_nil_r in P.
    assert (In 0 n). { apply (Permutation_in _ (Permutation_sym P)). rewrite <- Rt. apply root_in. }
    destruct (N 0 H0) as (_ & Q). destruct R' as (Ri & _). apply data_none in Q || idtac. rewrite data_none in Q. apply Ri in Q. discriminate Q. }
  split; [exact Nd|]. destruct (C45_stored _ _ _ _ _ _ R E Nd) as (j' & Sj & Rd & R' & K). rewrite (strip_clean _ C) in Sj. injection Sj as <-. split; [exact Rd|].
  intros -> n Hn. pose proof (reads_prints decode _ _ _ _ _ Rd Hn) as Q. unfold JsonModel.pretty_print_jsonval in Q. unfold JsonModel.wg_print_json_document.
  destruct (parse_tree _ _ _ _ _ _ R E Nd) as (j' & t & p & _ & Rt & _ & Et & _ & _ & _ & _ & _ & Hh & _).
  assert (exists bit meta fs, data d' doc = Some (meta, fs) /\ meta = schema_meta bit true ip /\ (bit = META_ARRAY \/ bit = META_OBJECT)) as (bit & meta & fs & Dd & -> & Hb).
  { destruct p as [e l|o l|o l]; cbn [trees] in Et; [discriminate Et| |]; injection Et as <-; cbn [root] in Rt; subst o; pose proof (Hh _ (or_introl eq_refl)) as Q0; cbn [fst snd] in Q0; eauto 8. }
  rewrite (RI_ref _ _ _ R' Dd) in Q. destruct (data_some _ _ _ Dd) as (r & Er & _). rewrite Er. unfold is_schema_document.
  rewrite (has_true META_DOC r _ _ _ _ Er Dd (schema_isdoc bit ip Hb)). exact Q.
Qed.
(** Nothing nested deeper than seven arrays and objects is accepted, and no literal on its own. *)
Theorem C45_limits ip isdoc d j d' rc doc : RI (d_rec d) -> parse ip isdoc d j = Some (d', rc, doc) ->
  (7 < nesting j)%nat \/ (exists l, j = JLit l) -> rc <> 0.
Proof.
  intros R E H ->. pose proof (parse_ok ix_any ix_tab ix_add_rec ix_add_field ix_del_field v_ref v_free alloc_rec cell_ok encode malloc_ok decode ip isdoc
    alloc_fresh encode_ok ref_ok d j d' 0 doc R E eq_refl) as P. destruct H as [H | (l & ->)]; [|exact P].
  destruct j as [|b|l|l|l]; cbn [nesting] in H; try lia; destruct P as (P & _); cbn [nesting] in P; unfold MAX_DEPTH, WG_COMPARE_REC_DEPTH in P; lia.
Qed.

(** ** C44: parts of a document lead back to it *)
(** In any later state where the records of the document have their contents and no other record
    refers to its parts. Missing: documents with more than seven records on a way from the top
    (see C44_deep_refuted), other records referring to the parts (see C44_hijack_refuted). *)
Theorem C44_find_partial ip d j d' doc (d2 : db) : RI (d_rec d) -> parse ip true d j = Some (d', 0, doc) -> (depth j <= 7)%nat ->
  RI (d_rec d2) -> (forall o, new d d' o -> data d2 o = data d' o) -> (forall p c, new d d' c -> c <> doc -> ~ new d d' p -> refs (d_rec d2) p c = 0) ->
  forall o, new d d' o -> wg_find_document (d_rec d2) o = Some doc.
Proof.
  intros R E Hd R2 Same Out o No.
  destruct (Z.eq_dec doc 0) as [-> | Nd].
  { exfalso. pose proof (parse_ok ix_any ix_tab ix_add_rec ix_add_field ix_del_field v_ref v_free alloc_rec cell_ok encode malloc_ok decode ip true
      alloc_fresh encode_ok ref_ok d j d' 0 0 R E eq_refl) as H. destruct j as [|b|l|l|l].
    1-2: destruct H as (-> & _); destruct No as (A & B); contradiction. 1: contradiction.
    all: destruct H as (_ & H); destruct (H _ eq_refl) as (p & n & _ & _ & ((R' & _ & _ & N & _) & _) & P & _ & t & Et & Rt); rewrite Et in P; unfold top_nodes, nodes_all in P; cbn [flat_map] in P; rewrite app_nil_r in P;
      assert (H0 : In 0 n) by (apply (Permutation_in _ (Permutation_sym P)); rewrite <- Rt; apply root_in);
      destruct (N 0 H0) as (_ & Q); destruct R' as (Ri & _); rewrite data_none in Q; apply Ri in Q; discriminate Q. }
  destruct (parse_tree _ _ _ _ _ _ R E Nd) as (j' & t & p & Sj & Rt & Vp & Et & Ep & R' & K & Hn & D & Hh & Hl).
  assert (Hw : wf t).
  { destruct (trees_wf ip p true) as (W & _); [intros x Hx; now apply Hl| |rewrite Et in W; now inversion W].
    intros x Hx. rewrite Et in Hx. unfold nodes_all in Hx. cbn [flat_map] in Hx. rewrite app_nil_r in Hx. apply Hn in Hx. destruct Hx as (_ & Hx). destruct (data d' x) eqn:Q; [|congruence]. exact (RI_ref _ _ _ R' Q). }
  assert (Hh2 : holds (d_rec d2) (recs t)). { intros x Hx. rewrite Same; [now apply Hh|]. apply Hn. unfold nodes. now apply in_map. }
  assert (Hg : (height t <= 7)%nat).
  { pose proof (trees_height ip p true) as Q. rewrite Et in Q. cbn [map list_max fold_right] in Q. rewrite Nat.max_0_r in Q. rewrite Q, Vp. pose proof (depth_strip _ _ Sj). lia. }
  assert (Ht : exists l, nodes t = doc :: l /\ tl (nodes t) = l) by (destruct t; rewrite nodes_Tn; cbn [root tl] in *; subst; eauto). destruct Ht as (l & Ht & Htl).
  unfold wg_find_document. apply (tree_find (d_rec d2) doc R2 Nd t 0 Hw Hh2 D).
  - rewrite Htl. intros q c Hc Hq. rewrite Ht in D. inversion D as [|? ? D1 D2]; subst. apply Out; [apply Hn; rewrite Ht; now right|congruence|now rewrite <- Hn].
  - exact (trees_doc_top ip true p t Et).
  - intros n _. rewrite Rt. assert (exists bit meta fs, data d2 doc = Some (meta, fs) /\ meta = schema_meta bit true ip /\ (bit = META_ARRAY \/ bit = META_OBJECT)) as (bit & meta & fs & Dd & -> & Hb).
    { destruct p as [e0 l0|o0 l0|o0 l0]; cbn [trees] in Et; [discriminate Et| |]; injection Et as <-; cbn [root] in Rt; subst o0; pose proof (Hh2 _ (or_introl eq_refl)) as Q0; cbn [fst snd] in Q0; eauto 8. }
    destruct (data_some _ _ _ Dd) as (r & Er & _). destruct n; cbn [find_document_recursive]; rewrite Er; unfold is_schema_document; rewrite (has_true META_DOC r _ _ _ _ Er Dd (schema_isdoc bit ip Hb)); reflexivity.
  - now apply Hn.
  - unfold WG_COMPARE_REC_DEPTH. cbn [Nat.sub]. lia.
Qed.

(** ** C43: deleting a document *)
(** The indexes report no error and freeing succeeds. *)
Hypothesis ix_del_rec_ok : forall m v ix o, exists ix' c, ix_del_rec m v ix o = Some (ix', c) /\ -1 <= c.
Hypothesis ix_add_field_ok : forall m v ix o i, exists ix' c, ix_add_field m v ix o i = Some (ix', c) /\ -1 <= c.
Hypothesis ix_del_field_ok : forall m v ix o i, exists ix' c, ix_del_field m v ix o i = Some (ix', c) /\ -1 <= c.
Hypothesis free_succeeds : forall d o, free_ok d o = true.

(** In any later state where the records of the document have their contents and no other record
    refers to them, deleting the document removes these records and leaves all others as they are.
    Missing: documents with more than seven records on a way from the top (see C43_deep_refuted). *)
Theorem C43_delete_partial ip d j d' doc (d2 : db) : RI (d_rec d) -> parse ip true d j = Some (d', 0, doc) -> doc <> 0 -> (depth j <= 7)%nat ->
  RI (d_rec d2) -> (forall o, new d d' o -> data d2 o = data d' o) -> (forall p c, new d d' c -> ~ new d d' p -> refs (d_rec d2) p c = 0) ->
  exists d3, delete d2 doc = Some (d3, 0) /\ RI (d_rec d3) /\
    (forall o, new d d' o -> data d3 o = None) /\ (forall o, ~ new d d' o -> data d3 o = data d2 o).
Proof.
  intros R E Nd Hd R2 Same Out.
  destruct (parse_tree _ _ _ _ _ _ R E Nd) as (j' & t & p & Sj & Rt & Vp & Et & Ep & R' & K & Hn & D & Hh & Hl).
  assert (Hw : wf t).
  { destruct (trees_wf ip p true) as (W & _); [intros x Hx; now apply Hl| |rewrite Et in W; now inversion W].
    intros x Hx. rewrite Et in Hx. unfold nodes_all in Hx. cbn [flat_map] in Hx. rewrite app_nil_r in Hx. apply Hn in Hx. destruct Hx as (_ & Hx). destruct (data d' x) eqn:Q; [|congruence]. exact (RI_ref _ _ _ R' Q). }
  assert (Hh2 : holds (d_rec d2) (recs t)). { intros x Hx. rewrite Same; [now apply Hh|]. apply Hn. unfold nodes. now apply in_map. }
  assert (Hg : (height t <= 7)%nat).
  { pose proof (trees_height ip p true) as Q. rewrite Et in Q. cbn [map list_max fold_right] in Q. rewrite Nat.max_0_r in Q. rewrite Q, Vp. pose proof (depth_strip _ _ Sj). lia. }
  destruct (tree_deletes ix_any ix_tab ix_del_rec ix_add_field ix_del_field v_ref v_free cell_ok free_ok ix_del_rec_ok ix_add_field_ok ix_del_field_ok free_succeeds
    t WG_COMPARE_REC_DEPTH d2 Hw R2 Hh2 D) as (d3 & A & R3 & B).
  { intros q c Hc Hq. apply Out; [now apply Hn|now rewrite <- Hn]. } { exact Hg. }
  exists d3. split; [|split; [exact R3|]].
  - unfold wg_delete_document. rewrite Rt in A.
    assert (exists bit meta fs, data d2 doc = Some (meta, fs) /\ meta = schema_meta bit true ip /\ (bit = META_ARRAY \/ bit = META_OBJECT)) as (bit & meta & fs & Dd & -> & Hb).
    { destruct p as [e0 l0|o0 l0|o0 l0]; cbn [trees] in Et; [discriminate Et| |]; injection Et as <-; cbn [root] in Rt; subst o0; pose proof (Hh2 _ (or_introl eq_refl)) as Q0; cbn [fst snd] in Q0; eauto 8. }
    destruct (data_some _ _ _ Dd) as (r & Er & _). rewrite Er. unfold is_schema_document. rewrite (has_true META_DOC r _ _ _ _ Er Dd (schema_isdoc bit ip Hb)). exact A.
  - split; intros o Ho; rewrite B; destruct (in_dec Z.eq_dec o (nodes t)) as [Hin | Hin]; try reflexivity; rewrite Hn in Hin; contradiction.
Qed.
(** Right after parsing: all records are as before. *)
Theorem C43_parse_delete_partial ip d j d' doc : RI (d_rec d) -> parse ip true d j = Some (d', 0, doc) -> doc <> 0 -> (depth j <= 7)%nat ->
  exists d3, delete d' doc = Some (d3, 0) /\ forall o, data d3 o = data d o.
Proof.
  intros R E Nd Hd. destruct (parse_tree _ _ _ _ _ _ R E Nd) as (j' & t & p & Sj & Rt & Vp & Et & Ep & R' & K & Hn & D & Hh & Hl).
  destruct (C43_delete_partial ip d j d' doc d' R E Nd Hd R') as (d3 & A & R3 & B & C).
  - reflexivity.
  - intros q c Nc Nq. apply (new_closed d d' R K); [exact Nc|exact Nq|]. destruct Nc as (_ & Nc). destruct (data d' c) eqn:Q; [|congruence]. exact (RI_ref _ _ _ R' Q).
  - exists d3. split; [exact A|]. intros o. destruct (data d o) as [x|] eqn:Eo.
    + rewrite C; [rewrite K; [exact Eo|congruence]|]. intros (Q & _). congruence.
    + destruct (data d' o) eqn:Eo'; [apply B; split; congruence|]. rewrite C; [exact Eo'|]. intros (_ & Q). congruence.
Qed.
(** At most three nested arrays and objects never make more than seven records on a way. *)
Theorem C43_nesting3 j : (nesting j <= 3)%nat -> (depth j <= 7)%nat.
Proof. pose proof (depth_nesting j). lia. Qed.
End Props.
Print Assumptions C45_stored.
Print Assumptions C45_roundtrip.
Print Assumptions C45_limits.
Print Assumptions C44_find_partial.
Print Assumptions C43_delete_partial.
Print Assumptions C43_parse_delete_partial.

(** ** Examples *)
(** Values are kept in a list; the encoded value is the position times 8 plus 3. *)
Definition ex_encode (v : list lit) (l : lit) : list lit * Z := (v ++ [l], 8 * Z.of_nat (length v) + 3).
Definition ex_decode (v : list lit) (e : Z) : option lit := if (e mod 8 =? 3) && (3 <=? e) then nth_error v (Z.to_nat (e / 8)) else None.
Definition ex_ref (v : list lit) (_ : Z) : list lit := v.
Definition ex_rec (_ : rmap) (_ : list lit) (u : unit) (_ : Z) : option (unit * Z) := Some (u, 0).
Definition ex_field (_ : rmap) (_ : list lit) (u : unit) (_ _ : Z) : option (unit * Z) := Some (u, 0).
Definition ex_yes (_ : @rdb unit (list lit)) : bool := true.
Definition ex_free (_ : @rdb unit (list lit)) (_ : Z) : bool := true.
Fixpoint ex_first (m : rmap) (k : nat) (o : Z) : Z := match k with O => 0 | S k => match m o with None => o | Some _ => ex_first m k (o + 64) end end.
Definition ex_alloc (d : @rdb unit (list lit)) (_ : Z) : Z := ex_first (d_rec d) 60 64.
Lemma ex_alloc_fresh d n : ex_alloc d n = 0 \/ (is_record_ref (ex_alloc d n) = true /\ d_rec d (ex_alloc d n) = None).
Proof.
  unfold ex_alloc. assert (G : forall k o, (k <= 60)%nat -> o = 64 * (61 - Z.of_nat k) -> ex_first (d_rec d) k o = 0 \/ (is_record_ref (ex_first (d_rec d) k o) = true /\ d_rec d (ex_first (d_rec d) k o) = None)).
  { induction k as [|k IH]; intros o Hk Ho; cbn [ex_first]; [now left|]. destruct (d_rec d o) eqn:E; [apply IH; lia|]. right. split; [|exact E].
    rewrite Ho. do 60 (destruct k as [|k]; [reflexivity|]). lia. }
  apply G; lia.
Qed.
Lemma ex_encode_ok v l v' e : ex_encode v l = (v', e) ->
  (forall x y, ex_decode v x = Some y -> ex_decode v' x = Some y) /\ (e <> WG_ILLEGAL -> is_record_ref e = false /\ ex_decode v' e = Some l).
Proof.
  unfold ex_encode. intros E. assert (v' = v ++ [l]) by congruence. assert (e = 8 * Z.of_nat (length v) + 3) by congruence. subst v' e. clear E. unfold ex_decode. split.
  - intros x y. destruct ((x mod 8 =? 3) && (3 <=? x)); [|discriminate]. intros H. rewrite nth_error_app1; [exact H|]. apply nth_error_Some. congruence.
  - intros _. set (n := length v).
    assert (M : (8 * Z.of_nat n + 3) mod 8 = 3). { rewrite Z.add_comm, Z.mul_comm, Z.mod_add by lia. reflexivity. }
    assert (Q : (8 * Z.of_nat n + 3) / 8 = Z.of_nat n). { rewrite Z.add_comm, Z.mul_comm, Z.div_add by lia. reflexivity. }
    rewrite M, Q, Nat2Z.id. destruct (Z.leb_spec 3 (8 * Z.of_nat n + 3)); [|lia]. cbn [Z.eqb Pos.eqb andb]. split.
    + unfold is_record_ref. change 7 with (Z.ones 3). rewrite ?Z.land_ones by lia. change (2 ^ 3) with 8. rewrite ?M. destruct (negb _); reflexivity.
    + rewrite nth_error_app2 by (subst n; lia). subst n. now rewrite Nat.sub_diag.
Qed.

Notation ex_parse isparam isdocument d j := (run_json_parser no_ix no_ix ex_rec ex_field ex_field ex_ref ex_ref ex_alloc ex_yes ex_encode ex_yes isparam isdocument d (events j) true).
Notation ex_delete := (wg_delete_document no_ix no_ix ex_rec ex_field ex_field ex_ref ex_ref ex_yes ex_free).
Definition ex_db : @rdb unit (list lit) := RDB (fun _ => None) tt [].
Lemma ex_db_RI : RI (d_rec ex_db).
Proof. split; [intros o H; now elim H|reflexivity]. Qed.
Definition ex_int := JLit (LInt 5).
Definition ex_str (s : list Z) := JLit (LStr s).
(** {"a": [5, "bc", {}], "d": {"a": 5}} *)
Definition ex_doc := JObj [([97], JArr [ex_int; ex_str [98; 99]; JObj []]); ([100], JObj [([97], ex_int)])].
Definition ex_nest (k : nat) : json := Nat.iter k (fun j => JObj [([97], j)]) ex_int.
Definition ex_deep (k : nat) : json := Nat.iter k (fun j => JArr [j]) ex_int.
(** The state after parsing. *)
Definition ex_after (d : @rdb unit (list lit)) (j : json) : @rdb unit (list lit) :=
  match ex_parse false true d j with Some (d', _, _) => d' | None => d end.
Definition ex_rc (d : @rdb unit (list lit)) (j : json) : option (Z * Z) := match ex_parse false true d j with Some (_, rc, doc) => Some (rc, doc) | None => None end.
Lemma ex_parse_rc d j rc doc : ex_rc d j = Some (rc, doc) -> ex_parse false true d j = Some (ex_after d j, rc, doc).
Proof. unfold ex_rc, ex_after. destruct (ex_parse false true d j) as [((d' & r) & o)|]; [|discriminate]. intros Q. injection Q as <- <-. reflexivity. Qed.

Example C45_stored_ex : ex_rc ex_db ex_doc = Some (0, 448) /\ reads ex_decode (d_rec (ex_after ex_db ex_doc)) (d_val (ex_after ex_db ex_doc)) 448 ex_doc.
Proof.
  assert (E : ex_rc ex_db ex_doc = Some (0, 448)) by (vm_compute; reflexivity). split; [exact E|]. apply ex_parse_rc in E.
  destruct (C45_roundtrip no_ix no_ix ex_rec ex_field ex_field ex_ref ex_ref ex_alloc ex_yes ex_yes ex_encode ex_decode ex_alloc_fresh ex_encode_ok ltac:(auto)
    false true ex_db ex_doc (ex_after ex_db ex_doc) 448 ex_db_RI) as (_ & R & _); [|exact E|exact R].
  cbn. intuition (try congruence; try lia).
Qed.
Example C45_roundtrip_ex : wg_print_json_document ex_decode 4 (ex_after ex_db ex_doc) 448 = Some (gens ex_doc, true).
Proof. vm_compute. reflexivity. Qed.
Example C45_limits_ex : ex_rc ex_db (ex_deep 7) = Some (0, 448) /\ ex_rc ex_db (ex_deep 8) = Some (-2, 0) /\ ex_rc ex_db ex_int = Some (-2, 0).
Proof. vm_compute. auto. Qed.
(** null and boolean values disappear, so the elements after them move; the objects of a member
    that is null have no such member; long keys and strings with a zero byte are cut. *)
Theorem C45_refuted :
  (exists d', ex_parse false true ex_db (JArr [JNull; ex_int; JBool true]) = Some (d', 0, 64) /\ reads ex_decode (d_rec d') (d_val d') 64 (JArr [ex_int])) /\
  (exists d', ex_parse false true ex_db (JObj [([97], JNull)]) = Some (d', 0, 64) /\ reads ex_decode (d_rec d') (d_val d') 64 (JObj [])) /\
  (exists d', ex_parse false true ex_db (JArr [ex_str [97; 0; 98]]) = Some (d', 0, 64) /\ reads ex_decode (d_rec d') (d_val d') 64 (JArr [ex_str [97]])) /\
  (exists d', ex_parse false true ex_db (JObj [(repeat 97 81, ex_int); (repeat 97 80, ex_int)]) = Some (d', 0, 192) /\
     reads ex_decode (d_rec d') (d_val d') 192 (JObj [(repeat 97 79, ex_int); (repeat 97 79, ex_int)])).
Proof.
  assert (G : forall j j' doc, ex_rc ex_db j = Some (0, doc) -> doc <> 0 -> strip j = Some j' -> exists d', ex_parse false true ex_db j = Some (d', 0, doc) /\ reads ex_decode (d_rec d') (d_val d') doc j').
  { intros j j' doc E Nd Sj. apply ex_parse_rc in E. exists (ex_after ex_db j). split; [exact E|].
    destruct (C45_stored no_ix no_ix ex_rec ex_field ex_field ex_ref ex_ref ex_alloc ex_yes ex_yes ex_encode ex_decode ex_alloc_fresh ex_encode_ok ltac:(auto)
      false true ex_db j (ex_after ex_db j) doc ex_db_RI E Nd) as (j2 & S2 & R & _). rewrite Sj in S2. injection S2 as <-. exact R. }
  repeat split; (apply G; [vm_compute; reflexivity|discriminate|vm_compute; reflexivity]).
Qed.
(** The value null is accepted as a document and gives no record. *)
Theorem C45_null_refuted : ex_rc ex_db JNull = Some (0, 0).
Proof. reflexivity. Qed.

Example C44_find_ex : map (wg_find_document (d_rec (ex_after ex_db ex_doc))) [64; 128; 192; 256; 320; 384; 448] = repeat (Some 448) 7.
Proof. vm_compute. reflexivity. Qed.
Example C44_depth_ex : depth ex_doc = 4%nat /\ depth (ex_nest 3) = 6%nat /\ depth (ex_deep 7) = 7%nat /\ depth (ex_nest 4) = 8%nat.
Proof. vm_compute. auto. Qed.
(** Four nested objects are accepted, but the innermost pair does not lead to the document. *)
Theorem C44_deep_refuted : ex_rc ex_db (ex_nest 4) = Some (0, 512) /\ wg_find_document (d_rec (ex_after ex_db (ex_nest 4))) 64 = Some 0 /\
  wg_find_document (d_rec (ex_after ex_db (ex_nest 4))) 128 = Some 512.
Proof. vm_compute. auto. Qed.
(** A document whose part is referred to by another document, earlier in its list of parents. *)
Definition ex_two : option (@rdb unit (list lit)) :=
  let d := ex_after ex_db (JArr [JArr [ex_int]]) in
  let d := ex_after d (JArr [ex_int]) in
  (* 128 is the first document with part 64, 192 the second; put 64 into the second, remove and add it in the first *)
  match wg_set_field no_ix no_ix ex_field ex_field ex_ref ex_ref d 192 0 64 true with
  | Some (d, 0) => match wg_set_field no_ix no_ix ex_field ex_field ex_ref ex_ref d 128 0 0 true with
                   | Some (d, 0) => match wg_set_field no_ix no_ix ex_field ex_field ex_ref ex_ref d 128 0 64 true with Some (d, 0) => Some d | _ => None end
                   | _ => None
                   end
  | _ => None
  end.
Theorem C44_hijack_refuted : match ex_two with
  | Some d => data_of (d_rec d) 128 = data_of (d_rec (ex_after ex_db (JArr [JArr [ex_int]]))) 128 /\ wg_find_document (d_rec d) 64 = Some 192
  | None => False
  end.
Proof. vm_compute. auto. Qed.

Example C43_delete_ex : match ex_delete (ex_after ex_db ex_doc) 448 with
  | Some (d, rc) => rc = 0 /\ map (data_of (d_rec d)) [64; 128; 192; 256; 320; 384; 448] = repeat None 7
  | None => False
  end.
Proof. vm_compute. auto. Qed.
(** A second document is not touched. *)
Example C43_delete_other_ex : let d1 := ex_after ex_db ex_doc in let d2 := ex_after d1 (ex_nest 2) in
  match ex_delete d2 448 with
  | Some (d, rc) => rc = 0 /\ map (data_of (d_rec d)) [64; 128; 192; 256; 320; 384; 448] = repeat None 7 /\
      map (data_of (d_rec d)) [512; 576; 640; 704] = map (data_of (d_rec d2)) [512; 576; 640; 704] /\ data_of (d_rec d2) 704 <> None
  | None => False
  end.
Proof. vm_compute. split; [reflexivity|]. split; [reflexivity|]. split; [reflexivity|discriminate]. Qed.
(** Four nested objects are accepted, but deleting the document fails; its top record is left
    without its member and the rest stays. *)
Theorem C43_deep_refuted : ex_rc ex_db (ex_nest 4) = Some (0, 512) /\
  match ex_delete (ex_after ex_db (ex_nest 4)) 512 with
  | Some (d, rc) => rc = -1 /\ data_of (d_rec d) 512 = Some (META_DOC + META_OBJECT, [0]) /\ data_of (d_rec d) 64 <> None
  | None => False
  end.
Proof. vm_compute. split; [reflexivity|]. split; [reflexivity|]. split; [reflexivity|discriminate]. Qed.
(** A document in which a part is used twice can not be deleted. *)
Definition ex_shared : option (@rdb unit (list lit)) :=
  (* 64: the part, 128: the document *)
  match wg_set_field no_ix no_ix ex_field ex_field ex_ref ex_ref (ex_after ex_db (JArr [JArr []; ex_int])) 128 1 64 true with Some (d, 0) => Some d | _ => None end.
Theorem C43_shared_refuted : match ex_shared with
  | Some d => match ex_delete d 128 with Some (d', rc) => rc = -1 /\ data_of (d_rec d') 64 <> None | None => False end
  | None => False
  end.
Proof. vm_compute. split; [reflexivity|discriminate]. Qed.

(** ** wg_check_json *)
Definition check_json_spec (j : json) : Prop := match j with JArr _ | JObj _ => (nesting j < 7)%nat | _ => False end.
Lemma check_app a b n : check_callbacks n (a ++ b) = let (n', ok) := check_callbacks n a in if ok then check_callbacks n' b else (n', false).
Proof.
  revert n. induction a as [|e a IH]; intros n; cbn [app check_callbacks]; [reflexivity|]. destruct (check_callback n e) as (n' & [|]); [apply IH|reflexivity].
Qed.
Lemma check_ok j : forall n, 0 <= n -> (n + Z.of_nat (nesting j) < 7 -> check_callbacks n (events j) = (n, true)) /\ (n < 7 -> 7 <= n + Z.of_nat (nesting j) -> snd (check_callbacks n (events j)) = false).
Proof.
  induction j as [|b|l|l F|l F] using json_ind'; intros n Hn; cbn [nesting events].
  1-3: split; [reflexivity|lia].
  - cbn [check_callbacks check_callback]. destruct (Z.eqb_spec n (-1)); [lia|].
    assert (G : (n + 1 + Z.of_nat (list_max (map nesting l)) < 7 -> check_callbacks (n + 1) (flat_map events l) = (n + 1, true)) /\
      (n + 1 < 7 -> 7 <= n + 1 + Z.of_nat (list_max (map nesting l)) -> snd (check_callbacks (n + 1) (flat_map events l)) = false)).
    { induction F as [|j l Fj Fl IH]; cbn [flat_map map]; [split; [reflexivity|cbn; lia]|]. rewrite list_max_cons, check_app. destruct (Fj (n + 1)) as (A & B); [lia|]. destruct IH as (C & D). split; intros.
      - rewrite A by lia. apply C. lia.
      - destruct (Z.lt_ge_cases (n + 1 + Z.of_nat (nesting j)) 7) as [H1 | H1].
        + rewrite A by lia. apply D; lia.
        + specialize (B ltac:(lia) H1). destruct (check_callbacks (n + 1) (events j)) as (n' & ok). cbn [snd] in B. now subst ok. }
    change (Z.of_nat MAX_DEPTH) with 7. destruct G as (A & B). split; intros.
    + destruct (Z.leb_spec 7 (n + 1)); [lia|]. cbn [negb]. rewrite check_app, A by lia. cbn [check_callbacks check_callback]. f_equal. lia.
    + destruct (Z.leb_spec 7 (n + 1)); cbn [negb]; [reflexivity|]. rewrite check_app. specialize (B ltac:(lia) ltac:(lia)). destruct (check_callbacks (n + 1) _) as (n' & ok). cbn [snd] in B. now subst ok.
  - cbn [check_callbacks check_callback]. destruct (Z.eqb_spec n (-1)); [lia|].
    assert (G : (n + 1 + Z.of_nat (list_max (map (fun kj => nesting (snd kj)) l)) < 7 -> check_callbacks (n + 1) (flat_map (fun kj => EKey (fst kj) :: events (snd kj)) l) = (n + 1, true)) /\
      (n + 1 < 7 -> 7 <= n + 1 + Z.of_nat (list_max (map (fun kj => nesting (snd kj)) l)) -> snd (check_callbacks (n + 1) (flat_map (fun kj => EKey (fst kj) :: events (snd kj)) l)) = false)).
    { induction F as [|(k & j) l Fj Fl IH]; cbn [flat_map map]; [split; [reflexivity|cbn; lia]|]. rewrite list_max_cons. cbn [fst snd app check_callbacks check_callback] in *. rewrite check_app. destruct (Fj (n + 1)) as (A & B); [lia|]. destruct IH as (C & D). split; intros.
      - rewrite A by lia. apply C. lia.
      - destruct (Z.lt_ge_cases (n + 1 + Z.of_nat (nesting j)) 7) as [H1 | H1].
        + rewrite A by lia. apply D; lia.
        + specialize (B ltac:(lia) H1). destruct (check_callbacks (n + 1) (events j)) as (n' & ok). cbn [snd] in B. now subst ok. }
    change (Z.of_nat MAX_DEPTH) with 7. destruct G as (A & B). split; intros.
    + destruct (Z.leb_spec 7 (n + 1)); [lia|]. cbn [negb]. rewrite check_app, A by lia. cbn [check_callbacks check_callback]. f_equal. lia.
    + destruct (Z.leb_spec 7 (n + 1)); cbn [negb]; [reflexivity|]. rewrite check_app. specialize (B ltac:(lia) ltac:(lia)). destruct (check_callbacks (n + 1) _) as (n' & ok). cbn [snd] in B. now subst ok.
Qed.
(** wg_check_json accepts the arrays and objects of less than seven levels; the parser accepts seven. *)
Theorem C45_check j : wg_check_json (events j) true = 0 <-> check_json_spec j.
Proof.
  assert (S : forall a es, (a = EArrayBegin \/ a = EObjectBegin) -> check_callbacks (-1) (a :: es) = check_callbacks 0 (a :: es)) by (intros a es [-> | ->]; reflexivity).
  destruct j as [|b|l|l|l]; cbn [check_json_spec].
  1-3: split; [discriminate|contradiction].
  - unfold wg_check_json. destruct (check_ok (JArr l) 0 ltac:(lia)) as (A & B). cbn [events] in *. rewrite S by now left.
    destruct (Nat.lt_ge_cases (nesting (JArr l)) 7) as [H | H].
    + rewrite A by lia. cbn. tauto.
    + specialize (B ltac:(lia) ltac:(lia)). destruct (check_callbacks _ _) as (n & ok). cbn [snd] in B. subst ok. cbn [negb orb]. split; [discriminate|lia].
  - unfold wg_check_json. destruct (check_ok (JObj l) 0 ltac:(lia)) as (A & B). cbn [events] in *. rewrite S by now right.
    destruct (Nat.lt_ge_cases (nesting (JObj l)) 7) as [H | H].
    + rewrite A by lia. cbn. tauto.
    + specialize (B ltac:(lia) ltac:(lia)). destruct (check_callbacks _ _) as (n & ok). cbn [snd] in B. subst ok. cbn [negb orb]. split; [discriminate|lia].
Qed.
Print Assumptions C45_check.
Example C45_check_ex : wg_check_json (events (ex_deep 6)) true = 0 /\ wg_check_json (events (ex_deep 7)) true = -1 /\ ex_rc ex_db (ex_deep 7) = Some (0, 448).
Proof. vm_compute. auto. Qed.
