(** The document query finds the documents with a matching part for each argument. *)
From Coq Require Import ZArith List Bool Lia Permutation.
From Verif Require Import Base EncodingModel RecordModel RecordProofs SchemaModel SchemaProofs SchemaTree ResultModel ResultProofs ResultProps JsonQueryModel.
Import ListNotations.
Open Scope Z_scope.
#[local] Ltac Zify.zify_post_hook ::= idtac.

(** A record has the given key and value: fields 1 and 2, where an array as the value stands for
    its elements too. *)
Definition pair_matches (m : rmap) (equal : Z -> Z -> bool) (o k v : Z) : Prop :=
  exists meta fs, data_of m o = Some (meta, fs) /\ (2 < length fs)%nat /\ equal (nth 1 fs 0) k = true /\
    (equal (nth 2 fs 0) v = true \/
     is_record_ref (nth 2 fs 0) = true /\ exists ameta afs, data_of m (nth 2 fs 0) = Some (ameta, afs) /\
       Z.land ameta META_ARRAY <> 0 /\ exists x, In x afs /\ equal x v = true).

(** Documents: each a tree of records under a record marked as document, no tree higher than
    seven, no part marked as document and none referred to from outside. *)
Record collection (m : rmap) (coll : list tree) : Prop := {
  c_ri : RI m;
  c_wf : Forall wf coll;
  c_holds : holds m (flat_map recs coll);
  c_nodup : NoDup (nodes_all coll);
  c_height : Forall (fun t => (height t <= 7)%nat) coll;
  c_top : forall t, In t coll -> exists meta fs, data_of m (root t) = Some (meta, fs) /\ Z.land meta META_DOC <> 0;
  c_inner : forall t x, In t coll -> In x (tl (recs t)) -> Z.land (fst (snd x)) META_DOC = 0;
  c_outer : forall t p c, In t coll -> In c (tl (nodes t)) -> ~ In p (nodes t) -> refs m p c = 0 }.

Section Steps.
Variable m : rmap.
Variable equal : Z -> Z -> bool.
Hypothesis R : RI m.

Definition valueb (k v : Z) : bool :=
  equal k v || (is_record_ref k && match m k with Some ar => is_schema_array ar && existsb (fun x => equal x v) (r_fields ar) | None => false end).
Definition pairb (o : Z) (a : arg) : bool :=
  match m o with
  | Some r => (2 <? reclen r) && equal (field r 1) (a_key a) && valueb (field r 2) (a_value a)
  | None => false
  end.
Lemma valueb_spec k v : valueb k v = true <-> (equal k v = true \/
  is_record_ref k = true /\ exists ameta afs, data_of m k = Some (ameta, afs) /\ Z.land ameta META_ARRAY <> 0 /\ exists x, In x afs /\ equal x v = true).
Proof.
  unfold valueb. rewrite orb_true_iff, andb_true_iff. apply or_iff_compat_l. apply and_iff_compat_l. unfold data_of. destruct (m k) as [ar|].
  - rewrite andb_true_iff, existsb_exists. unfold is_schema_array, has_meta. rewrite negb_true_iff, Z.eqb_neq. split.
    + intros (A & x & B). exists (r_meta ar), (r_fields ar). split; [reflexivity|]. split; [exact A|]. exists x. exact B.
    + intros (am & af & E & A & B). injection E as <- <-. auto.
  - split; [discriminate|]. intros (am & af & E & _). discriminate E.
Qed.
Lemma pairb_spec o a : pairb o a = true <-> pair_matches m equal o (a_key a) (a_value a).
Proof.
  unfold pairb, pair_matches, data_of, reclen, field. destruct (m o) as [r|].
  - rewrite !andb_true_iff, valueb_spec, Z.ltb_lt. split.
    + intros ((L & K) & Q). exists (r_meta r), (r_fields r). split; [reflexivity|]. split; [lia|]. split; [exact K|exact Q].
    + intros (meta & fs & E & L & K & Q). assert (fs = r_fields r) by congruence. subst fs. split; [split; [lia|exact K]|exact Q].
  - split; [discriminate|]. intros (meta & fs & E & _). discriminate E.
Qed.

(** One step: the document is appended, or memory is short. *)
Definition steps (mp : Z -> bool) (f : Z -> step) (o : Z) (want : option Z) : Prop := forall ns l, srep ns l ->
  match want with
  | None => f o ns = Some (ns, 0)
  | Some doc => exists ns' rc, f o ns = Some (ns', rc) /\ ((rc = 1 /\ srep ns' (l ++ [doc])) \/ (rc = -1 /\ exists n, mp n = false))
  end.
Lemma add_steps mp o doc : wg_find_document m o = Some doc -> doc <> 0 -> steps mp (add_doc m mp) o (Some doc).
Proof.
  intros F N ns l H. unfold add_doc. rewrite F. destruct (Z.eqb_spec doc 0); [contradiction|].
  destruct (srep_append mp ns l doc H) as [(E & S) | (E & S)]; destruct (append_resultset mp ns doc) as [ns' e]; cbn [fst snd] in *; subst e; cbn [Z.eqb]; eauto 6.
Qed.
Lemma value_steps mp o r a doc : m o = Some r -> 2 < reclen r -> (valueb (field r 2) (a_value a) = true -> wg_find_document m o = Some doc /\ doc <> 0) ->
  steps mp (fun o => check_value m equal mp o r a) o (if valueb (field r 2) (a_value a) then Some doc else None).
Proof.
  intros E L F ns l H. unfold check_value. change WG_SCHEMA_VALUE_OFFSET with 2. unfold valueb in *. destruct (equal (field r 2) (a_value a)).
  - cbn [orb] in *. destruct (F eq_refl) as (F1 & F2). exact (add_steps mp o doc F1 F2 ns l H).
  - cbn [orb] in *. destruct (is_record_ref (field r 2)) eqn:Er; [|reflexivity]. cbn [andb] in *. unfold array_unwrap.
    change (wg_decode_record (field r 2)) with (field r 2).
    destruct (RI_live m o r (field r 2) R E) as (q & Q); [|exact Er|].
    { unfold field. apply nth_In. unfold reclen in L. lia. }
    rewrite Q in *. destruct (is_schema_array q && existsb (fun x => equal x (a_value a)) (r_fields q)); [|reflexivity].
    destruct (F eq_refl) as (F1 & F2). exact (add_steps mp o doc F1 F2 ns l H).
Qed.
Lemma kv_steps mp o a doc : m o <> None -> (pairb o a = true -> wg_find_document m o = Some doc /\ doc <> 0) ->
  steps mp (check_and_merge_by_kv m equal mp a) o (if pairb o a then Some doc else None).
Proof.
  intros E F ns l H. unfold check_and_merge_by_kv, pairb in *. destruct (m o) as [r|] eqn:Er; [|congruence].
  change WG_SCHEMA_VALUE_OFFSET with 2. change WG_SCHEMA_KEY_OFFSET with 1. destruct (Z.ltb_spec 2 (reclen r)); [|reflexivity]. cbn [andb] in *.
  destruct (equal (field r 1) (a_key a)); [|reflexivity]. cbn [andb] in *. exact (value_steps mp o r a doc Er H0 F ns l H).
Qed.
Lemma key_steps mp o a doc : (exists r, m o = Some r /\ equal (field r 1) (a_key a) = true) -> (pairb o a = true -> wg_find_document m o = Some doc /\ doc <> 0) ->
  steps mp (check_and_merge_by_key m equal mp a) o (if pairb o a then Some doc else None).
Proof.
  intros (r & Er & K) F ns l H. unfold check_and_merge_by_key, pairb in *. rewrite Er in *. rewrite K in *.
  change WG_SCHEMA_VALUE_OFFSET with 2. destruct (Z.ltb_spec 2 (reclen r)); [|reflexivity]. cbn [andb] in *. exact (value_steps mp o r a doc Er H0 F ns l H).
Qed.

(** Scanning a tree. *)
Definition treeb (t : tree) (a : arg) : bool := existsb (fun o => pairb o a) (nodes t).
Lemma treeb_spec t a : treeb t a = true <-> exists o, In o (nodes t) /\ pair_matches m equal o (a_key a) (a_value a).
Proof. unfold treeb. rewrite existsb_exists. split; intros (o & A & B); exists o; (split; [exact A|]); now apply pairb_spec. Qed.
Lemma tree_steps mp a doc : doc <> 0 -> forall t n, wf t -> holds m (recs t) -> (height t <= n)%nat ->
  (forall o, In o (nodes t) -> wg_find_document m o = Some doc) ->
  steps mp (check_and_merge_recursively m equal mp a n) (root t) (if treeb t a then Some doc else None).
Proof.
  intros Nd. induction t as [o meta fs kids IH] using tree_ind'. intros n W H Hh F ns l Hs. cbn [wf] in W. destruct W as (Hf & W). rewrite fold_and in W.
  cbn [height] in Hh. destruct n as [|n]; [lia|]. cbn [root].
  pose proof (H (o, (meta, fs)) (or_introl eq_refl)) as Do. cbn [fst snd] in Do. destruct (data_some _ _ _ Do) as (r & Er & _ & Rf). cbn [snd] in Rf.
  cbn [check_and_merge_recursively].
  assert (K := kv_steps mp o a doc ltac:(congruence) ltac:(intros _; split; [apply F; rewrite nodes_Tn; now left|exact Nd]) ns l Hs).
  unfold treeb. rewrite nodes_Tn. cbn [existsb]. destruct (pairb o a) eqn:Ep; cbn [orb].
  - destruct K as (ns' & rc & -> & Q). exists ns', rc. split; [|exact Q]. destruct Q as [(-> & _) | (-> & _)]; reflexivity.
  - rewrite K. cbn [Z.eqb negb]. rewrite Er, Rf. clear K Do Er Ep.
    assert (Hk : Forall (fun t => (height t <= n)%nat) kids) by (apply list_max_le'; lia).
    assert (Hr : holds m (flat_map recs kids)) by (intros x Hx; apply H; now right).
    assert (Fk : forall x, In x (nodes_all kids) -> wg_find_document m x = Some doc) by (intros x Hx; apply F; rewrite nodes_Tn; now right).
    clear Rf H F Hh r. revert kids IH Hf W Hk Hr Fk. induction fs as [|f fs IHf]; intros kids IH Hf W Hk Hr Fk.
    + cbn [filter] in Hf. destruct kids; [|discriminate Hf]. reflexivity.
    + cbn [filter] in Hf. destruct (is_record_ref f) eqn:Ef.
      * destruct kids as [|k kids]; [discriminate Hf|]. cbn [map] in Hf. assert (E1 : f = root k) by congruence. assert (E2 : filter is_record_ref fs = map root kids) by congruence.
        change (wg_decode_record f) with f. rewrite E1. inversion IH as [|? ? I1 I2]; subst. inversion W as [|? ? W1 W2]; subst. inversion Hk as [|? ? K1 K2]; subst.
        assert (Q := I1 n W1 ltac:(intros x Hx; apply Hr; cbn [flat_map]; apply in_or_app; now left) K1 ltac:(intros x Hx; apply Fk; unfold nodes_all; cbn [flat_map]; apply in_or_app; now left) ns l Hs).
        unfold nodes_all. cbn [flat_map]. rewrite existsb_app. fold (treeb k a). destruct (treeb k a); cbn [orb].
        -- destruct Q as (ns' & rc & -> & Q). exists ns', rc. split; [|exact Q]. destruct Q as [(-> & _) | (-> & _)]; reflexivity.
        -- rewrite Q. cbn [Z.eqb negb]. apply (IHf kids); auto.
           ++ intros x Hx. apply Hr. cbn [flat_map]. apply in_or_app. now right.
           ++ intros x Hx. apply Fk. unfold nodes_all. cbn [flat_map]. apply in_or_app. now right.
      * apply (IHf kids); auto.
Qed.

(** Loops. *)
Definition opt_list (x : option Z) : list Z := match x with Some d => [d] | None => [] end.
Lemma loop_steps mp f (want : Z -> option Z) : forall rows, (forall o, In o rows -> steps mp f o (want o)) -> forall ns l, srep ns l ->
  exists x, loop f rows ns = Some x /\ match x with Some ns' => srep ns' (l ++ flat_map (fun o => opt_list (want o)) rows) | None => exists n, mp n = false end.
Proof.
  induction rows as [|o rows IH]; intros F ns l H; cbn [loop flat_map].
  - exists (Some ns). split; [reflexivity|]. now rewrite app_nil_r.
  - pose proof (F o (or_introl eq_refl) ns l H) as Q. assert (F' : forall o, In o rows -> steps mp f o (want o)) by (intros; apply F; now right).
    destruct (want o) as [doc|]; cbn [opt_list].
    + destruct Q as (ns' & rc & -> & [(-> & Q) | (-> & Q)]).
      * change (1 <? 0) with false. destruct (IH F' ns' _ Q) as (x & E & X). exists x. split; [exact E|]. destruct x; [|exact X]. rewrite <- app_assoc in X. exact X.
      * change (-1 <? 0) with true. exists None. auto.
    + rewrite Q. change (0 <? 0) with false. exact (IH F' ns l H).
Qed.
Lemma loop_set_loop f l : ~ In 0 l -> forall fuel s k ns, srep s l -> at_ s (Z.of_nat k) -> (k <= length l)%nat -> (length l - k < fuel)%nat ->
  loop_set f fuel s ns = loop f (skipn k l) ns.
Proof.
  intros Nz. induction fuel as [|n IH]; intros s k ns H A Hk Hf; [lia|]. cbn [loop_set].
  destruct (fetch_at s l k H Nz A) as [F1 F2]. destruct (Nat.eq_dec k (length l)) as [E|E].
  - destruct (F2 E) as (s' & -> & H'). cbn [Z.eqb]. rewrite skipn_all2 by lia. reflexivity.
  - destruct F1 as (s' & -> & H' & A' & N0); [lia|]. destruct (Z.eqb_spec (nth k l 0) 0); [contradiction|].
    rewrite (skipn_nth l k) by lia. cbn [loop]. destruct (f (nth k l 0) ns) as [(ns' & rc)|]; [|reflexivity]. destruct (rc <? 0); [reflexivity|].
    apply IH; auto; lia.
Qed.
End Steps.

Lemma collection_find m coll : collection m coll -> forall t o, In t coll -> In o (nodes t) -> wg_find_document m o = Some (root t) /\ root t <> 0.
Proof.
  intros C t o Ht Ho. destruct (c_top _ _ C t Ht) as (meta & fs & Dt & Dd). destruct (data_some _ _ _ Dt) as (r & Er & Em & _). cbn [fst] in Em.
  assert (Nd : root t <> 0). { intros Q. pose proof (RI_ref _ _ _ (c_ri _ _ C) Dt) as X. rewrite Q in X. discriminate X. }
  split; [|exact Nd]. assert (Hw := c_wf _ _ C). rewrite Forall_forall in Hw. assert (Hh := c_height _ _ C). rewrite Forall_forall in Hh.
  unfold wg_find_document. apply (tree_find m (root t) (c_ri _ _ C) Nd t 0); auto.
  - intros x Hx. apply (c_holds _ _ C). apply in_flat_map. eauto.
  - pose proof (c_nodup _ _ C) as D. apply in_split in Ht. destruct Ht as (a & b & ->). unfold nodes_all in D. rewrite flat_map_app in D. apply NoDup_app_inv in D. destruct D as (_ & D & _).
    cbn [flat_map] in D. apply NoDup_app_inv in D. apply D.
  - intros p c Hc Hp. apply (c_outer _ _ C t); auto.
  - intros x Hx. apply (c_inner _ _ C t); auto.
  - intros n _. destruct n; cbn [find_document_recursive]; rewrite Er; unfold is_schema_document, has_meta; rewrite Em; (destruct (Z.eqb_spec (Z.land meta META_DOC) 0); [contradiction|reflexivity]).
  - specialize (Hh t Ht). cbn. lia.
Qed.

Section Run.
Variable m : rmap.
Variable equal : Z -> Z -> bool.
Variable all_records : list Z.
Variable hash_id value_id key_id : Z.
Variable search_hash : Z -> Z -> list Z.
Variable key_rows : Z -> list Z.
Variable malloc_sorted malloc_query : bool.
Variable coll : list tree.
Variable args : list arg.
Variable N : Z.
Hypothesis C : collection m coll.
Hypothesis all_in : forall o, In o (nodes_all coll) -> In o all_records.
Hypothesis all_live : forall o, In o all_records -> m o <> None.
Hypothesis outside : forall o a, In o all_records -> ~ In o (nodes_all coll) -> In a args -> ~ pair_matches m equal o (a_key a) (a_value a).
Hypothesis hash_ok : 0 < hash_id -> forall a, In a args -> is_record_ref (a_value a) = false ->
  forall o, In o (search_hash (a_key a) (a_value a)) <-> In o all_records /\ pair_matches m equal o (a_key a) (a_value a).
Hypothesis key_ok : 0 < key_id -> forall a, In a args ->
  forall o, In o (key_rows (a_key a)) <-> In o all_records /\ exists meta fs, data_of m o = Some (meta, fs) /\ (1 < length fs)%nat /\ equal (nth 1 fs 0) (a_key a) = true.
Notation pairb := (pairb m equal).
Notation treeb := (treeb m equal).
Notation clause := (clause m equal all_records hash_id search_hash key_rows).
Notation clauses := (clauses m equal all_records hash_id search_hash key_rows).

Definition hit (a : arg) (d : Z) : Prop := exists t, In t coll /\ root t = d /\ treeb t a = true.
Definition want (a : arg) (o : Z) : option Z := if pairb o a then match wg_find_document m o with Some d => Some d | None => None end else None.

Lemma owner a o : In a args -> In o all_records -> pairb o a = true -> exists t, In t coll /\ In o (nodes t) /\ wg_find_document m o = Some (root t) /\ root t <> 0.
Proof.
  intros Ha Ho P. destruct (in_dec Z.eq_dec o (nodes_all coll)) as [I | I].
  - unfold nodes_all in I. apply in_flat_map in I. destruct I as (t & Ht & I). exists t. split; [exact Ht|]. split; [exact I|]. now apply (collection_find m coll).
  - exfalso. apply (outside o a Ho I Ha). now apply pairb_spec.
Qed.
Lemma find_ok a o : In a args -> In o all_records -> pairb o a = true -> exists d, wg_find_document m o = Some d /\ d <> 0.
Proof. intros Ha Ho P. destruct (owner a o Ha Ho P) as (t & _ & _ & E & Q). eauto. Qed.
(** The documents of the matching rows. *)
Lemma want_hit a rows : In a args -> (forall o, In o all_records -> pairb o a = true -> In o rows) -> (forall o, In o rows -> In o all_records) ->
  forall d, In d (flat_map (fun o => opt_list (want a o)) rows) <-> hit a d.
Proof.
  intros Ha Hr Hi d. rewrite in_flat_map. split.
  - intros (o & Ho & Q). unfold want in Q. destruct (pairb o a) eqn:P; [|destruct Q]. destruct (owner a o Ha (Hi o Ho) P) as (t & Ht & No & E & _). rewrite E in Q. cbn [opt_list] in Q. destruct Q as [<- | []].
    exists t. split; [exact Ht|]. split; [reflexivity|]. unfold treeb. apply existsb_exists. eauto.
  - intros (t & Ht & <- & Q). unfold treeb in Q. apply existsb_exists in Q. destruct Q as (o & No & P).
    assert (Ho : In o all_records) by (apply all_in; unfold nodes_all; apply in_flat_map; eauto). exists o. split; [now apply Hr|]. unfold want. rewrite P.
    destruct (collection_find m coll C t o Ht No) as (E & _). rewrite E. now left.
Qed.
Lemma want_len a rows : (length (flat_map (fun o => opt_list (want a o)) rows) <= length rows)%nat.
Proof. induction rows as [|o rows IH]; cbn [flat_map length]; [lia|]. rewrite app_length. destruct (want a o); cbn [opt_list length]; lia. Qed.
Lemma want_steps mp f a o : In a args -> In o all_records -> (forall doc, (pairb o a = true -> wg_find_document m o = Some doc /\ doc <> 0) -> steps mp f o (if pairb o a then Some doc else None)) ->
  steps mp f o (want a o).
Proof.
  intros Ha Ho F. unfold want. destruct (pairb o a) eqn:P.
  - destruct (find_ok a o Ha Ho P) as (d & E & Nd). rewrite E. apply (F d). auto.
  - apply (F 0). discriminate.
Qed.
Lemma root_inj t u : In t coll -> In u coll -> root t = root u -> t = u.
Proof.
  pose proof (c_nodup _ _ C) as D. clear - D. induction coll as [|x l IH]; [intros []|]. unfold nodes_all in D. cbn [flat_map] in D. apply NoDup_app_inv in D. destruct D as (_ & D & X).
  intros [<- | Ht] [<- | Hu] E; auto.
  - exfalso. apply (X (root u)); [rewrite <- E; apply root_in|now apply roots_in].
  - exfalso. apply (X (root t)); [rewrite E; apply root_in|now apply roots_in].
Qed.

(** The rows of each argument are not more than [N]. *)
Definition small : Prop := Z.of_nat (length all_records) <= N /\
  (0 < hash_id -> forall a, In a args -> Z.of_nat (length (search_hash (a_key a) (a_value a))) <= N) /\
  (0 < key_id -> forall a, In a args -> Z.of_nat (length (key_rows (a_key a))) <= N).
Definition cur_ok (curr : option rset) (lc : list Z) : Prop :=
  match curr with
  | Some s => srep s lc /\ NoDup lc /\ forall d, In d lc -> exists t, In t coll /\ root t = d
  | None => True
  end.
Lemma cur_len curr lc : cur_ok curr lc -> curr <> None -> small -> Z.of_nat (length lc) <= N.
Proof.
  destruct curr as [s|]; [|congruence]. intros (_ & D & H) _ (Hs & _). assert (length lc <= length all_records)%nat; [|lia]. apply NoDup_incl_length; [exact D|].
  intros d Hd. destruct (H d Hd) as (t & Ht & <-). apply all_in. now apply roots_in.
Qed.
Lemma cur_nz curr lc : cur_ok curr lc -> curr <> None -> ~ In 0 lc.
Proof.
  destruct curr as [s|]; [|congruence]. intros (_ & _ & H) _ Q. destruct (H 0 Q) as (t & Ht & E). apply (proj2 (collection_find m coll C t (root t) Ht (root_in t))). exact E.
Qed.

Lemma clause_spec mp kindex a curr lc : In a args -> (kindex = -1 \/ kindex = key_id) -> cur_ok curr lc ->
  exists x curr', clause mp kindex a curr = (Some x, curr') /\ (curr' = curr \/ curr' = None) /\
    match x with
    | None => exists n, mp n = false
    | Some ns => exists l, srep ns l /\ (small -> Z.of_nat (length l) <= N) /\
        forall d, In d l <-> hit a d /\ (curr' = None -> curr <> None -> In d lc)
    end.
Proof.
  intros Ha Hk Hc. unfold JsonQueryModel.clause. cbv zeta.
  assert (Fin : forall rows f, (forall o, In o rows -> In o all_records) -> (forall o, In o all_records -> pairb o a = true -> In o rows) ->
    (forall o, In o rows -> steps mp f o (want a o)) -> (small -> Z.of_nat (length rows) <= N) ->
    exists x, loop f rows create_resultset = Some x /\ match x with
    | None => exists n, mp n = false
    | Some ns => exists l, srep ns l /\ (small -> Z.of_nat (length l) <= N) /\ forall d, In d l <-> hit a d end).
  { intros rows f H1 H2 H3 H4. destruct (loop_steps mp f (want a) rows H3 _ _ srep_create) as (x & E & X). exists x. split; [exact E|]. destruct x as [ns|]; [|exact X].
    cbn [app] in X. eexists. split; [exact X|]. split; [|apply want_hit; auto]. intros S. specialize (H4 S). pose proof (want_len a rows). lia. }
  destruct (Z.ltb_spec 0 hash_id) as [Hh | Hh]; [destruct (is_record_ref (a_value a)) eqn:Er|]; cbn [andb negb].
  2: { destruct (Fin (search_hash (a_key a) (a_value a)) (add_doc m mp)) as (x & E & X).
    - intros o Ho. now apply (hash_ok Hh a Ha Er).
    - intros o Ho P. apply (hash_ok Hh a Ha Er). split; [exact Ho|]. now apply pairb_spec.
    - intros o Ho. apply (hash_ok Hh a Ha Er) in Ho. destruct Ho as (Ho & P). apply (pairb_spec m equal o a) in P. apply want_steps; auto. intros doc Q. rewrite P in *. destruct (Q eq_refl). now apply add_steps.
    - intros (_ & S & _). now apply S.
    - exists x, curr. rewrite E. split; [reflexivity|]. split; [now left|]. destruct x; [|exact X]. destruct X as (l & X1 & X2 & X3). exists l. split; [exact X1|]. split; [exact X2|]. intros d. rewrite X3.
      split; [|tauto]. intros H. split; [exact H|]. intros -> Q. congruence. }
  all: destruct (Z.ltb_spec 0 kindex) as [Hki | Hki].
  1,3: destruct Hk as [-> | ->]; [discriminate Hki|]; destruct (Fin (key_rows (a_key a)) (check_and_merge_by_key m equal mp a)) as (x & E & X);
    [intros o Ho; now apply (key_ok Hki a Ha)| | |intros (_ & _ & S); now apply S|].
  1,4: intros o Ho P; apply (key_ok Hki a Ha); split; [exact Ho|]; apply pairb_spec in P; destruct P as (meta & fs & D & L & K & _); exists meta, fs; split; [exact D|]; split; [lia|exact K].
  1,3: intros o Ho; apply (key_ok Hki a Ha) in Ho; destruct Ho as (Ho & meta & fs & D & L & K); apply want_steps; auto; intros doc Q; apply key_steps; auto; [exact (c_ri _ _ C)|];
    destruct (data_some _ _ _ D) as (r & Er' & _ & Rf); exists r; split; [exact Er'|]; unfold field; rewrite Rf; exact K.
  1,2: exists x, curr; rewrite E; split; [reflexivity|]; split; [now left|]; destruct x; [|exact X]; destruct X as (l & X1 & X2 & X3); exists l; split; [exact X1|]; split; [exact X2|]; intros d; rewrite X3;
      split; [|tauto]; intros H; split; [exact H|]; intros -> Q; congruence.
  all: destruct curr as [s|].
  1,3: assert (Nz := cur_nz _ _ Hc ltac:(discriminate)); assert (Hl := cur_len _ _ Hc ltac:(discriminate)); destruct Hc as (Hs & D & Hd); destruct (srep_rewind s lc Hs) as (Hs0 & A0);
    rewrite (loop_set_loop _ lc Nz (slots s) (rewind_resultset s) 0 _ Hs0 A0); [|lia|pose proof (slots_len s lc Hs); lia]; rewrite skipn_O;
    (destruct (loop_steps mp (check_and_merge_recursively m equal mp a WG_COMPARE_REC_DEPTH) (fun d => if existsb (fun t => (root t =? d) && treeb t a) coll then Some d else None) lc) with (ns := create_resultset) (l := @nil Z) as (x & E & X);
    [|apply srep_create|]).
  1,3: intros d Hd'; destruct (Hd d Hd') as (t & Ht & Et); assert (Q : existsb (fun t => (root t =? d) && treeb t a) coll = treeb t a);
    [|rewrite Q; subst d; apply (tree_steps m equal (c_ri _ _ C) mp a (root t));
      [apply (collection_find m coll C t (root t) Ht (root_in t))|pose proof (c_wf _ _ C) as W; rewrite Forall_forall in W; now apply W|
       intros y Hy; apply (c_holds _ _ C); apply in_flat_map; eauto|pose proof (c_height _ _ C) as W; rewrite Forall_forall in W; now apply W|
       intros o Ho; now apply (collection_find m coll C t o Ht Ho)]].
  1,2: destruct (treeb t a) eqn:Q;
    [apply existsb_exists; exists t; split; [exact Ht|]; rewrite Et, Z.eqb_refl, Q; reflexivity|];
    (destruct (existsb _ coll) eqn:Q2; [|reflexivity]); apply existsb_exists in Q2; destruct Q2 as (u & Hu & Q2); apply andb_true_iff in Q2; destruct Q2 as (Q2 & Q3); apply Z.eqb_eq in Q2;
    assert (u = t) by (apply root_inj; congruence); congruence.
  1,2: exists x, None; rewrite E; split; [reflexivity|]; split; [now right|]; destruct x as [ns|]; [|exact X]; cbn [app] in X; eexists; split; [exact X|]; split.
  1,3: intros S; specialize (Hl S); assert (L : (length (flat_map (fun d => opt_list (if existsb (fun t => (root t =? d)%Z && treeb t a) coll then Some d else None)) lc) <= length lc)%nat); [|lia];
    clear; induction lc as [|d l IH]; cbn [flat_map length]; [lia|]; rewrite app_length; destruct (existsb _ coll); cbn [opt_list length]; lia.
  1,2: intros d; rewrite in_flat_map; split;
    [intros (y & Hy & Q); (destruct (existsb _ coll) eqn:Q2; [|destruct Q]); cbn [opt_list] in Q; destruct Q as [-> | []]; apply existsb_exists in Q2; destruct Q2 as (u & Hu & Q2); apply andb_true_iff in Q2; destruct Q2 as (Q2 & Q3); apply Z.eqb_eq in Q2;
     split; [exists u; auto|intros _ _; exact Hy]
    |intros ((t & Ht & Et & Q) & Hy); exists d; split; [apply Hy; [reflexivity|discriminate]|]; (destruct (existsb _ coll) eqn:Q2; [now left|]);
     exfalso; assert (Q3 : existsb (fun t => (root t =? d) && treeb t a) coll = true) by (apply existsb_exists; exists t; rewrite Et, Z.eqb_refl, Q; auto); congruence].
  all: destruct (Fin all_records (check_and_merge_by_kv m equal mp a)) as (x & E & X); [auto|auto| |intros (S & _); exact S|].
  1,3: intros o Ho; apply want_steps; auto; intros doc Q; apply kv_steps; auto; exact (c_ri _ _ C).
  all: exists x, None; rewrite E; split; [reflexivity|]; split; [now left|]; destruct x; [|exact X]; destruct X as (l & X1 & X2 & X3); exists l; split; [exact X1|]; split; [exact X2|]; intros d; rewrite X3; split; [|tauto]; intros H; split; [exact H|]; congruence.
Qed.

(** The loop over the arguments. *)
Definition all_hit (as_ : list arg) (d : Z) : Prop := exists t, In t coll /\ root t = d /\ Forall (fun a => treeb t a = true) as_.
Definition mem (mp : nat -> nat -> Z -> bool) : Prop := forall i j n, mp i j n = true.
Lemma clauses_spec mp kindex : (kindex = -1 \/ kindex = key_id) -> forall as_ i done curr lc, incl as_ args ->
  match curr with Some s => srep s lc /\ NoDup lc /\ (forall d, In d lc <-> all_hit done d) | None => done = [] end ->
  exists x, clauses mp kindex i as_ curr = Some x /\
    match x with
    | Some (Some r) => exists l, srep r l /\ NoDup l /\ forall d, In d l <-> all_hit (done ++ as_) d
    | Some None => done ++ as_ = []
    | None => mem mp -> small -> N <= 201326611 -> False
    end.
Proof.
  intros Hk. induction as_ as [|a as_ IH]; intros i done curr lc Hi Hc; cbn [JsonQueryModel.clauses].
  - exists (Some curr). split; [reflexivity|]. rewrite app_nil_r. destruct curr as [s|]; [|exact Hc]. eauto.
  - assert (Ha : In a args) by (apply Hi; now left). assert (Hi' : incl as_ args) by (intros y Hy; apply Hi; now right).
    assert (Cc : cur_ok curr lc). { destruct curr as [s|]; [|exact Logic.I]. destruct Hc as (A & B & D). split; [exact A|]. split; [exact B|]. intros d Hd. apply D in Hd. destruct Hd as (t & Ht & E & _). eauto. }
    destruct (clause_spec (mp i 0%nat) kindex a curr lc Ha Hk Cc) as (x & curr' & E & Hcur & X). rewrite E.
    destruct x as [ns|].
    2: { exists None. split; [reflexivity|]. intros Hm _ _. destruct X as (n & X). rewrite Hm in X. discriminate. }
    destruct X as (l & Hs & Hl & Hd).
    assert (Nz : ~ In 0 l). { intros Q. apply Hd in Q. destruct Q as ((t & Ht & E0 & _) & _). apply (proj2 (collection_find m coll C t (root t) Ht (root_in t))). exact E0. }
    destruct (unique_resultset (mp i 1%nat) ns) as [us|] eqn:U.
    2: { exists None. split; [reflexivity|]. intros Hm S HN. specialize (Hl S). destruct (C29_succeeds (mp i 1%nat) ns ns l l Hs Hs Nz Nz (Hm i 1%nat)) as (_ & Q); [lia|lia|]. contradiction. }
    destruct (C29_unique _ _ _ _ Hs Nz U) as (Hu & Du & Iu). set (lu := keep_first l) in *.
    assert (Nzu : ~ In 0 lu) by (rewrite Iu; exact Nz).
    assert (Step : forall d, all_hit (done ++ [a]) d <-> hit a d /\ all_hit done d).
    { intros d. unfold all_hit, hit. split.
      - intros (t & Ht & E0 & F). apply Forall_app in F. destruct F as (F1 & F2). inversion F2; subst. split; exists t; auto.
      - intros ((t & Ht & E0 & F) & (u & Hu' & E1 & F1)). assert (u = t) by (apply root_inj; congruence). subst u. exists t. split; [exact Ht|]. split; [exact E0|]. apply Forall_app. auto. }
    assert (App : done ++ a :: as_ = (done ++ [a]) ++ as_) by (rewrite <- app_assoc; reflexivity). rewrite App.
    destruct curr' as [c|].
    + destruct Hcur as [<- | Q]; [|discriminate Q]. destruct Hc as (Hc1 & Hc2 & Hc3).
      assert (Nzc : ~ In 0 lc) by (apply (cur_nz _ _ Cc); discriminate).
      destruct (intersect_resultset (mp i 2%nat) c us) as [r|] eqn:T.
      * destruct (C29_intersection _ _ _ _ _ _ Hc1 Hu Nzc Nzu T) as (l2 & R2 & I2 & D2 & _).
        apply (IH (S i) (done ++ [a]) (Some r) l2 Hi'). split; [exact R2|]. split; [now apply D2|]. intros d. rewrite I2, Iu, Hd, Hc3, Step. split; [tauto|]. intros (A & B). split; [exact B|]. split; [exact A|]. discriminate.
      * exists None. split; [reflexivity|]. intros Hm S HN. pose proof (cur_len _ _ Cc ltac:(discriminate) S) as L1. specialize (Hl S).
        assert (L2 : (length lu <= length l)%nat) by (apply NoDup_incl_length; [exact Du|intros y Hy; now apply Iu]).
        destruct (C29_succeeds (mp i 2%nat) c us lc lu Hc1 Hu Nzc Nzu (Hm i 2%nat)) as (Q & _); [lia|lia|]. contradiction.
    + apply (IH (S i) (done ++ [a]) (Some us) lu Hi'). split; [exact Hu|]. split; [exact Du|]. intros d. rewrite Iu, Hd, Step. destruct curr as [s|].
      * destruct Hc as (_ & _ & Hc3). rewrite <- Hc3. split; [|tauto]. intros (A & B). split; [exact A|]. apply B; [reflexivity|discriminate].
      * subst done. split.
        -- intros (A & _). split; [exact A|]. destruct A as (t & Ht & E0 & _). exists t. auto.
        -- intros (A & _). split; [exact A|]. congruence.
Qed.
End Run.
