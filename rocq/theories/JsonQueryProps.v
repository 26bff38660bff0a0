(** Property C50: document queries. *)
From Coq Require Import ZArith List Bool Lia Permutation.
From Verif Require Import Base EncodingModel RecordModel RecordProofs SchemaModel SchemaProofs SchemaTree ResultModel ResultProofs ResultProps JsonModel JsonProofs JsonProps JsonQueryModel JsonQueryProofs.
Import ListNotations.
Open Scope Z_scope.
#[local] Ltac Zify.zify_post_hook ::= idtac.

(** The indexes that exist, and what they deliver. *)
Record indexes := Ix { hash_id : Z; value_id : Z; key_id : Z; search_hash : Z -> Z -> list Z; key_rows : Z -> list Z }.
(** The hash index holds the records with the key and value asked for (C27), the index on keys
    the records with the key (C24). *)
Definition exact (m : rmap) (equal : Z -> Z -> bool) (all : list Z) (args : list arg) (ix : indexes) : Prop :=
  (0 < hash_id ix -> forall a, In a args -> is_record_ref (a_value a) = false ->
     forall o, In o (search_hash ix (a_key a) (a_value a)) <-> In o all /\ pair_matches m equal o (a_key a) (a_value a)) /\
  (0 < key_id ix -> forall a, In a args ->
     forall o, In o (key_rows ix (a_key a)) <-> In o all /\ exists meta fs, data_of m o = Some (meta, fs) /\ (1 < length fs)%nat /\ equal (nth 1 fs 0) (a_key a) = true).
(** The lists have at most [n] rows. *)
Definition bounded (n : Z) (all : list Z) (args : list arg) (ix : indexes) : Prop :=
  Z.of_nat (length all) <= n /\
  (0 < hash_id ix -> forall a, In a args -> Z.of_nat (length (search_hash ix (a_key a) (a_value a))) <= n) /\
  (0 < key_id ix -> forall a, In a args -> Z.of_nat (length (key_rows ix (a_key a))) <= n).
(** The records of the database: all parts of documents, and others that match no argument. *)
Definition database (m : rmap) (equal : Z -> Z -> bool) (all : list Z) (coll : list tree) (args : list arg) : Prop :=
  collection m coll /\ (forall o, In o (nodes_all coll) -> In o all) /\ (forall o, In o all -> m o <> None) /\
  (forall o a, In o all -> ~ In o (nodes_all coll) -> In a args -> ~ pair_matches m equal o (a_key a) (a_value a)).
Notation query m equal all ix ms mq mp args := (wg_make_json_query m equal all (hash_id ix) (value_id ix) (key_id ix) (search_hash ix) (key_rows ix) ms mq mp args).

(** C50: the query delivers, in wg_fetch calls, exactly the documents that have for every argument a
    part with its key and value, each once, whichever indexes exist; it fails only if memory is
    short or more than 201326611 rows are involved. Missing: documents of more than seven
    records on a way from the top and matching records outside documents (refuted below), values
    for which the indexes are not exact (C27_*_refuted, C50_array_refuted). *)
Theorem C50_documents_partial m equal all coll args ix ms mq mp : args <> [] -> database m equal all coll args -> exact m equal all args ix ->
  exists x, query m equal all ix ms mq mp args = Some x /\
  match x with
  | Some r => exists l, NoDup l /\ res_count r = Z.of_nat (length l) /\ (forall n, fetches n (sheap r) (Cur (first r) 0) = firstn n (l ++ repeat 0 n)) /\
      forall d, In d l <-> exists t, In t coll /\ root t = d /\ forall a, In a args -> exists o, In o (nodes t) /\ pair_matches m equal o (a_key a) (a_value a)
  | None => mq = false \/ ~ bounded 201326611 all args ix \/ ~ (forall i j n, mp i j n = true)
  end.
Proof.
  intros Na (C & Hin & Hlive & Hout) (Hh & Hk).
  assert (Hp : forall a, In a (sorted ms args) <-> In a args).
  { intros a. unfold sorted. destruct (_ && _); [|reflexivity]. rewrite in_app_iff, !filter_In. destruct (is_record_ref (a_value a)); cbn [negb]; intuition congruence. }
  assert (Hix : key_index (hash_id ix) (value_id ix) (key_id ix) ms args = -1 \/ key_index (hash_id ix) (value_id ix) (key_id ix) ms args = key_id ix).
  { unfold key_index. destruct (_ && _); [now left|]. destruct (_ && _); [now right|now left]. }
  destruct (clauses_spec m equal all (hash_id ix) (key_id ix) (search_hash ix) (key_rows ix) coll args 201326611 C Hin Hlive Hout Hh Hk mp _ Hix
    (sorted ms args) 0 [] None [] ltac:(intros a; apply Hp) eq_refl) as (x & E & X). cbn [app] in X.
  assert (Ns : sorted ms args <> []). { destruct args as [|a args']; [congruence|]. intros Q. apply (in_nil (a := a)). rewrite <- Q. apply Hp. now left. }
  assert (Eq : query m equal all ix ms mq mp args = match clauses m equal all (hash_id ix) (search_hash ix) (key_rows ix) mp (key_index (hash_id ix) (value_id ix) (key_id ix) ms args) 0 (sorted ms args) None with
    | None => None | Some None | Some (Some None) => Some None | Some (Some (Some r)) => Some (if mq then Some r else None) end).
  { unfold wg_make_json_query. destruct args; [congruence|reflexivity]. }
  rewrite Eq, E. clear Eq E. destruct x as [[r|]|]; [|contradiction|].
  - exists (if mq then Some r else None). split; [reflexivity|]. destruct mq; [|now left].
    destruct X as (l & S & D & I). exists l. split; [exact D|]. split; [apply (sr_cnt _ _ S)|].
    assert (Nz : ~ In 0 l). { intros Q. apply I in Q. destruct Q as (t & Ht & E0 & _). apply (proj2 (collection_find m coll C t (root t) Ht (root_in t))). exact E0. }
    split; [exact (C28_resultset_pages r l S Nz)|]. intros d. rewrite I. unfold all_hit. split; intros (t & Ht & E & F); exists t; (split; [exact Ht|]); (split; [exact E|]).
    + intros a Ha. rewrite Forall_forall in F. apply (proj1 (treeb_spec m equal t a)). apply F. now apply Hp.
    + apply Forall_forall. intros a Ha. apply (proj2 (treeb_spec m equal t a)). apply F. now apply Hp.
  - exists None. split; [reflexivity|]. destruct mq; [right|now left].
    destruct (Z_le_gt_dec (Z.of_nat (length all)) 201326611) as [L|L]; [|left; intros (B & _); lia].
    assert (Dec : bounded 201326611 all args ix -> ~ (forall i j n, mp i j n = true)) by (intros B M; apply (X M B); lia).
    assert (Hb : bounded 201326611 all args ix \/ ~ bounded 201326611 all args ix).
    { unfold bounded.
      assert (G : forall f : arg -> nat, (forall a, In a args -> Z.of_nat (f a) <= 201326611) \/ ~ (forall a, In a args -> Z.of_nat (f a) <= 201326611)).
      { intros f. destruct (forallb (fun a => Z.of_nat (f a) <=? 201326611) args) eqn:Q.
        - left. intros a Ha. rewrite forallb_forall in Q. now apply Z.leb_le, Q.
        - right. intros H. assert (forallb (fun a => Z.of_nat (f a) <=? 201326611) args = true); [|congruence]. apply forallb_forall. intros a Ha. apply Z.leb_le. now apply H. }
      destruct (G (fun a => length (search_hash ix (a_key a) (a_value a)))) as [G1|G1]; destruct (G (fun a => length (key_rows ix (a_key a)))) as [G2|G2];
        destruct (Z_lt_le_dec 0 (hash_id ix)); destruct (Z_lt_le_dec 0 (key_id ix)); try (left; split; [exact L|]; split; intros; try lia; auto; fail);
        right; intros (_ & B1 & B2); auto. }
    destruct Hb as [Hb|Hb]; [right; now apply Dec|now left].
Qed.
Print Assumptions C50_documents_partial.

(** C50: two sets of indexes give the same documents. *)
Theorem C50_same_partial m equal all coll args ix ix' ms ms' mq mq' mp mp' r r' n n' : args <> [] -> database m equal all coll args ->
  exact m equal all args ix -> exact m equal all args ix' ->
  query m equal all ix ms mq mp args = Some (Some r) -> query m equal all ix' ms' mq' mp' args = Some (Some r') ->
  res_count r = res_count r' /\ (res_count r <= Z.of_nat n -> res_count r' <= Z.of_nat n' -> forall d, d <> 0 ->
    (In d (fetches n (sheap r) (Cur (first r) 0)) <-> In d (fetches n' (sheap r') (Cur (first r') 0)))).
Proof.
  intros Na D X X' E E'. destruct (C50_documents_partial m equal all coll args ix ms mq mp Na D X) as (x & Q & H). rewrite E in Q. injection Q as <-.
  destruct (C50_documents_partial m equal all coll args ix' ms' mq' mp' Na D X') as (x & Q & H'). rewrite E' in Q. injection Q as <-.
  destruct H as (l & D1 & Rl & F & I). destruct H' as (l' & D1' & Rl' & F' & I').
  assert (P : Permutation l l') by (apply NoDup_Permutation; auto; intros d; rewrite I, I'; reflexivity).
  split; [rewrite Rl, Rl'; f_equal; now apply Permutation_length|]. intros L L' d Nd. rewrite F, F'.
  assert (G : forall (k : list Z) j, (length k <= j)%nat -> (In d (firstn j (k ++ repeat 0 j)) <-> In d k)).
  { intros k j Hj. rewrite firstn_app, firstn_all2 by exact Hj. rewrite in_app_iff. split; [|now left]. intros [H|H]; [exact H|]. exfalso. apply Nd.
    assert (In d (repeat 0 j)) as Q by (rewrite <- (firstn_skipn (j - length k) (repeat 0 j)); apply in_or_app; now left). now apply repeat_spec in Q. }
  rewrite !G by lia. rewrite I, I'. reflexivity.
Qed.
Print Assumptions C50_same_partial.

(** ** Examples *)
Lemma RI_list (m : rmap) sup : (forall o, ~ In o sup -> m o = None) -> forallb is_record_ref sup = true ->
  forallb (fun c => match m c with
    | Some r => forallb (fun p => inb p sup) (r_back r) && forallb (fun f => negb (is_record_ref f) || inb f sup) (r_fields r) && forallb (fun p => backs m c p =? refs m p c) sup
    | None => false end) sup = true -> RI m.
Proof.
  intros H1 H2 H3. rewrite forallb_forall in H2, H3. split.
  - intros o Ho. apply H2. destruct (in_dec Z.eq_dec o sup); [assumption|]. exfalso. apply Ho. now apply H1.
  - intros c p Rc. destruct (in_dec Z.eq_dec c sup) as [Ic|Ic].
    + specialize (H3 c Ic). destruct (m c) as [r|] eqn:Ec; [|discriminate]. apply andb_true_iff in H3. destruct H3 as (H3 & A). apply andb_true_iff in H3. destruct H3 as (B & _).
      rewrite forallb_forall in A, B. destruct (in_dec Z.eq_dec p sup) as [Ip|Ip]; [now apply Z.eqb_eq, A|].
      unfold backs, refs. rewrite Ec, (H1 p Ip). apply cnt_zero. intros Q. apply B in Q. apply inb_spec in Q. contradiction.
    + unfold backs. rewrite (H1 c Ic). unfold refs. destruct (m p) as [r|] eqn:Ep; [|reflexivity]. symmetry. apply cnt_zero. intros Q.
      assert (Ip : In p sup) by (destruct (in_dec Z.eq_dec p sup); [assumption|]; rewrite H1 in Ep by assumption; discriminate).
      specialize (H3 p Ip). rewrite Ep in H3. apply andb_true_iff in H3. destruct H3 as (H3 & _). apply andb_true_iff in H3. destruct H3 as (_ & B). rewrite forallb_forall in B.
      specialize (B c Q). rewrite Rc in B. cbn [negb orb] in B. apply inb_spec in B. contradiction.
Qed.
(** Records given by a table. *)
Definition table (l : list (Z * rec)) : rmap := fun o => match find (fun p => fst p =? o) l with Some p => Some (snd p) | None => None end.
Lemma table_none l o : ~ In o (map fst l) -> table l o = None.
Proof.
  unfold table. destruct (find _ l) as [p|] eqn:E; [|reflexivity]. intros H. exfalso. apply find_some in E. destruct E as (A & B). apply Z.eqb_eq in B. apply H. rewrite <- B. now apply in_map.
Qed.
(** Documents {"k": "v", "l": ["v", "w"]} at 192, {"k": ["w", "v"]} at 448 and {"k": "w", "l": "v"}
    at 576; 11 and 19 are "k" and "l", 27 and 35 are "v" and "w". *)
Definition q_recs : list (Z * rec) :=
  [(64, Rec 0 [0; 11; 27] [192]); (128, Rec 0 [0; 19; 256] [192]); (192, Rec 48 [64; 128] []); (256, Rec 64 [27; 35] [128]);
   (320, Rec 0 [0; 11; 384] [448]); (384, Rec 64 [35; 27] [320]); (448, Rec 48 [320] []);
   (512, Rec 0 [0; 11; 35] [576]); (544, Rec 0 [0; 19; 27] [576]); (576, Rec 48 [512; 544] [])].
Definition q_m : rmap := table q_recs.
Definition q_coll : list tree :=
  [Tn 192 48 [64; 128] [Tn 64 0 [0; 11; 27] []; Tn 128 0 [0; 19; 256] [Tn 256 64 [27; 35] []]];
   Tn 448 48 [320] [Tn 320 0 [0; 11; 384] [Tn 384 64 [35; 27] []]];
   Tn 576 48 [512; 544] [Tn 512 0 [0; 11; 35] []; Tn 544 0 [0; 19; 27] []]].
Definition q_args := [Arg 11 27; Arg 19 27].
Definition q_none := Ix (-1) (-1) (-1) (fun _ _ => []) (fun _ => []).
Definition q_hash := Ix 8 (-1) (-1) (fun k v => if v =? 27 then if k =? 11 then [64; 320] else if k =? 19 then [544; 128] else [] else []) (fun _ => []).
Definition q_key := Ix (-1) (-1) 16 (fun _ _ => []) (fun k => if k =? 11 then [64; 320; 512] else if k =? 19 then [128; 544] else []).
Definition q_docs (x : option (option rset)) : option (list Z) := match x with Some (Some r) => Some (fetches (S (Z.to_nat (res_count r))) (sheap r) (Cur (first r) 0)) | _ => None end.
Notation q_run ix args := (q_docs (query q_m Z.eqb (map fst q_recs) ix true true (fun _ _ _ => true) args)).

Lemma NoDup_check (l : list Z) : fold_right (fun x (p : bool * list Z) => (fst p && negb (inb x (snd p)), x :: snd p)) (true, []) l = (true, l) -> NoDup l.
Proof.
  assert (G : forall l, snd (fold_right (fun x (p : bool * list Z) => (fst p && negb (inb x (snd p)), x :: snd p)) (true, []) l) = l) by (clear; induction l as [|x l IH]; cbn [fold_right snd]; congruence).
  induction l as [|x l IH]; cbn [fold_right]; intros H; [constructor|]. rewrite G in H. assert (H1 : fst (fold_right (fun x (p : bool * list Z) => (fst p && negb (inb x (snd p)), x :: snd p)) (true, []) l) && negb (inb x l) = true) by congruence.
  apply andb_true_iff in H1. destruct H1 as (H1 & H2). constructor.
  - intros Q. apply inb_spec in Q. rewrite Q in H2. discriminate.
  - apply IH. rewrite (surjective_pairing (fold_right _ _ l)), H1, G. reflexivity.
Qed.
Example q_database : database q_m Z.eqb (map fst q_recs) q_coll q_args.
Proof.
  assert (Nodes : forall o, In o (nodes_all q_coll) <-> In o (map fst q_recs)) by (intros o; vm_compute; tauto).
  split; [|split; [intros o; apply Nodes|split]].
  - constructor.
    + apply (RI_list q_m (map fst q_recs)); [apply table_none|vm_compute; reflexivity|vm_compute; reflexivity].
    + repeat constructor.
    + intros x Hx. vm_compute in Hx. repeat (destruct Hx as [<- | Hx]; [vm_compute; reflexivity|]). destruct Hx.
    + apply NoDup_check. vm_compute. reflexivity.
    + apply Forall_forall. intros t Ht. repeat (destruct Ht as [<- | Ht]; [vm_compute; lia|]). destruct Ht.
    + intros t Ht. repeat (destruct Ht as [<- | Ht]; [vm_compute; eexists; eexists; split; [reflexivity|discriminate]|]). destruct Ht.
    + intros t x Ht Hx. repeat (destruct Ht as [<- | Ht]; [vm_compute in Hx; repeat (destruct Hx as [<- | Hx]; [reflexivity|]); destruct Hx|]). destruct Ht.
    + assert (Ht : forall t p c, In t q_coll -> In c (tl (nodes t)) -> In p (map fst q_recs) -> ~ In p (nodes t) -> refs q_m p c = 0).
      { intros t p c Ht Hc Hp. repeat (destruct Ht as [<- | Ht]; [vm_compute in Hc, Hp|]); [| | |destruct Ht];
          repeat (destruct Hc as [<- | Hc]; [repeat (destruct Hp as [<- | Hp]; [vm_compute; tauto|]); destruct Hp|]); destruct Hc. }
      intros t p c Htt Hc Hp. destruct (in_dec Z.eq_dec p (map fst q_recs)) as [Ip|Ip]; [now apply (Ht t)|]. unfold refs, q_m. now rewrite table_none.
  - intros o Ho. repeat (destruct Ho as [<- | Ho]; [discriminate|]). destruct Ho.
  - intros o a Ho No. exfalso. now apply No, Nodes.
Qed.
(** [exact] can be decided on the examples. *)
Lemma exact_check m equal all args ix :
  forallb (fun a => (hash_id ix <=? 0) || is_record_ref (a_value a) || (forallb (fun o => inb o all && pairb m equal o a) (search_hash ix (a_key a) (a_value a)) && forallb (fun o => negb (pairb m equal o a) || inb o (search_hash ix (a_key a) (a_value a))) all)) args = true ->
  forallb (fun a => (key_id ix <=? 0) || let p o := match m o with Some r => (1 <? reclen r) && equal (field r 1) (a_key a) | None => false end in
    (forallb (fun o => inb o all && p o) (key_rows ix (a_key a)) && forallb (fun o => negb (p o) || inb o (key_rows ix (a_key a))) all)) args = true -> exact m equal all args ix.
Proof.
  intros H1 H2. rewrite forallb_forall in H1, H2. split; intros Hp a Ha.
  - intros Hr o. specialize (H1 a Ha). rewrite Hr in H1. destruct (Z.leb_spec (hash_id ix) 0); [lia|]. cbn [orb] in H1. apply andb_true_iff in H1. destruct H1 as (A & B). rewrite forallb_forall in A, B. split.
    + intros Ho. specialize (A o Ho). apply andb_true_iff in A. destruct A as (A1 & A2). split; [now apply inb_spec|now apply (pairb_spec m equal o a)].
    + intros (Ho & P). specialize (B o Ho). apply (pairb_spec m equal o a) in P. rewrite P in B. cbn [negb orb] in B. now apply inb_spec.
  - intros o. specialize (H2 a Ha). destruct (Z.leb_spec (key_id ix) 0); [lia|]. cbn [orb] in H2. cbv zeta in H2. apply andb_true_iff in H2. destruct H2 as (A & B). rewrite forallb_forall in A, B. unfold data_of. split.
    + intros Ho. specialize (A o Ho). apply andb_true_iff in A. destruct A as (A1 & A2). split; [now apply inb_spec|]. destruct (m o) as [r|]; [|discriminate]. apply andb_true_iff in A2. destruct A2 as (A2 & A3).
      exists (r_meta r), (r_fields r). split; [reflexivity|]. unfold reclen in A2. apply Z.ltb_lt in A2. split; [lia|exact A3].
    + intros (Ho & meta & fs & E & L & K). specialize (B o Ho). destruct (m o) as [r|]; [|discriminate]. assert (r_fields r = fs) by congruence. subst fs. unfold reclen, field in B. cbn in K. change (Z.to_nat 1) with 1%nat in B. rewrite K in B.
      destruct (Z.ltb_spec 1 (Z.of_nat (length (r_fields r)))); [|lia]. cbn [andb negb orb] in B. now apply inb_spec.
Qed.
Example q_exact : exact q_m Z.eqb (map fst q_recs) q_args q_none /\ exact q_m Z.eqb (map fst q_recs) q_args q_hash /\ exact q_m Z.eqb (map fst q_recs) q_args q_key.
Proof. split; [|split]; apply exact_check; vm_compute; reflexivity. Qed.
Example C50_documents_ex : q_run q_none q_args = Some [192; 0] /\ q_run q_hash q_args = Some [192; 0] /\ q_run q_key q_args = Some [192; 0] /\
  q_run q_none [Arg 11 27] = Some [192; 448; 0] /\ q_run q_none [Arg 11 35] = Some [448; 576; 0].
Proof. vm_compute. auto 6. Qed.

(** The document ["x", "k", "v"] is taken for the pair of "k" and "v" by the scan; the hash index has
    only records that are not arrays or objects (Db/dbindex.c l.1635, l.2633). *)
Definition q_arr : rmap := table [(64, Rec 80 [43; 11; 27] [])].
Theorem C50_array_refuted :
  q_docs (query q_arr Z.eqb [64] q_none true true (fun _ _ _ => true) [Arg 11 27]) = Some [64; 0] /\
  q_docs (query q_arr Z.eqb [64] (Ix 8 (-1) (-1) (fun _ _ => []) (fun _ => [])) true true (fun _ _ _ => true) [Arg 11 27]) = Some [0].
Proof. vm_compute. auto. Qed.
(** A record outside all documents with the key and value makes the query fail. *)
Theorem C50_outside_refuted : query (table ((640, Rec 0 [0; 11; 27] []) :: q_recs)) Z.eqb (640 :: map fst q_recs) q_none true true (fun _ _ _ => true) [Arg 11 27] = Some None.
Proof. vm_compute. reflexivity. Qed.
(** Four nested objects {"a": {"a": {"a": {"a": 5}}}}: the query for "a": 5 fails, instead of
    delivering the document, with and without the hash index. *)
Definition q_deep : @rdb unit (list lit) := ex_after ex_db (ex_nest 4).
Definition q_equal (d : @rdb unit (list lit)) (x y : Z) : bool :=
  match ex_decode (d_val d) x, ex_decode (d_val d) y with
  | Some (LInt a), Some (LInt b) => a =? b
  | Some (LStr a), Some (LStr b) => if list_eq_dec Z.eq_dec a b then true else false
  | _, _ => false
  end.
Definition q_deep_recs := [64; 128; 192; 256; 320; 384; 448; 512].
Theorem C50_deep_refuted :
  data_of (d_rec q_deep) 64 = Some (0, [0; 11; 3]) /\ map (ex_decode (d_val q_deep)) [11; 3] = [Some (LStr [97]); Some (LInt 5)] /\
  ex_rc ex_db (ex_nest 4) = Some (0, 512) /\
  query (d_rec q_deep) (q_equal q_deep) q_deep_recs q_none true true (fun _ _ _ => true) [Arg 11 3] = Some None /\
  query (d_rec q_deep) (q_equal q_deep) q_deep_recs (Ix 8 (-1) (-1) (fun _ _ => [64]) (fun _ => [])) true true (fun _ _ _ => true) [Arg 11 3] = Some None.
Proof. vm_compute. auto 6. Qed.
