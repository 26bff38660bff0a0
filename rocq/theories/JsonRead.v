(** Proofs about stored JSON values: their trees of records, reading and printing them. *)
From Coq Require Import ZArith List Bool Lia Permutation.
From Verif Require Import Base EncodingModel RecordModel RecordProofs RecordProps SchemaModel SchemaProofs SchemaTree JsonModel JsonProofs.
Import ListNotations.
Open Scope Z_scope.
#[local] Ltac Zify.zify_post_hook ::= idtac.

(** ** The trees of records of a value *)
Lemma trees_wf ip p : forall b, (forall x, In x (lits p) -> is_record_ref (fst x) = false) ->
  (forall o, In o (nodes_all (trees ip b p)) -> is_record_ref o = true) ->
  Forall wf (trees ip b p) /\ filter is_record_ref [encoding p] = map root (trees ip b p).
Proof.
  induction p as [e l|o l F|o l F] using stored_ind'; intros b L N; cbn [trees lits encoding] in *.
  - split; [constructor|]. cbn [filter map]. now rewrite (L (e, l) (or_introl eq_refl) : is_record_ref e = false).
  - unfold nodes_all in N. cbn [flat_map] in N. rewrite app_nil_r, nodes_Tn in N. split.
    + constructor; [|constructor]. cbn [wf]. rewrite fold_and.
      assert (N' : forall o0, In o0 (nodes_all (flat_map (trees ip false) l)) -> is_record_ref o0 = true) by (intros; apply N; now right). clear N.
      induction l as [|p l IH]; cbn [map flat_map filter]; [split; [reflexivity|constructor]|]. inversion F as [|p' l' Fp Fl]; subst p' l'.
      cbn [flat_map] in L, N'. destruct (Fp false) as (A & B).
      { intros x Hx. apply L, in_or_app. now left. } { intros x Hx. apply N'. unfold nodes_all. rewrite flat_map_app. apply in_or_app. now left. }
      destruct (IH Fl) as (C & D).
      { intros x Hx. apply L, in_or_app. now right. } { intros x Hx. apply N'. unfold nodes_all. rewrite flat_map_app. apply in_or_app. now right. }
      split; [|apply Forall_app; auto]. rewrite map_app, <- B, <- C. cbn [filter]. now destruct (is_record_ref (encoding p)).
    + cbn [filter map root]. now rewrite (N o (or_introl eq_refl)).
  - unfold nodes_all in N. cbn [flat_map] in N. rewrite app_nil_r, nodes_Tn in N. split.
    + constructor; [|constructor]. cbn [wf]. rewrite fold_and.
      assert (N' : forall o0, In o0 (nodes_all (map (pair_tree ip) l)) -> is_record_ref o0 = true) by (intros; apply N; now right). clear N.
      change (map _ l) with (map (pair_tree ip) l) at 2 3.
      induction l as [|p l IH]; cbn [map filter]; [split; [reflexivity|constructor]|]. inversion F as [|p' l' Fp Fl]; subst p' l'.
      cbn [flat_map map] in L, N'. unfold nodes_all in N'. cbn [flat_map] in N'. unfold pair_tree at 1 in N'. rewrite nodes_Tn in N'.
      destruct (Fp false) as (A & B).
      { intros x Hx. apply L. right. apply in_or_app. now left. } { intros x Hx. apply N'. right. apply in_or_app. now left. }
      destruct (IH Fl) as (C & D).
      { intros x Hx. apply L. right. apply in_or_app. now right. } { intros x Hx. apply N'. right. apply in_or_app. now right. }
      split; [|constructor; [|exact D]].
      * rewrite (N' (pair_of p) (or_introl eq_refl)). cbn [root pair_tree]. unfold pair_tree at 1. cbn [root]. now rewrite C.
      * unfold pair_tree. cbn [wf]. rewrite fold_and. split; [|exact A].
        change [0; keyenc p; encoding (valof p)] with ([0; keyenc p] ++ [encoding (valof p)]). rewrite filter_app, B.
        assert (K : is_record_ref (keyenc p) = false) by exact (L (keyenc p, LStr (keystr p)) (or_introl eq_refl)).
        cbn [filter]. rewrite K. reflexivity.
    + cbn [filter map root]. now rewrite (N o (or_introl eq_refl)).
Qed.

Lemma list_max_cons a l : list_max (a :: l) = Nat.max a (list_max l).
Proof. reflexivity. Qed.
Lemma trees_height ip p : forall b, list_max (map height (trees ip b p)) = depth (value p).
Proof.
  induction p as [e l|o l F|o l F] using stored_ind'; intros b; cbn [trees value depth map height].
  - reflexivity.
  - cbn [list_max fold_right]. rewrite Nat.max_0_r. f_equal. rewrite map_map. induction F as [|p l Fp Fl IH]; cbn [flat_map map]; [reflexivity|].
    rewrite map_app, list_max_app, Fp, IH. reflexivity.
  - cbn [list_max fold_right]. rewrite Nat.max_0_r. f_equal. rewrite !map_map. induction F as [|p l Fp Fl IH]; cbn [map]; [reflexivity|].
    rewrite !list_max_cons, IH. cbn [height snd]. now rewrite Fp.
Qed.

Lemma schema_doc bit ip : bit = META_ARRAY \/ bit = META_OBJECT -> Z.land (schema_meta bit false ip) META_DOC = 0.
Proof. intros [-> | ->]; destruct ip; reflexivity. Qed.
Lemma schema_bits (b ip : bool) : Z.land (schema_meta META_ARRAY b ip) META_ARRAY <> 0 /\ Z.land (schema_meta META_ARRAY b ip) META_OBJECT = 0 /\
  Z.land (schema_meta META_OBJECT b ip) META_OBJECT <> 0 /\ Z.land (schema_meta META_OBJECT b ip) META_ARRAY = 0 /\
  Z.land (kv_meta ip) META_OBJECT = 0 /\ Z.land (kv_meta ip) META_ARRAY = 0 /\ Z.land (kv_meta ip) META_DOC = 0.
Proof. destruct b, ip; repeat split; discriminate. Qed.
Lemma schema_isdoc bit ip : bit = META_ARRAY \/ bit = META_OBJECT -> Z.land (schema_meta bit true ip) META_DOC <> 0.
Proof. intros [-> | ->]; destruct ip; discriminate. Qed.

Lemma trees_doc ip p : forall x, In x (flat_map recs (trees ip false p)) -> Z.land (fst (snd x)) META_DOC = 0.
Proof.
  induction p as [e l|o l F|o l F] using stored_ind'; intros x; cbn [trees flat_map recs]; rewrite ?app_nil_r.
  - intros [].
  - intros [<- | H]; [now apply schema_doc; left|]. apply in_flat_map in H. destruct H as (t & Ht & H). apply in_flat_map in Ht. destruct Ht as (p & Hp & Ht).
    rewrite Forall_forall in F. apply (F p Hp). apply in_flat_map. eauto.
  - intros [<- | H]; [now apply schema_doc; right|]. apply in_flat_map in H. destruct H as (t & Ht & H). apply in_map_iff in Ht. destruct Ht as (p & <- & Hp).
    rewrite Forall_forall in F. cbn [recs] in H. destruct H as [<- | H]; [apply (schema_bits true)|]. now apply (F p Hp).
Qed.
Lemma trees_doc_top ip b p t : trees ip b p = [t] -> forall x, In x (tl (recs t)) -> Z.land (fst (snd x)) META_DOC = 0.
Proof.
  destruct p as [e l|o l|o l]; cbn [trees]; intros E x; [discriminate| |]; injection E as <-; cbn [recs tl]; intros H.
  - apply in_flat_map in H. destruct H as (t & Ht & H). apply in_flat_map in Ht. destruct Ht as (p & Hp & Ht). apply (trees_doc ip p). apply in_flat_map. eauto.
  - apply in_flat_map in H. destruct H as (t & Ht & H). apply in_map_iff in Ht. destruct Ht as (p & <- & Hp). cbn [recs] in H. destruct H as [<- | H]; [apply (schema_bits true)|].
    now apply (trees_doc ip (valof p)).
Qed.

(** ** Reading a value *)
Section Read.
Context {V : Type}.
Variable decode : V -> Z -> option lit.
(** The encoded value [x] stands for the JSON value: arrays with the elements in order, objects
    with a record of three fields per member, the second the key and the third the value. *)
Inductive reads (m : rmap) (v : V) : Z -> json -> Prop :=
| rd_lit x l : is_record_ref x = false -> decode v x = Some l -> reads m v x (JLit l)
| rd_arr x meta fs l : is_record_ref x = true -> data_of m x = Some (meta, fs) -> Z.land meta META_ARRAY <> 0 -> Z.land meta META_OBJECT = 0 -> Forall2 (reads m v) fs l -> reads m v x (JArr l)
| rd_obj x meta fs l : is_record_ref x = true -> data_of m x = Some (meta, fs) -> Z.land meta META_OBJECT <> 0 -> Forall2 (reads_pair m v) fs l -> reads m v x (JObj l)
with reads_pair (m : rmap) (v : V) : Z -> list Z * json -> Prop :=
| rd_pair x meta s ke y k j : is_record_ref x = true -> data_of m x = Some (meta, [s; ke; y]) -> Z.land meta META_OBJECT = 0 -> Z.land meta META_ARRAY = 0 -> is_record_ref ke = false -> decode v ke = Some (LStr k) -> reads m v y j ->
    reads_pair m v x (k, j).

Definition put (m : rmap) (v : V) (ts : list tree) (xs : list (Z * lit)) : Prop :=
  holds m (flat_map recs ts) /\ forall x, In x xs -> is_record_ref (fst x) = false /\ decode v (fst x) = Some (snd x).

Lemma put_reads m v ip : RI m -> forall p b, put m v (trees ip b p) (lits p) -> reads m v (encoding p) (value p).
Proof.
  intros R. induction p as [e l|o l F|o l F] using stored_ind'; intros b (H & L); cbn [trees lits encoding value flat_map] in *; rewrite ?app_nil_r in H.
  - destruct (L (e, l) (or_introl eq_refl)) as (A & B). now apply rd_lit.
  - pose proof (H _ (or_introl eq_refl)) as D. cbn [fst snd] in D. apply (rd_arr _ _ _ _ _ _ (RI_ref _ _ _ R D) D); [apply schema_bits|apply schema_bits|].
    assert (H' : holds m (flat_map recs (flat_map (trees ip false) l))) by (intros x Hx; apply H; now right). clear H D.
    induction l as [|p l IH]; cbn [map]; constructor.
    + inversion F as [|? ? Fp Fl]; subst. apply (Fp false). cbn [flat_map] in *. split; [|intros x Hx; apply L, in_or_app; now left].
      intros x Hx. apply H'. rewrite flat_map_app. apply in_or_app. now left.
    + inversion F as [|? ? Fp Fl]; subst. apply IH; [exact Fl| |]; cbn [flat_map] in *.
      * intros x Hx. apply L, in_or_app. now right.
      * intros x Hx. apply H'. rewrite flat_map_app. apply in_or_app. now right.
  - pose proof (H _ (or_introl eq_refl)) as D. cbn [fst snd] in D. apply (rd_obj _ _ _ _ _ _ (RI_ref _ _ _ R D) D); [apply schema_bits|].
    assert (H' : holds m (flat_map recs (map (pair_tree ip) l))) by (intros x Hx; apply H; now right). clear H D.
    induction l as [|p l IH]; cbn [map]; constructor.
    + inversion F as [|? ? Fp Fl]; subst. cbn [flat_map map] in *. unfold pair_tree at 1 in H'. cbn [recs] in H'.
      pose proof (H' _ (or_introl eq_refl)) as D. cbn [fst snd] in D. destruct (L _ (or_introl eq_refl)) as (Rk & Dk). cbn [fst snd] in Rk, Dk.
      apply (rd_pair _ _ _ _ _ _ _ _ _ (RI_ref _ _ _ R D) D); [apply (schema_bits true)|apply (schema_bits true)|exact Rk|exact Dk|]. apply (Fp false). split.
      * intros x Hx. apply H'. right. apply in_or_app. now left.
      * intros x Hx. apply L. right. apply in_or_app. now left.
    + inversion F as [|? ? Fp Fl]; subst. apply IH; [exact Fl| |]; cbn [flat_map map] in *.
      * intros x Hx. apply L. right. apply in_or_app. now right.
      * intros x Hx. apply H'. apply in_or_app. now right.
Qed.

(** ** Printing *)
Fixpoint gens (j : json) : list gen :=
  match j with
  | JNull | JBool _ => []
  | JLit (LStr s) => [GString s]
  | JLit l => [GNumber l]
  | JArr l => GArrayOpen :: flat_map gens l ++ [GArrayClose]
  | JObj l => GMapOpen :: flat_map (fun kj => GString (fst kj) :: gens (snd kj)) l ++ [GMapClose]
  end.
Notation pretty_print_json := (pretty_print_json decode).
Notation pretty_print_jsonval := (pretty_print_jsonval decode).

Lemma has_true bit r meta fs m o : m o = Some r -> data_of m o = Some (meta, fs) -> Z.land meta bit <> 0 -> has_meta bit r = true.
Proof. unfold data_of. intros E. rewrite E. intros Q N. assert (r_meta r = meta) by congruence. unfold has_meta. rewrite H. now apply negb_true_iff, Z.eqb_neq. Qed.
Lemma has_false bit r meta fs m o : m o = Some r -> data_of m o = Some (meta, fs) -> Z.land meta bit = 0 -> has_meta bit r = false.
Proof. unfold data_of. intros E. rewrite E. intros Q N. assert (r_meta r = meta) by congruence. unfold has_meta. now rewrite H, N. Qed.

Lemma print_all_ok (f : Z -> option (list gen * bool)) (A : Type) (g : A -> list gen) xs l : Forall2 (fun x a => f x = Some (g a, true)) xs l -> print_all f xs = Some (flat_map g l, true).
Proof. induction 1 as [|x a xs l H F IH]; cbn [print_all flat_map]; [reflexivity|]. now rewrite H, IH. Qed.

Lemma max_le (l : list nat) n : (list_max l <= n)%nat -> Forall (fun k => (k <= n)%nat) l.
Proof. apply list_max_le. Qed.

Lemma reads_prints m v : forall j x n, reads m v x j -> (depth j <= n)%nat -> pretty_print_jsonval (pretty_print_json n m v) v x = Some (gens j, true).
Proof.
  induction j as [|b|l|l F|l F] using json_ind'; intros x n Rd Hd; inversion Rd as [x1 l1 B1 B2|x1 meta fs l1 B1 B2 B3 B4 B5|x1 meta fs l1 B1 B2 B3 B5]; subst x1; unfold JsonModel.pretty_print_jsonval.
  - subst l1. rewrite B1, B2. destruct l; reflexivity.
  - subst l1. cbn [depth] in Hd. destruct n as [|n]; [lia|]. apply le_S_n in Hd. apply max_le in Hd. rewrite Forall_map in Hd.
    rewrite B1. cbn [JsonModel.pretty_print_json]. change (wg_decode_record x) with x. destruct (data_some _ _ _ B2) as (r & E & _ & Ef). cbn [snd] in Ef. rewrite E.
    unfold is_schema_object at 1, is_schema_array at 1. rewrite (has_false _ _ _ _ _ _ E B2 B4), (has_true _ _ _ _ _ _ E B2 B3), Ef.
    rewrite (print_all_ok _ _ gens _ l); [reflexivity|].
    clear - F B5 Hd. induction B5 as [|y j ys l Hy B5 IH]; constructor; inversion F as [|? ? F1 F2]; inversion Hd as [|? ? D1 D2]; subst; [exact (F1 _ _ Hy D1)|auto].
  - subst l1. cbn [depth] in Hd. destruct n as [|n]; [lia|]. apply le_S_n in Hd. apply max_le in Hd. rewrite Forall_map in Hd.
    rewrite B1. cbn [JsonModel.pretty_print_json]. change (wg_decode_record x) with x. destruct (data_some _ _ _ B2) as (r & E & _ & Ef). cbn [snd] in Ef. rewrite E.
    unfold is_schema_object at 1. rewrite (has_true _ _ _ _ _ _ E B2 B3), Ef.
    rewrite (print_all_ok _ _ (fun kj => GString (fst kj) :: gens (snd kj)) _ l); [reflexivity|].
    clear - F B5 Hd. induction B5 as [|y j ys l Hy B5 IH]; constructor; inversion F as [|? ? F1 F2]; inversion Hd as [|? ? D1 D2]; subst; [|auto]. clear IH B5 F2 D2 F Hd.
    inversion Hy as [y' meta s ke z k jj A1 A2 A3 A4 A5 A6 A7]; subst. cbn [fst snd] in *. destruct n as [|n]; [lia|]. rewrite A1.
    cbn [JsonModel.pretty_print_json]. change (wg_decode_record y) with y. destruct (data_some _ _ _ A2) as (r & E & _ & Ef). cbn [snd] in Ef. rewrite E.
    unfold is_schema_object at 1, is_schema_array at 1. rewrite (has_false _ _ _ _ _ _ E A2 A3), (has_false _ _ _ _ _ _ E A2 A4).
    assert (G1 : (if field_ok r WG_SCHEMA_KEY_OFFSET then field r WG_SCHEMA_KEY_OFFSET else WG_ILLEGAL) = ke) by (unfold field_ok, reclen, field; rewrite Ef; reflexivity).
    assert (G2 : (if field_ok r WG_SCHEMA_VALUE_OFFSET then field r WG_SCHEMA_VALUE_OFFSET else WG_ILLEGAL) = z) by (unfold field_ok, reclen, field; rewrite Ef; reflexivity).
    cbv beta zeta. rewrite G1, A6, G2.
    rewrite (F1 z n A7) by lia. reflexivity.
Qed.
End Read.

(** ** What is lost *)
(** No null and no boolean, strings without zero bytes, keys of less than 80 bytes without zero bytes. *)
Fixpoint clean (j : json) : Prop :=
  match j with
  | JNull | JBool _ => False
  | JLit (LStr s) => ~ In 0 s
  | JLit _ => True
  | JArr l => fold_right and True (map clean l)
  | JObj l => fold_right and True (map (fun kj => ~ In 0 (fst kj) /\ (length (fst kj) < 80)%nat /\ clean (snd kj)) l)
  end.
Lemma cut_zero_id s : ~ In 0 s -> cut_zero s = s.
Proof.
  induction s as [|b s IH]; cbn [cut_zero]; [reflexivity|]. intros H. destruct (Z.eqb_spec b 0) as [-> | N]; [exfalso; apply H; now left|]. f_equal. apply IH. intros Q. apply H. now right.
Qed.
Lemma strip_clean j : clean j -> strip j = Some j.
Proof.
  induction j as [|b|l|l F|l F] using json_ind'; cbn [clean strip]; try contradiction.
  - destruct l; cbn [cut_lit]; auto. intros H. now rewrite cut_zero_id.
  - intros H. do 2 f_equal. induction F as [|j l Fj Fl IH]; cbn [flat_map map fold_right] in *; [reflexivity|]. destruct H as (A & B). rewrite (Fj A), IH by exact B. reflexivity.
  - intros H. do 2 f_equal. induction F as [|(k & j) l Fj Fl IH]; cbn [flat_map map fold_right fst snd] in *; [reflexivity|]. destruct H as ((A1 & A2 & A3) & B). rewrite (Fj A3), IH by exact B.
    unfold cut_key. rewrite !cut_zero_id by (rewrite ?cut_zero_id; assumption). rewrite firstn_all2 by lia. reflexivity.
Qed.
Lemma depth_nesting j : (depth j <= 2 * nesting j)%nat.
Proof.
  induction j as [|b|l|l F|l F] using json_ind'; cbn [depth nesting]; try lia.
  - enough (list_max (map depth l) <= 2 * list_max (map nesting l))%nat by lia. induction F; cbn [map]; rewrite ?list_max_cons; cbn [list_max fold_right]; lia.
  - enough (list_max (map (fun kj => S (depth (snd kj))) l) <= S (2 * list_max (map (fun kj => nesting (snd kj)) l)))%nat by lia.
    induction F; cbn [map]; rewrite ?list_max_cons; cbn [list_max fold_right]; lia.
Qed.
Lemma depth_strip j : forall j', strip j = Some j' -> (depth j' <= depth j)%nat.
Proof.
  induction j as [|b|l|l F|l F] using json_ind'; cbn [strip]; intros j' E; try discriminate; injection E as <-; cbn [depth]; [lia| |]; apply le_n_S.
  - induction F as [|j l Fj Fl IH]; cbn [flat_map map]; [cbn; lia|]. rewrite map_app, list_max_app. rewrite !list_max_cons.
    destruct (strip j) as [j'|]; cbn [map]; rewrite ?list_max_cons; change (list_max (@nil nat)) with O; [specialize (Fj j' eq_refl); lia|lia].
  - induction F as [|(k & j) l Fj Fl IH]; cbn [flat_map map]; [cbn; lia|]. rewrite map_app, list_max_app. cbn [fst snd] in *.
    rewrite !list_max_cons. cbn [snd].
    destruct (strip j) as [j'|]; cbn [map snd]; rewrite ?list_max_cons; change (list_max (@nil nat)) with O; [specialize (Fj j' eq_refl); lia|lia].
Qed.
