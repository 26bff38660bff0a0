(** Trees of records: deleting a tree and finding its top. *)
From Coq Require Import ZArith List Bool Lia Permutation.
From Verif Require Import Base EncodingModel RecordModel RecordProofs RecordProps SchemaModel SchemaProofs.
Import ListNotations.
Open Scope Z_scope.
#[local] Ltac Zify.zify_post_hook ::= idtac.

(** A record with meta word and fields, and the trees its references lead to. *)
Inductive tree := Tn (o meta : Z) (fs : list Z) (kids : list tree).
Definition root (t : tree) : Z := match t with Tn o _ _ _ => o end.
Fixpoint recs (t : tree) : list (Z * (Z * list Z)) := match t with Tn o meta fs kids => (o, (meta, fs)) :: flat_map recs kids end.
Definition nodes (t : tree) : list Z := map fst (recs t).
Definition nodes_all (ts : list tree) : list Z := flat_map nodes ts.
Fixpoint wf (t : tree) : Prop :=
  match t with Tn o meta fs kids => filter is_record_ref fs = map root kids /\ fold_right and True (map wf kids) end.
Fixpoint height (t : tree) : nat := match t with Tn _ _ _ kids => S (list_max (map height kids)) end.

Lemma tree_ind' (P : tree -> Prop) : (forall o meta fs kids, Forall P kids -> P (Tn o meta fs kids)) -> forall t, P t.
Proof.
  intros H. fix IH 1. intros [o meta fs kids]. apply H. induction kids as [|k kids IHk]; constructor; [apply IH|exact IHk].
Qed.
Lemma fold_and (l : list tree) : fold_right and True (map wf l) <-> Forall wf l.
Proof. induction l as [|t l IH]; cbn [map fold_right]; [split; auto|]. rewrite IH. split; [intros (A & B); now constructor|]. intros H. now inversion H. Qed.
Lemma nodes_Tn o meta fs kids : nodes (Tn o meta fs kids) = o :: nodes_all kids.
Proof. unfold nodes, nodes_all. cbn [recs map fst]. f_equal. rewrite flat_map_concat_map, concat_map, map_map, <- flat_map_concat_map. reflexivity. Qed.
Lemma root_in t : In (root t) (nodes t).
Proof. destruct t. rewrite nodes_Tn. now left. Qed.
Lemma roots_in ts : forall t, In t ts -> In (root t) (nodes_all ts).
Proof. intros t H. unfold nodes_all. apply in_flat_map. exists t. split; [exact H|apply root_in]. Qed.

(** References in a tree lead to its nodes below the top. *)
Lemma inner_refs t : wf t -> forall x f, In x (recs t) -> In f (snd (snd x)) -> is_record_ref f = true -> In f (tl (nodes t)).
Proof.
  induction t as [o meta fs kids IH] using tree_ind'. cbn [wf]. intros (Hf & Hk) x f. rewrite nodes_Tn. cbn [tl recs]. rewrite fold_and in Hk. intros [<- | Hx] Hin Hr.
  - cbn [snd] in Hin. assert (Hm : In f (map root kids)) by (rewrite <- Hf; apply filter_In; auto).
    apply in_map_iff in Hm. destruct Hm as (k & <- & Hk'). now apply roots_in.
  - apply in_flat_map in Hx. destruct Hx as (k & Hk' & Hx). rewrite Forall_forall in *. specialize (IH k Hk' (Hk k Hk') x f Hx Hin Hr).
    unfold nodes_all. apply in_flat_map. exists k. split; [exact Hk'|]. destruct (nodes k); [destruct IH|now right].
Qed.

Lemma cnt_filter fs c : is_record_ref c = true -> cnt fs c = cnt (filter is_record_ref fs) c.
Proof.
  intros Hc. induction fs as [|f fs IH]; cbn [filter]; [reflexivity|]. rewrite cnt_cons, IH. destruct (is_record_ref f) eqn:E.
  - now rewrite cnt_cons.
  - rewrite hit_diff; [lia|]. intros ->. congruence.
Qed.
Lemma cnt_zero l x : cnt l x = 0 <-> ~ In x l.
Proof. unfold cnt. rewrite (count_occ_not_In Z.eq_dec). lia. Qed.
Lemma back_nil b : (forall p, cnt b p = 0) -> b = [].
Proof. destruct b as [|p b]; [reflexivity|]. intros H. specialize (H p). apply cnt_zero in H. exfalso. apply H. now left. Qed.
Lemma back_one b o : (forall p, cnt b p = hit o p) -> b = [o].
Proof.
  destruct b as [|p b]; intros H.
  - specialize (H o). rewrite hit_same in H. discriminate H.
  - assert (p = o). { specialize (H p). rewrite cnt_cons, hit_same in H. pose proof (cnt_nonneg b p). unfold hit in H. destruct (Z.eqb_spec o p); [congruence|lia]. }
    subst p. f_equal. apply back_nil. intros p. specialize (H p). rewrite cnt_cons in H. lia.
Qed.

(** The records of the tree are as given. *)
Definition holds (m : rmap) (xs : list (Z * (Z * list Z))) : Prop := forall x, In x xs -> data_of m (fst x) = Some (snd x).
(** No other record refers to one of [ns]. *)
Definition closed (m : rmap) (ns : list Z) : Prop := forall p c, In c ns -> ~ In p ns -> refs m p c = 0.

Lemma nodes_recs ts p : In p (nodes_all ts) -> exists x, In x (flat_map recs ts) /\ fst x = p.
Proof.
  unfold nodes_all. intros H. apply in_flat_map in H. destruct H as (t & Ht & H). unfold nodes in H. apply in_map_iff in H. destruct H as (x & <- & H).
  exists x. split; [apply in_flat_map; eauto|reflexivity].
Qed.
Lemma forest_refs ts m p c : Forall wf ts -> holds m (flat_map recs ts) -> In p (nodes_all ts) -> is_record_ref c = true -> ~ In c (nodes_all ts) -> refs m p c = 0.
Proof.
  intros W H Hp Hc Nc. destruct (nodes_recs _ _ Hp) as (x & Hx & <-). specialize (H x Hx). destruct x as (p' & meta & fs). cbn [fst snd] in *.
  rewrite (refs_data_fields _ _ _ _ c H). apply cnt_zero. intros Hin. apply in_flat_map in Hx. destruct Hx as (t & Ht & Hx). rewrite Forall_forall in W.
  pose proof (inner_refs t (W t Ht) _ c Hx Hin Hc) as Q. apply Nc. unfold nodes_all. apply in_flat_map. exists t. split; [exact Ht|]. destruct (nodes t); [destruct Q|now right].
Qed.

Lemma NoDup_app_inv (a b : list Z) : NoDup (a ++ b) -> NoDup a /\ NoDup b /\ (forall x, In x a -> In x b -> False).
Proof.
  induction a as [|x a IH]; cbn [app]; intros D; [split; [constructor|]; split; [exact D|intros x []]|].
  apply NoDup_cons_iff in D. destruct D as (N & D). destruct (IH D) as (A & B & C). split; [|split; [exact B|]].
  - constructor; [|exact A]. intros H. apply N. apply in_or_app. now left.
  - intros y [<- | Hy] Hb; [apply N; apply in_or_app; now right|now apply (C y)].
Qed.

Section Delete.
Context {I V : Type}.
Variable ix_any ix_tab : I -> Z -> bool.
Variable ix_del_rec : rmap -> V -> I -> Z -> option (I * Z).
Variable ix_add_field ix_del_field : rmap -> V -> I -> Z -> Z -> option (I * Z).
Variable v_ref v_free : V -> Z -> V.
Variable cell_ok : @rdb I V -> bool.
Variable free_ok : @rdb I V -> Z -> bool.
Notation db := (@rdb I V).
Notation set_field := (@set_field I V ix_any ix_tab ix_add_field ix_del_field v_ref v_free cell_ok).
Notation delete_record := (@delete_record I V ix_del_rec v_free free_ok).
Notation delete_record_recursive := (@delete_record_recursive I V ix_any ix_tab ix_del_rec ix_add_field ix_del_field v_ref v_free cell_ok free_ok).
Notation delete_loop := (@delete_loop I V ix_any ix_tab ix_del_rec ix_add_field ix_del_field v_ref v_free cell_ok free_ok).
Notation data d := (data_of (d_rec d)).
(** The indexes and the memory manager report no error. *)
Hypothesis ix_del_rec_ok : forall m v ix o, exists ix' c, ix_del_rec m v ix o = Some (ix', c) /\ -1 <= c.
Hypothesis ix_add_field_ok : forall m v ix o i, exists ix' c, ix_add_field m v ix o i = Some (ix', c) /\ -1 <= c.
Hypothesis ix_del_field_ok : forall m v ix o i, exists ix' c, ix_del_field m v ix o i = Some (ix', c) /\ -1 <= c.
Hypothesis free_succeeds : forall d o, free_ok d o = true.

(** Clearing a field of a record that nothing refers to. *)
Lemma clear_ok (d : db) o meta pre x suf : RI (d_rec d) -> data d o = Some (meta, pre ++ x :: suf) -> is_record_ref x = true ->
  (forall p, refs (d_rec d) p o = 0) ->
  exists d', set_field d o (Z.of_nat (length pre)) 0 = Some (d', 0) /\ RI (d_rec d') /\
    forall p, data d' p = if p =? o then Some (meta, pre ++ 0 :: suf) else data d p.
Proof.
  intros R Do Hx Nr. pose proof (RI_ref _ _ _ R Do) as Ro. destruct (data_some _ _ _ Do) as (r & Er & Rm & Rf). cbn [fst snd] in Rm, Rf.
  assert (Rb : r_back r = []). { apply back_nil. intros p. destruct R as (_ & B). specialize (B o p Ro). unfold backs in B. rewrite Er in B. rewrite B. apply Nr. }
  assert (Fx : field r (Z.of_nat (length pre)) = x). { unfold field. now rewrite Rf, Nat2Z.id, app_nth2, Nat.sub_diag by lia. }
  assert (Fo : field_ok r (Z.of_nat (length pre)) = true).
  { unfold field_ok, reclen. rewrite Rf, app_length. cbn [length]. destruct (Z.ltb_spec (Z.of_nat (length pre)) 0); [lia|].
    destruct (Z.leb_spec (Z.of_nat (length pre + S (length suf))) (Z.of_nat (length pre))); [lia|reflexivity]. }
  assert (E : exists d', set_field d o (Z.of_nat (length pre)) 0 = Some (d', 0)).
  { unfold SchemaModel.set_field, wg_set_field. rewrite Er, Fo, Fx, Rb. cbn [negb].
    destruct (Z.eqb_spec x 0) as [-> | Nx]; [discriminate Hx|].
    assert (A1 : exists ix1 c1, (if indexed ix_any (d_ix d) r (Z.of_nat (length pre)) then ix_del_field (d_rec d) (d_val d) (d_ix d) o (Z.of_nat (length pre)) else Some (d_ix d, 0)) = Some (ix1, c1) /\ -1 <= c1).
    { destruct (indexed _ _ _ _); [apply ix_del_field_ok|]. exists (d_ix d), 0. split; [reflexivity|lia]. }
    destruct A1 as (ix1 & c1 & -> & Hc1). destruct (Z.ltb_spec c1 (-1)); [lia|]. cbn [chain Z.eqb negb]. rewrite Hx.
    destruct (RI_live _ _ _ x R Er) as (ch & Ech); [rewrite Rf; apply in_elt|exact Hx|]. rewrite Ech.
    destruct (unlink o (r_back ch)) as [b|] eqn:U.
    2: { exfalso. apply unlink_none in U. destruct R as (_ & B). specialize (B x o Hx). unfold backs, refs in B. rewrite Ech, Er, U in B.
         assert (Q : cnt (r_fields r) x = 0) by congruence. apply cnt_zero in Q. apply Q. rewrite Rf. apply in_elt. }
    cbn zeta. match goal with |- exists d', match ?m o with _ => _ end = _ => assert (A2 : exists r1, m o = Some r1) end.
    { unfold rput. destruct (o =? x); eauto. }
    destruct A2 as (r1 & ->). match goal with |- exists d', match ?t with _ => _ end = _ => assert (A3 : exists ix3 c3, t = Some (ix3, c3) /\ -1 <= c3) end.
    { destruct (indexed _ _ _ _); [apply ix_add_field_ok|]. eexists _, 0. split; [reflexivity|lia]. }
    destruct A3 as (ix3 & c3 & -> & Hc3). destruct (Z.ltb_spec c3 (-1)); [lia|]. cbn [add_backlink]. unfold add_backlink. change (is_record_ref 0) with false. cbn iota. eauto. }
  destruct E as (d' & E). exists d'. split; [exact E|].
  destruct (set_field_RI ix_any ix_tab ix_add_field ix_del_field v_ref v_free d o (Z.of_nat (length pre)) 0 (cell_ok d) d' 0 R) as (R1 & D1).
  { intros Q. discriminate Q. } { exact E. } { discriminate. }
  destruct (D1 eq_refl) as (r' & Er' & D). rewrite Er in Er'. injection Er' as <-. rewrite Rm, Rf, Nat2Z.id, set_nth_app in D. split; [exact R1|exact D].
Qed.

Lemma delete_ok' (d : db) o : RI (d_rec d) -> data d o <> None -> (forall p, refs (d_rec d) p o = 0) ->
  exists d', delete_record d o = Some (d', 0) /\ RI (d_rec d') /\ forall p, data d' p = if p =? o then None else data d p.
Proof.
  intros R Lo Nr. destruct (data d o) as [x|] eqn:Do; [|congruence]. pose proof (RI_ref _ _ _ R Do) as Ro.
  destruct (data_some _ _ _ Do) as (r & Er & _ & _).
  assert (Rb : r_back r = []). { apply back_nil. intros p. destruct R as (_ & B). specialize (B o p Ro). unfold backs in B. rewrite Er in B. rewrite B. apply Nr. }
  destruct (delete_ok v_free (d_rec d) (d_val d) o r R Er Rb) as (m' & v' & E' & D & RI').
  unfold SchemaModel.delete_record, wg_delete_record. rewrite Er, Rb, E'. cbn [Z.eqb negb]. rewrite free_succeeds.
  assert (A : exists ix c, (if is_special_record r then Some (d_ix d, 0) else ix_del_rec (d_rec d) (d_val d) (d_ix d) o) = Some (ix, c) /\ -1 <= c).
  { destruct (is_special_record r); [|apply ix_del_rec_ok]. exists (d_ix d), 0. split; [reflexivity|lia]. }
  destruct A as (ix & c & -> & Hc). destruct (Z.ltb_spec c (-1)); [lia|]. eexists. split; [reflexivity|]. cbn [d_rec]. split; [exact RI'|].
  intros p. destruct (Z.eqb_spec p o) as [-> | Np].
  - unfold data_of. now rewrite rput_same.
  - unfold data_of at 1. rewrite rput_other by assumption. apply D.
Qed.

Definition deletes (t : tree) : Prop := forall n d, wf t -> RI (d_rec d) -> holds (d_rec d) (recs t) -> NoDup (nodes t) -> closed (d_rec d) (nodes t) ->
  (height t <= n)%nat -> exists d', delete_record_recursive n d (root t) = Some (d', 0) /\ RI (d_rec d') /\
    forall p, data d' p = if in_dec Z.eq_dec p (nodes t) then None else data d p.

Lemma loop_ok n o meta : forall suf pre d kids, Forall deletes kids -> Forall wf kids -> RI (d_rec d) -> data d o = Some (meta, pre ++ suf) ->
  (forall x, In x pre -> is_record_ref x = false) -> filter is_record_ref suf = map root kids -> holds (d_rec d) (flat_map recs kids) ->
  NoDup (o :: nodes_all kids) -> closed (d_rec d) (o :: nodes_all kids) -> Forall (fun t => (height t <= n)%nat) kids ->
  exists d', delete_loop (delete_record_recursive n) d o (Z.of_nat (length pre)) (length suf) = Some (d', 0) /\ RI (d_rec d') /\
    forall p, data d' p = if in_dec Z.eq_dec p (o :: nodes_all kids) then None else data d p.
Proof.
  induction suf as [|x suf IH]; intros pre d kids K W R Do Hp Hf H D C Hh; cbn [length SchemaModel.delete_loop].
  - cbn [filter] in Hf. destruct kids; [|discriminate Hf]. rewrite app_nil_r in Do. pose proof (RI_ref _ _ _ R Do) as Ro.
    destruct (delete_ok' d o R) as (d' & E & R' & D'); [congruence| |].
    + intros p. destruct (Z.eq_dec p o) as [-> | Np].
      * rewrite (refs_data_fields _ _ _ _ o Do). apply cnt_zero. intros Hin. rewrite (Hp o Hin) in Ro. discriminate.
      * apply C; [now left|]. intros [Q | []]. congruence.
    + rewrite E. cbn [Z.eqb]. exists d'. split; [reflexivity|]. split; [exact R'|]. intros p. rewrite D'. cbn [nodes_all flat_map].
      destruct (in_dec Z.eq_dec p [o]) as [[Q | []] | Np], (Z.eqb_spec p o) as [Q' | Nq]; try reflexivity; [congruence|]. exfalso. apply Np. left. congruence.
  - destruct (data_some _ _ _ Do) as (r & Er & Rm & Rf). rewrite Er. cbn [fst snd] in Rf.
    assert (Fx : field r (Z.of_nat (length pre)) = x). { unfold field. now rewrite Rf, Nat2Z.id, app_nth2, Nat.sub_diag by lia. }
    rewrite Fx. cbn [filter] in Hf. assert (Len : Z.of_nat (length pre) + 1 = Z.of_nat (length (pre ++ [x]))) by (rewrite app_length; cbn [length]; lia).
    destruct (is_record_ref x) eqn:Hx.
    2: { rewrite Len. apply IH; auto; [now rewrite <- app_assoc|]. intros y Hy. apply in_app_or in Hy. destruct Hy as [Hy | [<- | []]]; auto. }
    destruct kids as [|k ks]; [discriminate Hf|]. cbn [map] in Hf. injection Hf as Hx' Hf. subst x.
    pose proof (RI_ref _ _ _ R Do) as Ro. cbn [nodes_all flat_map] in D, C, H. fold (nodes_all ks) in D, C.
    apply NoDup_cons_iff in D. destruct D as (No & D). apply NoDup_app_inv in D. destruct D as (Dk & Dks & Dx).
    inversion K as [|k' ks' Kk Kks]; subst k' ks'. inversion W as [|k' ks' Wk Wks]; subst k' ks'. inversion Hh as [|k' ks' Hk Hks]; subst k' ks'.
    assert (Nr : forall p, refs (d_rec d) p o = 0).
    { intros p. destruct (in_dec Z.eq_dec p (o :: nodes_all (k :: ks))) as [[Q0 | Hin] | Nin].
      - rewrite <- Q0. rewrite (refs_data_fields _ _ _ _ o Do), cnt_filter by exact Ro. rewrite filter_app. cbn [filter]. rewrite Hx, Hf. apply cnt_zero. intros Q.
        apply in_app_or in Q. destruct Q as [Q | Q].
        + apply filter_In in Q. destruct Q as (Q & _). rewrite (Hp o Q) in Ro. discriminate.
        + change (root k :: map root ks) with (map root (k :: ks)) in Q. apply in_map_iff in Q. destruct Q as (t & Et & Ht). apply No. rewrite <- Et. exact (roots_in (k :: ks) t Ht).
      - apply (forest_refs (k :: ks)); auto.
      - apply C; [now left|exact Nin]. }
    destruct (clear_ok d o meta pre (root k) suf R Do Hx Nr) as (d1 & E1 & R1 & D1). rewrite E1. cbn [Z.eqb negb].
    assert (Nok : ~ In o (nodes k)) by (intros Q; apply No; apply in_or_app; now left).
    assert (Noks : ~ In o (nodes_all ks)) by (intros Q; apply No; apply in_or_app; now right).
    assert (Keep : forall xs, (forall y, In y xs -> In y (flat_map recs (k :: ks))) -> (forall y, In y xs -> fst y <> o) -> holds (d_rec d1) xs).
    { intros xs S N y Hy. rewrite D1. destruct (Z.eqb_spec (fst y) o) as [Q | _]; [destruct (N y Hy Q)|]. apply H. now apply S. }
    assert (Hk1 : holds (d_rec d1) (recs k)).
    { apply Keep; [intros y Hy; cbn [flat_map]; apply in_or_app; now left|]. intros y Hy Q. apply Nok. rewrite <- Q. unfold nodes. now apply in_map. }
    assert (Hks1 : holds (d_rec d1) (flat_map recs ks)).
    { apply Keep; [intros y Hy; cbn [flat_map]; apply in_or_app; now right|]. intros y Hy Q. apply Noks. rewrite <- Q. apply in_flat_map in Hy. destruct Hy as (t & Ht & Hy).
      unfold nodes_all. apply in_flat_map. exists t. split; [exact Ht|]. unfold nodes. now apply in_map. }
    assert (Lk : forall c, In c (nodes_all (k :: ks)) -> is_record_ref c = true).
    { intros c Hc. destruct (nodes_recs (k :: ks) c Hc) as (y & Hy & <-). exact (RI_ref _ _ _ R (H y Hy)). }
    assert (Do1 : data d1 o = Some (meta, pre ++ 0 :: suf)) by now rewrite D1, Z.eqb_refl.
    assert (Fo : forall c, is_record_ref c = true -> ~ In c (nodes_all ks) -> refs (d_rec d1) o c = 0).
    { intros c Rc Nc. rewrite (refs_data_fields _ _ _ _ c Do1), cnt_filter by exact Rc. rewrite filter_app. cbn [filter]. change (is_record_ref 0) with false. cbn iota. rewrite Hf.
      apply cnt_zero. intros Q. apply in_app_or in Q. destruct Q as [Q | Q].
      - apply filter_In in Q. destruct Q as (Q & _). rewrite (Hp c Q) in Rc. discriminate.
      - apply in_map_iff in Q. destruct Q as (t & Et & Ht). apply Nc. rewrite <- Et. now apply roots_in. }
    assert (Other : forall p c, p <> o -> refs (d_rec d1) p c = refs (d_rec d) p c).
    { intros p c Np. apply data_refs. rewrite D1. destruct (Z.eqb_spec p o); [contradiction|reflexivity]. }
    destruct (Kk n d1 Wk R1 Hk1 Dk) as (d2 & E2 & R2 & D2); [|exact Hk|].
    { intros p c Hc Np. assert (Rc : is_record_ref c = true) by (apply Lk; cbn; apply in_or_app; now left).
      destruct (Z.eq_dec p o) as [-> | No']; [apply Fo; [exact Rc|intros Q; exact (Dx c Hc Q)]|]. rewrite Other by exact No'.
      destruct (in_dec Z.eq_dec p (nodes_all ks)) as [Hpk | Npk].
      - apply (forest_refs ks); auto; [|intros Q; exact (Dx c Hc Q)]. intros y Hy. apply H. cbn [flat_map]. apply in_or_app. now right.
      - apply C; [right; apply in_or_app; now left|]. intros [Q | Q]; [congruence|]. apply in_app_or in Q. tauto. }
    change (wg_decode_record (root k)) with (root k). rewrite E2. cbn [Z.eqb negb].
    destruct (IH (pre ++ [0]) d2 ks Kks Wks R2) as (d3 & E3 & R3 & D3).
    + rewrite D2. destruct (in_dec Z.eq_dec o (nodes k)); [contradiction|]. rewrite Do1. now rewrite <- app_assoc.
    + intros y Hy. apply in_app_or in Hy. destruct Hy as [Hy | [<- | []]]; auto.
    + exact Hf.
    + intros y Hy. rewrite D2. destruct (in_dec Z.eq_dec (fst y) (nodes k)) as [Q | _]; [|now apply Hks1].
      exfalso. apply (Dx (fst y) Q). apply in_flat_map in Hy. destruct Hy as (t & Ht & Hy). unfold nodes_all. apply in_flat_map. exists t. split; [exact Ht|]. unfold nodes. now apply in_map.
    + constructor; assumption.
    + intros p c Hc Np. destruct (in_dec Z.eq_dec p (nodes k)) as [Hpk | Npk].
      { apply refs_none. rewrite D2. destruct (in_dec Z.eq_dec p (nodes k)); [reflexivity|contradiction]. }
      rewrite (data_refs (d_rec d1)) by (rewrite D2; destruct (in_dec Z.eq_dec p (nodes k)); [contradiction|reflexivity]).
      rewrite Other by (intros ->; apply Np; now left). apply C.
      * destruct Hc as [<- | Hc]; [now left|right; apply in_or_app; now right].
      * intros [Q | Q]; [apply Np; now left|]. apply in_app_or in Q. destruct Q; [contradiction|apply Np; now right].
    + exact Hks.
    + replace (Z.of_nat (length pre) + 1) with (Z.of_nat (length (pre ++ [0]))) by (rewrite app_length; cbn [length]; lia).
      exists d3. split; [exact E3|]. split; [exact R3|]. intros p. rewrite D3. cbn [nodes_all flat_map]. fold (nodes_all ks).
      destruct (in_dec Z.eq_dec p (o :: nodes_all ks)) as [Q | Q], (in_dec Z.eq_dec p (o :: nodes k ++ nodes_all ks)) as [Q' | Q']; try reflexivity.
      * exfalso. apply Q'. destruct Q as [Q | Q]; [now left|right; apply in_or_app; now right].
      * rewrite D2. destruct (in_dec Z.eq_dec p (nodes k)) as [Hpk | Npk]; [reflexivity|]. exfalso. destruct Q' as [Q' | Q']; [apply Q; now left|].
        apply in_app_or in Q'. destruct Q'; [contradiction|]. apply Q. now right.
      * rewrite D2. destruct (in_dec Z.eq_dec p (nodes k)) as [Hpk | Npk]; [exfalso; apply Q'; right; apply in_or_app; now left|].
        rewrite D1. destruct (Z.eqb_spec p o) as [-> | _]; [exfalso; apply Q'; now left|reflexivity].
Qed.

Lemma list_max_le' (l : list tree) n : (list_max (map height l) <= n)%nat <-> Forall (fun t => (height t <= n)%nat) l.
Proof. rewrite list_max_le, Forall_map. reflexivity. Qed.

(** A tree of records is deleted completely, and nothing else. *)
Lemma tree_deletes t : deletes t.
Proof.
  induction t as [o meta fs kids IH] using tree_ind'. intros n d W R H D C Hh. cbn [wf] in W. destruct W as (Hf & W). rewrite fold_and in W.
  cbn [height] in Hh. destruct n as [|n]; [lia|]. cbn [SchemaModel.delete_record_recursive root]. rewrite nodes_Tn in *.
  pose proof (H (o, (meta, fs)) (or_introl eq_refl)) as Do. cbn [fst snd] in Do. destruct (data_some _ _ _ Do) as (r & Er & _ & Rf). cbn [snd] in Rf. rewrite Er, Rf.
  apply (loop_ok n o meta fs [] d kids); auto; [intros x []| |].
  - intros x Hx. apply H. cbn [recs]. now right.
  - apply list_max_le'. lia.
Qed.
End Delete.

(** ** Finding the top of a tree *)
Lemma find_up m n c p meta fs back doc : m c = Some (Rec meta fs back) -> Z.land meta META_DOC = 0 -> back = [p] -> doc <> 0 ->
  find_document_recursive m n p = Some doc -> find_document_recursive m (S n) c = Some doc.
Proof.
  intros E M -> Nd F. cbn [find_document_recursive]. rewrite E. unfold is_schema_document, has_meta. cbn [r_meta]. rewrite M. cbn [Z.eqb negb r_back].
  rewrite F. destruct (Z.eqb_spec doc 0); [contradiction|reflexivity].
Qed.

Lemma tree_find m doc : RI m -> doc <> 0 -> forall t k, wf t -> holds m (recs t) -> NoDup (nodes t) ->
  (forall p c, In c (tl (nodes t)) -> ~ In p (nodes t) -> refs m p c = 0) ->
  (forall x, In x (tl (recs t)) -> Z.land (fst (snd x)) META_DOC = 0) ->
  (forall n, (k <= n)%nat -> find_document_recursive m n (root t) = Some doc) ->
  forall c n, In c (nodes t) -> (k + height t <= S n)%nat -> find_document_recursive m n c = Some doc.
Proof.
  intros R Nd. induction t as [o meta fs kids IH] using tree_ind'. intros k W H D C M F c n Hc Hn. cbn [wf] in W. destruct W as (Hf & W). rewrite fold_and in W.
  rewrite nodes_Tn in Hc. cbn [height] in Hn. destruct Hc as [<- | Hc]; [apply F; lia|].
  unfold nodes_all in Hc. apply in_flat_map in Hc. destruct Hc as (t & Ht & Hc). rewrite Forall_forall in IH, W.
  assert (Ht' : (height t <= list_max (map height kids))%nat).
  { pose proof (proj1 (list_max_le' kids _) (le_n _)) as Q. rewrite Forall_forall in Q. now apply Q. }
  rewrite nodes_Tn in D, C. cbn [tl] in C. apply NoDup_cons_iff in D. destruct D as (No & D).
  apply in_split in Ht. destruct Ht as (k1 & k2 & Ek). 
  assert (Split : nodes_all kids = nodes_all k1 ++ nodes t ++ nodes_all k2) by (rewrite Ek; unfold nodes_all; now rewrite flat_map_app).
  assert (D' := D). rewrite Split in D'. apply NoDup_app_inv in D'. destruct D' as (_ & D' & X1). apply NoDup_app_inv in D'. destruct D' as (Dt & _ & X2).
  assert (Sub : forall x, In x (nodes t) -> In x (nodes_all kids)) by (intros x Hx; rewrite Split; apply in_or_app; right; apply in_or_app; now left).
  assert (Only : forall x, In x (nodes t) -> ~ In x (nodes_all k1) /\ ~ In x (nodes_all k2)) by (intros x Hx; split; intros Q; [exact (X1 x Q (in_or_app _ _ _ (or_introl Hx)))|exact (X2 x Hx Q)]).
  assert (Hts : In t kids) by (rewrite Ek; apply in_elt).
  assert (Hrec : forall x, In x (recs t) -> In x (flat_map recs kids)) by (intros x Hx; apply in_flat_map; eauto).
  assert (Lt : forall x, In x (nodes_all kids) -> is_record_ref x = true).
  { intros x Hx. destruct (nodes_recs kids x Hx) as (y & Hy & <-). apply (RI_ref m (fst y) (snd y) R). apply H. cbn [recs]. now right. }
  (* other records of the tree do not refer into [t] *)
  assert (Ot : forall p c0, In c0 (nodes t) -> In p (nodes_all kids) -> ~ In p (nodes t) -> refs m p c0 = 0).
  { intros p c0 Hc0 Hp Np. apply (forest_refs (k1 ++ k2)).
    - apply Forall_forall. intros t' Ht''. apply W. rewrite Ek. apply in_app_or in Ht''. apply in_or_app. cbn [In]. tauto.
    - intros x Hx. apply H. cbn [recs]. right. apply in_flat_map in Hx. destruct Hx as (t' & Ht'' & Hx). apply in_flat_map. exists t'. split; [|exact Hx].
      rewrite Ek. apply in_app_or in Ht''. apply in_or_app. cbn [In]. tauto.
    - unfold nodes_all. rewrite flat_map_app. rewrite Split in Hp. apply in_app_or in Hp. apply in_or_app. destruct Hp as [Hp | Hp]; [now left|]. apply in_app_or in Hp. tauto.
    - apply Lt. now apply Sub.
    - unfold nodes_all. rewrite flat_map_app. intros Q. apply in_app_or in Q. destruct (Only c0 Hc0). tauto. }
  apply (IH t Hts (S k)); auto.
  - intros x Hx. apply H. cbn [recs]. right. now apply Hrec.
  - intros p c0 Hc0 Np. assert (Hc0' : In c0 (nodes t)) by (destruct (nodes t); [destruct Hc0|now right]).
    destruct (Z.eq_dec p o) as [-> | Npo].
    + assert (Do := H (o, (meta, fs)) (or_introl eq_refl)). cbn [fst snd] in Do. rewrite (refs_data_fields _ _ _ _ c0 Do), cnt_filter by (apply Lt; now apply Sub). rewrite Hf.
      apply cnt_zero. intros Q. apply in_map_iff in Q. destruct Q as (t' & Et & Ht''). rewrite Ek in Ht''. apply in_app_or in Ht''. cbn [In] in Ht''.
      destruct (Only c0 Hc0') as (O1 & O2). destruct Ht'' as [Q | [Q | Q]].
      * apply O1. rewrite <- Et. now apply roots_in.
      * subst t'. destruct t as [o' m' f' ks']. rewrite nodes_Tn in *. cbn [tl root] in *. apply NoDup_cons_iff in Dt. rewrite Et in Dt. tauto.
      * apply O2. rewrite <- Et. now apply roots_in.
    + destruct (in_dec Z.eq_dec p (nodes_all kids)) as [Hp | Hp]; [now apply Ot|]. apply C; [now apply Sub|]. intros [Q | Q]; [congruence|contradiction].
  - intros x Hx. apply M. cbn [recs tl]. apply Hrec. destruct (recs t); [destruct Hx|now right].
  - (* the top of [t] *)
    intros n' Hn'. destruct n' as [|n']; [lia|].
    assert (Hr : exists metat fst', In (root t, (metat, fst')) (recs t)). { destruct t as [o' m' f' ks']. exists m', f'. now left. }
    destruct Hr as (mt & ft & Hr). pose proof (H (root t, (mt, ft)) (or_intror (Hrec _ Hr))) as Dr. cbn [fst snd] in Dr.
    destruct (data_some _ _ _ Dr) as ([rm rf rb] & Er & Em & Ef). cbn [fst snd r_meta r_fields] in Em, Ef. subst rm rf.
    apply (find_up m n' (root t) o mt ft rb); auto.
    + apply (M (root t, (mt, ft))). cbn [recs tl]. now apply Hrec.
    + apply back_one. intros p. assert (Rr : is_record_ref (root t) = true) by (apply Lt, Sub, root_in).
      destruct R as (R1 & R2). specialize (R2 (root t) p Rr). unfold backs in R2. rewrite Er in R2. cbn [r_back] in R2. rewrite R2.
      destruct (Z.eq_dec p o) as [-> | Npo].
      * rewrite hit_same. assert (Do := H (o, (meta, fs)) (or_introl eq_refl)). cbn [fst snd] in Do. rewrite (refs_data_fields _ _ _ _ _ Do), cnt_filter by exact Rr. rewrite Hf.
        rewrite Ek, map_app, cnt_app. cbn [map]. rewrite cnt_cons, hit_same. destruct (Only (root t) (root_in t)) as (O1 & O2).
        assert (Q1 : cnt (map root k1) (root t) = 0) by (apply cnt_zero; intros Q; apply in_map_iff in Q; destruct Q as (t' & Et & Q); apply O1; rewrite <- Et; now apply roots_in).
        assert (Q2 : cnt (map root k2) (root t) = 0) by (apply cnt_zero; intros Q; apply in_map_iff in Q; destruct Q as (t' & Et & Q); apply O2; rewrite <- Et; now apply roots_in).
        lia.
      * rewrite hit_diff by congruence. destruct (in_dec Z.eq_dec p (nodes t)) as [Hp | Hp].
        -- unfold nodes in Hp. apply in_map_iff in Hp. destruct Hp as ((p' & mp & fp) & <- & Hp). cbn [fst].
           pose proof (H _ (or_intror (Hrec _ Hp))) as Dp. cbn [fst snd] in Dp. rewrite (refs_data_fields _ _ _ _ _ Dp). apply cnt_zero. intros Q.
           pose proof (inner_refs t (W t Hts) _ (root t) Hp Q Rr) as Z1. destruct t as [o' m' f' ks']. rewrite nodes_Tn in *. cbn [tl root] in *. apply NoDup_cons_iff in Dt. tauto.
        -- destruct (in_dec Z.eq_dec p (nodes_all kids)) as [Hp' | Hp']; [apply Ot; auto; apply root_in|]. apply C; [apply Sub, root_in|]. intros [Q | Q]; [congruence|contradiction].
    + apply F. lia.
  - lia.
Qed.
