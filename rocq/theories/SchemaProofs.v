(** Proofs about the records of documents: creation, deletion of a tree of records, finding the top. *)
From Coq Require Import ZArith List Bool Lia Permutation.
From Verif Require Import Base EncodingModel RecordModel RecordProofs RecordProps SchemaModel.
Import ListNotations.
Open Scope Z_scope.
#[local] Ltac Zify.zify_post_hook ::= idtac.

Lemma data_none m o : data_of m o = None <-> m o = None.
Proof. unfold data_of. destruct (m o); split; congruence. Qed.
Lemma data_some m o x : data_of m o = Some x -> exists r, m o = Some r /\ r_meta r = fst x /\ r_fields r = snd x.
Proof. unfold data_of. destruct (m o) as [r|]; [|discriminate]. intros E. injection E as <-. eauto. Qed.
Lemma data_refs m m' p c : data_of m' p = data_of m p -> refs m' p c = refs m p c.
Proof. unfold data_of, refs. destruct (m p), (m' p); congruence. Qed.
Lemma refs_data_fields m p meta fs c : data_of m p = Some (meta, fs) -> refs m p c = cnt fs c.
Proof. intros E. apply data_some in E. destruct E as (r & E & _ & F). unfold refs. now rewrite E, F. Qed.
Lemma refs_none m p c : data_of m p = None -> refs m p c = 0.
Proof. intros E. apply data_none in E. unfold refs. now rewrite E. Qed.

Lemma RI_meta m o r meta : RI m -> m o = Some r -> RI (rput m o (Some (Rec meta (r_fields r) (r_back r)))).
Proof.
  intros (H1 & H2) E. split.
  - intros x Hx. apply H1. destruct (Z.eq_dec x o) as [-> | Nx]; [congruence|]. now rewrite rput_other in Hx.
  - intros c p Hc. specialize (H2 c p Hc). unfold backs, refs in *.
    destruct (Z.eq_dec c o) as [-> | Nc], (Z.eq_dec p o) as [-> | Np];
      rewrite ?rput_same, ?(rput_other _ o _ _ Np), ?(rput_other _ o _ _ Nc); cbn [r_back r_fields];
      rewrite ?E in H2; exact H2.
Qed.
Lemma RI_ref m o x : RI m -> data_of m o = Some x -> is_record_ref o = true.
Proof. intros (H & _) E. apply H. intros N. apply data_none in N. congruence. Qed.
Lemma RI_child m p meta fs f : RI m -> data_of m p = Some (meta, fs) -> In f fs -> is_record_ref f = true -> data_of m f <> None.
Proof.
  intros R E Hin Hf. apply data_some in E. destruct E as (r & E & _ & F). cbn [snd] in F. subst fs.
  destruct (RI_live _ _ _ _ R E Hin Hf) as (q & Q). rewrite data_none. congruence.
Qed.

Section Schema.
Context {I V : Type}.
Variable ix_any ix_tab : I -> Z -> bool.
Variable ix_add_rec ix_del_rec : rmap -> V -> I -> Z -> option (I * Z).
Variable ix_add_field ix_del_field : rmap -> V -> I -> Z -> Z -> option (I * Z).
Variable v_ref v_free : V -> Z -> V.
Variable alloc_rec : @rdb I V -> Z -> Z.
Variable cell_ok : @rdb I V -> bool.
Variable free_ok : @rdb I V -> Z -> bool.
Notation db := (@rdb I V).
Notation set_field := (@set_field I V ix_any ix_tab ix_add_field ix_del_field v_ref v_free cell_ok).
Notation set_fields := (@set_fields I V ix_any ix_tab ix_add_field ix_del_field v_ref v_free cell_ok).
Notation delete_record := (@delete_record I V ix_del_rec v_free free_ok).
Notation create_schema := (@create_schema I V ix_add_rec alloc_rec).
Notation wg_create_triple := (@wg_create_triple I V ix_any ix_tab ix_add_rec ix_add_field ix_del_field v_ref v_free alloc_rec cell_ok).
Notation delete_record_recursive := (@delete_record_recursive I V ix_any ix_tab ix_del_rec ix_add_field ix_del_field v_ref v_free cell_ok free_ok).
Notation delete_loop := (@delete_loop I V ix_any ix_tab ix_del_rec ix_add_field ix_del_field v_ref v_free cell_ok free_ok).
Notation wg_delete_document := (@wg_delete_document I V ix_any ix_tab ix_del_rec ix_add_field ix_del_field v_ref v_free cell_ok free_ok).
Notation data d := (data_of (d_rec d)).

(** ** Assigning fields of a new record *)
Lemma set_field_val d o i x d' r : d_rec d o = Some r -> field r i = 0 -> set_field d o i x = Some (d', 0) ->
  d_val d' = d_val d \/ d_val d' = v_ref (d_val d) x.
Proof.
  intros Eo Z0 E. unfold SchemaModel.set_field, wg_set_field in E. rewrite Eo in E.
  destruct (field_ok r i); cbn [negb] in E; [|discriminate]. rewrite Z0 in E.
  destruct (0 =? x). { injection E as <-. now left. }
  destruct (if indexed ix_any (d_ix d) r i then _ else _) as [[ix1 c1]|]; [|discriminate].
  destruct (c1 <? -1); [discriminate|].
  destruct (chain _ ix1 (r_back r)) as [[ix2 e2]|]; [|discriminate]. destruct (negb (e2 =? 0)); [discriminate|].
  change (is_record_ref 0) with false in E. change (isptr 0) with false in E. cbn iota in E. rewrite Eo in E.
  set (v := if Z.land x 7 =? 4 then _ else _) in E.
  assert (Hv : v = d_val d \/ v = v_ref (d_val d) x) by (subst v; destruct (Z.land x 7 =? 4); auto). clearbody v.
  destruct (if indexed ix_any ix2 r i then _ else _) as [[ix3 c3]|]; [|discriminate]. destruct (c3 <? -1); [discriminate|].
  destruct (add_backlink _ o x _) as [m3|]; [|discriminate]. destruct (r_back r) as [|p back].
  - injection E as <-. exact Hv.
  - destruct ((0 =? o) && (p =? o)); [discriminate|]. destruct (m3 o); [|discriminate].
    destruct (chain _ ix3 _) as [[ix4 e4]|]; [|discriminate]. injection E as <- _. exact Hv.
Qed.

Definition vals_grow (decodes : V -> Z -> Prop) (v v' : V) : Prop := forall e, decodes v e -> decodes v' e.

Lemma set_nth_app l x vs y : set_nth (l ++ x :: vs) (length l) y = l ++ y :: vs.
Proof. induction l as [|a l IH]; cbn [app length set_nth]; [reflexivity|]. now rewrite IH. Qed.

(** A value that may be stored: no reference or a reference to a live record. *)
Definition storable (d : db) (x : Z) : Prop := is_record_ref x = true -> data d x <> None.

Lemma set_fields_ok (W : V -> Prop) (HW : forall v x, W v -> W (v_ref v x)) : forall vs d o pre meta d',
  RI (d_rec d) -> W (d_val d) -> data d o = Some (meta, pre ++ repeat 0 (length vs)) -> Forall (storable d) vs ->
  set_fields d o (Z.of_nat (length pre)) vs = Some (d', true) ->
  RI (d_rec d') /\ W (d_val d') /\ forall p, data d' p = if p =? o then Some (meta, pre ++ vs) else data d p.
Proof.
  induction vs as [|x vs IH]; intros d o pre meta d' R Hw Do G; cbn [SchemaModel.set_fields].
  - intros X. injection X as <-. split; [exact R|]. split; [exact Hw|]. intros p. destruct (Z.eqb_spec p o) as [-> | _]; [|reflexivity]. now rewrite Do.
  - cbn [repeat length] in Do. inversion G as [|x' vs' Gx Gvs]; subst x' vs'. clear G.
    destruct (set_field d o (Z.of_nat (length pre)) x) as [(d1 & c)|] eqn:E; [|discriminate].
    destruct (Z.eqb_spec c 0) as [-> | Nc]; cbn [negb]; [|discriminate]. intros E2.
    destruct (data_some _ _ _ Do) as (r & Er & Rm & Rf). cbn [fst snd] in Rm, Rf.
    destruct (set_field_RI ix_any ix_tab ix_add_field ix_del_field v_ref v_free d o (Z.of_nat (length pre)) x (cell_ok d) d1 0 R) as (R1 & D1).
    { intros Hx. rewrite <- data_none. now apply Gx. }
    { exact E. } { discriminate. }
    destruct (D1 eq_refl) as (r' & Er' & D). rewrite Er in Er'. injection Er' as <-. rewrite Rm, Rf, Nat2Z.id, set_nth_app in D.
    assert (Z0 : field r (Z.of_nat (length pre)) = 0). { unfold field. rewrite Rf, Nat2Z.id, app_nth2, Nat.sub_diag by lia. reflexivity. }
    assert (W1 : W (d_val d1)). { destruct (set_field_val d o _ x d1 r Er Z0 E) as [-> | ->]; auto. }
    destruct (IH d1 o (pre ++ [x]) meta d' R1 W1) as (R' & W' & D').
    + rewrite D, Z.eqb_refl. now rewrite <- app_assoc.
    + rewrite Forall_forall in *. intros y Hy Ry. specialize (Gvs y Hy Ry). rewrite D. destruct (y =? o); [discriminate|exact Gvs].
    + rewrite app_length. cbn [length]. replace (Z.of_nat (length pre + 1)) with (Z.of_nat (length pre) + 1) by lia. exact E2.
    + split; [exact R'|]. split; [exact W'|]. intros p. rewrite D', D. rewrite <- app_assoc. cbn [app]. now destruct (p =? o).
Qed.

(** ** Growth of the database while a document is built: new records [ns] *)
Hypothesis alloc_fresh : forall d n, alloc_rec d n = 0 \/ (is_record_ref (alloc_rec d n) = true /\ d_rec d (alloc_rec d n) = None).

Definition grows (d d' : db) (ns : list Z) : Prop :=
  RI (d_rec d') /\ (forall o, data d o <> None -> data d' o = data d o) /\
  (forall o, data d' o <> None -> data d o <> None \/ In o ns) /\
  (forall o, In o ns -> data d o = None /\ data d' o <> None) /\ NoDup ns.
Lemma grows_refl d ix v : RI (d_rec d) -> grows d (RDB (d_rec d) ix v) [].
Proof. intros R. split; [exact R|]. split; [auto|]. split; [auto|]. split; [intros o []|constructor]. Qed.
Lemma grows_trans d d1 d2 n1 n2 : grows d d1 n1 -> grows d1 d2 n2 -> grows d d2 (n1 ++ n2).
Proof.
  intros (R1 & K1 & L1 & N1 & D1) (R2 & K2 & L2 & N2 & D2). split; [exact R2|]. split; [|split; [|split]].
  - intros o H. rewrite K2; [now apply K1|]. rewrite K1; assumption.
  - intros o H. rewrite in_app_iff. destruct (L2 o H) as [H1 | H1]; [|now right; right]. destruct (L1 o H1); [now left|right; now left].
  - intros o H. apply in_app_or in H. destruct H as [H | H].
    + destruct (N1 o H) as (A & B). split; [exact A|]. now rewrite K2.
    + destruct (N2 o H) as (A & B). split; [|exact B]. destruct (data d o) eqn:E; [|reflexivity]. exfalso. rewrite K1 in A by congruence. congruence.
  - apply NoDup_count_occ with (decA := Z.eq_dec). intros x. rewrite count_occ_app.
    rewrite (NoDup_count_occ Z.eq_dec) in D1, D2. specialize (D1 x). specialize (D2 x).
    destruct (in_dec Z.eq_dec x n1) as [H1 | H1]; [|rewrite (proj1 (count_occ_not_In Z.eq_dec n1 x) H1); lia].
    destruct (in_dec Z.eq_dec x n2) as [H2 | H2]; [|rewrite (proj1 (count_occ_not_In Z.eq_dec n2 x) H2); lia].
    destruct (N1 x H1) as (_ & B). destruct (N2 x H2) as (A & _). congruence.
Qed.
Lemma grows_perm d d' n n' : grows d d' n -> Permutation n n' -> grows d d' n'.
Proof.
  intros (R & K & L & N & D) P. split; [exact R|]. split; [exact K|]. split; [|split].
  - intros o H. destruct (L o H); [now left|right]. now apply (Permutation_in _ P).
  - intros o H. apply N. now apply (Permutation_in _ (Permutation_sym P)).
  - now apply (Permutation_NoDup P).
Qed.
Lemma grows_vals d d' ix v ns : grows (RDB (d_rec d) ix v) d' ns -> grows d d' ns.
Proof. exact (fun H => H). Qed.

Definition kv_meta (isparam : bool) : Z := if isparam then META_PARAM else 0.
Definition schema_meta (bit : Z) (isdocument isparam : bool) : Z :=
  let meta := Z.lor 0 bit in
  let meta := if isdocument then Z.lor meta META_DOC else meta in
  if isparam then Z.lor meta META_PARAM else meta.

Lemma create_grows (d : db) len o : RI (d_rec d) -> is_record_ref o = true -> d_rec d o = None ->
  let d' := RDB (rput (d_rec d) o (Some (Rec 0 (repeat 0 len) []))) (d_ix d) (d_val d) in
  RI (d_rec d') /\ forall p, data d' p = if p =? o then Some (0, repeat 0 len) else data d p.
Proof.
  intros R Ro E. cbn zeta. split; [now apply RI_create|]. intros p. unfold data_of. cbn [d_rec]. unfold rput. now destruct (p =? o).
Qed.
Lemma meta_data (d : db) o meta fs m : RI (d_rec d) -> data d o = Some (m, fs) ->
  RI (d_rec (set_meta d o meta)) /\ d_val (set_meta d o meta) = d_val d /\ forall p, data (set_meta d o meta) p = if p =? o then Some (meta, fs) else data d p.
Proof.
  intros R Do. destruct (data_some _ _ _ Do) as (r & Er & _ & Rf). cbn [snd] in Rf. unfold set_meta. rewrite Er. cbn [d_rec d_val].
  split; [now apply RI_meta|]. split; [reflexivity|]. intros p. unfold data_of at 1. cbn [d_rec]. unfold rput. destruct (p =? o); [cbn [r_meta r_fields]; now rewrite Rf|reflexivity].
Qed.
Lemma new_grows (d d' : db) o x : data d o = None -> RI (d_rec d') -> (forall p, data d' p = if p =? o then Some x else data d p) -> grows d d' [o].
Proof.
  intros N R D. split; [exact R|]. split; [|split; [|split]].
  - intros p Hp. rewrite D. destruct (Z.eqb_spec p o); [congruence|reflexivity].
  - intros p. rewrite D. destruct (Z.eqb_spec p o) as [-> | _]; [right; now left|tauto].
  - intros p [<- | []]. split; [exact N|]. now rewrite D, Z.eqb_refl.
  - constructor; [intros []|constructor].
Qed.

(** A new triple. *)
Lemma triple_ok (W : V -> Prop) (HW : forall v x, W v -> W (v_ref v x)) d s p b isparam d' o : RI (d_rec d) -> W (d_val d) ->
  storable d s -> storable d p -> storable d b -> wg_create_triple d s p b isparam = Some (d', o) -> o <> 0 ->
  grows d d' [o] /\ W (d_val d') /\ data d' o = Some (kv_meta isparam, [s; p; b]).
Proof.
  intros R Hw Gs Gp Gb. unfold SchemaModel.wg_create_triple, wg_create_raw_record.
  change (WG_SCHEMA_TRIPLE_SIZE <? 0) with false. cbn iota.
  destruct (alloc_fresh d WG_SCHEMA_TRIPLE_SIZE) as [A | (A1 & A2)].
  { rewrite A. cbn [Z.eqb]. intros X N. injection X as <- <-. congruence. }
  set (x := alloc_rec d WG_SCHEMA_TRIPLE_SIZE) in *. clearbody x.
  assert (Nx : x <> 0) by (intros ->; discriminate A1). destruct (Z.eqb_spec x 0); [contradiction|]. cbn zeta.
  destruct (create_grows d (Z.to_nat WG_SCHEMA_TRIPLE_SIZE) x R A1 A2) as (R1 & D1). cbn zeta in R1, D1.
  set (d1 := RDB _ _ _) in *. assert (V1 : d_val d1 = d_val d) by reflexivity. clearbody d1.
  destruct (Z.eqb_spec x 0); [contradiction|].
  match goal with |- match ?t with _ => _ end = _ -> _ => destruct t as [(d2 & ok)|] eqn:E2 end; [|discriminate].
  destruct ok; [|intros X N; injection X as <- <-; congruence].
  assert (D2 : RI (d_rec d2) /\ d_val d2 = d_val d /\ forall q, data d2 q = if q =? x then Some (kv_meta isparam, repeat 0 3) else data d q).
  { destruct isparam.
    - injection E2 as <-. destruct (meta_data d1 x (Z.lor (get_meta d1 x) META_PARAM) (repeat 0 (Z.to_nat WG_SCHEMA_TRIPLE_SIZE)) 0 R1) as (R2 & V2 & D2).
      { now rewrite D1, Z.eqb_refl. }
      split; [exact R2|]. split; [congruence|]. intros q. rewrite D2, D1. destruct (Z.eqb_spec q x) as [-> | _]; [|reflexivity].
      assert (Gm : get_meta d1 x = 0). { pose proof (D1 x) as Q. rewrite Z.eqb_refl in Q. apply data_some in Q. destruct Q as (r & Q & Qm & _). unfold get_meta. now rewrite Q, Qm. }
      now rewrite Gm.
    - unfold index_add in E2. destruct (ix_add_rec _ _ _ x) as [(ix & c)|]; [|discriminate]. injection E2 as <- _. cbn [d_rec d_val].
      split; [exact R1|]. split; [exact V1|]. intros q. exact (D1 q). }
  destruct D2 as (R2 & V2 & D2).
  destruct (set_fields d2 x WG_SCHEMA_TRIPLE_OFFSET [s; p; b]) as [(d3 & ok)|] eqn:E3; [|discriminate]. intros X N. injection X as <- <-.
  destruct ok; [|congruence].
  assert (St : forall y, storable d y -> storable d2 y).
  { intros y Hy Ry. rewrite D2. destruct (y =? x); [discriminate|now apply Hy]. }
  destruct (set_fields_ok W HW [s; p; b] d2 x [] (kv_meta isparam) d3 R2) as (R3 & W3 & D3); [rewrite V2; exact Hw|rewrite D2, Z.eqb_refl; reflexivity| |exact E3|].
  { repeat constructor; auto. }
  split; [|split; [exact W3|]].
  - apply (new_grows d d3 x (kv_meta isparam, [s; p; b])); [now apply data_none|exact R3|]. intros q. rewrite D3, D2. cbn [app]. now destruct (q =? x).
  - now rewrite D3, Z.eqb_refl.
Qed.

(** A new array or object with its elements. *)
Lemma schema_ok (W : V -> Prop) (HW : forall v x, W v -> W (v_ref v x)) bit d isdocument isparam d1 o d' vs : RI (d_rec d) -> W (d_val d) ->
  Forall (storable d) vs -> create_schema bit d (Z.of_nat (length vs)) isdocument isparam = Some (d1, o) -> o <> 0 ->
  set_fields d1 o 0 vs = Some (d', true) ->
  grows d d' [o] /\ W (d_val d') /\ data d' o = Some (schema_meta bit isdocument isparam, vs).
Proof.
  intros R Hw G. unfold SchemaModel.create_schema, wg_create_raw_record.
  destruct (Z.ltb_spec (Z.of_nat (length vs)) 0); [lia|].
  destruct (alloc_fresh d (Z.of_nat (length vs))) as [A | (A1 & A2)].
  { rewrite A. cbn [Z.eqb]. intros X N. injection X as <- <-. congruence. }
  set (x := alloc_rec d (Z.of_nat (length vs))) in *. clearbody x.
  assert (Nx : x <> 0) by (intros ->; discriminate A1). destruct (Z.eqb_spec x 0); [contradiction|]. rewrite Nat2Z.id.
  destruct (create_grows d (length vs) x R A1 A2) as (R1 & D1). cbn zeta in R1, D1.
  set (d0 := RDB _ _ _) in *. assert (V1 : d_val d0 = d_val d) by reflexivity. clearbody d0.
  destruct (Z.eqb_spec x 0); [contradiction|].
  assert (Gm : get_meta d0 x = 0). { pose proof (D1 x) as Q. rewrite Z.eqb_refl in Q. apply data_some in Q. destruct Q as (r & Q & Qm & _). unfold get_meta. now rewrite Q, Qm. }
  rewrite Gm. cbn zeta. intros E N.
  change (if isparam then Z.lor (if isdocument then Z.lor (Z.lor 0 bit) META_DOC else Z.lor 0 bit) META_PARAM else if isdocument then Z.lor (Z.lor 0 bit) META_DOC else Z.lor 0 bit)
    with (schema_meta bit isdocument isparam) in E.
  destruct (meta_data d0 x (schema_meta bit isdocument isparam) (repeat 0 (length vs)) 0 R1) as (R2 & V2 & D2).
  { now rewrite D1, Z.eqb_refl. }
  set (d2 := set_meta d0 x _) in *. clearbody d2.
  assert (E1 : x = o /\ d_rec d1 = d_rec d2 /\ d_val d1 = d_val d2).
  { destruct isparam; [injection E as <- <-; auto|]. unfold index_add in E. destruct (ix_add_rec _ _ _ x) as [(ix & c)|]; [|discriminate].
    injection E as <- E. destruct (negb (c <? -1)); [|congruence]. cbn [d_rec d_val]. auto. }
  destruct E1 as (<- & Ed & Ev). intros E3.
  assert (Dx : forall q, data d1 q = if q =? x then Some (schema_meta bit isdocument isparam, repeat 0 (length vs)) else data d q).
  { intros q. rewrite Ed, D2, D1. now destruct (q =? x). }
  destruct (set_fields_ok W HW vs d1 x [] (schema_meta bit isdocument isparam) d') as (R3 & W3 & D3).
  - now rewrite Ed.
  - now rewrite Ev, V2, V1.
  - now rewrite Dx, Z.eqb_refl.
  - rewrite Forall_forall in *. intros y Hy Ry. rewrite Dx. destruct (y =? x); [discriminate|now apply G].
  - exact E3.
  - split; [|split; [exact W3|now rewrite D3, Z.eqb_refl]].
    apply (new_grows d d' x (schema_meta bit isdocument isparam, vs)); [now apply data_none|exact R3|]. intros q. rewrite D3, Dx. cbn [app]. now destruct (q =? x).
Qed.
End Schema.
