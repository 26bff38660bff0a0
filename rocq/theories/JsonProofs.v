(** Proofs about the JSON callbacks: the records built for a JSON value. *)
From Coq Require Import ZArith List Bool Lia Permutation.
From Verif Require Import Base EncodingModel RecordModel RecordProofs RecordProps SchemaModel SchemaProofs SchemaTree JsonModel.
Import ListNotations.
Open Scope Z_scope.
#[local] Ltac Zify.zify_post_hook ::= idtac.

(** ** JSON values *)
Inductive json := JNull | JBool (b : bool) | JLit (l : lit) | JArr (l : list json) | JObj (l : list (list Z * json)).
Lemma json_ind' (P : json -> Prop) : P JNull -> (forall b, P (JBool b)) -> (forall l, P (JLit l)) ->
  (forall l, Forall P l -> P (JArr l)) -> (forall l, Forall (fun kj => P (snd kj)) l -> P (JObj l)) -> forall j, P j.
Proof.
  intros Hn Hb Hl Ha Ho. fix IH 1. intros [|b|l|l|l].
  - exact Hn.
  - apply Hb.
  - apply Hl.
  - apply Ha. induction l as [|j l IHl]; constructor; [apply IH|exact IHl].
  - apply Ho. induction l as [|(k & j) l IHl]; constructor; [apply IH|exact IHl].
Qed.
(** The callbacks for a value. *)
Fixpoint events (j : json) : list event :=
  match j with
  | JNull => [ENull]
  | JBool b => [EBool b]
  | JLit l => [ELit l]
  | JArr l => EArrayBegin :: flat_map events l ++ [EArrayEnd]
  | JObj l => EObjectBegin :: flat_map (fun kj => EKey (fst kj) :: events (snd kj)) l ++ [EObjectEnd]
  end.
(** Nesting of arrays and objects. *)
Fixpoint nesting (j : json) : nat :=
  match j with
  | JNull | JBool _ | JLit _ => O
  | JArr l => S (list_max (map nesting l))
  | JObj l => S (list_max (map (fun kj => nesting (snd kj)) l))
  end.
(** Records on the longest way from the top. *)
Fixpoint depth (j : json) : nat :=
  match j with
  | JNull | JBool _ | JLit _ => O
  | JArr l => S (list_max (map depth l))
  | JObj l => S (list_max (map (fun kj => S (depth (snd kj))) l))
  end.
(** What is stored: strings up to a zero byte, keys of at most 79 bytes, no null and no boolean. *)
Definition cut_lit (l : lit) : lit := match l with LStr s => LStr (cut_zero s) | _ => l end.
Definition cut_key (k : list Z) : list Z := firstn 79 (cut_zero (cut_zero k)).
Fixpoint strip (j : json) : option json :=
  match j with
  | JNull | JBool _ => None
  | JLit l => Some (JLit (cut_lit l))
  | JArr l => Some (JArr (flat_map (fun j => match strip j with Some x => [x] | None => [] end) l))
  | JObj l => Some (JObj (flat_map (fun kj => match strip (snd kj) with Some x => [(cut_key (fst kj), x)] | None => [] end) l))
  end.

(** ** Stored values: with offsets and encodings *)
Inductive stored := SLit (e : Z) (l : lit) | SArr (o : Z) (l : list stored) | SObj (o : Z) (l : list (Z * Z * list Z * stored)).
Definition pair_of (x : Z * Z * list Z * stored) : Z := fst (fst (fst x)).
Definition keyenc (x : Z * Z * list Z * stored) : Z := snd (fst (fst x)).
Definition keystr (x : Z * Z * list Z * stored) : list Z := snd (fst x).
Definition valof (x : Z * Z * list Z * stored) : stored := snd x.
Lemma stored_ind' (P : stored -> Prop) : (forall e l, P (SLit e l)) -> (forall o l, Forall P l -> P (SArr o l)) ->
  (forall o l, Forall (fun x => P (valof x)) l -> P (SObj o l)) -> forall p, P p.
Proof.
  intros Hl Ha Ho. fix IH 1. intros [e l|o l|o l].
  - apply Hl.
  - apply Ha. induction l as [|j l IHl]; constructor; [apply IH|exact IHl].
  - apply Ho. induction l as [|(((a & b) & c) & j) l IHl]; constructor; [apply IH|exact IHl].
Qed.
Definition encoding (p : stored) : Z := match p with SLit e _ => e | SArr o _ => o | SObj o _ => o end.
Fixpoint value (p : stored) : json :=
  match p with
  | SLit _ l => JLit l
  | SArr _ l => JArr (map value l)
  | SObj _ l => JObj (map (fun x => (keystr x, value (valof x))) l)
  end.
(** The literals with their encodings. *)
Fixpoint lits (p : stored) : list (Z * lit) :=
  match p with
  | SLit e l => [(e, l)]
  | SArr _ l => flat_map lits l
  | SObj _ l => flat_map (fun x => (keyenc x, LStr (keystr x)) :: lits (valof x)) l
  end.
Section Trees.
Variable isparam : bool.
(** The trees of records of a value: none for a literal. *)
Fixpoint trees (isdocument : bool) (p : stored) : list tree :=
  match p with
  | SLit _ _ => []
  | SArr o l => [Tn o (schema_meta META_ARRAY isdocument isparam) (map encoding l) (flat_map (trees false) l)]
  | SObj o l => [Tn o (schema_meta META_OBJECT isdocument isparam) (map pair_of l)
                   (map (fun x => Tn (pair_of x) (kv_meta isparam) [0; keyenc x; encoding (valof x)] (trees false (valof x))) l)]
  end.
Definition pair_tree (x : Z * Z * list Z * stored) : tree :=
  Tn (pair_of x) (kv_meta isparam) [0; keyenc x; encoding (valof x)] (trees false (valof x)).
End Trees.

Section Json.
Context {I V : Type}.
Variable ix_any ix_tab : I -> Z -> bool.
Variable ix_add_rec : rmap -> V -> I -> Z -> option (I * Z).
Variable ix_add_field ix_del_field : rmap -> V -> I -> Z -> Z -> option (I * Z).
Variable v_ref v_free : V -> Z -> V.
Variable alloc_rec : @rdb I V -> Z -> Z.
Variable cell_ok : @rdb I V -> bool.
Variable encode : V -> lit -> V * Z.
Variable malloc_ok : @rdb I V -> bool.
Variable decode : V -> Z -> option lit.
Variable isparam isdocument : bool.
Notation db := (@rdb I V).
Notation ctx := (@ctx I V).
Notation data d := (data_of (d_rec d)).
Notation callbacks := (@callbacks I V ix_any ix_tab ix_add_rec ix_add_field ix_del_field v_ref v_free alloc_rec cell_ok encode malloc_ok isparam isdocument).
Notation callback := (@callback I V ix_any ix_tab ix_add_rec ix_add_field ix_del_field v_ref v_free alloc_rec cell_ok encode malloc_ok isparam isdocument).
Notation add_literal := (@add_literal I V ix_any ix_tab ix_add_rec ix_add_field ix_del_field v_ref v_free alloc_rec cell_ok encode malloc_ok isparam).
Notation pop := (@pop I V ix_any ix_tab ix_add_rec ix_add_field ix_del_field v_ref v_free alloc_rec cell_ok encode malloc_ok isparam isdocument).

(** New records are at unused offsets; encoding keeps the values there are, and the
    encoded value decodes to the literal; raising a reference count changes no value. *)
Hypothesis alloc_fresh : forall d n, alloc_rec d n = 0 \/ (is_record_ref (alloc_rec d n) = true /\ d_rec d (alloc_rec d n) = None).
Hypothesis encode_ok : forall v l v' e, encode v l = (v', e) ->
  (forall x y, decode v x = Some y -> decode v' x = Some y) /\ (e <> WG_ILLEGAL -> is_record_ref e = false /\ decode v' e = Some l).
Hypothesis ref_ok : forall v x e l, decode v e = Some l -> decode (v_ref v x) e = Some l.

Definition keeps (v v' : V) : Prop := forall x y, decode v x = Some y -> decode v' x = Some y.
Definition ext (d d' : db) (ns : list Z) : Prop := grows d d' ns /\ keeps (d_val d) (d_val d').
Lemma ext_trans d d1 d2 n1 n2 : ext d d1 n1 -> ext d1 d2 n2 -> ext d d2 (n1 ++ n2).
Proof. intros (A & B) (C & D). split; [exact (grows_trans _ _ _ _ _ A C)|]. intros x y H. now apply D, B. Qed.
Lemma ext_perm d d' n n' : ext d d' n -> Permutation n n' -> ext d d' n'.
Proof. intros (A & B) P. split; [exact (grows_perm _ _ _ _ A P)|exact B]. Qed.

(** A value is in the database. *)
Definition lits_ok (d : db) (xs : list (Z * lit)) : Prop := forall x, In x xs -> is_record_ref (fst x) = false /\ decode (d_val d) (fst x) = Some (snd x).
Definition placed (d : db) (ts : list tree) (xs : list (Z * lit)) : Prop := holds (d_rec d) (flat_map recs ts) /\ lits_ok d xs.
Lemma placed_ext d d' n ts xs : placed d ts xs -> ext d d' n -> placed d' ts xs.
Proof.
  intros (H & L) ((R & K & _) & Kv). split.
  - intros x Hx. rewrite K; [now apply H|]. rewrite (H x Hx). discriminate.
  - intros x Hx. destruct (L x Hx) as (A & B). split; [exact A|now apply Kv].
Qed.
Lemma placed_app d t1 t2 l1 l2 : placed d t1 l1 -> placed d t2 l2 -> placed d (t1 ++ t2) (l1 ++ l2).
Proof.
  intros (H1 & L1) (H2 & L2). split.
  - intros x Hx. rewrite flat_map_app in Hx. apply in_app_or in Hx. destruct Hx; auto.
  - intros x Hx. apply in_app_or in Hx. destruct Hx; auto.
Qed.

Lemma callbacks_app a b c : callbacks c (a ++ b) = match callbacks c a with Some (c', true) => callbacks c' b | x => x end.
Proof.
  revert c. induction a as [|e a IH]; intros c; cbn [app JsonModel.callbacks]; [reflexivity|]. destruct (callback c e) as [(c' & [|])|]; [apply IH|reflexivity|reflexivity].
Qed.

Definition top_nodes (ts : list tree) : list Z := nodes_all ts.

(** The encoding of a stored value is no reference or the top of its tree. *)
Lemma encoding_storable d b p : placed d (trees isparam b p) (lits p) -> storable d (encoding p).
Proof.
  intros (H & L) R. destruct p as [e l|o l|o l]; cbn [encoding trees lits] in *.
  - destruct (L (e, l) (or_introl eq_refl)) as (Q & _). cbn [fst] in Q. congruence.
  - pose proof (H (o, (schema_meta META_ARRAY b isparam, map encoding l)) (or_introl eq_refl)) as Q. cbn [fst snd] in Q. now rewrite Q.
  - pose proof (H (o, (schema_meta META_OBJECT b isparam, map pair_of l)) (or_introl eq_refl)) as Q. cbn [fst snd] in Q. now rewrite Q.
Qed.

(** What adding a value [p] to the top entry [e] of the stack gives. *)
Definition added (d d' : db) (e : stack_entry) (p : stored) (x : Z) : Prop :=
  match e_type e with
  | ARRAY => x = encoding p /\ exists n, ext d d' n /\ Permutation n (top_nodes (trees isparam false p)) /\ placed d' (trees isparam false p) (lits p)
  | OBJECT => exists k ke n, e_key e = Some k /\ ext d d' n /\ Permutation n (top_nodes [pair_tree isparam (x, ke, k, p)]) /\
      placed d' [pair_tree isparam (x, ke, k, p)] ((ke, LStr k) :: lits p)
  end.

Lemma ext_vals d ix v : RI (d_rec d) -> keeps (d_val d) v -> ext d (RDB (d_rec d) ix v) [].
Proof. intros R K. split; [now apply grows_refl|exact K]. Qed.

(** add_literal with the encoding of a placed value. *)
Lemma add_literal_ok c e st c' d0 n0 p : c_stack c = e :: st -> RI (d_rec (c_db c)) ->
  ext d0 (c_db c) n0 -> Permutation n0 (top_nodes (trees isparam false p)) -> placed (c_db c) (trees isparam false p) (lits p) ->
  add_literal c (encoding p) = Some (c', true) ->
  exists x, c_stack c' = Entry (e_type e) (e_elems e ++ [x]) (e_key e) :: st /\ c_doc c' = c_doc c /\ added d0 (c_db c') e p x.
Proof.
  intros S R X P Pl. unfold JsonModel.add_literal. rewrite S. unfold added. destruct (e_type e) eqn:T.
  - unfold add_elem. rewrite S. destruct (malloc_ok (c_db c)); [|discriminate]. intros Q. injection Q as <-. exists (encoding p). cbn [c_stack c_doc c_db]. rewrite T. eauto 8.
  - destruct (e_key e) as [k|] eqn:K; [|discriminate]. destruct (encode (d_val (c_db c)) (LStr k)) as (v & key) eqn:E.
    destruct (encode_ok _ _ _ _ E) as (Kv & Ke). destruct (Z.eqb_spec key WG_ILLEGAL) as [_ | Nk]; [discriminate|]. destruct (Ke Nk) as (Rk & Dk).
    match goal with |- context [wg_create_kvpair _ _ _ _ _ _ _ _ _ ?d _ _ _] => set (d1 := d) end.
    destruct (wg_create_kvpair _ _ _ _ _ _ _ _ _ d1 key (encoding p) isparam) as [(d2 & o)|] eqn:E2; [|discriminate]. cbn [c_stack c_doc].
    destruct (Z.eqb_spec o 0) as [_ | No]; [discriminate|]. unfold add_elem. cbn [c_stack c_db c_doc]. try rewrite S. destruct (malloc_ok d2); [|discriminate]. intros Q. injection Q as <-.
    cbn [c_stack c_doc c_db]. exists (wg_encode_record o). split; [rewrite T, K; reflexivity|]. split; [reflexivity|]. unfold wg_encode_record. exists k, key.
    assert (X1 : ext d0 d1 n0).
    { rewrite <- (app_nil_r n0). apply (ext_trans _ (c_db c)); [exact X|]. apply ext_vals; [exact R|exact Kv]. }
    assert (Pl1 : placed d1 (trees isparam false p) (lits p)).
    { apply (placed_ext (c_db c) _ []); [exact Pl|]. apply ext_vals; [exact R|exact Kv]. }
    assert (R1 : RI (d_rec d1)) by exact R.
    destruct (triple_ok ix_any ix_tab ix_add_rec ix_add_field ix_del_field v_ref v_free alloc_rec cell_ok (fun _ _ => true) alloc_fresh
      (fun v => keeps (d_val d1) v) ltac:(intros; intros ? ? ?; apply ref_ok; auto) d1 0 key (encoding p) isparam d2 o R1) as (G & Kd & D).
    { intros ? ? Q. exact Q. }
    { intros Q. discriminate Q. }
    { intros Q. congruence. }
    { now apply (encoding_storable _ false). }
    { exact E2. } { exact No. }
    assert (X2 : ext d1 d2 [o]) by (split; assumption).
    exists (n0 ++ [o]). split; [reflexivity|]. split; [exact (ext_trans _ _ _ _ _ X1 X2)|]. split.
    + unfold top_nodes, nodes_all. cbn [flat_map pair_tree]. rewrite app_nil_r. unfold pair_tree. rewrite nodes_Tn. cbn [valof snd pair_of fst].
      apply Permutation_trans with (o :: n0); [apply Permutation_sym, Permutation_cons_append|]. constructor. exact P.
    + destruct (placed_ext _ _ _ _ _ Pl1 X2) as (Hh & Hl). split.
      * intros x Hx. cbn [flat_map pair_tree recs] in Hx. unfold pair_tree in Hx. cbn [recs pair_of keyenc valof fst snd] in Hx. rewrite app_nil_r in Hx. destruct Hx as [<- | Hx]; [exact D|now apply Hh].
      * intros x [<- | Hx]; [|now apply Hl]. cbn [fst snd]. split; [exact Rk|]. apply X2. exact Dk.
Qed.

(** What the callbacks of a value do below a stack entry. *)
Definition runs (j : json) : Prop := forall c c' e st, c_stack c = e :: st -> (length (c_stack c) <= MAX_DEPTH)%nat -> RI (d_rec (c_db c)) ->
  callbacks c (events j) = Some (c', true) ->
  c_doc c' = c_doc c /\ (nesting j + length (c_stack c) <= MAX_DEPTH)%nat /\
  match strip j with
  | None => c' = c
  | Some j' => exists p x, value p = j' /\ c_stack c' = Entry (e_type e) (e_elems e ++ [x]) (e_key e) :: st /\ added (c_db c) (c_db c') e p x
  end.

Lemma runs_RI d d' n : ext d d' n -> RI (d_rec d').
Proof. intros ((R & _) & _). exact R. Qed.
Lemma top_app a b : top_nodes (a ++ b) = top_nodes a ++ top_nodes b.
Proof. unfold top_nodes, nodes_all. apply flat_map_app. Qed.

Definition keep_some (o : option json) : list json := match o with Some x => [x] | None => [] end.
Definition keep_pair (kj : list Z * json) : list (list Z * json) := match strip (snd kj) with Some x => [(cut_key (fst kj), x)] | None => [] end.

(** The elements of an array. *)
Lemma array_runs l : Forall runs l -> forall c c' xs st key, c_stack c = Entry ARRAY xs key :: st -> (length (c_stack c) <= MAX_DEPTH)%nat -> RI (d_rec (c_db c)) ->
  callbacks c (flat_map events l) = Some (c', true) ->
  c_doc c' = c_doc c /\ (list_max (map nesting l) + length (c_stack c) <= MAX_DEPTH)%nat /\
  exists ps n, map value ps = flat_map (fun j => keep_some (strip j)) l /\ c_stack c' = Entry ARRAY (xs ++ map encoding ps) key :: st /\
    ext (c_db c) (c_db c') n /\ Permutation n (top_nodes (flat_map (trees isparam false) ps)) /\ placed (c_db c') (flat_map (trees isparam false) ps) (flat_map lits ps).
Proof.
  induction l as [|j l IH]; intros F c c' xs st key S Hs R; cbn [flat_map].
  - cbn [JsonModel.callbacks]. intros Q. injection Q as <-. split; [reflexivity|]. split; [cbn [map list_max fold_right]; lia|]. exists [], []. cbn [map flat_map]. rewrite app_nil_r.
    split; [reflexivity|]. split; [exact S|]. split; [destruct (c_db c); apply ext_vals; [exact R|intros ? ? Q; exact Q]|]. split; [constructor|]. split; intros x [].
  - inversion F as [|j' l' Fj Fl]; subst j' l'. rewrite callbacks_app. destruct (callbacks c (events j)) as [(c1 & [|])|] eqn:E; [|discriminate|discriminate]. intros E2.
    destruct (Fj c c1 _ _ S Hs R E) as (Dc & Hn & H). cbn [map list_max fold_right]. destruct (strip j) as [j'|] eqn:Sj.
    + destruct H as (p & x & Vp & S1 & A). cbn [added e_type e_elems e_key] in A, S1. unfold added in A. cbn [e_type] in A. destruct A as (-> & n & X & P & Pl).
      destruct (IH Fl c1 c' _ _ _ S1) as (Dc' & Hn' & ps & n' & Vs & S' & X' & P' & Pl').
      { rewrite S1. rewrite S in Hs. exact Hs. } { exact (runs_RI _ _ _ X). } { exact E2. }
      split; [congruence|]. split. { rewrite S1 in Hn'. rewrite S in *. cbn [length] in *. unfold list_max in Hn'. lia. }
      exists (p :: ps), (n ++ n'). cbn [map flat_map keep_some app]. split; [now rewrite Vp, Vs|]. split; [rewrite S'; now rewrite <- app_assoc|].
      split; [exact (ext_trans _ _ _ _ _ X X')|]. split; [rewrite top_app; now apply Permutation_app|].
      apply placed_app; [exact (placed_ext _ _ _ _ _ Pl X')|exact Pl'].
    + subst c1. destruct (IH Fl c c' _ _ _ S Hs R E2) as (Dc' & Hn' & ps & n' & Vs & S' & X' & P' & Pl').
      split; [exact Dc'|]. split; [unfold list_max in Hn'; lia|]. exists ps, n'. cbn [flat_map keep_some app]. split; [exact Vs|]. auto.
Qed.

(** The members of an object. *)
Lemma object_runs l : Forall (fun kj => runs (snd kj)) l -> forall c c' xs st key, c_stack c = Entry OBJECT xs key :: st -> (length (c_stack c) <= MAX_DEPTH)%nat -> RI (d_rec (c_db c)) ->
  callbacks c (flat_map (fun kj => EKey (fst kj) :: events (snd kj)) l) = Some (c', true) ->
  c_doc c' = c_doc c /\ (list_max (map (fun kj => nesting (snd kj)) l) + length (c_stack c) <= MAX_DEPTH)%nat /\
  exists ps n key', map (fun x => (keystr x, value (valof x))) ps = flat_map keep_pair l /\ c_stack c' = Entry OBJECT (xs ++ map pair_of ps) key' :: st /\
    ext (c_db c) (c_db c') n /\ Permutation n (top_nodes (map (pair_tree isparam) ps)) /\
    placed (c_db c') (map (pair_tree isparam) ps) (flat_map (fun x => (keyenc x, LStr (keystr x)) :: lits (valof x)) ps).
Proof.
  induction l as [|(k & j) l IH]; intros F c c' xs st key S Hs R; cbn [flat_map].
  - cbn [JsonModel.callbacks]. intros Q. injection Q as <-. split; [reflexivity|]. split; [cbn [map list_max fold_right]; lia|]. exists [], [], key. cbn [map flat_map]. rewrite app_nil_r.
    split; [reflexivity|]. split; [exact S|]. split; [destruct (c_db c); apply ext_vals; [exact R|intros ? ? Q; exact Q]|]. split; [constructor|]. split; intros x [].
  - inversion F as [|j' l' Fj Fl]; subst j' l'. cbn [fst snd app] in *. cbn [JsonModel.callbacks]. unfold JsonModel.callback at 1.
    destruct (malloc_ok (c_db c)); [|discriminate]. unfold add_key. rewrite S. cbn [e_type e_elems].
    fold (cut_key k). set (c0 := Ctx _ _ _). rewrite callbacks_app.
    destruct (callbacks c0 (events j)) as [(c1 & [|])|] eqn:E; [|discriminate|discriminate]. intros E2.
    assert (S0 : c_stack c0 = Entry OBJECT xs (Some (cut_key k)) :: st) by reflexivity. assert (R0 : RI (d_rec (c_db c0))) by exact R.
    assert (Hs0 : (length (c_stack c0) <= MAX_DEPTH)%nat) by (rewrite S0; rewrite S in Hs; exact Hs).
    destruct (Fj c0 c1 _ _ S0 Hs0 R0 E) as (Dc & Hn & H). cbn [map list_max fold_right snd].
    assert (Ls : length (c_stack c0) = length (c_stack c)) by now rewrite S, S0.
    unfold keep_pair at 1. cbn [fst snd]. destruct (strip j) as [j'|] eqn:Sj.
    + destruct H as (p & x & Vp & S1 & A). unfold added in A. cbn [e_type e_elems e_key] in A, S1. destruct A as (k' & ke & n & Ek & X & P & Pl). injection Ek as <-.
      destruct (IH Fl c1 c' _ _ _ S1) as (Dc' & Hn' & ps & n' & key' & Vs & S' & X' & P' & Pl').
      { rewrite S1. rewrite S in Hs. exact Hs. } { exact (runs_RI _ _ _ X). } { exact E2. }
      split; [rewrite Dc', Dc; reflexivity|]. split. { rewrite S1 in Hn'. rewrite S0 in Hn, Ls. rewrite S in Ls, Hs. cbn [length] in *. unfold list_max in Hn'. lia. }
      exists ((x, ke, cut_key k, p) :: ps), (n ++ n'), key'. cbn [map flat_map app keystr keyenc pair_of valof fst snd]. split; [rewrite Vp; f_equal; exact Vs|].
      split; [rewrite S'; now rewrite <- app_assoc|].
      split; [exact (ext_trans _ _ _ _ _ X X')|]. split.
      * change (pair_tree isparam (x, ke, cut_key k, p) :: map (pair_tree isparam) ps) with ([pair_tree isparam (x, ke, cut_key k, p)] ++ map (pair_tree isparam) ps).
        rewrite top_app. now apply Permutation_app.
      * pose proof (placed_app _ _ _ _ _ (placed_ext _ _ _ _ _ Pl X') Pl') as Q. exact Q.
    + subst c1. destruct (IH Fl c0 c' _ _ _ S0) as (Dc' & Hn' & ps & n' & key' & Vs & S' & X' & P' & Pl'); [now rewrite Ls|exact R0|exact E2|].
      split; [exact Dc'|]. split; [rewrite S0 in Hn, Hn'; cbn [length] in Hn, Hn' |- *; unfold list_max in Hn'; lia|]. exists ps, n', key'. cbn [app]. split; [exact Vs|]. auto.
Qed.

(** pop: the record of the top entry. *)
Lemma storable_all d ps : placed d (flat_map (trees isparam false) ps) (flat_map lits ps) -> Forall (storable d) (map encoding ps).
Proof.
  intros (H & L). apply Forall_map, Forall_forall. intros p Hp. apply (encoding_storable _ false). split.
  - intros x Hx. apply H. apply in_flat_map in Hx. destruct Hx as (t & Ht & Hx). apply in_flat_map. exists t. split; [|exact Hx]. apply in_flat_map. eauto.
  - intros x Hx. apply L. apply in_flat_map. eauto.
Qed.
Lemma storable_pairs d ps xs : placed d (map (pair_tree isparam) ps) xs -> Forall (storable d) (map pair_of ps).
Proof.
  intros (H & L). apply Forall_map, Forall_forall. intros p Hp _. assert (Q : data d (pair_of p) = Some (kv_meta isparam, [0; keyenc p; encoding (valof p)])); [|now rewrite Q].
  apply (H (pair_of p, (kv_meta isparam, [0; keyenc p; encoding (valof p)]))). apply in_flat_map. exists (pair_tree isparam p). split; [now apply in_map|now left].
Qed.

(** The record created by pop. *)
Lemma create_ok bit d isdoc d1 o vs d2 : RI (d_rec d) -> Forall (storable d) vs ->
  create_schema ix_add_rec alloc_rec bit d (Z.of_nat (length vs)) isdoc isparam = Some (d1, o) -> o <> 0 ->
  set_fields ix_any ix_tab ix_add_field ix_del_field v_ref v_free cell_ok d1 o 0 vs = Some (d2, true) ->
  ext d d2 [o] /\ data d2 o = Some (schema_meta bit isdoc isparam, vs).
Proof.
  intros R G E No E2.
  destruct (schema_ok ix_any ix_tab ix_add_rec ix_add_field ix_del_field v_ref v_free alloc_rec cell_ok (fun _ _ => true) alloc_fresh
    (fun v => keeps (d_val d) v) ltac:(intros; intros ? ? ?; apply ref_ok; auto) bit d isdoc isparam d1 o d2 vs R ltac:(intros ? ? Q; exact Q) G E No E2) as (A & B & C).
  split; [split; assumption|exact C].
Qed.

(** A complete array or object: the value and its records. *)
Definition whole (isdoc : bool) (d d' : db) (j' : json) (o : Z) : Prop :=
  exists p n, value p = j' /\ encoding p = o /\ ext d d' n /\ Permutation n (top_nodes (trees isparam isdoc p)) /\ placed d' (trees isparam isdoc p) (lits p) /\
    exists t, trees isparam isdoc p = [t] /\ root t = o.

Lemma pop_ok c e st c' : c_stack c = e :: st -> pop c = Some (c', true) -> exists d1 d2 o,
  create_schema ix_add_rec alloc_rec (match e_type e with ARRAY => META_ARRAY | OBJECT => META_OBJECT end) (c_db c) (Z.of_nat (length (e_elems e)))
    (match st with [] => isdocument | _ => false end) isparam = Some (d1, o) /\ o <> 0 /\
  set_fields ix_any ix_tab ix_add_field ix_del_field v_ref v_free cell_ok d1 o 0 (e_elems e) = Some (d2, true) /\
  match st with
  | [] => c' = Ctx d2 [] o
  | _ => add_literal (Ctx d2 st (c_doc c)) o = Some (c', true)
  end.
Proof.
  intros S. unfold JsonModel.pop. rewrite S.
  set (bit := match e_type e with ARRAY => META_ARRAY | OBJECT => META_OBJECT end).
  set (isdoc := match st with [] => isdocument | _ => false end).
  assert (Q : (match e_type e with
             | ARRAY => wg_create_array ix_add_rec alloc_rec (c_db c) (Z.of_nat (length (e_elems e))) ((match st with [] => true | _ => false end) && isdocument) isparam
             | OBJECT => wg_create_object ix_add_rec alloc_rec (c_db c) (Z.of_nat (length (e_elems e))) ((match st with [] => true | _ => false end) && isdocument) isparam
             end) = create_schema ix_add_rec alloc_rec bit (c_db c) (Z.of_nat (length (e_elems e))) isdoc isparam).
  { subst bit isdoc. destruct (e_type e), st; reflexivity. }
  rewrite Q. clear Q. destruct (create_schema _ _ _ _ _ _ _) as [(d1 & o)|] eqn:E1; [|discriminate].
  destruct (Z.eqb_spec o 0) as [_ | No]; [discriminate|].
  destruct (set_fields _ _ _ _ _ _ _ d1 o 0 (e_elems e)) as [(d2 & ret)|] eqn:E2; [|discriminate].
  intros E. assert (ret = true). { destruct ret; [reflexivity|]. rewrite andb_false_r in E. discriminate E. }
  subst ret. exists d1, d2, o. split; [reflexivity|]. split; [exact No|]. split; [exact E2|]. destruct st as [|e' st]; cbn [negb andb] in E; [now injection E as <-|exact E].
Qed.

Definition body (j : json) : list event := match j with JArr l => flat_map events l | JObj l => flat_map (fun kj => EKey (fst kj) :: events (snd kj)) l | _ => [] end.

(** An array or object from its opening to the record. *)
Lemma container_ok j : match j with JArr l => Forall runs l | JObj l => Forall (fun kj => runs (snd kj)) l | _ => False end ->
  forall c c', RI (d_rec (c_db c)) -> callbacks c (events j) = Some (c', true) ->
  (nesting j + length (c_stack c) <= MAX_DEPTH)%nat /\ exists d2 o, 
  (forall j', strip j = Some j' -> whole (match c_stack c with [] => isdocument | _ => false end) (c_db c) d2 j' o) /\
  match c_stack c with
  | [] => c' = Ctx d2 [] o
  | _ => add_literal (Ctx d2 (c_stack c) (c_doc c)) o = Some (c', true)
  end.
Proof.
  intros F c c' R. destruct j as [|b|l|l|l]; try contradiction.
  - cbn [events JsonModel.callbacks]. unfold JsonModel.callback at 1, push. destruct (Nat.leb_spec MAX_DEPTH (length (c_stack c))) as [|Hs]; [discriminate|].
    set (c0 := Ctx _ _ _). rewrite callbacks_app. destruct (callbacks c0 (flat_map events l)) as [(c1 & [|])|] eqn:E; [|discriminate|discriminate].
    cbn [JsonModel.callbacks]. unfold JsonModel.callback. intros E2. destruct (pop c1) as [(c2 & [|])|] eqn:E3; [|discriminate|discriminate]. injection E2 as <-.
    destruct (array_runs l F c0 c1 [] (c_stack c) None eq_refl) as (Dc & Hn & ps & n & Vs & S & X & P & Pl); [cbn [c0 c_stack length]; lia|exact R|exact E|].
    cbn [app] in S. destruct (pop_ok c1 _ _ _ S E3) as (d1 & d2 & o & A & No & B & C). cbn [e_type e_elems] in A, B.
    cbn [c0 c_stack length] in Hn. split; [cbn [nesting]; lia|]. exists d2, o. split; [|destruct (c_stack c); [exact C|now rewrite Dc in C]].
    intros j' Sj. cbn [strip] in Sj. injection Sj as <-.
    destruct (create_ok META_ARRAY (c_db c1) _ d1 o (map encoding ps) d2 (runs_RI _ _ _ X) (storable_all _ _ Pl) A No B) as (X2 & D).
    exists (SArr o ps), (n ++ [o]). split; [cbn [value]; now rewrite Vs|]. split; [reflexivity|]. split; [exact (ext_trans _ _ _ _ _ X X2)|].
    cbn [trees]. split; [|split].
    + unfold top_nodes, nodes_all. cbn [flat_map]. rewrite app_nil_r, nodes_Tn. apply Permutation_trans with (o :: n); [apply Permutation_sym, Permutation_cons_append|]. constructor. exact P.
    + destruct (placed_ext _ _ _ _ _ Pl X2) as (Hh & Hl). split; [|exact Hl]. intros x Hx. cbn [flat_map recs] in Hx. rewrite app_nil_r in Hx. destruct Hx as [<- | Hx]; [exact D|now apply Hh].
    + eexists. split; reflexivity.
  - cbn [events JsonModel.callbacks]. unfold JsonModel.callback at 1, push. destruct (Nat.leb_spec MAX_DEPTH (length (c_stack c))) as [|Hs]; [discriminate|].
    set (c0 := Ctx _ _ _). rewrite callbacks_app. destruct (callbacks c0 (flat_map _ l)) as [(c1 & [|])|] eqn:E; [|discriminate|discriminate].
    cbn [JsonModel.callbacks]. unfold JsonModel.callback. intros E2. destruct (pop c1) as [(c2 & [|])|] eqn:E3; [|discriminate|discriminate]. injection E2 as <-.
    destruct (object_runs l F c0 c1 [] (c_stack c) None eq_refl) as (Dc & Hn & ps & n & key & Vs & S & X & P & Pl); [cbn [c0 c_stack length]; lia|exact R|exact E|].
    cbn [app] in S. destruct (pop_ok c1 _ _ _ S E3) as (d1 & d2 & o & A & No & B & C). cbn [e_type e_elems] in A, B.
    cbn [c0 c_stack length] in Hn. split; [cbn [nesting]; lia|]. exists d2, o. split; [|destruct (c_stack c); [exact C|now rewrite Dc in C]].
    intros j' Sj. cbn [strip] in Sj. injection Sj as <-.
    destruct (create_ok META_OBJECT (c_db c1) _ d1 o (map pair_of ps) d2 (runs_RI _ _ _ X) (storable_pairs _ _ _ Pl) A No B) as (X2 & D).
    exists (SObj o ps), (n ++ [o]). split; [cbn [value]; now rewrite Vs|]. split; [reflexivity|]. split; [exact (ext_trans _ _ _ _ _ X X2)|].
    cbn [trees]. split; [|split].
    + unfold top_nodes, nodes_all. cbn [flat_map]. rewrite app_nil_r, nodes_Tn. apply Permutation_trans with (o :: n); [apply Permutation_sym, Permutation_cons_append|]. constructor. exact P.
    + destruct (placed_ext _ _ _ _ _ Pl X2) as (Hh & Hl). split; [|exact Hl]. intros x Hx. cbn [flat_map recs] in Hx. rewrite app_nil_r in Hx. destruct Hx as [<- | Hx]; [exact D|now apply Hh].
    + eexists. split; reflexivity.
Qed.

Lemma all_run j : runs j.
Proof.
  induction j as [|b|l|l F|l F] using json_ind'; intros c c' e st S Hs R.
  - cbn [events JsonModel.callbacks JsonModel.callback]. intros Q. injection Q as <-. split; [reflexivity|]. split; [exact Hs|reflexivity].
  - cbn [events JsonModel.callbacks JsonModel.callback]. intros Q. injection Q as <-. split; [reflexivity|]. split; [exact Hs|reflexivity].
  - cbn [events JsonModel.callbacks strip]. unfold JsonModel.callback. fold (cut_lit l).
    destruct (negb _); [discriminate|]. destruct (encode (d_val (c_db c)) (cut_lit l)) as (v & val) eqn:E. destruct (encode_ok _ _ _ _ E) as (Kv & Ke).
    destruct (Z.eqb_spec val WG_ILLEGAL) as [_ | Nv]; [discriminate|]. destruct (Ke Nv) as (Rv & Dv).
    set (c1 := Ctx _ _ _). destruct (add_literal c1 val) as [(c2 & [|])|] eqn:E2; [|discriminate|discriminate]. intros Q. injection Q as <-.
    assert (S1 : c_stack c1 = e :: st) by exact S.
    assert (X : ext (c_db c) (c_db c1) []) by (apply ext_vals; [exact R|exact Kv]).
    destruct (add_literal_ok c1 e st c2 (c_db c) [] (SLit val (cut_lit l)) S1 R X) as (x & A & B & C).
    { constructor. } { split; [intros y []|]. intros y [<- | []]. split; [exact Rv|exact Dv]. } { exact E2. }
    split; [exact B|]. split; [exact Hs|]. exists (SLit val (cut_lit l)), x. auto.
  - intros E. destruct (container_ok (JArr l) F c c' R E) as (Hn & d2 & o & W & A). destruct (W _ eq_refl) as (p & n & Vp & Ep & X & P & Pl & _).
    rewrite S in A, P, Pl. rewrite <- Ep in A.
    destruct (add_literal_ok (Ctx d2 (e :: st) (c_doc c)) e st c' (c_db c) n p eq_refl (runs_RI _ _ _ X) X P Pl A) as (x & A1 & B1 & C1).
    split; [exact B1|]. split; [exact Hn|]. cbn [strip]. exists p, x. split; [exact Vp|]. auto.
  - intros E. destruct (container_ok (JObj l) F c c' R E) as (Hn & d2 & o & W & A). destruct (W _ eq_refl) as (p & n & Vp & Ep & X & P & Pl & _).
    rewrite S in A, P, Pl. rewrite <- Ep in A.
    destruct (add_literal_ok (Ctx d2 (e :: st) (c_doc c)) e st c' (c_db c) n p eq_refl (runs_RI _ _ _ X) X P Pl A) as (x & A1 & B1 & C1).
    split; [exact B1|]. split; [exact Hn|]. cbn [strip]. exists p, x. split; [exact Vp|]. auto.
Qed.

(** A whole document. *)
Lemma parse_ok d j d' rc doc : RI (d_rec d) -> run_json_parser ix_any ix_tab ix_add_rec ix_add_field ix_del_field v_ref v_free alloc_rec cell_ok encode malloc_ok isparam isdocument d (events j) true = Some (d', rc, doc) -> rc = 0 ->
  match j with
  | JNull | JBool _ => d' = d /\ doc = 0
  | JLit _ => False
  | _ => (nesting j <= MAX_DEPTH)%nat /\ forall j', strip j = Some j' -> whole isdocument d d' j' doc
  end.
Proof.
  intros R. unfold run_json_parser. destruct (callbacks (Ctx d [] 0) (events j)) as [(c & [|])|] eqn:E; [| |discriminate]; intros Q Hrc; [|injection Q as _ Q _; subst rc; discriminate Hrc].
  assert (Q1 : c_db c = d') by congruence. assert (Q2 : c_doc c = doc) by congruence. clear Q. destruct j as [|b|l|l|l].
  - cbn in E. injection E as <-. auto.
  - cbn in E. injection E as <-. auto.
  - cbn [events JsonModel.callbacks] in E. unfold JsonModel.callback in E. destruct (negb _); [discriminate|]. destruct (encode _ _) as (v & val). destruct (val =? WG_ILLEGAL); [discriminate|]. discriminate E.
  - destruct (container_ok (JArr l) (proj2 (Forall_forall _ _) (fun x _ => all_run x)) (Ctx d [] 0) c R E) as (Hn & d2 & o & W & A). cbn [c_stack] in *. subst c. cbn [c_db c_doc length] in *. subst. split; [lia|exact W].
  - destruct (container_ok (JObj l) (proj2 (Forall_forall _ _) (fun x _ => all_run (snd x))) (Ctx d [] 0) c R E) as (Hn & d2 & o & W & A). cbn [c_stack] in *. subst c. cbn [c_db c_doc length] in *. subst. split; [lia|exact W].
Qed.
End Json.
