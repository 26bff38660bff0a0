(** Rows in a hash index: keys of a row, adding and removing rows, searching. *)
From Coq Require Import ZArith List Bool Lia.
From Verif Require Import Base EncodingModel CompareModel FixpModel HashIdxModel HashIdxProofs.
Import ListNotations.
Open Scope Z_scope.
#[local] Ltac Zify.zify_post_hook ::= idtac.

Definition lzeq := list_eq_dec Z.eq_dec.

Lemma content_ext h M M' : (forall d, M' d = M d) -> content h M -> content h M'.
Proof.
  intros E (B & C & bo & co & V & Ho). exists B, C, bo, co. split; [exact V|]. intros d. rewrite E. apply Ho.
Qed.

(** ** Keys of a row *)
(** Values taken one after another until one has an incomplete result. *)
Fixpoint each (ext : Z -> list (list Z) * bool) (vs : list Z) : list (list Z) * bool :=
  match vs with
  | [] => ([], true)
  | v :: t => let (k, c) := ext v in if c then let (k', c') := each ext t in (k ++ k', c') else (k, false)
  end.
(** The elements of an array (record). *)
Definition elements (s : cstate) (rec : Z) : list Z :=
  map (fun i => wg_get_field s rec (Z.of_nat i)) (seq 0 (Z.to_nat (wg_get_record_len s rec))).
Definition is_array (s : cstate) (v : Z) : bool :=
  (encoded_type (words s) v =? WG_RECORDTYPE) && is_schema_array s (wg_decode_record v).
(** The keys under which values are stored, in order, and whether all values could be hashed. *)
Fixpoint keys (s : cstate) (expand : bool) (prefix : list Z) (values : list Z) : list (list Z) * bool :=
  match values with
  | [] => ([prefix], true)
  | v :: rest =>
      let ext x := match wg_decode_for_hashing s x with None => ([], false) | Some b => keys s expand (extend prefix b) rest end in
      if expand && is_array s v then each ext (elements s (wg_decode_record v)) else ext v
  end.

Section Run.
Variable f : ihash -> list Z -> option (ihash * Z).
Fixpoint run (h : ihash) (ks : list (list Z)) : option (ihash * Z) :=
  match ks with
  | [] => Some (h, 0)
  | k :: t => match f h k with None => None | Some (h', rc) => if rc =? 0 then run h' t else Some (h', rc) end
  end.
Lemma run_app ks1 ks2 : forall h, run h (ks1 ++ ks2) =
  match run h ks1 with None => None | Some (h', rc) => if rc =? 0 then run h' ks2 else Some (h', rc) end.
Proof.
  induction ks1 as [|k t IH]; intros h; cbn [app run]; [reflexivity|].
  destruct (f h k) as [(h' & rc)|]; [|reflexivity]. destruct (rc =? 0) eqn:E; [apply IH|]. now rewrite E.
Qed.
(** Result of running over keys, with -1 if some value could not be hashed. *)
Definition runk (h : ihash) (kc : list (list Z) * bool) : option (ihash * Z) :=
  match run h (fst kc) with None => None | Some (h', rc) => if rc =? 0 then Some (h', if snd kc then 0 else -1) else Some (h', rc) end.
Lemma runk_each ext s rec : forall n i h (g : ihash -> Z -> option (ihash * Z)),
  (forall h v, g h v = runk h (ext v)) ->
  array_loop g s rec h (Z.of_nat i) n = runk h (each ext (map (fun i => wg_get_field s rec (Z.of_nat i)) (seq i n))).
Proof.
  induction n as [|n IH]; intros i h g G; cbn [array_loop seq map each]; [reflexivity|].
  rewrite G. destruct (ext (wg_get_field s rec (Z.of_nat i))) as (k & c). unfold runk at 1. cbn [fst snd].
  replace (Z.of_nat i + 1) with (Z.of_nat (S i)) by lia.
  destruct c.
  - destruct (each ext (map (fun i => wg_get_field s rec (Z.of_nat i)) (seq (S i) n))) as (k' & c') eqn:E. unfold runk. cbn [fst snd]. rewrite run_app.
    destruct (run h k) as [(h' & rc)|]; [|reflexivity]. destruct (rc =? 0) eqn:Er.
    + change (0 =? 0) with true. cbv iota. rewrite (IH (S i) h' g G), E. reflexivity.
    + rewrite Er. reflexivity.
  - unfold runk. cbn [fst snd]. destruct (run h k) as [(h' & rc)|]; [|reflexivity]. destruct (rc =? 0) eqn:Er; [reflexivity|]. now rewrite Er.
Qed.
End Run.

Section Alloc.
Variables alloc_bucket alloc_cell : ihash -> Z.
Notation hash_recurse := (hash_recurse alloc_bucket alloc_cell).
Notation store := (wg_idxhash_store alloc_bucket alloc_cell).

Lemma recurse_run s rec expand op (f : ihash -> list Z -> option (ihash * Z)) :
  (forall h k, hash_recurse s h k [] rec op expand = f h k) ->
  (forall h k h' rc, f h k = Some (h', rc) -> rc = 0 \/ rc = -1) ->
  forall values h prefix, hash_recurse s h prefix values rec op expand = runk f h (keys s expand prefix values).
Proof.
  intros Hf Hr. induction values as [|v rest IH]; intros h prefix.
  - rewrite Hf. cbn [keys]. unfold runk. cbn [fst snd run]. destruct (f h prefix) as [(h' & rc)|] eqn:E; [|reflexivity].
    destruct (Hr _ _ _ _ E) as [-> | ->]; reflexivity.
  - cbn [HashIdxModel.hash_recurse keys]. unfold is_array.
    set (ext := fun x => match wg_decode_for_hashing s x with None => ([], false) | Some b => keys s expand (extend prefix b) rest end).
    assert (G : forall h v, match wg_decode_for_hashing s v with None => Some (h, -1) | Some b => hash_recurse s h (extend prefix b) rest rec op expand end = runk f h (ext v)).
    { intros h1 v1. unfold ext. destruct (wg_decode_for_hashing s v1); [apply IH|reflexivity]. }
    rewrite <- andb_assoc. destruct (expand && _).
    + change 0 with (Z.of_nat 0). unfold elements. apply runk_each. exact G.
    + apply G.
Qed.

Hypothesis bucket_fresh : forall h, alloc_bucket h = 0 \/ (0 < alloc_bucket h /\ i_bk h (alloc_bucket h) = None).
Hypothesis cell_fresh : forall h, alloc_cell h = 0 \/ (0 < alloc_cell h /\ i_cell h (alloc_cell h) = None).

Lemma store_rc h d o h' rc : store h d o = Some (h', rc) -> rc = 0 \/ rc = -1.
Proof.
  unfold store. destruct (find_idxhash_bucket _ _ _ _ _) as [(b & p)|]; [|discriminate].
  destruct (_ && _); [intros X; right; congruence|].
  destruct (i_bk _ _); [|discriminate]. destruct (_ =? 0); [discriminate|]. intros X; left; congruence.
Qed.

(** Number of times a key occurs. *)
Definition count (k : list Z) (ks : list (list Z)) : nat := count_occ lzeq ks k.
(** Rows found under a key when the index holds the given rows, each with its keys. *)
Definition found (rows : list (Z * list (list Z))) (k : list Z) : list Z :=
  flat_map (fun p => repeat (fst p) (count k (snd p))) rows.
Definition indexed (h : ihash) (rows : list (Z * list (list Z))) : Prop := NoDup (map fst rows) /\ content h (found rows).

Lemma found_app a b k : found (a ++ b) k = found a k ++ found b k.
Proof. apply flat_map_app. Qed.
Lemma found_not_in rows k r : ~ In r (map fst rows) -> ~ In r (found rows k).
Proof.
  unfold found. intros N I. apply in_flat_map in I. destruct I as ((x & ks) & Ix & I). cbn [fst snd] in I. apply repeat_spec in I. subst r.
  apply N. apply (in_map fst) in Ix. exact Ix.
Qed.
Lemma count_cons k k0 ks : count k (k0 :: ks) = if lzeq k0 k then S (count k ks) else count k ks.
Proof. unfold count. cbn [count_occ]. reflexivity. Qed.

Lemma run_store_content rec : forall ks h h' rc M, content h M -> run (fun h k => store h k rec) h ks = Some (h', rc) ->
  exists n, (rc = 0 /\ n = length ks \/ rc = -1 /\ (n < length ks)%nat) /\ content h' (fun k => repeat rec (count k (firstn n ks)) ++ M k).
Proof.
  induction ks as [|k0 ks IH]; intros h h' rc M Hc; cbn [run].
  - intros X. injection X as <- <-. exists 0%nat. split; [now left|]. eapply content_ext; [|exact Hc]. reflexivity.
  - destruct (store h k0 rec) as [(h1 & rc1)|] eqn:E; [|discriminate]. destruct (store_content _ _ bucket_fresh cell_fresh _ _ _ _ _ _ Hc E) as [(-> & Hc1) | (-> & ->)].
    + cbn [Z.eqb]. intros X. destruct (IH _ _ _ _ Hc1 X) as (n & Hn & Hc2). exists (S n). split; [cbn [length]; lia|]. eapply content_ext; [|exact Hc2].
      intros k. cbn [firstn]. rewrite count_cons. destruct (lzeq k0 k) as [-> | N].
      * rewrite mset_same. cbn [repeat app]. clear. induction (count k (firstn n ks)); cbn [repeat app]; [reflexivity|]. now rewrite IHn0.
      * rewrite mset_other by congruence. reflexivity.
    + cbn [Z.eqb]. intros X. injection X as <- <-. exists 0%nat. split; [right; cbn [length]; lia|]. eapply content_ext; [|exact Hc]. reflexivity.
Qed.
Lemma recurse_nil_store s rec expand h k : hash_recurse s h k [] rec HStore expand = store h k rec.
Proof. reflexivity. Qed.

(** Adding a row that is not in the index: with result 0 under all its keys. *)
Lemma add_indexed s columns json h rows rec h' rc : indexed h rows -> ~ In rec (map fst rows) ->
  hash_add_row alloc_bucket alloc_cell s columns json h rec = Some (h', rc) ->
  let kc := keys s json [] (row_values s columns rec) in
  exists n, (rc = 0 /\ n = length (fst kc) /\ snd kc = true \/ rc = -1 /\ ((n < length (fst kc))%nat \/ snd kc = false)) /\
  indexed h' ((rec, firstn n (fst kc)) :: rows).
Proof.
  intros (D & Hc) N. unfold hash_add_row. rewrite (recurse_run s rec json HStore (fun h k => store h k rec)).
  - unfold runk. set (kc := keys s json [] (row_values s columns rec)). destruct (run _ h (fst kc)) as [(h1 & rc1)|] eqn:E; [|discriminate].
    destruct (run_store_content _ _ _ _ _ _ Hc E) as (n & [(-> & ->) | (-> & L)] & Hc1); cbn [Z.eqb]; intros X; injection X as <- <-; cbv zeta.
    + exists (length (fst kc)). split; [destruct (snd kc); auto|]. split; [cbn [map fst]; now constructor|]. exact Hc1.
    + exists n. split; [right; auto|]. split; [cbn [map fst]; now constructor|]. exact Hc1.
  - apply recurse_nil_store.
  - intros. eapply store_rc. eassumption.
Qed.

Lemma remove_rc h d o h' rc : wg_idxhash_remove h d o = Some (h', rc) -> rc = 0 \/ rc = -1.
Proof.
  unfold wg_idxhash_remove. destruct (find_idxhash_bucket _ _ _ _ _) as [(b & p)|]; [|discriminate].
  destruct (b =? 0); [intros X; injection X as <- <-; auto|]. destruct (i_bk h b); [|discriminate].
  destruct (find_cell _ _ _ _ _) as [(c & pc)|]; [|discriminate]. destruct (c =? 0); [intros X; injection X as <- <-; auto|].
  destruct (i_cell h c) as [(x & y)|]; [|discriminate]. destruct ((if pc =? 0 then y else k_rec b0) =? 0); intros X; injection X as <- <-; auto.
Qed.
Lemma run_remove_content rec l1 l2 : ~ In rec (map fst l1) -> forall ks h, content h (found (l1 ++ (rec, ks) :: l2)) ->
  exists h', run (fun h k => wg_idxhash_remove h k rec) h ks = Some (h', 0) /\ content h' (found (l1 ++ l2)).
Proof.
  intros N. induction ks as [|k0 ks IH]; intros h Hc; cbn [run].
  - exists h. split; [reflexivity|]. eapply content_ext; [|exact Hc]. intros k. rewrite !found_app. reflexivity.
  - destruct (remove_content h _ k0 rec Hc) as [(I & h1 & E & Hc1) | (NI & _)].
    + rewrite E. cbn [Z.eqb]. apply IH. eapply content_ext; [|exact Hc1]. intros k. unfold mset. destruct (bytes_eqb_spec k k0) as [-> | Nk].
      * rewrite !found_app. change ((rec, k0 :: ks) :: l2) with ([(rec, k0 :: ks)] ++ l2). change ((rec, ks) :: l2) with ([(rec, ks)] ++ l2).
        rewrite !found_app. unfold found at 2 5. cbn [flat_map fst snd]. rewrite !app_nil_r, count_cons. destruct (lzeq k0 k0); [|congruence]. cbn [repeat app].
        symmetry. apply remove1_app. now apply found_not_in.
      * rewrite !found_app. unfold found at 2 4. cbn [flat_map fst snd]. rewrite count_cons. destruct (lzeq k0 k); [congruence|]. reflexivity.
    + exfalso. apply NI. rewrite found_app. apply in_or_app. right. unfold found. cbn [flat_map fst snd]. rewrite count_cons.
      destruct (lzeq k0 k0); [|congruence]. now left.
Qed.
(** Removing a row whose keys are those under which it was added. *)
Lemma remove_indexed s columns json h l1 l2 rec :
  indexed h (l1 ++ (rec, fst (keys s json [] (row_values s columns rec))) :: l2) ->
  exists h', hash_remove_row alloc_bucket alloc_cell s columns json h rec =
      Some (h', if snd (keys s json [] (row_values s columns rec)) then 0 else -1) /\ indexed h' (l1 ++ l2).
Proof.
  intros (D & Hc). rewrite map_app in D. cbn [map fst] in D.
  assert (N : ~ In rec (map fst l1)). { intros I. apply NoDup_remove_2 in D. apply D. apply in_or_app. now left. }
  destruct (run_remove_content rec l1 l2 N _ _ Hc) as (h' & E & Hc'). exists h'. split.
  - unfold hash_remove_row. rewrite (recurse_run s rec json HRemove (fun h k => wg_idxhash_remove h k rec)); [|reflexivity|intros; eapply remove_rc; eassumption].
    unfold runk. rewrite E. reflexivity.
  - split; [|exact Hc']. rewrite map_app. now apply NoDup_remove_1 in D.
Qed.

(** ** Searching *)
(** Key of values without array expansion; [None] if some value cannot be hashed. *)
Fixpoint key (s : cstate) (prefix : list Z) (values : list Z) : option (list Z) :=
  match values with
  | [] => Some prefix
  | v :: rest => match wg_decode_for_hashing s v with None => None | Some b => key s (extend prefix b) rest end
  end.
Lemma keys_plain s : forall values prefix, keys s false prefix values = match key s prefix values with Some k => ([k], true) | None => ([], false) end.
Proof.
  induction values as [|v rest IH]; intros prefix; cbn [keys key andb]; [reflexivity|]. destruct (wg_decode_for_hashing s v); [apply IH|reflexivity].
Qed.
Lemma recurse_find s h : forall values prefix, hash_recurse s h prefix values 0 HFind false =
  match key s prefix values with
  | None => Some (h, -1)
  | Some k => match wg_idxhash_find h k with Some c => Some (h, c) | None => None end
  end.
Proof.
  induction values as [|v rest IH]; intros prefix; cbn [HashIdxModel.hash_recurse key andb]; [reflexivity|].
  destruct (wg_decode_for_hashing s v); [apply IH|reflexivity].
Qed.
Lemma search_indexed s columns h rows values : indexed h rows -> length values = length columns ->
  search_rows alloc_bucket alloc_cell s columns h values =
  Some (match key s [] values with Some k => found rows k | None => [] end).
Proof.
  intros (D & Hc) L. unfold search_rows, wg_search_hash. rewrite L, Nat.eqb_refl. cbn [negb]. rewrite recurse_find.
  destruct (key s [] values) as [k|]; [|reflexivity]. destruct (find_content h _ k Hc) as (c & E & P & R). rewrite E.
  destruct (Z.leb_spec c 0) as [Q|Q]; [|exact R]. assert (c = 0) by lia. subst c. rewrite <- R. now destruct (i_made h).
Qed.
End Alloc.
