(** C27: lookup in a hash index. *)
From Coq Require Import ZArith List Bool Lia Floats.SpecFloat.
From Verif Require Import Base EncodingModel EncodingProofs CompareModel CompareProofs FixpModel HashIdxModel HashIdxProofs HashIdxRows HashIdxKeys.
Import ListNotations.
Open Scope Z_scope.
#[local] Ltac Zify.zify_post_hook ::= idtac.

(** A use of the index: a row is added or removed while the database is in a given state. *)
Inductive event := EAdd (s : cstate) (rec : Z) | ERemove (s : cstate) (rec : Z).

(** The allocators return 0 or the offset of an unused object. *)
Definition allocators (ab ac : ihash -> Z) : Prop :=
  (forall h, ab h = 0 \/ (0 < ab h /\ i_bk h (ab h) = None)) /\ (forall h, ac h = 0 \/ (0 < ac h /\ i_cell h (ac h) = None)).

Section Index.
Variables (ab ac : ihash -> Z) (columns : list Z) (json : bool).

(** The index and the rows in it, newest first, each with the state in which it was added. A row
    is in the index if adding it returned 0. For a JSON index a failed addition leaves a
    part of the row behind; this is excluded here ([None]). *)
Definition apply_event (x : ihash * list (Z * cstate)) (e : event) : option (ihash * list (Z * cstate)) :=
  let (h, rows) := x in
  match e with
  | EAdd s rec =>
      match hash_add_row ab ac s columns json h rec with
      | None => None
      | Some (h', rc) => if rc =? 0 then Some (h', (rec, s) :: rows) else if json then None else Some (h', rows)
      end
  | ERemove s rec =>
      match hash_remove_row ab ac s columns json h rec with
      | None => None
      | Some (h', rc) => Some (h', filter (fun p => negb (fst p =? rec)) rows)
      end
  end.
Fixpoint apply_events (x : ihash * list (Z * cstate)) (es : list event) : option (ihash * list (Z * cstate)) :=
  match es with [] => Some x | e :: t => match apply_event x e with Some y => apply_events y t | None => None end end.

(** Keys of a row in a state. *)
Definition row_keys (s : cstate) (rec : Z) : list (list Z) := fst (keys s json [] (row_values s columns rec)).

(** Use of the index as in C26: a row is added when it is not in the index; it is removed when it is in the
    index and its columns still give the keys of the time it was added. *)
Fixpoint proper (x : ihash * list (Z * cstate)) (es : list event) : Prop :=
  match es with
  | [] => True
  | e :: t =>
      match e with
      | EAdd s rec => ~ In rec (map fst (snd x))
      | ERemove s rec => exists s', In (rec, s') (snd x) /\ row_keys s rec = row_keys s' rec
      end /\ match apply_event x e with Some y => proper y t | None => True end
  end.

Definition with_keys (rows : list (Z * cstate)) : list (Z * list (list Z)) := map (fun p => (fst p, row_keys (snd p) (fst p))) rows.
Lemma with_keys_fst rows : map fst (with_keys rows) = map fst rows.
Proof. unfold with_keys. rewrite map_map. apply map_ext. reflexivity. Qed.

Lemma filter_one l1 l2 rec (s : cstate) : NoDup (map fst (l1 ++ (rec, s) :: l2)) ->
  filter (fun p : Z * cstate => negb (fst p =? rec)) (l1 ++ (rec, s) :: l2) = l1 ++ l2.
Proof.
  intros D. rewrite map_app in D. cbn [map fst] in D. apply NoDup_remove_2 in D. rewrite filter_app. cbn [filter fst]. rewrite Z.eqb_refl. cbn [negb].
  assert (F : forall l : list (Z * cstate), ~ In rec (map fst l) -> filter (fun p => negb (fst p =? rec)) l = l).
  { induction l as [|(x & y) l IH]; cbn [map fst In filter]; intros N; [reflexivity|]. destruct (Z.eqb_spec x rec); [tauto|]. cbn [negb]. f_equal. apply IH. tauto. }
  rewrite !F; [reflexivity| |]; intros I; apply D; apply in_or_app; auto.
Qed.

Lemma events_indexed : allocators ab ac -> forall es h rows h' rows', indexed h (with_keys rows) -> proper (h, rows) es ->
  apply_events (h, rows) es = Some (h', rows') -> indexed h' (with_keys rows').
Proof.
  intros (Fb & Fc). induction es as [|e es IH]; intros h rows h' rows' Hi P; cbn [apply_events].
  - intros X. injection X as <- <-. exact Hi.
  - cbn [proper snd] in P. destruct P as (Pe & P). destruct (apply_event (h, rows) e) as [(h1 & rows1)|] eqn:E; [|discriminate].
    apply IH; [|exact P]. clear IH P es. destruct e as [s rec | s rec]; cbn [apply_event] in E.
    + destruct (hash_add_row ab ac s columns json h rec) as [(h2 & rc)|] eqn:A; [|discriminate].
      destruct (add_indexed ab ac Fb Fc s columns json h _ rec h2 rc Hi) as (n & Q & Hi'); [now rewrite with_keys_fst|exact A|].
      destruct Q as [(-> & -> & _) | (-> & Q)].
      * cbn [Z.eqb] in E. injection E as <- <-. rewrite firstn_all in Hi'. exact Hi'.
      * cbn [Z.eqb] in E. destruct json eqn:J; [discriminate|]. injection E as <- <-. rewrite keys_plain in Q, Hi'.
        assert (K : firstn n (fst match key s [] (row_values s columns rec) with Some k => ([k], true) | None => ([], false) end) = []).
        { destruct (key s [] (row_values s columns rec)) as [k|]; cbn [fst snd length] in *; [|now rewrite firstn_nil].
          destruct Q as [Q | Q]; [|discriminate]. now replace n with 0%nat by lia. }
        rewrite K in Hi'. destruct Hi' as (D & Hc). split; [apply Hi|]. eapply content_ext; [|exact Hc]. intros d. reflexivity.
    + destruct Pe as (s' & I & K). apply in_split in I. destruct I as (l1 & l2 & ->). unfold with_keys in Hi. rewrite map_app in Hi. cbn [map fst snd] in Hi.
      rewrite <- K in Hi. destruct (remove_indexed ab ac s columns json h _ _ rec Hi) as (h2 & A & Hi'). rewrite A in E. injection E as <- <-.
      rewrite filter_one.
      * unfold with_keys. rewrite map_app. exact Hi'.
      * destruct Hi as (D & _). rewrite map_app in D. cbn [map fst] in D. rewrite map_app. cbn [map fst]. rewrite !map_map in D. exact D.
Qed.

Lemma start_indexed size : indexed (wg_create_hash size) (with_keys []).
Proof. split; [constructor|]. eapply content_ext; [|apply empty_content]. reflexivity. Qed.
End Index.

(** C27, by keys: after any proper use a search in the state [s] returns the rows that have the
    searched key, newest first, each as many times as it has that key. *)
Theorem C27_lookup ab ac columns json size es h rows s values : allocators ab ac ->
  proper ab ac columns json (wg_create_hash size, []) es ->
  apply_events ab ac columns json (wg_create_hash size, []) es = Some (h, rows) ->
  (forall r s', In (r, s') rows -> row_keys columns json s r = row_keys columns json s' r) ->
  length values = length columns ->
  search_rows ab ac s columns h values =
  Some (match key s [] values with
        | Some k => flat_map (fun r => repeat r (count k (row_keys columns json s r))) (map fst rows)
        | None => []
        end).
Proof.
  intros A P R Cur L. pose proof (events_indexed ab ac columns json A es _ _ _ _ (start_indexed columns json size) P R) as Hi.
  rewrite (search_indexed ab ac s columns h _ values Hi L). f_equal. destruct (key s [] values) as [k|]; [|reflexivity].
  unfold found, with_keys. clear - Cur. induction rows as [|(r & s') rows IH]; [reflexivity|]. cbn [map flat_map fst snd].
  rewrite (Cur r s') by now left. f_equal. apply IH. intros r' s'' I. apply Cur. now right.
Qed.
Print Assumptions C27_lookup.

(** C27 for a plain hash index whose values and searched values have bytes that stand for their
    content ([canon_row]): the search returns exactly the rows whose columns all compare equal to the
    searched values, newest first. Missing: values outside [canon_row], for which the claim
    fails (below), and array columns of a JSON index. *)
Theorem C27_exact_partial ab ac columns size es h rows s values : allocators ab ac ->
  proper ab ac columns false (wg_create_hash size, []) es ->
  apply_events ab ac columns false (wg_create_hash size, []) es = Some (h, rows) ->
  (forall r s', In (r, s') rows -> row_keys columns false s r = row_keys columns false s' r) ->
  columns <> [] -> length values = length columns -> canon_row s values ->
  (forall r s', In (r, s') rows -> canon_row s (row_values s columns r)) ->
  search_rows ab ac s columns h values = Some (filter (fun r => same_row s (row_values s columns r) values) (map fst rows)).
Proof.
  intros A P R Cur Nc L Cv Cr. rewrite (C27_lookup ab ac columns false size es h rows s values A P R Cur L).
  f_equal. clear - Nc L Cv Cr. induction rows as [|(r & s') rows IH].
  - cbn. now destruct (key s [] values).
  - cbn [map fst flat_map filter]. specialize (IH ltac:(intros r' s'' I; apply (Cr r' s''); now right)).
    specialize (Cr r s' ltac:(now left)). assert (N : row_values s columns r <> []) by (destruct columns; [congruence|discriminate]).
    destruct (key_equal s (row_values s columns r) values N Cr Cv) as (k & k' & E & E' & Q).
    { unfold row_values. now rewrite map_length. }
    rewrite E' in *. unfold row_keys at 1. rewrite keys_plain, E. cbn [fst]. rewrite count_cons. cbn [count count_occ].
    destruct (lzeq k k') as [D | D].
    + rewrite (proj1 Q D). cbn [repeat app]. now rewrite IH.
    + destruct (same_row s (row_values s columns r) values); [exfalso; apply D; now apply Q|]. exact IH.
Qed.
Print Assumptions C27_exact_partial.

(** ** Creating an index *)
Lemma add_fails ab ac s columns h rec h' rc : hash_add_row ab ac s columns false h rec = Some (h', rc) -> rc <> 0 ->
  key s [] (row_values s columns rec) <> None -> exists h0, ab h0 = 0.
Proof.
  unfold hash_add_row. rewrite (recurse_run ab ac s rec false HStore (fun h k => wg_idxhash_store ab ac h k rec)); [|reflexivity|intros; eapply store_rc; eassumption].
  rewrite keys_plain. destruct (key s [] (row_values s columns rec)) as [k|]; [|congruence]. unfold runk. cbn [fst snd run].
  destruct (wg_idxhash_store ab ac h k rec) as [(h1 & rc1)|] eqn:E; [|discriminate]. intros X Nr _.
  destruct (Z.eqb_spec rc1 0) as [-> | N1]; [cbn [Z.eqb] in X; congruence|]. clear X. unfold wg_idxhash_store in E.
  destruct (find_idxhash_bucket _ _ _ _ _) as [(b & p)|]; [|discriminate]. destruct (Z.eqb_spec b 0).
  - destruct (Z.eqb_spec (ab h) 0); [eauto|]. cbn [andb] in E. destruct (i_bk _ _); [|discriminate]. destruct (_ =? 0); [discriminate|]. congruence.
  - cbn [andb] in E. destruct (i_bk _ _); [|discriminate]. destruct (_ =? 0); [discriminate|]. congruence.
Qed.
(** Rows that an index takes up: the first column exists and the template matches. *)
Definition indexable (s : cstate) (columns : list Z) (matches : Z -> bool) (rec : Z) : bool :=
  (hd 0 columns <? wg_get_record_len s rec) && matches rec.
Lemma create_events ab ac s columns matches : forall recs h h' rows, create_loop ab ac s columns false matches recs h = Some h' ->
  NoDup recs -> (forall r, In r recs -> ~ In r (map fst rows)) ->
  let es := map (EAdd s) (filter (indexable s columns matches) recs) in
  exists rows', apply_events ab ac columns false (h, rows) es = Some (h', rows') /\ proper ab ac columns false (h, rows) es /\
    (forall p, In p rows -> In p rows') /\
    (forall r s', In (r, s') rows' -> In (r, s') rows \/ s' = s /\ In r recs /\ indexable s columns matches r = true) /\
    (forall r, In r recs -> indexable s columns matches r = true -> In (r, s) rows' \/ key s [] (row_values s columns r) = None \/ exists h0, ab h0 = 0).
Proof.
  induction recs as [|r recs IH]; intros h h' rows; cbn [create_loop].
  - intros X _ _. injection X as <-. exists rows. split; [reflexivity|]. split; [exact I|]. split; [auto|]. split; [auto|]. intros r [].
  - intros E D N. apply NoDup_cons_iff in D. destruct D as (D1 & D2). cbn [filter]. cbn [negb orb] in E. rewrite andb_true_r in E.
    assert (Nr : forall r0, In r0 recs -> ~ In r0 (map fst rows)) by (intros; apply N; now right).
    assert (Skip : indexable s columns matches r = false -> create_loop ab ac s columns false matches recs h = Some h' ->
      let es := map (EAdd s) (if indexable s columns matches r then r :: filter (indexable s columns matches) recs else filter (indexable s columns matches) recs) in
      exists rows', apply_events ab ac columns false (h, rows) es = Some (h', rows') /\ proper ab ac columns false (h, rows) es /\
      (forall p, In p rows -> In p rows') /\
      (forall r0 s', In (r0, s') rows' -> In (r0, s') rows \/ s' = s /\ In r0 (r :: recs) /\ indexable s columns matches r0 = true) /\
      (forall r0, In r0 (r :: recs) -> indexable s columns matches r0 = true -> In (r0, s) rows' \/ key s [] (row_values s columns r0) = None \/ exists h0, ab h0 = 0)).
    { intros I E'. rewrite I. destruct (IH _ _ _ E' D2 Nr) as (rows' & A & P & K1 & K2 & K3). exists rows'. split; [exact A|]. split; [exact P|]. split; [exact K1|]. split.
      - intros r0 s' H0. destruct (K2 _ _ H0) as [Q | (Q1 & Q2 & Q3)]; [now left|right]. split; [exact Q1|]. split; [now right|exact Q3].
      - intros r0 [<- | H0] I0; [congruence|]. now apply K3. }
    destruct (indexable s columns matches r) eqn:Ir.
    2: { apply Skip; [reflexivity|]. clear Skip. unfold indexable in Ir. destruct (Z.leb_spec (wg_get_record_len s r) (hd 0 columns)); [exact E|].
         destruct (Z.ltb_spec (hd 0 columns) (wg_get_record_len s r)); [|lia]. cbn [andb] in Ir. now rewrite Ir in E. }
    clear Skip. assert (Ir2 := Ir). unfold indexable in Ir2. apply andb_prop in Ir2. destruct Ir2 as (L & Mr). apply Z.ltb_lt in L.
    destruct (Z.leb_spec (wg_get_record_len s r) (hd 0 columns)); [lia|]. rewrite Mr in E. destruct (hash_add_row ab ac s columns false h r) as [(h1 & rc)|] eqn:A1; [|discriminate].
    cbn [map apply_events proper snd apply_event]. rewrite A1. destruct (Z.eqb_spec rc 0) as [-> | Nrc].
    + destruct (IH _ _ ((r, s) :: rows) E D2) as (rows' & A & P & K1 & K2 & K3).
      { intros r0 H0 [Q | Q]; [cbn in Q; subst r0; contradiction|exact (Nr r0 H0 Q)]. }
      exists rows'. split; [exact A|]. split; [split; [apply N; now left|exact P]|]. split; [intros p Hp; apply K1; now right|]. split.
      * intros r0 s' H0. destruct (K2 _ _ H0) as [[Q | Q] | (Q1 & Q2 & Q3)].
        -- injection Q as <- <-. right. split; [reflexivity|]. split; [now left|exact Ir].
        -- now left.
        -- right. split; [exact Q1|]. split; [now right|exact Q3].
      * intros r0 [<- | H0] I0; [left; apply K1; now left|]. now apply K3.
    + destruct (IH _ _ rows E D2 Nr) as (rows' & A & P & K1 & K2 & K3).
      exists rows'. split; [exact A|]. split; [split; [apply N; now left|exact P]|]. split; [exact K1|]. split.
      * intros r0 s' H0. destruct (K2 _ _ H0) as [Q | (Q1 & Q2 & Q3)]; [now left|right]. split; [exact Q1|]. split; [now right|exact Q3].
      * intros r0 [<- | H0] I0; [|now apply K3]. right. destruct (key s [] (row_values s columns r)) eqn:Ek; [|now left]. right.
        apply (add_fails ab ac s columns h r h1 rc A1 Nrc). congruence.
Qed.

(** C27 for a new index over the existing records (plain hash index): a search returns exactly the
    rows of the index whose columns compare equal. Rows are left out only if a column cannot be
    hashed or storage ran out. *)
Theorem C27_create_partial ab ac columns size s matches recs h : allocators ab ac -> NoDup recs -> columns <> [] ->
  create_hash_index ab ac size s columns false matches recs = Some h ->
  (forall r, In r recs -> indexable s columns matches r = true -> canon_row s (row_values s columns r)) ->
  exists rows, NoDup rows /\ (forall r, In r rows -> In r recs /\ indexable s columns matches r = true) /\
    (forall r, In r recs -> indexable s columns matches r = true -> In r rows \/ exists h0, ab h0 = 0) /\
    forall values, length values = length columns -> canon_row s values ->
      search_rows ab ac s columns h values = Some (filter (fun r => same_row s (row_values s columns r) values) rows).
Proof.
  intros A D Nc E Cr. unfold create_hash_index in E. destruct (create_events ab ac s columns matches recs _ _ [] E D) as (rows & R & P & _ & K2 & K3); [intros r _ []|].
  assert (S2 : forall r s', In (r, s') rows -> s' = s /\ In r recs /\ indexable s columns matches r = true).
  { intros r s' I. destruct (K2 _ _ I) as [[] | Q]. exact Q. }
  exists (map fst rows). split; [|split; [|split]].
  - pose proof (events_indexed ab ac columns false A _ _ _ _ _ (start_indexed columns false size) P R) as (Q & _). now rewrite with_keys_fst in Q.
  - intros r I. apply in_map_iff in I. destruct I as ((r' & s') & <- & I). destruct (S2 _ _ I) as (_ & Q). exact Q.
  - intros r I Ir. destruct (K3 r I Ir) as [Q | [Q | Q]]; [left; now apply (in_map fst) in Q| |now right].
    exfalso. pose proof (Cr r I Ir) as C. destruct (row_values s columns r) as [|v vs] eqn:Ev; [cbn in Q; discriminate|]. rewrite (key_row _ _ _ C) in Q. discriminate.
  - intros values L Cv. apply (C27_exact_partial ab ac columns size _ h rows s values A P R); auto.
    + intros r s' I. now destruct (S2 _ _ I) as (-> & _).
    + intros r s' I. destruct (S2 _ _ I) as (_ & I1 & I2). now apply Cr.
Qed.
Print Assumptions C27_create_partial.

(** ** Concrete cases *)
(** Memory with the given words. *)
Definition memof (l : list (Z * Z)) : mem := fun x => match find (fun p => fst p =? x) l with Some p => snd p | None => 0 end.
(** Allocators that take the next offset. *)
Definition ab0 (h : ihash) : Z := let o := 100000 + 64 * Z.of_nat (i_made h) in match i_bk h o with None => o | Some _ => 0 end.
Definition ac0 (h : ihash) : Z := let o := 500000 + 16 * Z.of_nat (i_made h) in match i_cell h o with None => o | Some _ => 0 end.
Example alloc0 : allocators ab0 ac0.
Proof.
  split; intros h; unfold ab0, ac0.
  - destruct (i_bk h (100000 + 64 * Z.of_nat (i_made h))) eqn:E; [now left|right]. split; [lia|exact E].
  - destruct (i_cell h (500000 + 16 * Z.of_nat (i_made h))) eqn:E; [now left|right]. split; [lia|exact E].
Qed.

(** Records 800 (5, "abc"), 840 (5, "abd"), 880 (5, "abc"); "abc" is also stored at 1064. *)
Definition ex_s : cstate := CSt (memof [(800, 40); (824, 43); (832, 1006); (840, 40); (864, 43); (872, 1038); (880, 40); (904, 43); (912, 1006);
  (1000, 0x636261); (1032, 0x646261); (1064, 0x636261)]) 2048.
Lemma ex_row v e : v = 43 -> e = 1006 \/ e = 1038 \/ e = 1070 -> canon_row ex_s [v; e].
Proof.
  intros -> He. cbn [canon_row]. split; [|split; [|exact Logic.I]].
  - exists WG_INTTYPE. split; [|intros _ [Q | Q]; discriminate Q]. constructor; try discriminate; try (intros [Q | [Q | Q]]; discriminate Q); try (intros [Q | Q]; discriminate Q).
    + constructor; try discriminate. apply (PSmall _ 5); [unfold is64; lia|reflexivity].
    + repeat split; discriminate.
    + intros _. vm_compute. split; congruence.
  - exists WG_STRTYPE. split; [|congruence]. constructor; try discriminate; try (intros [Q | Q]; discriminate Q).
    + constructor; try discriminate. destruct He as [-> | [-> | ->]].
      * apply (PShort _ 1000); [lia|reflexivity].
      * apply (PShort _ 1032); [lia|reflexivity].
      * apply (PShort _ 1064); [lia|reflexivity].
    + repeat split; discriminate.
    + intros _. destruct He as [-> | [-> | ->]]; vm_compute; reflexivity.
Qed.
(** All three rows are added and the first is removed again; searching for (5, "abc") with the other copy of the
    string finds the third, in a table with a single chain as well. *)
Definition ex_events := [EAdd ex_s 800; EAdd ex_s 840; EAdd ex_s 880; ERemove ex_s 800].
Example C27_exact_ex size : size = 1 \/ size = 10000 ->
  proper ab0 ac0 [0; 1] false (wg_create_hash size, []) ex_events /\
  (exists h rows, apply_events ab0 ac0 [0; 1] false (wg_create_hash size, []) ex_events = Some (h, rows) /\
     (forall r s', In (r, s') rows -> row_keys [0; 1] false ex_s r = row_keys [0; 1] false s' r) /\
     (forall r s', In (r, s') rows -> canon_row ex_s (row_values ex_s [0; 1] r)) /\
     map fst rows = [880; 840] /\ search_rows ab0 ac0 ex_s [0; 1] h [43; 1070] = Some [880]) /\
  canon_row ex_s [43; 1070].
Proof.
  intros Hs. split; [|split].
  - set (run es := apply_events ab0 ac0 [0; 1] false (wg_create_hash size, []) es).
    set (ok es rows := match run es with Some (_, r) => r = rows | None => False end).
    assert (Q1 : ok [EAdd ex_s 800] [(800, ex_s)]) by (unfold ok, run; destruct Hs as [-> | ->]; vm_compute; reflexivity).
    assert (Q2 : ok [EAdd ex_s 800; EAdd ex_s 840] [(840, ex_s); (800, ex_s)]) by (unfold ok, run; destruct Hs as [-> | ->]; vm_compute; reflexivity).
    assert (Q3 : ok [EAdd ex_s 800; EAdd ex_s 840; EAdd ex_s 880] [(880, ex_s); (840, ex_s); (800, ex_s)]) by (unfold ok, run; destruct Hs as [-> | ->]; vm_compute; reflexivity).
    unfold ok, run in *. clear ok run. cbn [apply_events] in *. unfold ex_events. cbn [proper snd].
    split; [cbn; tauto|]. destruct (apply_event _ _ _ _ _ (EAdd ex_s 800)) as [(h1 & r1)|]; [|exact Logic.I]. subst r1.
    split; [cbn; lia|]. destruct (apply_event _ _ _ _ _ (EAdd ex_s 840)) as [(h2 & r2)|]; [|exact Logic.I]. subst r2.
    split; [cbn; lia|]. destruct (apply_event _ _ _ _ _ (EAdd ex_s 880)) as [(h3 & r3)|]; [|exact Logic.I]. subst r3.
    split; [exists ex_s; split; [cbn; tauto|reflexivity]|]. destruct (apply_event _ _ _ _ _ (ERemove ex_s 800)) as [(h4 & r4)|]; exact Logic.I.
  - assert (Q : forall size, size = 1 \/ size = 10000 -> match apply_events ab0 ac0 [0; 1] false (wg_create_hash size, []) ex_events with
       | Some (h, rows) => map fst rows = [880; 840] /\ rows = [(880, ex_s); (840, ex_s)] /\ search_rows ab0 ac0 ex_s [0; 1] h [43; 1070] = Some [880]
       | None => False end) by (intros z [-> | ->]; vm_compute; auto).
    specialize (Q size Hs). destruct (apply_events _ _ _ _ _ ex_events) as [(h & rows)|]; [|contradiction]. destruct Q as (Q1 & Q2 & Q3).
    exists h, rows. split; [reflexivity|]. split; [|split; [|split; [exact Q1|exact Q3]]]; rewrite Q2; intros r s' [X | [X | []]]; injection X as <- <-; try reflexivity.
    + apply ex_row; [reflexivity|left; reflexivity].
    + apply ex_row; [reflexivity|right; left; reflexivity].
  - apply ex_row; auto.
Qed.

(** What a search over an index on one row returns. *)
Definition search_one (s : cstate) (columns : list Z) (json : bool) (rec : Z) (values : list Z) : option (list Z) :=
  match hash_add_row ab0 ac0 s columns json (wg_create_hash 10000) rec with
  | Some (h, 0) => search_rows ab0 ac0 s columns h values
  | _ => None
  end.

(** C27 fails for ints: 5 is found when searching for 5 + 2^32. *)
Theorem C27_int_refuted : exists s r v, storable s WG_INTTYPE (wg_get_field s r 0) /\ storable s WG_INTTYPE v /\
  WG_COMPARE s (wg_get_field s r 0) v = WG_LESSTHAN /\ search_one s [0] false r [v] = Some [r].
Proof.
  exists (CSt (memof [(800, 32); (824, 43); (1000, 5 + 2 ^ 32)]) 2048), 800, 1001.
  split; [constructor; try discriminate; apply (PSmall _ 5); [unfold is64; lia|reflexivity]|].
  split; [constructor; try discriminate; apply (PFull _ 1000); [lia|reflexivity]|]. vm_compute. auto.
Qed.
Print Assumptions C27_int_refuted.

(** C27 fails for -0.0 and 0.0, which compare equal. *)
Theorem C27_zero_refuted : exists s r v, storable s WG_DOUBLETYPE (wg_get_field s r 0) /\ storable s WG_DOUBLETYPE v /\
  WG_COMPARE s (wg_get_field s r 0) v = WG_EQUAL /\ search_one s [0] false r [v] = Some [].
Proof.
  exists (CSt (memof [(800, 32); (824, 1002); (1000, 0); (1008, - 2 ^ 63)]) 2048), 800, 1010.
  split; [|split].
  - constructor; try discriminate; apply (PDouble _ 1000); [lia|reflexivity].
  - constructor; try discriminate; apply (PDouble _ 1008); [lia|reflexivity].
  - vm_compute. auto.
Qed.
Print Assumptions C27_zero_refuted.

(** C27 fails for records: equality compares the fields, the index the address. *)
Theorem C27_record_refuted : exists s r v, storable s WG_RECORDTYPE (wg_get_field s r 0) /\ storable s WG_RECORDTYPE v /\
  WG_COMPARE s (wg_get_field s r 0) v = WG_EQUAL /\ search_one s [0] false r [v] = Some [].
Proof.
  exists (CSt (memof [(800, 32); (824, 840); (840, 32); (864, 43); (880, 32); (904, 43)]) 2048), 800, 880.
  split; [|split].
  - constructor; try discriminate; [apply (PRecord _ 840); [lia|reflexivity]|intros _; vm_compute; split; congruence].
  - constructor; try discriminate; [apply (PRecord _ 880); [lia|reflexivity]|intros _; vm_compute; split; congruence].
  - vm_compute. auto.
Qed.
Print Assumptions C27_record_refuted.

(** C27 fails for a URI without prefix and the same URI with the empty prefix, which compare equal: uri ("", "a") at 960 and
    uri (no prefix, "a") at 1040. *)
Definition uri_s : cstate := CSt (memof [(800, 32); (824, 964);
  (960, 64); (968, Z.lor (Z.shiftl 62 8) 7); (1000, 1206); (1008, 97);
  (1040, 64); (1048, Z.lor (Z.shiftl 62 8) 7); (1088, 97)]) 2048.
Theorem C27_prefix_refuted : exists s r v, storable s WG_URITYPE (wg_get_field s r 0) /\ storable s WG_URITYPE v /\
  WG_COMPARE s (wg_get_field s r 0) v = WG_EQUAL /\ search_one s [0] false r [v] = Some [].
Proof.
  exists uri_s, 800, 1044. split; [|split].
  1,2: constructor; try discriminate.
  1: apply (PLong _ 960 WG_URITYPE 62); try lia; try reflexivity; cbn; auto.
  1: apply (PLong _ 1040 WG_URITYPE 62); try lia; try reflexivity; cbn; auto.
  vm_compute. auto.
Qed.
Print Assumptions C27_prefix_refuted.

(** C27 fails for two columns: the row (uri "\007x" with prefix "p", "y") is found when searching
    for (uri "p" without prefix, uri "\005y" with prefix "x"). *)
Definition coll_s : cstate := CSt (memof [(800, 40); (824, 964); (832, 1206);
  (960, 64); (968, Z.lor (Z.shiftl 61 8) 7); (1000, 1238); (1008, 7 + 120 * 256);
  (1200, 121); (1232, 112);
  (1280, 64); (1288, Z.lor (Z.shiftl 62 8) 7); (1328, 112);
  (1360, 64); (1368, Z.lor (Z.shiftl 61 8) 7); (1400, 1446); (1408, 5 + 121 * 256); (1440, 120)]) 2048.
Theorem C27_collision_refuted : exists s r v w,
  storable s WG_URITYPE (wg_get_field s r 0) /\ storable s WG_STRTYPE (wg_get_field s r 1) /\ storable s WG_URITYPE v /\ storable s WG_URITYPE w /\
  WG_COMPARE s (wg_get_field s r 0) v <> WG_EQUAL /\ WG_COMPARE s (wg_get_field s r 1) w <> WG_EQUAL /\
  search_one s [0; 1] false r [v; w] = Some [r].
Proof.
  exists coll_s, 800, 1284, 1364. split; [|split; [|split; [|split]]].
  1,2,3,4: constructor; try discriminate.
  1: apply (PLong _ 960 WG_URITYPE 61); try lia; try reflexivity; cbn; auto.
  1: apply (PShort _ 1200); [lia|reflexivity].
  1: apply (PLong _ 1280 WG_URITYPE 62); try lia; try reflexivity; cbn; auto.
  1: apply (PLong _ 1360 WG_URITYPE 61); try lia; try reflexivity; cbn; auto.
  vm_compute. repeat split; congruence.
Qed.
Print Assumptions C27_collision_refuted.

(** In a JSON index a row whose array holds a value twice is returned twice. *)
Theorem C27_array_twice_refuted : exists s r v, search_one s [0] true r [v] = Some [r; r].
Proof. exists (CSt (memof [(800, 32); (824, 840); (840, 40); (848, 0x40); (864, 43); (872, 43)]) 2048), 800, 43. vm_compute. auto. Qed.
Print Assumptions C27_array_twice_refuted.

(** A new index over the three records, with a template for records other than 840. *)
Example C27_create_ex :
  match create_hash_index ab0 ac0 10000 ex_s [0; 1] false (fun r => negb (r =? 840)) [800; 840; 880] with
  | Some h => search_rows ab0 ac0 ex_s [0; 1] h [43; 1070] = Some [880; 800] /\ search_rows ab0 ac0 ex_s [0; 1] h [43; 1038] = Some []
  | None => False
  end /\ (forall r, In r [800; 840; 880] -> indexable ex_s [0; 1] (fun r => negb (r =? 840)) r = true -> canon_row ex_s (row_values ex_s [0; 1] r)).
Proof.
  split; [vm_compute; auto|]. intros r [<- | [<- | [<- | []]]] I; try (vm_compute in I; discriminate I); (apply ex_row; [reflexivity|left; reflexivity]).
Qed.
