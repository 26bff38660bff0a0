(** Bookkeeping of references: the list of referring records of every record agrees
    with the fields. *)
From Coq Require Import ZArith List Bool Lia.
From Verif Require Import Base EncodingModel RecordModel.
Import ListNotations.
Open Scope Z_scope.
#[local] Ltac Zify.zify_post_hook ::= idtac.

Definition cnt (l : list Z) (x : Z) : Z := Z.of_nat (count_occ Z.eq_dec l x).
Definition hit (a b : Z) : Z := if a =? b then 1 else 0.

Lemma cnt_cons a l x : cnt (a :: l) x = hit a x + cnt l x.
Proof.
  unfold cnt, hit. cbn [count_occ]. destruct (Z.eq_dec a x) as [E | E]; destruct (Z.eqb_spec a x); try contradiction; lia.
Qed.
Lemma cnt_nonneg l x : 0 <= cnt l x.
Proof. unfold cnt. lia. Qed.
Lemma cnt_in l x : In x l <-> 0 < cnt l x.
Proof. unfold cnt. rewrite (count_occ_In Z.eq_dec). lia. Qed.
Lemma cnt_app l m x : cnt (l ++ m) x = cnt l x + cnt m x.
Proof. induction l as [|a l IH]; cbn [app]; rewrite ?cnt_cons; [reflexivity|lia]. Qed.
Lemma hit_same a : hit a a = 1.
Proof. unfold hit. now rewrite Z.eqb_refl. Qed.
Lemma hit_diff a b : a <> b -> hit a b = 0.
Proof. unfold hit. now destruct (Z.eqb_spec a b). Qed.
Lemma hit_range a b : 0 <= hit a b <= 1.
Proof. unfold hit. destruct (a =? b); lia. Qed.

Lemma unlink_some p l l' x : unlink p l = Some l' -> cnt l' x = cnt l x - hit p x.
Proof.
  revert l'. induction l as [|a l IH]; cbn [unlink]; intros l' E; [discriminate|].
  destruct (Z.eqb_spec a p) as [-> | N].
  - injection E as <-. rewrite cnt_cons. lia.
  - destruct (unlink p l) as [m|]; [|discriminate]. injection E as <-.
    rewrite !cnt_cons, (IH m) by reflexivity. lia.
Qed.
Lemma unlink_none p l : unlink p l = None -> cnt l p = 0.
Proof.
  induction l as [|a l IH]; cbn [unlink]; intros E; [reflexivity|].
  destruct (Z.eqb_spec a p) as [-> | N]; [discriminate|].
  destruct (unlink p l); [discriminate|]. rewrite cnt_cons, hit_diff by assumption. now rewrite IH by reflexivity.
Qed.

Lemma set_nth_cnt l n v x : (n < length l)%nat ->
  cnt (set_nth l n v) x = cnt l x - hit (nth n l 0) x + hit v x.
Proof.
  revert n. induction l as [|a l IH]; cbn [length]; intros n H; [lia|].
  destruct n as [|n]; cbn [set_nth nth]; rewrite !cnt_cons; [lia|].
  rewrite IH by lia. lia.
Qed.
Lemma set_nth_length l n v : length (set_nth l n v) = length l.
Proof. revert n. induction l as [|a l IH]; intros [|n]; cbn [set_nth length]; auto. Qed.
Lemma set_nth_in l n v x : In x (set_nth l n v) -> x = v \/ In x l.
Proof.
  revert n. induction l as [|a l IH]; intros [|n]; cbn [set_nth In]; auto.
  - intros [<- | H]; auto.
  - intros [<- | H]; auto. destruct (IH n H); auto.
Qed.
Lemma nth_set_nth_same l n v d : (n < length l)%nat -> nth n (set_nth l n v) d = v.
Proof. revert n. induction l as [|a l IH]; intros [|n] H; cbn [set_nth nth length] in *; try lia; auto. apply IH. lia. Qed.
Lemma nth_set_nth_other l n k v d : k <> n -> nth k (set_nth l n v) d = nth k l d.
Proof. revert n k. induction l as [|a l IH]; intros [|n] [|k] H; cbn [set_nth nth]; auto; congruence. Qed.

Lemma rput_same m o r : rput m o r o = r.
Proof. unfold rput. now rewrite Z.eqb_refl. Qed.
Lemma rput_other m o r x : x <> o -> rput m o r x = m x.
Proof. unfold rput. intros H. now destruct (Z.eqb_spec x o). Qed.

(** Number of cells naming [p] in the list of [c], number of fields of [p] holding [c]. *)
Definition backs (m : rmap) (c p : Z) : Z := match m c with Some r => cnt (r_back r) p | None => 0 end.
Definition refs (m : rmap) (p c : Z) : Z := match m p with Some r => cnt (r_fields r) c | None => 0 end.

Definition RI (m : rmap) : Prop :=
  (forall o, m o <> None -> is_record_ref o = true) /\
  (forall c p, is_record_ref c = true -> backs m c p = refs m p c).

Lemma RI_live m p r f : RI m -> m p = Some r -> In f (r_fields r) -> is_record_ref f = true ->
  exists q, m f = Some q.
Proof.
  intros (_ & H) E Hin Hr. specialize (H f p Hr). unfold backs, refs in H. rewrite E in H.
  apply cnt_in in Hin. destruct (m f) as [q|]; [eauto|lia].
Qed.

Lemma refs_store m o r i v : m o = Some r -> field_ok r i = true ->
  forall p c, refs (rput m o (Some (with_field r i v))) p c =
    refs m p c + (if p =? o then hit v c - hit (field r i) c else 0).
Proof.
  intros E F p c. unfold refs. destruct (Z.eqb_spec p o) as [-> | N].
  - rewrite rput_same, E. cbn [r_fields with_field]. unfold field.
    unfold field_ok, reclen in F. rewrite set_nth_cnt; [lia|].
    destruct (Z.ltb_spec i 0), (Z.leb_spec (Z.of_nat (length (r_fields r))) i); cbn in F; try discriminate. lia.
  - rewrite rput_other by assumption. lia.
Qed.
Lemma backs_store m o r i v : m o = Some r ->
  forall c p, backs (rput m o (Some (with_field r i v))) c p = backs m c p.
Proof.
  intros E c p. unfold backs. destruct (Z.eq_dec c o) as [-> | N].
  - now rewrite rput_same, E.
  - now rewrite rput_other by assumption.
Qed.
Lemma refs_back m c r b : m c = Some r -> forall p x, refs (rput m c (Some (with_back r b))) p x = refs m p x.
Proof.
  intros E p x. unfold refs. destruct (Z.eq_dec p c) as [-> | N].
  - now rewrite rput_same, E.
  - now rewrite rput_other by assumption.
Qed.
Lemma backs_back m c r b : m c = Some r -> forall x p,
  backs (rput m c (Some (with_back r b))) x p = if x =? c then cnt b p else backs m x p.
Proof.
  intros E x p. unfold backs. destruct (Z.eqb_spec x c) as [-> | N].
  - now rewrite rput_same.
  - now rewrite rput_other by assumption.
Qed.

(** What stays of a record when only lists of referring records change. *)
Definition data_of (m : rmap) (o : Z) : option (Z * list Z) :=
  match m o with Some r => Some (r_meta r, r_fields r) | None => None end.
Lemma data_back m c r b : m c = Some r -> forall p, data_of (rput m c (Some (with_back r b))) p = data_of m p.
Proof.
  intros E p. unfold data_of. destruct (Z.eq_dec p c) as [-> | N].
  - now rewrite rput_same, E.
  - now rewrite rput_other by assumption.
Qed.

Section Ops.
Context {I V : Type}.
Variable ix_any ix_tab : I -> Z -> bool.
Variable ix_add_rec ix_del_rec : rmap -> V -> I -> Z -> option (I * Z).
Variable ix_add_field ix_del_field : rmap -> V -> I -> Z -> Z -> option (I * Z).
Variable v_ref v_free : V -> Z -> V.
Notation rdb := (@rdb I V).

Lemma delete_fields_ok o : forall fs m v,
  (forall c, is_record_ref c = true -> backs m c o = cnt fs c) ->
  exists m' v', delete_fields v_free m v o fs = Some (m', v', 0)
    /\ (forall p, data_of m' p = data_of m p)
    /\ (forall c, is_record_ref c = true -> backs m' c o = 0)
    /\ (forall c p, p <> o -> backs m' c p = backs m c p)
    /\ (forall c, is_record_ref c = false -> m' c = m c).
Proof.
  induction fs as [|data fs IH]; intros m v H; cbn [delete_fields].
  - exists m, v. repeat split; auto.
  - destruct (is_record_ref data) eqn:R.
    + pose proof (H data R) as Hd. rewrite cnt_cons, hit_same in Hd.
      pose proof (cnt_nonneg fs data). unfold backs in Hd.
      destruct (m data) as [c|] eqn:Ec; [|lia].
      destruct (unlink o (r_back c)) as [b|] eqn:U; [|apply unlink_none in U; lia].
      destruct (IH (rput m data (Some (with_back c b))) (if isptr data then v_free v data else v)) as (m' & v' & E & D & B0 & B & N).
      * intros x Hx. rewrite (backs_back _ _ _ _ Ec).
        destruct (Z.eqb_spec x data) as [-> | Nx].
        -- rewrite (unlink_some _ _ _ o U), hit_same. lia.
        -- rewrite (H x Hx), cnt_cons, hit_diff by congruence. lia.
      * exists m', v'. split; [exact E|]. repeat split; auto.
        -- intros p. now rewrite D, (data_back _ _ _ _ Ec).
        -- intros x p Np. rewrite B by assumption. rewrite (backs_back _ _ _ _ Ec).
           destruct (Z.eqb_spec x data) as [-> | Nx]; [|reflexivity].
           unfold backs. rewrite Ec, (unlink_some _ _ _ p U), hit_diff by congruence. lia.
        -- intros x Hx. rewrite N by assumption. apply rput_other. congruence.
    + destruct (IH m (if isptr data then v_free v data else v)) as (m' & v' & E & D & B0 & B & N).
      * intros x Hx. rewrite (H x Hx), cnt_cons, hit_diff by congruence. lia.
      * exists m', v'. repeat split; auto.
Qed.

Lemma refs_data m m' : (forall p, data_of m' p = data_of m p) -> forall p c, refs m' p c = refs m p c.
Proof.
  intros D p c. specialize (D p). unfold refs, data_of in *.
  destruct (m' p), (m p); try discriminate; auto. now injection D as _ ->.
Qed.
Lemma live_data m m' : (forall p, data_of m' p = data_of m p) -> forall p, m' p <> None -> m p <> None.
Proof. intros D p. specialize (D p). unfold data_of in *. destruct (m' p), (m p); congruence. Qed.

Lemma delete_ok m v o r : RI m -> m o = Some r -> r_back r = [] ->
  exists m' v', delete_fields v_free m v o (r_fields r) = Some (m', v', 0)
    /\ (forall p, data_of m' p = data_of m p) /\ RI (rput m' o None).
Proof.
  intros (H1 & H2) E Eb.
  destruct (delete_fields_ok o (r_fields r) m v) as (m' & v' & F & D & B0 & B & N).
  { intros c Hc. rewrite H2 by assumption. unfold refs. now rewrite E. }
  exists m', v'. split; [exact F|]. split; [exact D|].
  assert (Ro : is_record_ref o = true) by (apply H1; congruence).
  assert (Z0 : forall p, refs m p o = 0).
  { intros p. rewrite <- H2 by assumption. unfold backs. now rewrite E, Eb. }
  split.
  - intros x Hx. destruct (Z.eq_dec x o) as [-> | Nx]; [now rewrite rput_same in Hx|].
    rewrite rput_other in Hx by assumption. apply H1. now apply (live_data _ _ D).
  - intros c p Hc. unfold backs at 1, refs at 1.
    assert (Hb : backs m' c p = if p =? o then 0 else backs m c p).
    { destruct (Z.eqb_spec p o) as [-> | Np]; auto. }
    destruct (Z.eq_dec c o) as [-> | Nc].
    + rewrite rput_same. destruct (Z.eq_dec p o) as [-> | Np]; [now rewrite rput_same|].
      rewrite rput_other by assumption. fold (refs m' p o). now rewrite (refs_data _ _ D), Z0.
    + rewrite rput_other by assumption. fold (backs m' c p). rewrite Hb.
      destruct (Z.eqb_spec p o) as [-> | Np]; [now rewrite rput_same|].
      rewrite rput_other by assumption. fold (refs m' p c). now rewrite (refs_data _ _ D), H2.
Qed.

Lemma add_backlink_ok m o data cell m' : (is_record_ref data = true -> m data <> None) ->
  add_backlink m o data cell = Some m' ->
  (forall p, data_of m' p = data_of m p) /\
  (forall c p, is_record_ref c = true -> backs m' c p = backs m c p + hit data c * hit o p).
Proof.
  intros L. unfold add_backlink. destruct (is_record_ref data) eqn:R.
  - destruct (m data) as [c|] eqn:E; [|discriminate]. destruct cell; [|discriminate].
    intros H. injection H as <-. split; [intros p; now apply data_back|].
    intros x p Hx. rewrite (backs_back _ _ _ _ E). destruct (Z.eqb_spec x data) as [-> | N].
    + rewrite cnt_app, cnt_cons, hit_same. unfold backs. rewrite E. change (cnt [] p) with 0. lia.
    + rewrite (hit_diff data x) by congruence. lia.
  - intros H. injection H as <-. split; [reflexivity|]. intros c p Hc. rewrite hit_diff by congruence. lia.
Qed.

Lemma RI_create m o n : RI m -> is_record_ref o = true -> m o = None ->
  RI (rput m o (Some (Rec 0 (repeat 0 n) []))).
Proof.
  intros (H1 & H2) Ro E. split.
  - intros x Hx. destruct (Z.eq_dec x o) as [-> | N]; auto. rewrite rput_other in Hx by assumption. auto.
  - intros c p Hc.
    assert (Hr : cnt (repeat 0 n) c = 0).
    { assert (c <> 0) by (intros ->; discriminate). induction n as [|n IH]; cbn [repeat]; [reflexivity|].
      rewrite cnt_cons, IH, hit_diff; auto. }
    assert (Eo : refs m o c = 0) by (unfold refs; now rewrite E).
    specialize (H2 c p Hc). unfold backs, refs in *.
    destruct (Z.eq_dec c o) as [-> | Nc], (Z.eq_dec p o) as [-> | Np];
      rewrite ?rput_same, ?(rput_other m o _ _ Np), ?(rput_other m o _ _ Nc); cbn [r_back r_fields].
    + change (cnt [] o) with 0. lia.
    + rewrite E in H2. exact H2.
    + rewrite E in H2. rewrite Hr. exact H2.
    + exact H2.
Qed.

(** Replacing field [i] of [o] by [data], step by step as in wg_set_field. *)
Lemma RI_set m o r i data cell m1 m3 : RI m -> m o = Some r -> field_ok r i = true ->
  (is_record_ref data = true -> m data <> None) ->
  (if is_record_ref (field r i) then
     match m (field r i) with
     | None => None
     | Some ch => match unlink o (r_back ch) with
                  | None => Some None
                  | Some b => Some (Some (rput m (field r i) (Some (with_back ch b))))
                  end
     end
   else Some (Some m)) = Some (Some m1) ->
  exists r1, m1 o = Some r1 /\
  (add_backlink (rput m1 o (Some (with_field r1 i data))) o data cell = Some m3 ->
  RI m3 /\ forall p, data_of m3 p = if p =? o then Some (r_meta r, set_nth (r_fields r) (Z.to_nat i) data) else data_of m p).
Proof.
  intros (H1 & H2) E F L E1.
  assert (D1 : (forall p, data_of m1 p = data_of m p) /\
    (forall c p, is_record_ref c = true -> backs m1 c p = backs m c p - hit (field r i) c * hit o p)).
  { destruct (is_record_ref (field r i)) eqn:R.
    - destruct (m (field r i)) as [ch|] eqn:Ec; [|discriminate].
      destruct (unlink o (r_back ch)) as [b|] eqn:U; [|discriminate]. injection E1 as <-.
      split; [intros p; now apply data_back|].
      intros c p Hc. rewrite (backs_back _ _ _ _ Ec). destruct (Z.eqb_spec c (field r i)) as [-> | N].
      + rewrite (unlink_some _ _ _ p U), hit_same. unfold backs. rewrite Ec. lia.
      + rewrite (hit_diff (field r i) c) by congruence. lia.
    - injection E1 as <-. split; [reflexivity|]. intros c p Hc. rewrite hit_diff by congruence. lia. }
  destruct D1 as (D1 & B1). clear E1.
  pose proof (D1 o) as Do. unfold data_of in Do. rewrite E in Do.
  destruct (m1 o) as [r1|] eqn:E1; [|discriminate]. injection Do as Dm Df.
  exists r1. split; [reflexivity|]. intros A.
  assert (F1 : field_ok r1 i = true) by (unfold field_ok, reclen in *; now rewrite Df).
  assert (Ff : field r1 i = field r i) by (unfold field; now rewrite Df).
  set (m2 := rput m1 o (Some (with_field r1 i data))) in *.
  assert (D2 : forall p, data_of m2 p = if p =? o then Some (r_meta r, set_nth (r_fields r) (Z.to_nat i) data) else data_of m p).
  { intros p. unfold m2, data_of. destruct (Z.eqb_spec p o) as [-> | N].
    - rewrite rput_same. cbn. now rewrite Dm, Df.
    - rewrite rput_other by assumption. apply D1. }
  apply add_backlink_ok in A.
  2:{ intros R. specialize (L R). intros C. apply L. pose proof (D2 data) as D. unfold data_of in D.
      rewrite C in D. destruct (Z.eqb_spec data o) as [-> | _]; [discriminate|].
      destruct (m data); [discriminate|reflexivity]. }
  destruct A as (D3 & B3). split.
  - split.
    + intros x Hx. apply (live_data _ _ D3) in Hx. apply H1. intros C.
      pose proof (D2 x) as D. unfold data_of in D. rewrite C in D.
      destruct (m2 x); [|congruence]. destruct (Z.eqb_spec x o) as [-> | _]; congruence.
    + intros c p Hc. rewrite B3, (refs_data _ _ D3) by assumption. unfold m2.
      rewrite (backs_store _ _ _ _ _ E1), (refs_store _ _ _ _ _ E1 F1), B1, (refs_data _ _ D1), H2 by assumption.
      rewrite Ff. destruct (Z.eqb_spec p o) as [-> | N].
      * rewrite hit_same. lia.
      * rewrite (hit_diff o p) by congruence. lia.
  - intros p. now rewrite D3, D2.
Qed.
End Ops.

(** The walk over parents. *)
Lemma next_parent_at a p y b : ~ In p a -> y <> 0 -> next_parent (a ++ p :: y :: b) p = y.
Proof.
  intros N Y. induction a as [|x a IH]; cbn [app].
  - cbn [next_parent]. rewrite Z.eqb_refl. destruct (Z.eqb_spec y 0); [contradiction|reflexivity].
  - assert (Nx : x <> p) by (intros ->; apply N; now left).
    destruct (a ++ p :: y :: b) as [|z t] eqn:E; [now destruct a|].
    change (next_parent (x :: z :: t) p) with
      (if (x =? p) && negb (z =? 0) then z else next_parent (z :: t) p).
    destruct (Z.eqb_spec x p); [contradiction|]. cbn [andb]. apply IH. intros H. apply N. now right.
Qed.
Lemma next_parent_end a p : ~ In p a -> next_parent (a ++ [p]) p = 0.
Proof.
  intros N. induction a as [|x a IH]; cbn [app]; [reflexivity|].
  assert (Nx : x <> p) by (intros ->; apply N; now left).
  destruct (a ++ [p]) as [|z t] eqn:E; [now destruct a|].
  change (next_parent (x :: z :: t) p) with
    (if (x =? p) && negb (z =? 0) then z else next_parent (z :: t) p).
  destruct (Z.eqb_spec x p); [contradiction|]. cbn [andb]. apply IH. intros H. apply N. now right.
Qed.

Lemma parents_walk r : forall b a p, r_back r = a ++ p :: b -> NoDup (r_back r) -> ~ In 0 (r_back r) ->
  parents_from (S (S (length b))) r p = Some (p :: b).
Proof.
  induction b as [|y b IH]; intros a p E ND N0.
  - assert (p <> 0) by (intros ->; apply N0; rewrite E; apply in_elt).
    cbn [length parents_from]. destruct (Z.eqb_spec p 0); [contradiction|].
    unfold wg_get_next_parent. rewrite E, next_parent_end.
    + reflexivity.
    + rewrite E in ND. apply NoDup_remove_2 in ND. now rewrite app_nil_r in ND.
  - assert (p <> 0) by (intros ->; apply N0; rewrite E; apply in_elt).
    assert (y <> 0) by (intros ->; apply N0; rewrite E; apply in_or_app; right; right; now left).
    change (length (y :: b)) with (S (length b)).
    remember (S (S (length b))) as n eqn:En. cbn [parents_from].
    destruct (Z.eqb_spec p 0); [contradiction|].
    assert (Hn : wg_get_next_parent r p = y).
    { unfold wg_get_next_parent. rewrite E. apply next_parent_at; [|assumption].
      rewrite E in ND. apply NoDup_remove_2 in ND. intros H'. apply ND. apply in_or_app. now left. }
    rewrite Hn, (IH (a ++ [p]) y); auto. now rewrite <- app_assoc.
Qed.

Lemma dup_split (l : list Z) : ~ NoDup l -> exists a y b, l = a ++ y :: b /\ In y a /\ NoDup a.
Proof.
  intros H.
  assert (G : forall pre l : list Z, NoDup pre -> ~ NoDup (pre ++ l) ->
            exists a y b, pre ++ l = a ++ y :: b /\ In y a /\ NoDup a).
  { intros pre m. revert pre. induction m as [|x m IH]; intros pre ND N.
    - rewrite app_nil_r in N. contradiction.
    - destruct (in_dec Z.eq_dec x pre) as [Hx | Hx].
      + exists pre, x, m. auto.
      + destruct (IH (pre ++ [x])) as (a & y & b & E & Hy & Na).
        * apply NoDup_Add with (a := x) (l := pre); [|split; assumption].
          rewrite <- (app_nil_r pre) at 1. apply Add_app.
        * now rewrite <- app_assoc.
        * exists a, y, b. rewrite <- E, <- app_assoc. auto. }
  exact (G [] l (NoDup_nil _) H).
Qed.

Lemma parents_loop r a y b : r_back r = a ++ y :: b -> In y a -> NoDup a -> ~ In 0 (r_back r) ->
  forall n p, In p a -> parents_from n r p = None.
Proof.
  intros E Hy ND N0. induction n as [|n IH]; intros p Hp; [reflexivity|].
  cbn [parents_from]. destruct (Z.eqb_spec p 0) as [-> | _].
  { exfalso. apply N0. rewrite E. apply in_or_app. now left. }
  rewrite IH; [reflexivity|].
  destruct (in_split _ _ Hp) as (a1 & a2 & ->).
  pose proof (NoDup_remove_2 _ _ _ ND) as Np.
  unfold wg_get_next_parent. rewrite E.
  destruct a2 as [|z a2].
  - rewrite <- app_assoc. cbn [app]. rewrite next_parent_at; [assumption| |].
    + intros H. apply Np. apply in_or_app. now left.
    + intros ->. apply N0. rewrite E. apply in_or_app. right. now left.
  - rewrite <- app_assoc. cbn [app]. rewrite next_parent_at.
    + apply in_or_app. right. right. now left.
    + intros H. apply Np. apply in_or_app. now left.
    + intros ->. apply N0. rewrite E. apply in_or_app. left. apply in_or_app. right. right. now left.
Qed.
