(** The double-hashing set. *)
From Coq Require Import ZArith List Lia Bool Arith Znumtheory.
From Verif Require Import Base DhashModel.
Import ListNotations.
Open Scope Z_scope.

(** ** The table sizes are primes *)

(** No divisor in [d .. d+fuel-1] that is at most the square root. *)
Fixpoint no_div (fuel : nat) (d p : Z) : bool :=
  match fuel with
  | O => false
  | S f => if p <? d * d then true else negb (p mod d =? 0) && no_div f (d + 1) p
  end.

Lemma no_div_spec fuel d p : 2 <= d -> no_div fuel d p = true ->
  forall x, d <= x -> x * x <= p -> p mod x <> 0.
Proof.
  revert d; induction fuel as [|f IH]; intros d Hd H x Hx Hs; [discriminate|].
  cbn [no_div] in H. destruct (Z.ltb_spec p (d * d)) as [L|L]; [nia|].
  apply andb_true_iff in H. destruct H as [H1 H2]. apply negb_true_iff, Z.eqb_neq in H1.
  destruct (Z.eq_dec x d) as [->|]; [exact H1|]. apply (IH (d + 1)); auto; lia.
Qed.

Lemma no_div_prime fuel p : 1 < p -> no_div fuel 2 p = true -> prime p.
Proof.
  intros Hp H. destruct (prime_dec p) as [|N]; [assumption|exfalso].
  destruct (not_prime_divide p Hp N) as (n & (Hn1 & Hn2) & [q Hq]).
  pose proof (no_div_spec fuel 2 p ltac:(lia) H) as D.
  assert (Hq1 : 1 < q) by nia.
  destruct (Z_le_gt_dec (n * n) p) as [L|L].
  - apply (D n); [lia|exact L|]. rewrite Hq. apply Z_mod_mult.
  - apply (D q); [lia|nia|]. rewrite Hq, Z.mul_comm. apply Z_mod_mult.
Qed.

Lemma primes_ok : forallb (fun p => (388 <? p) && (p <=? 201326611) && no_div (Z.to_nat 15000) 2 p) primes = true.
Proof. vm_compute. reflexivity. Qed.

Lemma primes_prime p : In p primes -> prime p /\ 388 < p <= 201326611.
Proof.
  intros H. pose proof primes_ok as A. rewrite forallb_forall in A. specialize (A p H).
  apply andb_true_iff in A. destruct A as [A B]. apply andb_true_iff in A. destruct A as [A C].
  split; [|lia]. eapply no_div_prime; [lia|exact B].
Qed.

Lemma pick_in w l : l <> [] -> In (pick w l) l.
Proof.
  induction l as [|p l IH]; [congruence|intros _]. destruct l as [|q l]; [now left|].
  change (pick w (p :: q :: l)) with (if w <? p then p else pick w (q :: l)).
  destruct (w <? p); [now left|right]. apply IH. discriminate.
Qed.

Lemma pick_ge w l : w < last l 0 -> w < pick w l.
Proof.
  induction l as [|p l IH]; [cbn; lia|]. destruct l as [|q l]; [cbn; lia|].
  change (pick w (p :: q :: l)) with (if w <? p then p else pick w (q :: l)).
  intros H. destruct (Z.ltb_spec w p); [assumption|]. apply IH. exact H.
Qed.

Lemma dhash_size_ok e : 0 <= e <= 2147483645 ->
  prime (dhash_size e) /\ 388 < dhash_size e <= 201326611.
Proof.
  intros H. unfold dhash_size. destruct (Z.ltb_spec 2147483645 e); [lia|].
  apply primes_prime. apply pick_in. discriminate.
Qed.

Lemma dhash_size_half e : 0 <= e <= 100663305 -> 2 * e < dhash_size e.
Proof.
  intros H. unfold dhash_size. destruct (Z.ltb_spec 2147483645 e); [lia|].
  apply pick_ge. change (last primes 0) with 201326611. lia.
Qed.

Lemma dhash_size_cap e : 0 <= e <= 201326611 -> e <= dhash_size e.
Proof.
  intros H. destruct (Z_le_gt_dec e 100663305) as [L|L].
  - pose proof (dhash_size_half e). lia.
  - unfold dhash_size. destruct (Z.ltb_spec 2147483645 e); [lia|].
    assert (X : forall l, (forall p, In p l -> In p primes) -> l <> [] -> last l 0 = 201326611 ->
       pick (2 * e) l = 201326611).
    { induction l as [|p l IH]; [congruence|]. intros Hl _ Hlast. destruct l as [|q l]; [cbn in *; exact Hlast|].
      change (pick (2 * e) (p :: q :: l)) with (if 2 * e <? p then p else pick (2 * e) (q :: l)).
      pose proof (primes_prime p (Hl p (or_introl eq_refl))) as [_ B].
      destruct (Z.ltb_spec (2 * e) p); [lia|]. apply IH; [|discriminate|exact Hlast].
      intros r Hr. apply Hl. now right. }
    rewrite X; [lia|auto|discriminate|reflexivity].
Qed.

(** ** Probes *)

Section Table.
Local Opaque rehash_gint.
Variable sz : Z.
Hypothesis Hp : prime sz.
Hypothesis Hs : 388 < sz <= 201326611.

Definition probe (k i : Z) : Z :=
  DHASH_PROBE (DHASH_H1 (rehash_gint k) sz) (DHASH_H2 (rehash_gint k) sz) i sz.

Lemma h1_range k : 0 <= DHASH_H1 (rehash_gint k) sz < sz.
Proof. unfold DHASH_H1. apply Z.mod_pos_bound. lia. Qed.
Lemma h2_range k : 1 <= DHASH_H2 (rehash_gint k) sz < sz.
Proof. unfold DHASH_H2. pose proof (Z.mod_pos_bound (u64 (rehash_gint k)) (sz - 1)). lia. Qed.

Lemma probe_eq k i : 0 <= i < sz ->
  probe k i = (DHASH_H1 (rehash_gint k) sz + i * DHASH_H2 (rehash_gint k) sz) mod sz.
Proof.
  intros Hi. unfold probe, DHASH_PROBE. pose proof (h1_range k). pose proof (h2_range k).
  set (a := DHASH_H1 _ _) in *. set (b := DHASH_H2 _ _) in *. clearbody a b.
  assert (0 <= i * b) by (apply Z.mul_nonneg_nonneg; lia).
  assert (i * b <= 201326611 * 201326611) by (apply Z.mul_le_mono_nonneg; lia).
  unfold u64. rewrite (Z.mod_small (a + i * b) (2 ^ 64)) by lia. reflexivity.
Qed.

Lemma probe_0 k : probe k 0 = DHASH_H1 (rehash_gint k) sz.
Proof. rewrite probe_eq by lia. rewrite Z.mul_0_l, Z.add_0_r. apply Z.mod_small. apply h1_range. Qed.

Lemma probe_range k i : 0 <= i < sz -> 0 <= probe k i < sz.
Proof. intros H. rewrite probe_eq by exact H. apply Z.mod_pos_bound. lia. Qed.

Lemma step_inj a b i j : 1 <= b < sz -> 0 <= i < sz -> 0 <= j < sz ->
  (a + i * b) mod sz = (a + j * b) mod sz -> i = j.
Proof.
  intros Hb Hi Hj E.
  assert (D : (sz | (i - j) * b)).
  { apply Zmod_divide; [lia|]. replace ((i - j) * b) with ((a + i * b) - (a + j * b)) by ring.
    rewrite Zminus_mod, E, Z.sub_diag. apply Zmod_0_l. }
  clear E. destruct (prime_mult _ Hp _ _ D) as [[q Q]|[q Q]]; clear D.
  - assert (q = 0) by nia. lia.
  - exfalso. assert (1 <= q) by nia. nia.
Qed.

Lemma probe_inj k i j : 0 <= i < sz -> 0 <= j < sz -> probe k i = probe k j -> i = j.
Proof.
  intros Hi Hj. rewrite (probe_eq k i Hi), (probe_eq k j Hj). apply step_inj; auto. apply h2_range.
Qed.

(** ** Lookup *)

Definition stops (t : dtable) k i : bool := (keys t (probe k i) =? k) || (keys t (probe k i) =? 0).

Lemma dloop_spec t k fuel i b :
  dsize t = sz -> 1 <= i <= sz -> sz - i <= Z.of_nat fuel -> b = probe k (i - 1) ->
  let r := dloop fuel t k (DHASH_H1 (rehash_gint k) sz) (DHASH_H2 (rehash_gint k) sz) i b in
  (exists j, i <= j < sz /\ r = probe k j /\ stops t k j = true /\ forall x, i <= x < j -> stops t k x = false) \/
  ((forall x, i <= x < sz -> stops t k x = false) /\ r = probe k (sz - 1)).
Proof.
  intros E. revert i b; induction fuel as [|f IH]; intros i b Hi Hf Hb; cbn [dloop].
  - right. split; [intros; lia|]. rewrite Hb. f_equal. lia.
  - rewrite E. destruct (Z.ltb_spec i sz) as [L|L].
    + fold (probe k i). fold (stops t k i). destruct (stops t k i) eqn:S.
      * left. exists i. split; [lia|]. split; [reflexivity|]. split; [exact S|]. intros; lia.
      * destruct (IH (i + 1) (probe k i)) as [(j & J1 & J2 & J3 & J4)|(J1 & J2)]; try lia.
        { f_equal. lia. }
        -- left. exists j. split; [lia|]. split; [exact J2|]. split; [exact J3|].
           intros x Hx. destruct (Z.eq_dec x i) as [->|]; [exact S|]. apply J4. lia.
        -- right. split; [|exact J2]. intros x Hx. destruct (Z.eq_dec x i) as [->|]; [exact S|]. apply J1. lia.
    + right. split; [intros; lia|]. rewrite Hb. f_equal. lia.
Qed.

Lemma lookup_spec t k :
  dsize t = sz ->
  (exists j, 0 <= j < sz /\ dhash_lookup t k = probe k j /\ stops t k j = true /\
     forall x, 0 <= x < j -> stops t k x = false) \/
  ((forall x, 0 <= x < sz -> stops t k x = false) /\ dhash_lookup t k = probe k (sz - 1)).
Proof.
  intros E. unfold dhash_lookup. rewrite E. rewrite <- probe_0. fold (stops t k 0).
  destruct (stops t k 0) eqn:S.
  - left. exists 0. split; [lia|]. split; [reflexivity|]. split; [exact S|]. intros; lia.
  - rewrite probe_0. destruct (dloop_spec t k (Z.to_nat sz) 1 (DHASH_H1 (rehash_gint k) sz) E) as [(j & J1 & J2 & J3 & J4)|(J1 & J2)]; try lia.
    { rewrite <- probe_0. f_equal. }
    + left. exists j. split; [lia|]. split; [exact J2|]. split; [exact J3|].
      intros x Hx. destruct (Z.eq_dec x 0) as [->|]; [exact S|]. apply J4. lia.
    + right. split; [|exact J2]. intros x Hx. destruct (Z.eq_dec x 0) as [->|]; [exact S|]. apply J1. lia.
Qed.

(** ** Set semantics *)

(** [ks]: the keys in the table. *)
Record DI (t : dtable) (ks : list Z) : Prop := {
  di_size : dsize t = sz;
  di_nd : NoDup ks;
  di_nz : ~ In 0 ks;
  di_only : forall b, 0 <= b < sz -> keys t b = 0 \/ In (keys t b) ks;
  di_inj : forall b c, 0 <= b < sz -> 0 <= c < sz -> keys t b = keys t c -> keys t b <> 0 -> b = c;
  di_path : forall k, In k ks -> exists j, 0 <= j < sz /\ keys t (probe k j) = k /\
              forall x, 0 <= x < j -> keys t (probe k x) <> 0 }.

Lemma DI_empty : DI (Dtable sz (fun _ => 0)) [].
Proof.
  constructor; cbn [dsize keys]; auto.
  - constructor.
  - intros b c _ _ _ H. congruence.
  - intros k [].
Qed.

Lemma stops_key t k j : stops t k j = true -> keys t (probe k j) = k \/ keys t (probe k j) = 0.
Proof. unfold stops. rewrite orb_true_iff, !Z.eqb_eq. auto. Qed.
Lemma stops_no t k j : stops t k j = false -> keys t (probe k j) <> k /\ keys t (probe k j) <> 0.
Proof. unfold stops. rewrite orb_false_iff, !Z.eqb_neq. auto. Qed.

Lemma lookup_present t ks k : DI t ks -> In k ks -> keys t (dhash_lookup t k) = k.
Proof.
  intros I Hk. destruct (di_path _ _ I k Hk) as (j & Hj & Ej & Pj).
  destruct (lookup_spec t k (di_size _ _ I)) as [(i & Hi & -> & S & B)|(A & _)].
  - apply stops_key in S. destruct S as [S|S]; [exact S|].
    destruct (Z_lt_le_dec i j) as [L|L]; [exfalso; apply (Pj i); [lia|exact S]|].
    destruct (Z.eq_dec i j) as [->|]; [exact Ej|].
    assert (F : stops t k j = false) by (apply B; lia). apply stops_no in F. tauto.
  - exfalso. specialize (A j Hj). apply stops_no in A. tauto.
Qed.

Lemma lookup_absent t ks k : DI t ks -> ~ In k ks -> k <> 0 -> keys t (dhash_lookup t k) <> k.
Proof.
  intros I Hk Nz.
  assert (G : forall j, 0 <= j < sz -> keys t (probe k j) <> k).
  { intros j Hj E. destruct (di_only _ _ I (probe k j) (probe_range k j Hj)) as [Z|Z]; [lia|].
    rewrite E in Z. contradiction. }
  destruct (lookup_spec t k (di_size _ _ I)) as [(i & Hi & -> & _)|(_ & ->)]; apply G; lia.
Qed.

Lemma haskey_spec t ks k : DI t ks -> k <> 0 -> wg_dhash_haskey t k = true <-> In k ks.
Proof.
  intros I Nz. unfold wg_dhash_haskey. rewrite Z.eqb_eq. split.
  - intros E. destruct (in_dec Z.eq_dec k ks) as [|N]; [assumption|].
    exfalso. exact (lookup_absent t ks k I N Nz E).
  - apply (lookup_present t ks k I).
Qed.

Lemma NoDup_map_seq (f : nat -> Z) n m :
  (forall i j, (n <= i < n + m)%nat -> (n <= j < n + m)%nat -> f i = f j -> i = j) -> NoDup (map f (seq n m)).
Proof.
  revert n; induction m as [|m IH]; intros n H; cbn [seq map]; constructor.
  - intros Q. apply in_map_iff in Q. destruct Q as (j & E & Hj). apply in_seq in Hj.
    assert (j = n) by (apply H; [lia|lia|exact E]). lia.
  - apply IH. intros i j Hi Hj. apply H; lia.
Qed.

(** No free slot: the table holds as many keys as it has slots. *)
Lemma full_count t ks k : DI t ks -> (forall x, 0 <= x < sz -> keys t (probe k x) <> 0) ->
  sz <= Z.of_nat (length ks).
Proof.
  intros I F.
  set (l := map (fun i => keys t (probe k (Z.of_nat i))) (seq 0 (Z.to_nat sz))).
  assert (N : NoDup l).
  { apply NoDup_map_seq. intros i j Hi Hj E.
    assert (Hi' : 0 <= Z.of_nat i < sz) by lia. assert (Hj' : 0 <= Z.of_nat j < sz) by lia.
    assert (X : probe k (Z.of_nat i) = probe k (Z.of_nat j)).
    { apply (di_inj _ _ I); [now apply probe_range|now apply probe_range|exact E|now apply F]. }
    apply probe_inj in X; [|assumption|assumption]. lia. }
  assert (Inc : incl l ks).
  { intros x Hx. unfold l in Hx. apply in_map_iff in Hx. destruct Hx as (i & <- & Hi). apply in_seq in Hi.
    assert (Hi' : 0 <= Z.of_nat i < sz) by lia.
    destruct (di_only _ _ I (probe k (Z.of_nat i)) (probe_range _ _ Hi')) as [Z|Z]; [|exact Z].
    exfalso. exact (F _ Hi' Z). }
  pose proof (NoDup_incl_length N Inc) as L. unfold l in L. rewrite map_length, seq_length in L. lia.
Qed.

Lemma addkey_spec t ks k :
  DI t ks -> k <> 0 ->
  let '(t', c) := wg_dhash_addkey t k in
  (In k ks -> t' = t /\ c = 0) /\
  (~ In k ks -> (c = 0 /\ DI t' (k :: ks)) \/ (c = -1 /\ t' = t /\ sz <= Z.of_nat (length ks))).
Proof.
  intros I Nz. unfold wg_dhash_addkey.
  destruct (in_dec Z.eq_dec k ks) as [Hk|Hk].
  - pose proof (lookup_present t ks k I Hk) as E. rewrite E.
    destruct (Z.eqb_spec k 0); [congruence|]. rewrite Z.eqb_refl. split; [auto|contradiction].
  - pose proof (lookup_absent t ks k I Hk Nz) as A.
    destruct (Z.eqb_spec (keys t (dhash_lookup t k)) 0) as [Z0|NZ0].
    + split; [contradiction|]. intros _. left. split; [reflexivity|].
      destruct (lookup_spec t k (di_size _ _ I)) as [(i & Hi & E & S & B)|(F & E)].
      2:{ rewrite E in Z0. assert (Q : stops t k (sz - 1) = false) by (apply F; lia). apply stops_no in Q. tauto. }
      rewrite E in *. pose proof (probe_range k i Hi) as Rb.
      constructor; cbn [dsize keys].
      * apply (di_size _ _ I).
      * constructor; [exact Hk|apply (di_nd _ _ I)].
      * intros [Q|Q]; [congruence|]. now apply (di_nz _ _ I).
      * intros b Hb. unfold upd. destruct (Z.eqb_spec b (probe k i)); [right; now left|].
        destruct (di_only _ _ I b Hb) as [Q|Q]; [now left|right; now right].
      * intros b c Hb Hc. unfold upd. destruct (Z.eqb_spec b (probe k i)); destruct (Z.eqb_spec c (probe k i)); intros E1 E2; subst; auto.
        -- exfalso. destruct (di_only _ _ I c Hc) as [Q|Q]; congruence.
        -- exfalso. destruct (di_only _ _ I b Hb) as [Q|Q]; congruence.
        -- eapply (di_inj _ _ I); eauto.
      * intros k' [<-|Hk'].
        -- exists i. split; [exact Hi|]. rewrite upd_same. split; [reflexivity|].
           intros x Hx. rewrite upd_other.
           ++ specialize (B x Hx). apply stops_no in B. tauto.
           ++ intros Q. apply probe_inj in Q; lia.
        -- destruct (di_path _ _ I k' Hk') as (j & Hj & Ej & Pj). exists j. split; [exact Hj|]. split.
           ++ rewrite upd_other; [exact Ej|]. intros Q. rewrite Q, Z0 in Ej. subst k'. now apply (di_nz _ _ I).
           ++ intros x Hx. unfold upd. destruct (Z.eqb_spec (probe k' x) (probe k i)); [exact Nz|]. now apply Pj.
    + destruct (Z.eqb_spec (keys t (dhash_lookup t k)) k); [congruence|].
      split; [contradiction|]. intros _. right. split; [reflexivity|]. split; [reflexivity|].
      destruct (lookup_spec t k (di_size _ _ I)) as [(i & Hi & E & S & B)|(F & E)].
      * exfalso. rewrite E in *. apply stops_key in S. tauto.
      * apply (full_count t ks k I). intros x Hx. specialize (F x Hx). apply stops_no in F. tauto.
Qed.

Lemma addkeys_spec ks t ks0 :
  DI t ks0 -> ~ In 0 ks ->
  (forall l, NoDup l -> incl l (ks0 ++ ks) -> Z.of_nat (length l) <= sz) ->
  let '(t', cs) := addkeys t ks in
  Forall (fun c => c = 0) cs /\
  exists ks1, DI t' ks1 /\ forall k, In k ks1 <-> In k ks0 \/ In k ks.
Proof.
  revert t ks0; induction ks as [|k ks IH]; intros t ks0 I Nz L; cbn [addkeys].
  - split; [constructor|]. exists ks0. split; [exact I|]. cbn. tauto.
  - assert (Nk : k <> 0) by (intros ->; apply Nz; now left).
    pose proof (addkey_spec t ks0 k I Nk) as A. destruct (wg_dhash_addkey t k) as [t1 c]. destruct A as [A1 A2].
    destruct (in_dec Z.eq_dec k ks0) as [Hk|Hk].
    + destruct (A1 Hk) as [-> ->]. specialize (IH t ks0 I). destruct (addkeys t ks) as [t2 cs].
      destruct IH as (F & ks1 & I1 & M); [intros Q; apply Nz; now right| |].
      { intros l Nl Il. apply L; [exact Nl|]. intros x Hx. specialize (Il x Hx). rewrite in_app_iff in *. cbn [In]. tauto. }
      split; [now constructor|]. exists ks1. split; [exact I1|]. intros x. rewrite M. cbn [In].
      split; [tauto|]. intros [Q|[<-|Q]]; auto.
    + destruct (A2 Hk) as [[-> I1]|(_ & _ & Full)].
      2:{ exfalso. assert (B : Z.of_nat (length (k :: ks0)) <= sz); [|cbn [length] in B; lia]. apply L.
          - constructor; [exact Hk|apply (di_nd _ _ I)].
          - intros x [<-|Hx]; apply in_or_app; [right; now left|now left]. }
      specialize (IH t1 (k :: ks0) I1). destruct (addkeys t1 ks) as [t2 cs].
      destruct IH as (F & ks1 & I2 & M); [intros Q; apply Nz; now right| |].
      { intros l Nl Il. apply L; [exact Nl|]. intros x Hx. specialize (Il x Hx). cbn [app In] in Il. rewrite in_app_iff in *. cbn [In]. tauto. }
      split; [now constructor|]. exists ks1. split; [exact I2|]. intros x. rewrite M. cbn [In]. tauto.
Qed.

(** More distinct keys than slots: some insertion is refused. *)
Lemma addkeys_full ks t ks0 :
  DI t ks0 -> ~ In 0 ks -> NoDup (ks0 ++ ks) -> Z.of_nat (length ks0) <= sz ->
  sz < Z.of_nat (length ks0 + length ks) ->
  let '(t', cs) := addkeys t ks in In (-1) cs.
Proof.
  revert t ks0; induction ks as [|k ks IH]; intros t ks0 I Nz N L0 L; cbn [addkeys].
  - cbn [length] in L. lia.
  - assert (Nk : k <> 0) by (intros ->; apply Nz; now left).
    pose proof (addkey_spec t ks0 k I Nk) as A. destruct (wg_dhash_addkey t k) as [t1 c]. destruct A as [_ A2].
    assert (Hk : ~ In k ks0).
    { intros Q. apply NoDup_remove_2 in N. apply N. apply in_or_app. now left. }
    destruct (A2 Hk) as [[-> I1]|(-> & _ & Full)].
    + destruct (Z.eq_dec (Z.of_nat (length ks0)) sz) as [E|NE].
      * (* the table was full already *)
        exfalso. pose proof (di_nd _ _ I1) as N1.
        (* k :: ks0 are sz+1 keys in sz slots *)
        assert (P : forall k', In k' (k :: ks0) -> exists b, (b < Z.to_nat sz)%nat /\ keys t1 (Z.of_nat b) = k').
        { intros k' Hk'. destruct (di_path _ _ I1 k' Hk') as (j & Hj & Ej & _).
          pose proof (probe_range k' j Hj). exists (Z.to_nat (probe k' j)). split; [lia|]. rewrite Z2Nat.id by lia. exact Ej. }
        assert (Inc : incl (k :: ks0) (map (fun b => keys t1 (Z.of_nat b)) (seq 0 (Z.to_nat sz)))).
        { intros k' Hk'. destruct (P k' Hk') as (b & Hb & Eb). apply in_map_iff. exists b. split; [exact Eb|]. apply in_seq. lia. }
        pose proof (NoDup_incl_length N1 Inc) as Len. rewrite map_length, seq_length in Len. cbn [length] in Len. lia.
      * specialize (IH t1 (k :: ks0) I1). destruct (addkeys t1 ks) as [t2 cs]. right. apply IH.
        -- intros Q; apply Nz; now right.
        -- cbn [app]. constructor; [apply NoDup_remove_2 in N; exact N|apply NoDup_remove_1 in N; exact N].
        -- cbn [length]. lia.
        -- cbn [length] in *. lia.
    + destruct (addkeys t1 ks) as [t2 cs]. now left.
Qed.
End Table.
