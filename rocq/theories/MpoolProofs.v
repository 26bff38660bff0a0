(** Pool blocks are disjoint; atoms and pairs keep their bytes. *)
From Coq Require Import ZArith List Lia Bool.
From Verif Require Import Base MpoolModel.
Import ListNotations.
Open Scope Z_scope.

Definition disj (x y : Z * Z) : Prop := fst x + snd x <= fst y \/ fst y + snd y <= fst x.
Definition adisj (x y : area) : Prop := aend x <= astart y \/ aend y <= astart x.

Lemma align_spec p : p <= align p < p + 4 /\ align p mod 4 = 0.
Proof. unfold align, ALIGNMENT_BYTES. cbv zeta. destruct (Z.eqb_spec (p mod 4) 0); lia. Qed.

(** ** Doubling *)
Lemma double_size_spec n : forall b w r, 0 < b -> double_size n b w = Some r ->
  b <= r <= Z.max b INT_MAX /\ (n <> O -> 2 * b <= r) /\ (w <= r \/ r = b * 2 ^ Z.of_nat n).
Proof.
  induction n as [|n IH]; intros b w r Hb H; cbn [double_size] in H.
  - injection H as <-. split; [lia|]. split; [congruence|]. right. rewrite Z.pow_0_r. lia.
  - cbv zeta in H. destruct (Z.ltb_spec INT_MAX (b * 2)); [discriminate|]. destruct (Z.leb_spec w (b * 2)).
    + injection H as <-. split; [lia|]. split; [intros _; lia|]. now left.
    + apply IH in H; [|lia]. destruct H as (Ha & Hb2 & H3). split; [lia|]. split; [intros _; lia|].
      destruct H3 as [H3| ->]; [now left|right]. rewrite Nat2Z.inj_succ, Z.pow_succ_r by lia. ring.
Qed.
Lemma double_size_fits b w r : 0 < b -> double_size 100 b w = Some r -> w <= INT_MAX -> 2 * b <= r <= INT_MAX /\ w <= r.
Proof.
  intros Hb H Hw. destruct (double_size_spec 100 b w r Hb H) as (H1 & H2 & H3). specialize (H2 ltac:(discriminate)).
  assert (Hr : r <= INT_MAX).
  { unfold double_size in H. fold (double_size 99) in H. cbv zeta in H. destruct (Z.ltb_spec INT_MAX (b * 2)); [discriminate|].
    destruct (Z.leb_spec w (b * 2)); [injection H as <-; lia|].
    change (double_size 99 (b * 2) w = Some r) in H. apply double_size_spec in H; lia. }
  split; [lia|]. destruct H3 as [|H3]; [assumption|].
  exfalso. change (Z.of_nat 100) with 100 in H3. assert (E : 2 ^ 100 = 1267650600228229401496703205376) by reflexivity. rewrite E in H3. unfold INT_MAX in *. lia.
Qed.

(** ** Invariant *)
Definition inside (p : pool) (e : Z * Z) : Prop :=
  (exists ar, In ar (older p) /\ astart ar <= fst e /\ fst e + snd e <= aend ar) \/
  (astart (cur p) <= fst e /\ fst e + snd e <= aend (cur p) /\ fst e + snd e <= freeptr p).

Record pinv (base : Z) (p : pool) (ext : list (Z * Z)) : Prop := {
  pi_areas : ForallOrdPairs adisj (cur p :: older p);
  pi_free : freeptr p mod 4 = 0 /\ astart (cur p) <= freeptr p;
  pi_pos : 0 < astart (cur p) /\ forall ar, In ar (older p) -> 0 < astart ar;
  pi_size : 1028 * 2 ^ cur_subarea p <= asize (cur p) <= INT_MAX /\ 0 <= cur_subarea p;
  pi_ne : astart (cur p) < aend (cur p) /\ forall ar, In ar (older p) -> astart ar < aend ar;
  pi_base : (older p = [] /\ astart (cur p) = base /\ base + HEADER <= aend (cur p) /\ base + HEADER <= freeptr p) \/
            (exists ar, In ar (older p) /\ astart ar = base /\ base + HEADER <= aend ar);
  pi_in : forall e, In e ext -> 0 < snd e /\ fst e mod 4 = 0 /\ inside p e /\ (fst e + snd e <= base \/ base + HEADER <= fst e);
  pi_disj : ForallOrdPairs disj ext }.

Lemma adisj_in p ar : ForallOrdPairs adisj (cur p :: older p) -> In ar (older p) -> adisj (cur p) ar.
Proof. intros H Hin. inversion H as [|? ? F _]; subst. rewrite Forall_forall in F. auto. Qed.

Lemma create_inv malloc n p : malloc_ok [] malloc -> wg_create_mpool malloc n = ROk p -> pinv (astart (cur p)) p [].
Proof.
  intros M H. unfold wg_create_mpool in H. cbv zeta in H. unfold HEADER, MIN_FIRST_SUBAREA_SIZE, ALIGNMENT_BYTES in *.
  set (bytes := if n <? 1024 + 4 then 2416 + 1024 + 4 else 2416 + n + 4) in *.
  assert (B : 3444 <= bytes) by (unfold bytes; destruct (Z.ltb_spec n (1024 + 4)); lia). clearbody bytes.
  destruct (Z.ltb_spec INT_MAX bytes); [discriminate|]. destruct (malloc bytes) as [a|] eqn:E; [|discriminate].
  injection H as <-. destruct (M _ _ E) as [A _]. pose proof (align_spec (a + 2416)) as [L1 L2].
  constructor; cbn [cur older freeptr astart aend asize cur_subarea].
  - constructor; constructor.
  - lia.
  - split; [exact A|intros ? []].
  - rewrite Z.pow_0_r. lia.
  - split; [lia|intros ? []].
  - left. unfold HEADER. split; [reflexivity|]. split; [reflexivity|]. lia.
  - intros e [].
  - constructor.
Qed.

Lemma alloc_inv base malloc p ext n p' q : pinv base p ext -> malloc_ok (cur p :: older p) malloc ->
  wg_alloc_mpool malloc p n = ROk (p', q) -> pinv base p' ((q, n) :: ext) /\ 0 < n /\ q mod 4 = 0 /\ 0 < q /\
  (forall e, In e ext -> disj (q, n) e).
Proof.
  intros [Ar [F1 F2] [P1 P2] [S1 S2] [N1 N2] B I D] M H. unfold wg_alloc_mpool in H.
  destruct (Z.leb_spec n 0) as [|Hn]; [discriminate|]. cbv zeta in H.
  destruct (Z.ltb_spec (aend (cur p)) (freeptr p + n)) as [Ext|NoExt].
  - (* extended *)
    destruct (extend_mpool malloc p n) as [p1| |] eqn:Ex; try discriminate. injection H as <- <-.
    unfold extend_mpool in Ex. destruct (Z.ltb_spec INT_MAX (n + ALIGNMENT_BYTES)) as [|Hmax]; [discriminate|].
    destruct (double_size 100 (asize (cur p)) (n + ALIGNMENT_BYTES)) as [bytes|] eqn:Db; [|discriminate].
    assert (P2pos : 0 < 2 ^ cur_subarea p) by (apply Z.pow_pos_nonneg; lia).
    assert (Sp : 0 < asize (cur p)) by lia.
    destruct (double_size_fits _ _ _ Sp Db Hmax) as [Db1 Db2]. unfold ALIGNMENT_BYTES in *.
    destruct (malloc bytes) as [sub|] eqn:Em; [|discriminate]. destruct (M _ _ Em) as [A1 A2].
    destruct (Z.leb_spec NROF_SUBAREAS (cur_subarea p + 1)) as [|Hidx]; [discriminate|]. injection Ex as <-.
    cbn [freeptr cur older cur_subarea].
    pose proof (align_spec sub) as [L1 L2]. pose proof (align_spec (align sub + n)) as [L3 L4].
    assert (Dn : forall e, In e ext -> disj (align sub, n) e).
    { intros e He. destruct (I e He) as (I1 & I2 & I3 & I4). unfold disj. cbn [fst snd].
      destruct I3 as [(ar & Ia & Ib & Ic)|(Ib & Ic & _)].
      - destruct (A2 ar (or_intror Ia)); lia.
      - destruct (A2 (cur p) (or_introl eq_refl)); lia. }
    split; [|split; [lia|split; [lia|split; [lia|exact Dn]]]].
    constructor; cbn [freeptr cur older cur_subarea asize astart aend].
    + constructor; [|exact Ar]. apply Forall_forall. intros ar Har. unfold adisj. cbn [astart aend]. destruct (A2 ar Har); lia.
    + lia.
    + split; [exact A1|]. intros ar [<-|Har]; auto.
    + rewrite Z.pow_add_r, Z.pow_1_r by lia. lia.
    + split; [lia|]. intros ar [<-|Har]; auto.
    + right. destruct B as [(Bo & B1 & B2 & B3)|(ar & B1 & B2 & B3)].
      * exists (cur p). split; [now left|]. auto.
      * exists ar. split; [now right|]. auto.
    + intros e [<-|He].
      * cbn [fst snd]. split; [lia|]. split; [lia|]. split; [right; cbn [cur freeptr fst snd astart aend]; lia|].
        destruct B as [(Bo & B1 & B2 & B3)|(ar & B1 & B2 & B3)].
        -- destruct (A2 (cur p) (or_introl eq_refl)); lia.
        -- destruct (A2 ar (or_intror B1)); lia.
      * destruct (I e He) as (I1 & I2 & I3 & I4). split; [exact I1|]. split; [exact I2|]. split; [|exact I4]. left. cbn [older].
        destruct I3 as [(ar & Ia & Ib & Ic)|(Ib & Ic & _)]; [exists ar; split; [now right|auto]|exists (cur p); split; [now left|auto]].
    + constructor; [|exact D]. apply Forall_forall. exact Dn.
  - injection H as <- <-. pose proof (align_spec (freeptr p + n)) as [L3 L4].
    assert (Dn : forall e, In e ext -> disj (freeptr p, n) e).
    { intros e He. destruct (I e He) as (I1 & I2 & I3 & I4). unfold disj. cbn [fst snd].
      destruct I3 as [(ar & Ia & Ib & Ic)|(Ib & Ic & Id)].
      - destruct (adisj_in p ar Ar Ia); lia.
      - lia. }
    split; [|split; [lia|split; [lia|split; [lia|exact Dn]]]].
    constructor; cbn [freeptr cur older cur_subarea].
    + exact Ar.
    + lia.
    + auto.
    + auto.
    + auto.
    + destruct B as [(Bo & B1 & B2 & B3)|B]; [left|now right]. split; [exact Bo|]. split; [exact B1|]. lia.
    + intros e [<-|He].
      * cbn [fst snd]. split; [lia|]. split; [lia|]. split; [right; cbn [cur freeptr fst snd]; lia|].
        destruct B as [(Bo & B1 & B2 & B3)|(ar & B1 & B2 & B3)]; [lia|]. destruct (adisj_in p ar Ar B1); lia.
      * destruct (I e He) as (I1 & I2 & I3 & I4). split; [exact I1|]. split; [exact I2|]. split; [|exact I4].
        destruct I3 as [I3|(Ib & Ic & Id)]; [now left|right]. cbn [cur freeptr]. lia.
    + constructor; [|exact D]. apply Forall_forall. exact Dn.
Qed.

(** ** Bytes *)
Lemma put_other l : forall m p a, (a < p \/ p + Z.of_nat (length l) <= a) -> put m p l a = m a.
Proof.
  induction l as [|b l IH]; intros m p a H; cbn [put]; [reflexivity|]. cbn [length] in H.
  rewrite IH by lia. apply upd_other. lia.
Qed.
Lemma put_nth l : forall m p i, (i < length l)%nat -> put m p l (p + Z.of_nat i) = nth i l 0.
Proof.
  induction l as [|b l IH]; intros m p i H; cbn [length] in H; [lia|]. cbn [put]. destruct i as [|i].
  - rewrite put_other by lia. replace (p + Z.of_nat 0) with p by lia. now rewrite upd_same.
  - replace (p + Z.of_nat (S i)) with (p + 1 + Z.of_nat i) by lia. rewrite IH by lia. reflexivity.
Qed.

Local Opaque put.
(** The bytes of an object. *)
Definition bytes_of (o : obj) : Z * list Z :=
  match o with
  | OBlock p _ => (p, [])
  | OAtom a t s1 s2 => (a, (t mod 256) :: chars s1 ++ [0] ++ chars s2 ++ [0])
  | OPair a x y => (a, le8 x ++ le8 y)
  end.
Definition holds (m : bmem) (o : obj) : Prop :=
  let '(p, l) := bytes_of o in forall i, (i < length l)%nat -> m (p + Z.of_nat i) = nth i l 0.
Lemma le8_length v : length (le8 v) = 8%nat.
Proof. unfold le8. now rewrite map_length, seq_length. Qed.
Lemma bytes_extent o i : (i < length (snd (bytes_of o)))%nat ->
  fst (extent o) <= fst (bytes_of o) + Z.of_nat i < fst (extent o) + snd (extent o).
Proof.
  destruct o; cbn [bytes_of extent fst snd length]; intros H.
  - lia.
  - unfold atom_size. rewrite !app_length in H. cbn [length app] in H. rewrite ?app_length in H. cbn [length] in H. lia.
  - rewrite app_length, !le8_length in H. lia.
Qed.

Lemma disj_sym x y : disj x y -> disj y x.
Proof. unfold disj. tauto. Qed.
Lemma fop_disj (h : list obj) o1 o2 : ForallOrdPairs disj (map extent h) -> In o1 h -> In o2 h -> o1 <> o2 -> disj (extent o1) (extent o2).
Proof.
  induction h as [|o h IH]; intros F H1 H2 N; [destruct H1|]. cbn [map] in F. inversion F as [|? ? F1 F2]; subst.
  rewrite Forall_forall in F1. destruct H1 as [<-|H1]; destruct H2 as [<-|H2].
  - congruence.
  - apply F1. now apply in_map.
  - apply disj_sym, F1. now apply in_map.
  - now apply IH.
Qed.

Lemma reach_inv p m h : mreach p m h ->
  exists base, pinv base p (map extent h) /\ Forall (holds m) h /\
    Forall (fun o => match o with OBlock q n => True | OAtom a t s1 s2 => cstr_ok s1 /\ cstr_ok s2 /\ a mod 4 = 1 /\ 0 < a | OPair a x y => a mod 4 = 0 /\ 0 < a end) h.
Proof.
  intros R. induction R as [malloc n p m M H|malloc p m h n p' q R (base & I & C & O) M Hn H|malloc p m h t s1 s2 p' m' a R (base & I & C & O) M K1 K2 H|malloc p m h x y p' m' a R (base & I & C & O) M H|p m h q n a v R (base & I & C & O) Hin Ha].
  - exists (astart (cur p)). split; [eapply create_inv; eauto|]. split; constructor.
  - exists base. destruct (alloc_inv _ _ _ _ _ _ _ I M H) as (I' & _). split; [exact I'|]. split; [|constructor; auto].
    constructor; [|exact C]. cbn [holds bytes_of length]. unfold holds. cbn. intros; lia.
  - unfold wg_mkatom in H. destruct (INT_MAX <? atom_size s1 s2); [discriminate|].
    destruct (wg_alloc_mpool malloc p (atom_size s1 s2)) as [[p1 ptr]| |] eqn:E; try discriminate.
    unfold fill_atom in H. injection H as <- <- <-.
    destruct (alloc_inv _ _ _ _ _ _ _ I M E) as (I' & N & Al & Pp & D). exists base.
    replace (map extent (OAtom (ptr + 1) t s1 s2 :: h)) with ((ptr, atom_size s1 s2) :: map extent h) by (cbn [map extent]; repeat f_equal; lia).
    split; [exact I'|]. split; [|constructor; [|exact O]; repeat split; auto; lia].
    constructor.
    + unfold holds. cbn [bytes_of]. intros i Hi. exact (put_nth _ m (ptr + 1) i Hi).
    + rewrite Forall_forall in *. intros o Ho. specialize (C o Ho). unfold holds in *. pose proof (bytes_extent o) as Be.
      destruct (bytes_of o) as [bp bl]. cbn [fst snd] in Be. intros i Hi. rewrite <- (C i Hi). apply put_other.
      specialize (Be i Hi). assert (De := D (extent o) (in_map extent _ _ Ho)). unfold disj in De. cbn [fst snd] in De.
      cbn [length]. rewrite !app_length. cbn [length app]. rewrite ?app_length. cbn [length]. unfold atom_size in De. lia.
  - unfold wg_mkpair in H. destruct (wg_alloc_mpool malloc p 16) as [[p1 ptr]| |] eqn:E; try discriminate.
    injection H as <- <- <-. destruct (alloc_inv _ _ _ _ _ _ _ I M E) as (I' & N & Al & Pp & D). exists base.
    split; [exact I'|]. split; [|constructor; auto].
    constructor.
    + unfold holds. cbn [bytes_of]. intros i Hi. exact (put_nth _ m ptr i Hi).
    + rewrite Forall_forall in *. intros o Ho. specialize (C o Ho). unfold holds in *. pose proof (bytes_extent o) as Be.
      destruct (bytes_of o) as [bp bl]. cbn [fst snd] in Be. intros i Hi. rewrite <- (C i Hi). apply put_other.
      specialize (Be i Hi). assert (De := D (extent o) (in_map extent _ _ Ho)). unfold disj in De. cbn [fst snd] in De.
      cbn [length]. rewrite ?app_length, ?le8_length. lia.
  - exists base. split; [exact I|]. split; [|exact O]. rewrite Forall_forall in *. intros o Ho. specialize (C o Ho).
    destruct o as [q' n'|a' t s1 s2|a' x y].
    + unfold holds. cbn. intros; lia.
    + unfold holds in *. pose proof (bytes_extent (OAtom a' t s1 s2)) as Be. destruct (bytes_of (OAtom a' t s1 s2)) as [bp bl]. cbn [fst snd] in Be.
      intros i Hi. rewrite <- (C i Hi). apply upd_other. specialize (Be i Hi).
      assert (Df := fop_disj _ _ _ (pi_disj _ _ _ I) Hin Ho ltac:(discriminate)). unfold disj in Df. cbn [extent fst snd] in Df, Be. lia.
    + unfold holds in *. pose proof (bytes_extent (OPair a' x y)) as Be. destruct (bytes_of (OPair a' x y)) as [bp bl]. cbn [fst snd] in Be.
      intros i Hi. rewrite <- (C i Hi). apply upd_other. specialize (Be i Hi).
      assert (Df := fop_disj _ _ _ (pi_disj _ _ _ I) Hin Ho ltac:(discriminate)). unfold disj in Df. cbn [extent fst snd] in Df, Be. lia.
Qed.
