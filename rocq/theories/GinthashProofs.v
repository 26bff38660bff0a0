(** The extendible hash table is a map. *)
From Coq Require Import ZArith List Lia Bool Arith.
From Verif Require Import Base DhashModel GinthashModel.
Import ListNotations.
Open Scope Z_scope.
#[local] Ltac Zify.zify_post_hook ::= idtac.
Local Opaque rehash_gint scramble.

(** ** Bits *)
Lemma land_low h l : 0 <= l -> Z.land h (2 ^ l - 1) = h mod 2 ^ l.
Proof. intros H. rewrite <- Z.land_ones by exact H. rewrite Z.ones_equiv. reflexivity. Qed.

Lemma land_pow2 x l : 0 <= l -> Z.land x (2 ^ l) = if Z.testbit x l then 2 ^ l else 0.
Proof.
  intros H. apply Z.bits_inj'. intros n Hn. rewrite Z.land_spec, Z.pow2_bits_eqb by exact H.
  destruct (Z.eqb_spec l n) as [->|N].
  - destruct (Z.testbit x n) eqn:E; cbn [andb]; [rewrite Z.pow2_bits_true by exact Hn; reflexivity|now rewrite Z.bits_0].
  - rewrite andb_false_r. destruct (Z.testbit x l); [rewrite Z.pow2_bits_false by auto; reflexivity|now rewrite Z.bits_0].
Qed.

Lemma mod_next x l : 0 <= l -> x mod 2 ^ (l + 1) = x mod 2 ^ l + (if Z.testbit x l then 2 ^ l else 0).
Proof.
  intros H. rewrite Z.pow_add_r by lia. change (2 ^ 1) with 2.
  rewrite Z.rem_mul_r by (try lia; apply Z.pow_nonzero; lia).
  rewrite <- Z.testbit_spec' by exact H. destruct (Z.testbit x l); cbn [Z.b2z]; lia.
Qed.

Lemma mod_mod_pow x a b : 0 <= a <= b -> (x mod 2 ^ b) mod 2 ^ a = x mod 2 ^ a.
Proof.
  intros H. symmetry. apply Znumtheory.Zmod_div_mod; try (apply Z.pow_pos_nonneg; lia).
  exists (2 ^ (b - a)). rewrite <- Z.pow_add_r by lia. f_equal. lia.
Qed.

Lemma pow_mono a b : 0 <= a <= b -> 0 < 2 ^ a <= 2 ^ b.
Proof. intros H. split; [apply Z.pow_pos_nonneg; lia|apply Z.pow_le_mono_r; lia]. Qed.

Lemma lor3 j l low : 0 <= l -> 0 <= low < 2 ^ l ->
  Z.lor (Z.lor (Z.shiftl j (l + 1)) (2 ^ l)) low = j * 2 ^ (l + 1) + 2 ^ l + low.
Proof.
  intros Hl Hlow. rewrite Z.shiftl_mul_pow2 by lia.
  assert (P : 2 ^ (l + 1) = 2 * 2 ^ l) by (rewrite Z.pow_add_r by lia; change (2 ^ 1) with 2; lia).
  assert (Pl : 0 < 2 ^ l) by (apply Z.pow_pos_nonneg; lia).
  assert (D1 : Z.lor (j * 2 ^ (l + 1)) (2 ^ l) = j * 2 ^ (l + 1) + 2 ^ l).
  { symmetry. rewrite <- Z.lxor_lor.
    - apply Z.add_nocarry_lxor. apply Z.bits_inj'. intros n Hn. rewrite Z.land_spec, Z.pow2_bits_eqb, Z.bits_0 by lia.
      destruct (Z.eqb_spec l n) as [<-|]; [|apply andb_false_r]. rewrite Z.mul_pow2_bits_low by lia. reflexivity.
    - apply Z.bits_inj'. intros n Hn. rewrite Z.land_spec, Z.pow2_bits_eqb, Z.bits_0 by lia.
      destruct (Z.eqb_spec l n) as [<-|]; [|apply andb_false_r]. rewrite Z.mul_pow2_bits_low by lia. reflexivity. }
  rewrite D1. replace (j * 2 ^ (l + 1) + 2 ^ l) with ((2 * j + 1) * 2 ^ l) by (rewrite P; ring).
  assert (Z0 : Z.land ((2 * j + 1) * 2 ^ l) low = 0).
  { apply Z.bits_inj'. intros n Hn. rewrite Z.land_spec, Z.bits_0.
    destruct (Z_lt_le_dec n l) as [L|L]; [rewrite Z.mul_pow2_bits_low by lia; reflexivity|].
    destruct (Z.eq_dec low 0) as [->|N0]; [rewrite Z.bits_0; apply andb_false_r|].
    rewrite (Z.bits_above_log2 low n); [apply andb_false_r|lia|].
    assert (Z.log2 low < l) by (apply Z.log2_lt_pow2; lia). lia. }
  rewrite <- Z.lxor_lor by exact Z0. symmetry. now apply Z.add_nocarry_lxor.
Qed.

Lemma lor2 l low : 0 <= l -> 0 <= low < 2 ^ l -> Z.lor (2 ^ l) low = 2 ^ l + low.
Proof.
  intros Hl Hlow. pose proof (lor3 0 l low Hl Hlow) as H. rewrite Z.shiftl_0_l, Z.lor_0_l in H. lia.
Qed.

(** ** Buckets *)
Definition bset (l : Z) (e : Z * Z) : bool := Z.testbit (scramble (fst e)) l.

Lemma remove_nth_app p x q : remove_nth (length p) (p ++ x :: q) = p ++ q.
Proof. induction p as [|a p IH]; cbn [length app remove_nth]; [reflexivity|now rewrite IH]. Qed.

Lemma filter_snoc {A} (f : A -> bool) p x : filter f (p ++ [x]) = filter f p ++ (if f x then [x] else []).
Proof. rewrite filter_app. cbn [filter]. destruct (f x); reflexivity. Qed.

Lemma relocate_eq l bl p : forall q nbl n, 0 <= l ->
  (length n + length p <= 8)%nat ->
  relocate (length p) (2 ^ l) (GB bl (p ++ q)) (GB nbl n) =
  (GB bl (filter (fun e => negb (bset l e)) p ++ q), GB nbl (n ++ rev (filter (bset l) p))).
Proof.
  induction p as [|x p IH] using rev_ind; intros q nbl n Hl Hn.
  - cbn. now rewrite app_nil_r.
  - rewrite app_length in *. cbn [length] in *. rewrite Nat.add_1_r. cbn [relocate ents blevel].
    rewrite <- app_assoc. cbn [app].
    rewrite nth_error_app2 by lia. rewrite Nat.sub_diag. cbn [nth_error]. destruct x as [k v].
    rewrite land_pow2 by exact Hl. rewrite !filter_snoc. change (bset l (k, v)) with (Z.testbit (scramble k) l).
    assert (Pp : 0 < 2 ^ l) by (apply Z.pow_pos_nonneg; lia).
    destruct (Z.testbit (scramble k) l); cbn [negb].
    + destruct (Z.eqb_spec (2 ^ l) 0); [lia|]. rewrite remove_nth_app, app_nil_r.
      unfold add_to_bucket. cbn [ents blevel]. destruct (Nat.ltb_spec BUCKETCAP (length n)); [unfold BUCKETCAP in *; lia|].
      rewrite IH; [|exact Hl|rewrite app_length; cbn [length]; lia]. rewrite rev_app_distr. cbn [rev app].
      rewrite <- app_assoc. reflexivity.
    + rewrite Z.eqb_refl. rewrite IH by (auto; lia). rewrite app_nil_r, <- app_assoc. reflexivity.
Qed.

Lemma filter_len {A} (f : A -> bool) l : (length (filter f l) + length (filter (fun x => negb (f x)) l) = length l)%nat.
Proof. induction l as [|a l IH]; cbn [filter length]; [reflexivity|]. destruct (f a); cbn [negb length]; lia. Qed.

Lemma NoDup_map_filter (f : Z * Z -> bool) l : NoDup (map fst l) -> NoDup (map fst (filter f l)).
Proof.
  induction l as [|a l IH]; cbn [filter map]; intros H; [constructor|]. inversion H as [|? ? Ha Hl]; subst.
  destruct (f a); cbn [map]; [|auto]. constructor; [|auto]. intros Q. apply Ha.
  apply in_map_iff in Q. destruct Q as (x & Ex & Hx). apply filter_In in Hx. apply in_map_iff. exists x. tauto.
Qed.
Lemma NoDup_snoc (l : list Z) a : NoDup l -> ~ In a l -> NoDup (l ++ [a]).
Proof.
  induction l as [|b l IH]; cbn [app]; intros H N; [constructor; [exact N|constructor]|].
  inversion H as [|? ? Hb Hl]; subst. constructor.
  - rewrite in_app_iff. cbn. intros [Q|[Q|[]]]; [auto|]. apply N. now left.
  - apply IH; [exact Hl|]. intros Q. apply N. now right.
Qed.

(** ** Directory update *)
Lemma dirloop_spec l low L old new : 0 <= l -> l + 1 <= L -> 0 <= low < 2 ^ l -> old <> new ->
  forall n j d, 0 <= j -> j + Z.of_nat n = 2 ^ (L - (l + 1)) ->
  (forall s, 0 <= s < 2 ^ L -> s mod 2 ^ (l + 1) = 2 ^ l + low -> j <= s / 2 ^ (l + 1) -> d s = old) ->
  exists d', dirloop n j (l + 1) (2 ^ l) low (2 ^ L) old new d = Some d' /\
    forall s, 0 <= s < 2 ^ L ->
      d' s = if (s mod 2 ^ (l + 1) =? 2 ^ l + low) && (j <=? s / 2 ^ (l + 1)) then new else d s.
Proof.
  intros Hl HL Hlow Hne.
  assert (P : 2 ^ (l + 1) = 2 * 2 ^ l) by (rewrite Z.pow_add_r by lia; change (2 ^ 1) with 2; lia).
  assert (Pl : 0 < 2 ^ l) by (apply Z.pow_pos_nonneg; lia).
  assert (PL : 2 ^ L = 2 ^ (L - (l + 1)) * 2 ^ (l + 1)) by (rewrite <- Z.pow_add_r by lia; f_equal; lia).
  induction n as [|n IH]; intros j d Hj Hn Hd.
  - exists d. split; [reflexivity|]. intros s Hs. destruct (Z.leb_spec j (s / 2 ^ (l + 1))) as [Q|Q]; [|now rewrite andb_false_r].
    exfalso. assert (s / 2 ^ (l + 1) < 2 ^ (L - (l + 1))) by (apply Z.div_lt_upper_bound; lia). lia.
  - cbn [dirloop]. rewrite lor3 by assumption. set (k := j * 2 ^ (l + 1) + 2 ^ l + low).
    assert (Hk : 0 <= k < 2 ^ L). { unfold k. rewrite PL. rewrite Nat2Z.inj_succ in Hn. nia. }
    assert (Km : k mod 2 ^ (l + 1) = 2 ^ l + low).
    { unfold k. replace (j * 2 ^ (l + 1) + 2 ^ l + low) with (2 ^ l + low + j * 2 ^ (l + 1)) by ring.
      rewrite Z.mod_add by lia. apply Z.mod_small. lia. }
    assert (Kd : k / 2 ^ (l + 1) = j).
    { unfold k. replace (j * 2 ^ (l + 1) + 2 ^ l + low) with (2 ^ l + low + j * 2 ^ (l + 1)) by ring.
      rewrite Z.div_add by lia. rewrite Z.div_small by lia. lia. }
    assert (Uk : forall s, s mod 2 ^ (l + 1) = 2 ^ l + low -> s / 2 ^ (l + 1) = j -> s = k).
    { intros s S1 S2. rewrite (Z.div_mod s (2 ^ (l + 1))) by lia. unfold k. rewrite S1, S2. ring. }
    destruct (Z.leb_spec 0 k); [|lia]. destruct (Z.ltb_spec k (2 ^ L)); [|lia].
    rewrite (Hd k Hk Km ltac:(lia)). rewrite Z.eqb_refl. cbn [andb].
    clearbody k.
    destruct (IH (j + 1) (upd d k new)) as (d' & E & D').
    + lia.
    + lia.
    + intros s Hs Sm Sd. rewrite upd_other; [apply Hd; auto; lia|]. intros ->. lia.
    + exists d'. split; [exact E|]. intros s Hs. rewrite (D' s Hs).
      destruct (Z.eqb_spec (s mod 2 ^ (l + 1)) (2 ^ l + low)) as [Sm|Sm]; cbn [andb].
      * destruct (Z.leb_spec (j + 1) (s / 2 ^ (l + 1))); destruct (Z.leb_spec j (s / 2 ^ (l + 1))); try lia; auto.
        -- assert (s = k) by (apply Uk; auto; lia). subst. now rewrite upd_same.
        -- rewrite upd_other; [reflexivity|]. intros ->. lia.
      * rewrite upd_other; [reflexivity|]. intros ->. congruence.
Qed.

(** ** The invariant: [m] is the stored map, [c] the bucket being split (0: none) *)
Record slot_ok (t : gtable) (c s : Z) : Prop := {
  so_ptr : 1 <= gdir t s < nextb t;
  so_lev : 1 <= blevel (gheap t (gdir t s)) <= glevel t;
  so_dir : forall s', 0 <= s' < 2 ^ glevel t ->
     (gdir t s' = gdir t s <-> s' mod 2 ^ blevel (gheap t (gdir t s)) = s mod 2 ^ blevel (gheap t (gdir t s)));
  so_ent : forall k v, In (k, v) (ents (gheap t (gdir t s))) ->
     scramble k mod 2 ^ blevel (gheap t (gdir t s)) = s mod 2 ^ blevel (gheap t (gdir t s));
  so_len : (length (ents (gheap t (gdir t s))) <= 8)%nat;
  so_nd : NoDup (map fst (ents (gheap t (gdir t s))));
  so_full : length (ents (gheap t (gdir t s))) = 8%nat -> gdir t s = c \/ blevel (gheap t (gdir t s)) = 22 }.

Record GI (t : gtable) (m : list (Z * Z)) (c : Z) : Prop := {
  gi_lev : 1 <= glevel t <= 22;
  gi_next : 1 <= nextb t;
  gi_slot : forall s, 0 <= s < 2 ^ glevel t -> gdir t s = 0 \/ slot_ok t c s;
  gi_map : forall k v, In (k, v) m <->
     exists s, 0 <= s < 2 ^ glevel t /\ gdir t s <> 0 /\ In (k, v) (ents (gheap t (gdir t s))) }.

Lemma gi_slot' t m c s : GI t m c -> 0 <= s < 2 ^ glevel t -> gdir t s <> 0 -> slot_ok t c s.
Proof. intros G Hs Hn. destruct (gi_slot _ _ _ G s Hs); [contradiction|assumption]. Qed.

Lemma hslot t k : 1 <= glevel t -> 0 <= scramble k mod 2 ^ glevel t < 2 ^ glevel t.
Proof. intros H. apply Z.mod_pos_bound. apply Z.pow_pos_nonneg; lia. Qed.

Lemma bfind_in l k v : bfind l k = Some v -> In (k, v) l.
Proof.
  induction l as [|[a b] l IH]; cbn [bfind]; [discriminate|]. destruct (Z.eqb_spec a k) as [->|].
  - intros H. injection H as <-. now left.
  - intros H. right. auto.
Qed.
Lemma bfind_some l k v : In (k, v) l -> exists v', bfind l k = Some v'.
Proof.
  induction l as [|[a b] l IH]; cbn [bfind]; [intros []|]. intros [E|H].
  - injection E as -> ->. rewrite Z.eqb_refl. eauto.
  - destruct (a =? k); eauto.
Qed.

Lemma getkey_in t m c k v : GI t m c -> wg_ginthash_getkey t k = Some v -> In (k, v) m.
Proof.
  intros G. unfold wg_ginthash_getkey. pose proof (gi_lev _ _ _ G) as Lv. rewrite land_low by lia.
  destruct (Z.eqb_spec (gdir t (scramble k mod 2 ^ glevel t)) 0) as [|N]; [discriminate|].
  intros H. apply bfind_in in H. apply (gi_map _ _ _ G). eexists. split; [apply hslot; lia|]. split; eauto.
Qed.

Lemma getkey_some t m c k v : GI t m c -> In (k, v) m -> exists v', wg_ginthash_getkey t k = Some v'.
Proof.
  intros G H. apply (gi_map _ _ _ G) in H. destruct H as (s & Hs & Hn & Hin).
  pose proof (gi_slot' _ _ _ s G Hs Hn) as S. pose proof (gi_lev _ _ _ G) as Lv.
  unfold wg_ginthash_getkey. rewrite land_low by lia.
  assert (E : gdir t (scramble k mod 2 ^ glevel t) = gdir t s).
  { apply (so_dir _ _ _ S); [apply hslot; lia|]. rewrite mod_mod_pow by (pose proof (so_lev _ _ _ S); lia).
    now apply (so_ent _ _ _ S) with v. }
  rewrite E. destruct (Z.eqb_spec (gdir t s) 0); [contradiction|]. eapply bfind_some; eauto.
Qed.

(** ** Growing *)
Lemma grow_GI t m c : GI t m c -> glevel t < 22 -> exists t', grow_ginthash t = Some t' /\ GI t' m c /\
  glevel t' = glevel t + 1 /\ gheap t' = gheap t /\ nextb t' = nextb t /\
  forall s, 0 <= s < 2 ^ glevel t' -> gdir t' s = gdir t (s mod 2 ^ glevel t).
Proof.
  intros G Hl. unfold grow_ginthash, MAXLEVEL. destruct (Z.leb_spec 23 (glevel t + 1)); [lia|].
  pose proof (gi_lev _ _ _ G) as Lv. destruct (Z.eqb_spec (glevel t) 0); [lia|].
  eexists. split; [reflexivity|]. set (t' := GT _ _ _ _).
  assert (Pp : 0 < 2 ^ glevel t) by (apply Z.pow_pos_nonneg; lia).
  assert (P : 2 ^ glevel t' = 2 * 2 ^ glevel t) by (cbn [glevel t']; rewrite Z.pow_add_r by lia; change (2 ^ 1) with 2; lia).
  assert (D : forall s, 0 <= s < 2 ^ glevel t' -> gdir t' s = gdir t (s mod 2 ^ glevel t)).
  { intros s Hs. cbn [gdir t']. destruct (Z.ltb_spec s (2 ^ glevel t)).
    - now rewrite Z.mod_small by lia.
    - f_equal. rewrite P in Hs. symmetry. replace s with (s - 2 ^ glevel t + 1 * 2 ^ glevel t) at 1 by ring.
      rewrite Z.mod_add by lia. apply Z.mod_small. lia. }
  assert (R : forall s, 0 <= s mod 2 ^ glevel t < 2 ^ glevel t) by (intros s; apply Z.mod_pos_bound; lia).
  split; [|now auto].
  assert (L' : glevel t' = glevel t + 1) by reflexivity.
  assert (H' : gheap t' = gheap t) by reflexivity. assert (N' : nextb t' = nextb t) by reflexivity.
  clearbody t'. constructor.
  - lia.
  - rewrite N'. apply (gi_next _ _ _ G).
  - intros s Hs. pose proof (D s Hs) as Ds. destruct (gi_slot _ _ _ G (s mod 2 ^ glevel t) (R s)) as [Z0|S].
    + left. congruence.
    + right. pose proof (so_lev _ _ _ S) as Bl. constructor; rewrite Ds, ?H', ?N'.
      * apply (so_ptr _ _ _ S).
      * lia.
      * intros s' Hs'. rewrite (D s' Hs'). rewrite (so_dir _ _ _ S) by apply R.
        rewrite !mod_mod_pow by lia. reflexivity.
      * intros k v Hk. rewrite (so_ent _ _ _ S k v Hk). now rewrite mod_mod_pow by lia.
      * apply (so_len _ _ _ S).
      * apply (so_nd _ _ _ S).
      * apply (so_full _ _ _ S).
  - intros k v. rewrite (gi_map _ _ _ G). split; intros (s & Hs & Hn & Hi).
    + exists s. assert (Hs' : 0 <= s < 2 ^ glevel t') by lia. split; [exact Hs'|]. rewrite (D s Hs'), H', Z.mod_small by lia. auto.
    + exists (s mod 2 ^ glevel t). split; [apply R|]. rewrite <- (D s Hs), <- H'. auto.
Qed.

Lemma grow_max t : glevel t = 22 -> grow_ginthash t = None.
Proof. intros E. unfold grow_ginthash. rewrite E. reflexivity. Qed.

(** ** Splitting *)
Lemma hupd_same h b x : hupd h b x b = x.
Proof. unfold hupd. now rewrite Z.eqb_refl. Qed.
Lemma hupd_other h b x i : i <> b -> hupd h b x i = h i.
Proof. intros N. unfold hupd. destruct (Z.eqb_spec i b); [contradiction|reflexivity]. Qed.

(** The state after a split, described independently of how the directory is updated. *)
Lemma split_GI t m b s0 l low d' b1 n1 :
  GI t m b -> 0 <= s0 < 2 ^ glevel t -> gdir t s0 = b -> b <> 0 ->
  l = blevel (gheap t b) -> l < glevel t -> low = s0 mod 2 ^ l ->
  b1 = GB (l + 1) (filter (fun e => negb (bset l e)) (ents (gheap t b))) ->
  n1 = GB (l + 1) (rev (filter (bset l) (ents (gheap t b)))) ->
  (forall s, 0 <= s < 2 ^ glevel t -> d' s = if s mod 2 ^ (l + 1) =? 2 ^ l + low then nextb t else gdir t s) ->
  let t' := GT (glevel t) d' (hupd (hupd (gheap t) b b1) (nextb t) n1) (nextb t + 1) in
  let c := if (BUCKETCAP <? length (ents n1))%nat then nextb t else b in
  GI t' m c /\ (exists s, 0 <= s < 2 ^ glevel t /\ d' s = c) /\ c <> 0 /\ blevel (gheap t' c) = l + 1.
Proof.
  intros G Hs0 Eb Hb El Hl Elow Eb1 En1 D t' c.
  pose proof (gi_lev _ _ _ G) as Lv. pose proof (gi_next _ _ _ G) as Nx.
  assert (S0 : slot_ok t b s0) by (apply (gi_slot' _ _ _ s0 G Hs0); congruence).
  pose proof (so_ptr _ _ _ S0) as Pt. rewrite Eb in Pt.
  pose proof (so_lev _ _ _ S0) as Bl. rewrite Eb, <- El in Bl.
  pose proof (so_dir _ _ _ S0) as Sd. rewrite Eb, <- El in Sd.
  pose proof (so_ent _ _ _ S0) as Se. rewrite Eb, <- El in Se.
  pose proof (so_len _ _ _ S0) as Sl. rewrite Eb in Sl.
  pose proof (so_nd _ _ _ S0) as Sn. rewrite Eb in Sn.
  rewrite <- Elow in *.
  assert (Pl : 0 < 2 ^ l) by (apply Z.pow_pos_nonneg; lia).
  assert (P1 : 2 ^ (l + 1) = 2 * 2 ^ l) by (rewrite Z.pow_add_r by lia; change (2 ^ 1) with 2; lia).
  assert (PL : 2 ^ (l + 1) <= 2 ^ glevel t) by (apply Z.pow_le_mono_r; lia).
  assert (Lr : 0 <= low < 2 ^ l) by (rewrite Elow; apply Z.mod_pos_bound; lia).
  clear Elow.
  set (n := nextb t) in *. assert (Nn : n <> 0) by lia. assert (Nb : n <> b) by lia.
  (* slots of the old bucket *)
  assert (Bsplit : forall x, x mod 2 ^ l = low -> x mod 2 ^ (l + 1) = low /\ Z.testbit x l = false \/ x mod 2 ^ (l + 1) = 2 ^ l + low /\ Z.testbit x l = true).
  { intros x Hx. rewrite (mod_next x l), Hx by lia. destruct (Z.testbit x l); [right|left]; split; auto; lia. }
  assert (Up : forall x, x mod 2 ^ (l + 1) = low \/ x mod 2 ^ (l + 1) = 2 ^ l + low -> x mod 2 ^ l = low).
  { intros x [Hx|Hx].
    - rewrite <- (mod_mod_pow x l (l + 1)) by lia. rewrite Hx. apply Z.mod_small; lia.
    - rewrite <- (mod_mod_pow x l (l + 1)) by lia. rewrite Hx. rewrite <- (Z.mul_1_l (2 ^ l)) at 1.
      rewrite Z.add_comm, Z.mod_add by lia. apply Z.mod_small; lia. }
  assert (Slow : 0 <= low < 2 ^ glevel t) by lia.
  assert (Shigh : 0 <= 2 ^ l + low < 2 ^ glevel t) by lia.
  assert (Mlow : low mod 2 ^ (l + 1) = low) by (apply Z.mod_small; lia).
  assert (Mhigh : (2 ^ l + low) mod 2 ^ (l + 1) = 2 ^ l + low) by (apply Z.mod_small; lia).
  assert (Dlow : d' low = b).
  { rewrite (D low Slow), Mlow. destruct (Z.eqb_spec low (2 ^ l + low)); [lia|]. apply Sd; [exact Slow|]. apply Up. now left. }
  assert (Dhigh : d' (2 ^ l + low) = n) by (rewrite (D _ Shigh), Mhigh, Z.eqb_refl; reflexivity).
  assert (Hn1 : gheap t' n = n1) by (cbn [gheap t']; apply hupd_same).
  assert (Hb1 : gheap t' b = b1) by (cbn [gheap t']; rewrite hupd_other by auto; apply hupd_same).
  assert (Ho : forall x, x <> n -> x <> b -> gheap t' x = gheap t x) by (intros x X1 X2; cbn [gheap t']; rewrite !hupd_other by auto; reflexivity).
  assert (Len : (length (ents b1) + length (ents n1) <= 8)%nat).
  { rewrite Eb1, En1. cbn [ents]. rewrite rev_length. pose proof (filter_len (bset l) (ents (gheap t b))). lia. }
  assert (Full : forall x bk, (x = n /\ bk = n1) \/ (x = b /\ bk = b1) -> length (ents bk) = 8%nat -> x = c).
  { unfold c, BUCKETCAP. destruct (Nat.ltb_spec 7 (length (ents n1))); intros x bk [[-> ->]|[-> ->]] F; auto; lia. }
  assert (Hd' : forall s, 0 <= s < 2 ^ glevel t -> d' s = n /\ s mod 2 ^ (l + 1) = 2 ^ l + low \/
     d' s = b /\ s mod 2 ^ (l + 1) = low \/ d' s = gdir t s /\ gdir t s <> b /\ s mod 2 ^ l <> low).
  { intros s Hs. rewrite (D s Hs). destruct (Z.eqb_spec (s mod 2 ^ (l + 1)) (2 ^ l + low)) as [E|E]; [now left|right].
    destruct (Z.eq_dec (s mod 2 ^ l) low) as [F|F].
    - left. split; [now apply Sd|]. destruct (Bsplit s F) as [[Q _]|[Q _]]; [exact Q|contradiction].
    - right. split; [reflexivity|]. split; [|exact F]. intros Q. apply F. now apply Sd. }
  assert (Old : forall s, 0 <= s < 2 ^ glevel t -> gdir t s < n).
  { intros s Hs. destruct (gi_slot _ _ _ G s Hs) as [Q|Q]; [lia|]. apply (so_ptr _ _ _ Q). }
  assert (Diff : 2 ^ l + low <> low) by lia.
  split; [|split; [|split]].
  - constructor.
    + exact Lv.
    + cbn [nextb t']. lia.
    + intros s Hs. change (glevel t') with (glevel t) in *.
      destruct (Hd' s Hs) as [[E M]|[[E M]|(E & Nbs & M)]].
      * (* new bucket *)
        right. constructor; change (gdir t' s) with (d' s); rewrite E, ?Hn1, ?En1; cbn [blevel ents].
        -- cbn [nextb t']. lia.
        -- cbn [glevel t']. lia.
        -- intros s' Hs'. cbn [glevel t'] in Hs'. change (gdir t' s') with (d' s').
           rewrite M. pose proof (Old s' Hs'). destruct (Hd' s' Hs') as [[E' M']|[[E' M']|(E' & N' & M')]]; rewrite E', ?M'.
           ++ tauto.
           ++ split; intros; lia.
           ++ split; [lia|]. intros Q. exfalso. apply M'. apply Up. now right.
        -- intros k v Hk. apply in_rev in Hk. apply filter_In in Hk. destruct Hk as [Hk Bt]. unfold bset in Bt. cbn [fst] in Bt.
           rewrite M. destruct (Bsplit (scramble k) (Se k v Hk)) as [[_ Q]|[Q _]]; [congruence|exact Q].
        -- rewrite En1 in Len. cbn [ents] in Len. lia.
        -- rewrite map_rev. apply NoDup_rev. apply NoDup_map_filter. exact Sn.
        -- intros F. left. apply (Full n n1); [now left|]. rewrite En1. exact F.
      * (* old bucket *)
        right. constructor; change (gdir t' s) with (d' s); rewrite E, ?Hb1, ?Eb1; cbn [blevel ents].
        -- cbn [nextb t']. lia.
        -- cbn [glevel t']. lia.
        -- intros s' Hs'. cbn [glevel t'] in Hs'. change (gdir t' s') with (d' s').
           rewrite M. destruct (Hd' s' Hs') as [[E' M']|[[E' M']|(E' & N' & M')]]; rewrite E', ?M'.
           ++ split; intros; lia.
           ++ tauto.
           ++ split; [contradiction|]. intros Q. exfalso. apply M'. apply Up. now left.
        -- intros k v Hk. apply filter_In in Hk. destruct Hk as [Hk Bt]. unfold bset in Bt. cbn [fst] in Bt.
           rewrite M. destruct (Bsplit (scramble k) (Se k v Hk)) as [[Q _]|[_ Q]]; [exact Q|]. rewrite Q in Bt. discriminate.
        -- rewrite Eb1 in Len. cbn [ents] in Len. lia.
        -- apply NoDup_map_filter. exact Sn.
        -- intros F. left. apply (Full b b1); [now right|]. rewrite Eb1. exact F.
      * (* another slot *)
        destruct (gi_slot _ _ _ G s Hs) as [Z0|S]; [left; cbn [gdir t']; congruence|right].
        pose proof (so_ptr _ _ _ S) as Ps. fold n in Ps.
        assert (Hh : gheap t' (gdir t s) = gheap t (gdir t s)) by (apply Ho; lia).
        constructor; change (gdir t' s) with (d' s); rewrite E, ?Hh.
        -- cbn [nextb t']. lia.
        -- apply (so_lev _ _ _ S).
        -- intros s' Hs'. cbn [glevel t'] in Hs'. change (gdir t' s') with (d' s'). rewrite <- (so_dir _ _ _ S s' Hs').
           destruct (Hd' s' Hs') as [[E' M']|[[E' M']|(E' & N' & M')]]; rewrite E'.
           ++ assert (gdir t s' = b) by (apply Sd; [exact Hs'|apply Up; now right]). split; intros; lia.
           ++ assert (gdir t s' = b) by (apply Sd; [exact Hs'|apply Up; now left]). split; intros; lia.
           ++ tauto.
        -- apply (so_ent _ _ _ S).
        -- apply (so_len _ _ _ S).
        -- apply (so_nd _ _ _ S).
        -- intros F. destruct (so_full _ _ _ S F) as [Q|Q]; [contradiction|now right].
    + intros k v. rewrite (gi_map _ _ _ G). change (glevel t') with (glevel t). cbn [gdir t'].
      split; intros (s & Hs & Hnz & Hi).
      * destruct (Z.eq_dec (gdir t s) b) as [Q|Q].
        -- rewrite Q in Hi. destruct (Bsplit (scramble k) (Se k v Hi)) as [[_ B]|[_ B]].
           ++ exists low. split; [exact Slow|]. change (gdir t' low) with (d' low). rewrite Dlow. split; [exact Hb|]. rewrite Hb1, Eb1. cbn [ents].
              apply filter_In. split; [exact Hi|]. unfold bset. cbn [fst]. now rewrite B.
           ++ exists (2 ^ l + low). split; [exact Shigh|]. rewrite Dhigh. split; [exact Nn|]. rewrite Hn1, En1. cbn [ents].
              apply in_rev. rewrite rev_involutive. apply filter_In. split; [exact Hi|]. exact B.
        -- exists s. split; [exact Hs|]. assert (Ns : s mod 2 ^ l <> low) by (intros X; apply Q; now apply Sd).
           destruct (Hd' s Hs) as [[E' M']|[[E' M']|(E' & N' & M')]].
           ++ exfalso. apply Ns. apply Up. now right.
           ++ exfalso. apply Ns. apply Up. now left.
           ++ rewrite E'. split; [exact Hnz|]. rewrite Ho; auto. specialize (Old s Hs). lia.
      * destruct (Hd' s Hs) as [[E' M']|[[E' M']|(E' & N' & M')]]; rewrite E' in Hi.
        -- exists s0. split; [exact Hs0|]. rewrite Eb. split; [exact Hb|]. rewrite Hn1, En1 in Hi. cbn [ents] in Hi.
           apply in_rev in Hi. apply filter_In in Hi. tauto.
        -- exists s0. split; [exact Hs0|]. rewrite Eb. split; [exact Hb|]. rewrite Hb1, Eb1 in Hi. cbn [ents] in Hi.
           apply filter_In in Hi. tauto.
        -- exists s. split; [exact Hs|]. rewrite E' in Hnz. split; [exact Hnz|]. rewrite Ho in Hi; auto. specialize (Old s Hs). lia.
  - unfold c. destruct (BUCKETCAP <? _)%nat; eauto.
  - unfold c. destruct (BUCKETCAP <? _)%nat; auto.
  - unfold c. destruct (BUCKETCAP <? _)%nat; [rewrite Hn1, En1|rewrite Hb1, Eb1]; reflexivity.
Qed.

Lemma split_spec t m b s0 :
  GI t m b -> 0 <= s0 < 2 ^ glevel t -> gdir t s0 = b -> b <> 0 -> ents (gheap t b) <> [] ->
  match ginthash_splitbucket t b with
  | GOk nb t' =>
      let c := if (BUCKETCAP <? length (ents (gheap t' nb)))%nat then nb else b in
      GI t' m c /\ (exists s, 0 <= s < 2 ^ glevel t' /\ gdir t' s = c) /\ c <> 0 /\
      blevel (gheap t' c) = blevel (gheap t b) + 1
  | GFail t' => t' = t /\ blevel (gheap t b) = 22
  | GUb => False
  end.
Proof.
  intros G Hs0 Eb Hb Ne. unfold ginthash_splitbucket.
  assert (S0 : slot_ok t b s0) by (apply (gi_slot' _ _ _ s0 G Hs0); congruence).
  pose proof (so_lev _ _ _ S0) as Bl. rewrite Eb in Bl. pose proof (gi_lev _ _ _ G) as Lv.
  assert (X : match (if blevel (gheap t b) =? glevel t then grow_ginthash t else Some t) with
    | None => blevel (gheap t b) = 22
    | Some t1 => exists s1, GI t1 m b /\ 0 <= s1 < 2 ^ glevel t1 /\ gdir t1 s1 = b /\ gheap t1 = gheap t /\ nextb t1 = nextb t /\ blevel (gheap t b) < glevel t1 end).
  { destruct (Z.eqb_spec (blevel (gheap t b)) (glevel t)) as [E|E].
    - destruct (Z.eq_dec (glevel t) 22) as [E22|N22].
      + rewrite grow_max by exact E22. lia.
      + destruct (grow_GI t m b G ltac:(lia)) as (t' & -> & G' & L' & H' & N' & D').
        exists s0. assert (Hs0' : 0 <= s0 < 2 ^ glevel t').
        { rewrite L'. pose proof (pow_mono (glevel t) (glevel t + 1)). lia. }
        split; [exact G'|]. split; [exact Hs0'|]. split; [rewrite (D' s0 Hs0'), Z.mod_small by lia; exact Eb|].
        split; [exact H'|]. split; [exact N'|]. lia.
    - exists s0. split; [exact G|]. split; [exact Hs0|]. split; [exact Eb|]. split; [reflexivity|]. split; [reflexivity|]. lia. }
  destruct (if blevel (gheap t b) =? glevel t then grow_ginthash t else Some t) as [t1|]; [|auto].
  destruct X as (s1 & G1 & Hs1 & E1 & H1 & N1 & Bl1). rewrite <- H1 in *. clear Hs0 Eb S0 Lv.
  destruct (ents (gheap t1 b)) as [|[k0 v0] rest] eqn:Ee; [contradiction|].
  assert (S1 : slot_ok t1 b s1) by (apply (gi_slot' _ _ _ s1 G1 Hs1); congruence).
  set (l := blevel (gheap t1 b)) in *.
  assert (Pl : 0 < 2 ^ l) by (apply Z.pow_pos_nonneg; lia).
  assert (Low : Z.land (scramble k0) (2 ^ l - 1) = s1 mod 2 ^ l).
  { rewrite land_low by lia. pose proof (so_ent _ _ _ S1 k0 v0) as Q. rewrite E1 in Q. fold l in Q. apply Q. rewrite Ee. now left. }
  rewrite Low. set (low := s1 mod 2 ^ l).
  assert (Lr : 0 <= low < 2 ^ l) by (apply Z.mod_pos_bound; lia).
  pose proof (so_len _ _ _ S1) as Ln. rewrite E1 in Ln.
  set (b1 := GB (l + 1) (filter (fun e => negb (bset l e)) (ents (gheap t1 b)))).
  set (n1 := GB (l + 1) (rev (filter (bset l) (ents (gheap t1 b))))).
  assert (Rl : relocate (length (ents (gheap t1 b))) (2 ^ l) (GB (l + 1) (ents (gheap t1 b))) (GB (l + 1) []) = (b1, n1)).
  { pose proof (relocate_eq l (l + 1) (ents (gheap t1 b)) [] (l + 1) [] ltac:(lia)) as Q.
    rewrite !app_nil_r in Q. cbn [length app Nat.add] in Q. rewrite Q by exact Ln. reflexivity. }
  rewrite <- Ee. rewrite Rl.
  assert (Fin : forall d', (forall s, 0 <= s < 2 ^ glevel t1 -> d' s = if s mod 2 ^ (l + 1) =? 2 ^ l + low then nextb t1 else gdir t1 s) ->
    let t' := GT (glevel t1) d' (hupd (hupd (gheap t1) b b1) (nextb t1) n1) (nextb t1 + 1) in
    let c := if (BUCKETCAP <? length (ents (gheap t' (nextb t1))))%nat then nextb t1 else b in
    GI t' m c /\ (exists s, 0 <= s < 2 ^ glevel t' /\ gdir t' s = c) /\ c <> 0 /\ blevel (gheap t' c) = l + 1).
  { intros d' D. pose proof (split_GI t1 m b s1 l low d' b1 n1 G1 Hs1 E1 Hb eq_refl Bl1 eq_refl eq_refl eq_refl D) as Q.
    cbv zeta in Q |- *. cbn [gheap]. rewrite hupd_same. exact Q. }
  assert (P1 : 2 ^ (l + 1) = 2 * 2 ^ l) by (rewrite Z.pow_add_r by lia; change (2 ^ 1) with 2; lia).
  assert (PL : 2 ^ (l + 1) <= 2 ^ glevel t1) by (apply Z.pow_le_mono_r; lia).
  change (blevel b1) with (l + 1).
  destruct (Z.eqb_spec (l + 1) (glevel t1)) as [EL|NL].
  - rewrite lor2 by (auto; lia). destruct (Z.leb_spec 0 (2 ^ l + low)); [|lia].
    destruct (Z.ltb_spec (2 ^ l + low) (2 ^ glevel t1)); [|lia]. cbn [andb].
    apply Fin. intros s Hs. unfold upd. rewrite <- EL in Hs. rewrite (Z.mod_small s) by exact Hs. reflexivity.
  - assert (PL2 : 0 < 2 ^ (glevel t1 - (l + 1))) by (apply Z.pow_pos_nonneg; lia).
    assert (Nx : b <> nextb t1) by (pose proof (so_ptr _ _ _ S1); lia).
    destruct (dirloop_spec l low (glevel t1) b (nextb t1) ltac:(lia) ltac:(lia) Lr Nx
                (Z.to_nat (2 ^ (glevel t1 - (l + 1)))) 0 (gdir t1)) as (d' & -> & D').
    + lia.
    + lia.
    + intros s Hs M _. rewrite <- E1. apply (so_dir _ _ _ S1 s Hs). rewrite E1. fold l. fold low.
      rewrite <- (mod_mod_pow s l (l + 1)) by lia. rewrite M. rewrite <- (Z.mul_1_l (2 ^ l)) at 1.
      rewrite Z.add_comm, Z.mod_add by lia. apply Z.mod_small; lia.
    + apply Fin. intros s Hs. rewrite (D' s Hs).
      assert (0 <= s / 2 ^ (l + 1)) by (apply Z.div_pos; lia).
      destruct (Z.leb_spec 0 (s / 2 ^ (l + 1))); [|lia]. now rewrite andb_true_r.
Qed.

Lemma splitloop_eq fuel t b : splitloop fuel t b =
  if (BUCKETCAP <? length (ents (gheap t b)))%nat then
    match fuel with
    | O => GUb
    | S f =>
        match ginthash_splitbucket t b with
        | GOk nb t' => splitloop f t' (if (BUCKETCAP <? length (ents (gheap t' nb)))%nat then nb else b)
        | GFail t' => GFail t'
        | GUb => GUb
        end
    end
  else GOk tt t.
Proof. destruct fuel; reflexivity. Qed.

Lemma GI_unmark t m b : GI t m b -> (length (ents (gheap t b)) <= 7)%nat \/ blevel (gheap t b) = 22 -> GI t m 0.
Proof.
  intros G H. constructor; [apply (gi_lev _ _ _ G)|apply (gi_next _ _ _ G)| |apply (gi_map _ _ _ G)].
  intros s Hs. destruct (gi_slot _ _ _ G s Hs) as [Q|S]; [now left|right].
  constructor; try apply S. intros F. destruct (so_full _ _ _ S F) as [E|E]; [|now right].
  rewrite E in *. destruct H as [H|H]; [lia|now right].
Qed.

Lemma splitloop_spec fuel : forall t m b s0,
  GI t m b -> 0 <= s0 < 2 ^ glevel t -> gdir t s0 = b -> b <> 0 ->
  23 - blevel (gheap t b) <= Z.of_nat fuel ->
  match splitloop fuel t b with
  | GOk _ t' => GI t' m 0
  | GFail t' => GI t' m 0 /\ exists s, 0 <= s < 2 ^ glevel t' /\ gdir t' s <> 0 /\
                   (8 <= length (ents (gheap t' (gdir t' s))))%nat /\ blevel (gheap t' (gdir t' s)) = 22
  | GUb => False
  end.
Proof.
  induction fuel as [|f IH]; intros t m b s0 G Hs0 Eb Hb Hf; rewrite splitloop_eq.
  - exfalso. assert (S0 : slot_ok t b s0) by (apply (gi_slot' _ _ _ s0 G Hs0); congruence).
    pose proof (so_lev _ _ _ S0) as Bl. rewrite Eb in Bl. pose proof (gi_lev _ _ _ G). lia.
  - destruct (Nat.ltb_spec BUCKETCAP (length (ents (gheap t b)))) as [L|L].
    + assert (Ne : ents (gheap t b) <> []) by (intros Q; rewrite Q in L; cbn [length] in L; lia).
      pose proof (split_spec t m b s0 G Hs0 Eb Hb Ne) as Sp.
      destruct (ginthash_splitbucket t b) as [nb t'|t'|]; [| |contradiction].
      * cbv zeta in Sp. destruct Sp as (G' & (s & Hs & Es) & Hc & Lev).
        apply (IH t' m _ s G' Hs Es Hc). lia.
      * destruct Sp as [-> E22]. split; [apply (GI_unmark t m b G); now right|].
        exists s0. rewrite Eb. unfold BUCKETCAP in L. repeat split; auto; lia.
    + apply (GI_unmark t m b G). unfold BUCKETCAP in L. left. lia.
Qed.

(** ** Adding a key *)
Lemma addkey_spec t m k v : GI t m 0 -> ~ In k (map fst m) ->
  match wg_ginthash_addkey t k v with
  | GOk _ t' => GI t' ((k, v) :: m) 0
  | GFail t' => (exists m', GI t' m' 0 /\ incl m m' /\ incl m' ((k, v) :: m)) /\
                exists s, 0 <= s < 2 ^ glevel t' /\ gdir t' s <> 0 /\
                   (8 <= length (ents (gheap t' (gdir t' s))))%nat /\ blevel (gheap t' (gdir t' s)) = 22
  | GUb => False
  end.
Proof.
  intros G Fresh. unfold wg_ginthash_addkey. pose proof (gi_lev _ _ _ G) as Lv. pose proof (gi_next _ _ _ G) as Nx.
  rewrite land_low by lia. pose proof (hslot t k ltac:(lia)) as Hh. set (h := scramble k mod 2 ^ glevel t) in *.
  assert (Old : forall s, 0 <= s < 2 ^ glevel t -> gdir t s < nextb t).
  { intros s Hs. destruct (gi_slot _ _ _ G s Hs) as [Q|Q]; [lia|]. apply (so_ptr _ _ _ Q). }
  destruct (Z.eqb_spec (gdir t h) 0) as [Z0|Nz].
  - (* a new bucket *)
    set (n := nextb t) in *. unfold add_to_bucket. cbn [ents length BUCKETCAP Nat.ltb Nat.leb app blevel].
    constructor; cbn [glevel nextb gdir gheap]; [lia|lia| |].
    + intros s Hs. destruct (Z.eq_dec s h) as [->|Ns].
      * right. constructor; cbn [glevel nextb gdir gheap]; rewrite ?upd_same, ?hupd_same; cbn [blevel ents].
        -- lia.
        -- lia.
        -- intros s' Hs'. rewrite !Z.mod_small by lia. unfold upd. destruct (Z.eqb_spec s' h); [tauto|].
           specialize (Old s' Hs'). fold n in Old. split; intros; lia.
        -- intros k' v' [E|[]]. injection E as <- <-. rewrite (Z.mod_small h) by lia. reflexivity.
        -- cbn [length]. lia.
        -- cbn [map fst]. constructor; [intros []|constructor].
        -- cbn [length]. lia.
      * cbn [gdir]. rewrite upd_other by auto. destruct (gi_slot _ _ _ G s Hs) as [Q|S]; [now left|right].
        pose proof (so_ptr _ _ _ S) as Ps. fold n in Ps.
        constructor; cbn [glevel nextb gdir gheap]; rewrite upd_other by auto; rewrite ?(hupd_other _ n _ (gdir t s)) by lia.
        -- lia.
        -- apply (so_lev _ _ _ S).
        -- intros s' Hs'. rewrite <- (so_dir _ _ _ S s' Hs'). unfold upd. destruct (Z.eqb_spec s' h) as [->|]; [|tauto].
           rewrite Z0. split; intros; lia.
        -- apply (so_ent _ _ _ S).
        -- apply (so_len _ _ _ S).
        -- apply (so_nd _ _ _ S).
        -- apply (so_full _ _ _ S).
    + intros k' v'. split.
      * intros [E|H].
        -- injection E as <- <-. exists h. rewrite upd_same, hupd_same. cbn [ents]. split; [exact Hh|]. split; [lia|now left].
        -- apply (gi_map _ _ _ G) in H. destruct H as (s & Hs & Hnz & Hi). exists s. split; [exact Hs|].
           rewrite upd_other by congruence. split; [exact Hnz|]. rewrite hupd_other; [exact Hi|]. specialize (Old s Hs). fold n in Old. lia.
      * intros (s & Hs & Hnz & Hi). destruct (Z.eq_dec s h) as [->|Ns].
        -- rewrite upd_same, hupd_same in Hi. cbn [ents] in Hi. destruct Hi as [E|[]]. left. exact E.
        -- rewrite upd_other in Hnz, Hi by auto. right. apply (gi_map _ _ _ G). exists s. split; [exact Hs|]. split; [exact Hnz|].
           rewrite hupd_other in Hi; [exact Hi|]. specialize (Old s Hs). fold n in Old. lia.
  - set (b := gdir t h) in *. assert (S : slot_ok t 0 h) by (apply (gi_slot' _ _ _ h G Hh); exact Nz).
    set (t1 := GT (glevel t) (gdir t) (hupd (gheap t) b (add_to_bucket (gheap t b) k v)) (nextb t)).
    assert (Fuel : 23 - blevel (gheap t1 b) <= Z.of_nat (Z.to_nat MAXLEVEL)).
    { cbn [gheap t1]. rewrite hupd_same. unfold add_to_bucket. pose proof (so_lev _ _ _ S) as Bl. fold b in Bl. unfold MAXLEVEL.
      destruct (BUCKETCAP <? _)%nat; cbn [blevel]; lia. }
    pose proof (so_ptr _ _ _ S) as Pb. fold b in Pb.
    (* the table with the entry appended, described by a map m1 *)
    assert (M1 : exists m1, GI t1 m1 b /\ incl m m1 /\ incl m1 ((k, v) :: m) /\
        ((length (ents (gheap t b)) <= 7)%nat -> incl ((k, v) :: m) m1)).
    { exists (if (length (ents (gheap t b)) <=? 7)%nat then (k, v) :: m else m).
      assert (Bk : gheap t1 b = if (length (ents (gheap t b)) <=? 7)%nat then GB (blevel (gheap t b)) (ents (gheap t b) ++ [(k, v)]) else gheap t b).
      { cbn [gheap t1]. rewrite hupd_same. unfold add_to_bucket, BUCKETCAP. destruct (Nat.ltb_spec 7 (length (ents (gheap t b)))); destruct (Nat.leb_spec (length (ents (gheap t b))) 7); try lia; reflexivity. }
      assert (Oth : forall x, x <> b -> gheap t1 x = gheap t x) by (intros x X; cbn [gheap t1]; now apply hupd_other).
      assert (Blev : blevel (gheap t1 b) = blevel (gheap t b)) by (rewrite Bk; destruct (_ <=? 7)%nat; reflexivity).
      split; [|split; [|split]].
      - constructor; [exact Lv|exact Nx| |].
        + intros s Hs. change (glevel t1) with (glevel t) in Hs. change (gdir t1) with (gdir t).
          destruct (gi_slot _ _ _ G s Hs) as [Q|Q]; [now left|right].
          destruct (Z.eq_dec (gdir t s) b) as [Eb|Nb].
          * constructor; change (gdir t1) with (gdir t); rewrite Eb, ?Blev.
            -- exact Pb.
            -- apply (so_lev _ _ _ S).
            -- rewrite <- Eb. apply (so_dir _ _ _ Q).
            -- intros k' v' Hk'. rewrite Bk in Hk'.
               destruct (Nat.leb_spec (length (ents (gheap t b))) 7) as [Le|Le].
               ++ cbn [ents] in Hk'. apply in_app_iff in Hk'. destruct Hk' as [Hk'|[E|[]]].
                  ** rewrite <- Eb in Hk' |- *. apply (so_ent _ _ _ Q k' v' Hk').
                  ** injection E as <- <-. pose proof (so_lev _ _ _ S) as Bl. fold b in Bl.
                     rewrite <- (mod_mod_pow (scramble k) _ (glevel t)) by lia. fold h.
                     assert (X : gdir t h = gdir t s) by (fold b; auto).
                     rewrite (so_dir _ _ _ Q h Hh) in X. rewrite Eb in X. exact X.
               ++ rewrite <- Eb in Hk' |- *. apply (so_ent _ _ _ Q k' v' Hk').
            -- rewrite Bk. destruct (Nat.leb_spec (length (ents (gheap t b))) 7) as [Le|Le]; cbn [ents].
               ++ rewrite app_length. cbn [length]. lia.
               ++ apply (so_len _ _ _ S).
            -- rewrite Bk. destruct (Nat.leb_spec (length (ents (gheap t b))) 7) as [Le|Le]; cbn [ents].
               ++ rewrite map_app. cbn [map fst]. apply NoDup_snoc; [apply (so_nd _ _ _ S)|].
                  intros Hk. apply in_map_iff in Hk. destruct Hk as ([k1 v1] & Ek & Hk). cbn [fst] in Ek. subst k1.
                  apply Fresh. apply in_map_iff. exists (k, v1). split; [reflexivity|]. apply (gi_map _ _ _ G). exists h. auto.
               ++ apply (so_nd _ _ _ S).
            -- intros _. now left.
          * constructor; change (gdir t1) with (gdir t); rewrite ?(Oth _ Nb).
            -- apply (so_ptr _ _ _ Q).
            -- apply (so_lev _ _ _ Q).
            -- apply (so_dir _ _ _ Q).
            -- apply (so_ent _ _ _ Q).
            -- apply (so_len _ _ _ Q).
            -- apply (so_nd _ _ _ Q).
            -- intros F. destruct (so_full _ _ _ Q F) as [X|X]; [|now right]. pose proof (so_ptr _ _ _ Q). lia.
        + intros k' v'. change (glevel t1) with (glevel t). change (gdir t1) with (gdir t).
          assert (Base : In (k', v') m <-> exists s, 0 <= s < 2 ^ glevel t /\ gdir t s <> 0 /\ In (k', v') (ents (gheap t (gdir t s)))) by apply (gi_map _ _ _ G).
          destruct (Nat.leb_spec (length (ents (gheap t b))) 7) as [Le|Le].
          * cbn [In]. rewrite Base. split.
            -- intros [E|(s & Hs & Hnz & Hi)].
               ++ injection E as <- <-. exists h. split; [exact Hh|]. fold b. split; [exact Nz|]. rewrite Bk. cbn [ents]. apply in_or_app. right. now left.
               ++ exists s. split; [exact Hs|]. split; [exact Hnz|]. destruct (Z.eq_dec (gdir t s) b) as [Eb|Nb].
                  ** rewrite Eb in Hi |- *. rewrite Bk. cbn [ents]. apply in_or_app. now left.
                  ** now rewrite (Oth _ Nb).
            -- intros (s & Hs & Hnz & Hi). destruct (Z.eq_dec (gdir t s) b) as [Eb|Nb].
               ++ rewrite Eb, Bk in Hi. cbn [ents] in Hi. apply in_app_iff in Hi. destruct Hi as [Hi|[E|[]]]; [|now left].
                  right. exists s. rewrite Eb. auto.
               ++ rewrite (Oth _ Nb) in Hi. right. exists s. auto.
          * rewrite Base. split; intros (s & Hs & Hnz & Hi); exists s; (split; [exact Hs|]); (split; [exact Hnz|]);
              (destruct (Z.eq_dec (gdir t s) b) as [Eb|Nb]; [rewrite Eb in Hi |- *; rewrite ?Bk; rewrite ?Bk in Hi; exact Hi|rewrite ?(Oth _ Nb); rewrite ?(Oth _ Nb) in Hi; exact Hi]).
      - destruct (_ <=? 7)%nat; [apply incl_tl|]; apply incl_refl.
      - destruct (_ <=? 7)%nat; [|apply incl_tl]; apply incl_refl.
      - intros Le. destruct (Nat.leb_spec (length (ents (gheap t b))) 7); [apply incl_refl|lia]. }
    destruct M1 as (m1 & G1 & I1 & I2 & I3).
    pose proof (splitloop_spec (Z.to_nat MAXLEVEL) t1 m1 b h G1 Hh eq_refl Nz Fuel) as Sp.
    destruct (Nat.leb_spec (length (ents (gheap t b))) 7) as [Le|Le].
    + destruct (splitloop (Z.to_nat MAXLEVEL) t1 b) as [u t'|t'|]; [| |contradiction].
      * constructor; [apply (gi_lev _ _ _ Sp)|apply (gi_next _ _ _ Sp)|apply (gi_slot _ _ _ Sp)|].
        intros k' v'. rewrite <- (gi_map _ _ _ Sp). split; [apply (I3 Le)|apply I2].
      * destruct Sp as [Sp X]. split; [|exact X]. exists m1. auto.
    + (* full bucket: it is at the last level, the split is refused *)
      assert (B22 : blevel (gheap t b) = 22).
      { pose proof (so_len _ _ _ S) as Q. fold b in Q. destruct (so_full _ _ _ S) as [F|F]; [fold b; lia|fold b in F; lia|exact F]. }
      assert (Q : exists t', splitloop (Z.to_nat MAXLEVEL) t1 b = GFail t').
      { rewrite splitloop_eq. change (Z.to_nat MAXLEVEL) with (Datatypes.S 22).
        assert (Len : (BUCKETCAP <? length (ents (gheap t1 b)))%nat = true).
        { cbn [gheap t1]. rewrite hupd_same. unfold add_to_bucket. assert (Q : (BUCKETCAP <? length (ents (gheap t b)))%nat = true) by (apply Nat.ltb_lt; unfold BUCKETCAP; lia).
          rewrite Q. exact Q. }
        rewrite Len. exists t1. unfold ginthash_splitbucket.
        assert (Bl : blevel (gheap t1 b) = 22).
        { cbn [gheap t1]. rewrite hupd_same. unfold add_to_bucket. destruct (BUCKETCAP <? length (ents (gheap t b)))%nat; cbn [blevel]; exact B22. }
        rewrite Bl. change (glevel t1) with (glevel t). assert (L22 : glevel t = 22).
        { pose proof (so_lev _ _ _ S) as Q. fold b in Q. lia. }
        rewrite L22. cbn [Z.eqb Pos.eqb]. rewrite (grow_max t1 L22). reflexivity. }
      destruct Q as [t' Q]. rewrite Q in *. destruct Sp as [Sp X]. split; [|exact X]. exists m1. auto.
Qed.

(** ** Initial table *)
Lemma init_GI : exists t0, wg_ginthash_init = Some t0 /\ GI t0 [] 0.
Proof.
  eexists. split; [reflexivity|]. constructor; cbn [glevel nextb gdir].
  - lia.
  - lia.
  - intros s Hs. left. reflexivity.
  - intros k v. split; [intros []|]. intros (s & _ & N & _). exfalso. apply N. reflexivity.
Qed.
