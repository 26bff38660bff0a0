(** C62: the areas of a segment do not get in each other's way. *)
From Coq Require Import ZArith List Bool Lia Permutation.
From Verif Require Import Base FixAllocModel FixAllocSpec VarAllocModel VarAllocSpec SegmentModel SegmentSpec SegmentFrame SegmentProofs.
From Verif Require FixAllocProofs VarAllocProps VarAllocReach VarAllocProofs.
Import ListNotations.
Open Scope Z_scope.

(** Every area has a history of its own in which the other areas are only seen to
    write elsewhere and to take chunks; so what C14 to C17 say of an area holds for
    each area of a database. *)
Theorem C62_areas p s live hs k : sreach p (s, live, hs) ->
  match nth_error (g_areas s) k with
  | Some (AFix len fl subs) => exists h, params_ok h (g_size s) len /\ HEADER p <= h /\ freach h (g_size s) len (FS (g_mem s) (g_free s) (g_size s) len fl subs, map oa (live_of k live))
  | Some (AVar h b subs) => vreach (VS (g_mem s) b h (g_free s) (g_size s) subs, live_of k live)
  | None => live_of k live = []
  end.
Proof.
  intros R. apply reach_SI in R. cbn [fst snd] in R. destruct (nth_error (g_areas s) k) as [a|] eqn:Ha.
  - pose proof (si_view _ _ _ _ R _ _ Ha) as V. destruct a; exact V.
  - destruct (live_of k live) as [|o l] eqn:E; [reflexivity|]. exfalso. assert (Ho : In (k, o) live) by (apply in_live_of; rewrite E; now left).
    destruct (si_live _ _ _ _ R k o Ho) as (a & Ha' & _). congruence.
Qed.
Print Assumptions C62_areas.

Lemma extent_in hd s live hs k o x : SI hd s live hs -> In (k, o) live -> oa o <= x < oa o + extent s k o -> exists a, nth_error (g_areas s) k = Some a /\ in_a a x.
Proof.
  intros I Ho Hx. destruct (si_live _ _ _ _ I k o Ho) as (a & Ha & _). exists a. split; [exact Ha|]. unfold extent, fixed_len in Hx. rewrite Ha in Hx. pose proof (si_view _ _ _ _ I _ _ Ha) as V.
  destruct a as [len fl subs|h b subs]; [exact (fix_live_in hd s live k len fl subs o x V Ho Hx)|exact (var_live_in hd s live k h b subs o x V Ho Hx)].
Qed.
Lemma extent_ok hd s live hs k o : SI hd s live hs -> In (k, o) live -> oa o mod 8 = 0 /\ 0 <= onr o /\ 8 * onr o <= extent s k o /\ 0 < extent s k o.
Proof.
  intros I Ho. destruct (si_live _ _ _ _ I k o Ho) as (a & Ha & Hl). unfold extent, fixed_len. rewrite Ha. pose proof (si_view _ _ _ _ I _ _ Ha) as V. destruct a as [len fl subs|h b subs].
  - specialize (Hl len fl subs eq_refl). destruct V as (h & P & _ & R). pose proof P as (P1 & P2 & P3 & P4 & P5). split; [|lia].
    destruct (FixAllocProofs.reach_inv _ _ _ _ P R) as (fr & [G _ _ Hc]). cbn [fst snd] in *.
    assert (H : FixAllocProofs.is_cell (FS (g_mem s) (g_free s) (g_size s) len fl subs) (oa o)) by (apply Hc; apply in_or_app; right; apply in_map; now apply in_live_of).
    destruct H as (u & j & Hu & Hj & E & He). destruct (FixAllocProofs.g_subs _ _ _ _ G u Hu) as (_ & U & _). cbn [fs_objlen] in E. rewrite E.
    rewrite Z.add_mod, Z.mul_mod, P5, U by lia. rewrite Z.mul_0_r. reflexivity.
  - destruct (VarAllocProps.C14_live_objects _ _ V) as [H _]. apply in_live_of in Ho. destruct (H o Ho) as (H1 & H2 & _). unfold osize. lia.
Qed.

(** Live objects of all areas and the arrays: aligned, behind the header, below the
    border, and no two of them share a byte. *)
Theorem C62_disjoint p s live hs : sreach p (s, live, hs) ->
  g_free s < g_size s /\
  (forall k o, In (k, o) live -> oa o mod 8 = 0 /\ 0 <= onr o /\ 8 * onr o <= extent s k o /\ HEADER p <= oa o /\ oa o + extent s k o <= g_free s) /\
  (forall l1 k o l2 k' o' l3, live = l1 ++ (k, o) :: l2 ++ (k', o') :: l3 -> oa o + extent s k o <= oa o' \/ oa o' + extent s k' o' <= oa o) /\
  (forall o, In o hs -> oa o mod 8 = 0 /\ 0 <= onr o /\ HEADER p <= oa o /\ oa o + 8 * onr o <= g_free s) /\
  (forall h1 o h2 o' h3, hs = h1 ++ o :: h2 ++ o' :: h3 -> oa o + 8 * onr o <= oa o' \/ oa o' + 8 * onr o' <= oa o) /\
  (forall k o o', In (k, o) live -> In o' hs -> forall x, oa o <= x < oa o + extent s k o -> ~ oa o' <= x < oa o' + 8 * onr o').
Proof.
  intros R. apply reach_SI in R. cbn [fst snd] in R. split; [apply (si_free _ _ _ _ R)|]. split; [|split; [|split; [|split]]].
  - intros k o Ho. destruct (extent_ok _ _ _ _ _ _ R Ho) as (A1 & A2 & A3 & A4). repeat split; auto.
    + destruct (extent_in _ _ _ _ _ _ (oa o) R Ho ltac:(lia)) as (a & Ha & Hin). destruct (si_low _ _ _ _ R _ _ _ Ha Hin). lia.
    + destruct (extent_in _ _ _ _ _ _ (oa o + extent s k o - 1) R Ho ltac:(lia)) as (a & Ha & Hin). destruct (si_low _ _ _ _ R _ _ _ Ha Hin). lia.
  - intros l1 k o l2 k' o' l3 ->.
    assert (Ho : In (k, o) (l1 ++ (k, o) :: l2 ++ (k', o') :: l3)) by (apply in_or_app; right; now left).
    assert (Ho' : In (k', o') (l1 ++ (k, o) :: l2 ++ (k', o') :: l3)) by (apply in_or_app; right; right; apply in_or_app; right; now left).
    destruct (extent_ok _ _ _ _ _ _ R Ho) as (A1 & A2 & A3 & A4), (extent_ok _ _ _ _ _ _ R Ho') as (B1 & B2 & B3 & B4).
    destruct (Z.le_gt_cases (oa o + extent s k o) (oa o')) as [|G1]; [now left|]. destruct (Z.le_gt_cases (oa o' + extent s k' o') (oa o)) as [|G2]; [now right|]. exfalso.
    set (x := Z.max (oa o) (oa o')). assert (X1 : oa o <= x < oa o + extent s k o) by lia. assert (X2 : oa o' <= x < oa o' + extent s k' o') by lia.
    destruct (Nat.eq_dec k k') as [->|N].
    + destruct (si_live _ _ _ _ R _ _ Ho) as (a & Ha & _). pose proof (si_view _ _ _ _ R _ _ Ha) as V. unfold extent, fixed_len in X1, X2. rewrite Ha in X1, X2.
      destruct a as [len fl subs|h b subs]; cbn [view] in V.
      * destruct V as (h & P & _ & V). rewrite live_of_app, live_of_same, live_of_app, live_of_same, map_app in V. cbn [map] in V. rewrite map_app in V. cbn [map] in V.
        destruct (FixAllocProofs.fix_nodup_live _ _ _ _ _ P V) as [Nd D]. apply (D (oa o) (oa o')).
        -- apply in_or_app. right. now left.
        -- apply in_or_app. right. right. apply in_or_app. right. now left.
        -- apply NoDup_remove_2 in Nd. intros E. apply Nd. rewrite E. apply in_or_app. right. apply in_or_app. right. now left.
        -- exists x. auto.
      * rewrite live_of_app, live_of_same, live_of_app, live_of_same in V. destruct (VarAllocProps.C14_live_objects _ _ V) as [_ D]. specialize (D _ _ _ _ _ eq_refl). lia.
    + destruct (extent_in _ _ _ _ _ _ x R Ho X1) as (a & Ha & Hin). destruct (extent_in _ _ _ _ _ _ x R Ho' X2) as (b & Hb & Hin'). exact (si_dis _ _ _ _ R k k' a b x N Ha Hb Hin Hin').
  - intros o Ho. destruct (si_arr _ _ _ _ R o Ho) as (A1 & A2 & A3 & A4). auto.
  - intros h1 o h2 o' h3 ->. pose proof (si_arrd _ _ _ _ R) as D. apply VarAllocCore.fop_app in D as (_ & D & _). inversion D as [|? ? D1 _]; subst. rewrite Forall_forall in D1. apply D1. apply in_or_app. right. now left.
  - intros k o o' Ho Ho' x Hx Hx'. destruct (extent_in _ _ _ _ _ _ x R Ho Hx) as (a & Ha & Hin). exact (si_arra _ _ _ _ R o' k a x Ho' Ha Hx' Hin).
Qed.
Print Assumptions C62_disjoint.

(** Every live object and every array holds what its client last wrote there (or
    found there when it got the object), whatever the other areas did. *)
Theorem C62_contents p s live hs : sreach p (s, live, hs) ->
  (forall k o x, In (k, o) live -> first_byte s k o <= x < oa o + 8 * onr o -> g_mem s x = od o x) /\
  (forall o x, In o hs -> oa o <= x < oa o + 8 * onr o -> g_mem s x = od o x).
Proof.
  intros R. apply reach_SI in R. cbn [fst snd] in R. split; [|exact (si_arrc _ _ _ _ R)].
  intros k o x Ho Hx. destruct (si_live _ _ _ _ R k o Ho) as (a & Ha & Hl). unfold first_byte, fixed_len in Hx. rewrite Ha in Hx. destruct a as [len fl subs|h b subs].
  - specialize (Hl len fl subs eq_refl). apply (si_cont _ _ _ _ R k o len fl subs x Ho Ha). lia.
  - pose proof (si_view _ _ _ _ R _ _ Ha) as V. destruct (VarAllocProps.C14_live_objects _ _ V) as [H _]. apply in_live_of in Ho. destruct (H o Ho) as (_ & _ & _ & H4 & _). exact (H4 x Hx).
Qed.
Print Assumptions C62_contents.

(** ** Defined calls *)
Lemma put_length {A} (a : A) : forall l k, length (put k a l) = length l.
Proof. induction l as [|x l IH]; intros [|k]; cbn; auto. Qed.
Lemma reach_ten p c : sreach p c -> length (g_areas (fst (fst c))) = 10%nat.
Proof.
  induction 1 as [m size slen s H1 H2 E|c c' R IH St]; [cbn; apply (init_SI p m size slen s H1 H2 E)|]. destruct St; cbn [fst snd] in *; auto.
  - unfold seg_alloc in H1. destruct (nth_error (g_areas s) k) as [[]|]; [| |discriminate].
    + destruct (wg_alloc_fixlen_object _). injection H1 as <- _. cbn. now rewrite put_length.
    + destruct (wg_alloc_gints _ _); [|discriminate]. injection H1 as <- _. cbn. now rewrite put_length.
  - unfold seg_free in H. destruct (nth_error (g_areas s) k) as [[]|]; [| |discriminate].
    + injection H as <-. cbn. now rewrite put_length.
    + destruct (wg_free_object _ _); [|discriminate]. injection H as <-. cbn. now rewrite put_length.
  - unfold wg_create_hash, init_hash_subarea in H0. destruct (alloc_db_segmentchunk _ _ _) as (c & f). destruct (c =? 0); [discriminate|]. injection H0 as <-. exact IH.
Qed.
(** Requests to the ten areas and releases of live objects have a defined outcome. *)
Theorem C62_calls_defined p s live hs : sreach p (s, live, hs) ->
  (forall k nr, (k < 10)%nat -> - 2 ^ 60 <= nr -> nr * 8 < 2 ^ 40 -> exists s' r, seg_alloc s k nr = Some (s', r)) /\
  (forall k o, In (k, o) live -> exists s', seg_free s k (oa o) = Some s').
Proof.
  intros R. pose proof (reach_ten _ _ R) as T. cbn [fst] in T. apply reach_SI in R. cbn [fst snd] in R. split.
  - intros k nr Hk N1 N2. unfold seg_alloc. destruct (nth_error (g_areas s) k) as [a|] eqn:Ha; [|apply nth_error_None in Ha; lia]. pose proof (si_view _ _ _ _ R _ _ Ha) as V. destruct a as [len fl subs|h b subs].
    + destruct (wg_alloc_fixlen_object _) as (t & r). eauto.
    + destruct (VarAllocProps.C14_calls_defined _ _ V) as [H _]. destruct (H nr N1 N2) as (t & r & E & _). rewrite E. eauto.
  - intros k o Ho. destruct (si_live _ _ _ _ R k o Ho) as (a & Ha & _). unfold seg_free. rewrite Ha. pose proof (si_view _ _ _ _ R _ _ Ha) as V. destruct a as [len fl subs|h b subs]; [eauto|].
    destruct (VarAllocProps.C14_calls_defined _ _ V) as [_ H]. apply in_live_of in Ho. destruct (H o Ho) as (t & E). rewrite E. eauto.
Qed.
Print Assumptions C62_calls_defined.

(** ** Creation *)
Lemma add_var_iff hd s h : SI hd s [] [] -> (exists s', add_var h s = Some s') <-> g_free s + 8192 < g_size s.
Proof.
  intros I. pose proof (si_free _ _ _ _ I) as (F1 & F2 & F3). split.
  - intros (s' & E). destruct (add_var_step _ _ _ _ I E) as (I' & G1 & G2 & _). pose proof (si_free _ _ _ _ I'). lia.
  - intros H. unfold add_var, init_var_area, init_vsubarea. cbn [vfree vsize vm vb vhdr vsubs]. change (INITIAL_SUBAREA_SIZE <? MINIMAL_SUBAREA_SIZE) with false. cbv iota.
    replace INITIAL_SUBAREA_SIZE with ((g_free s + 8192) - g_free s) by (unfold INITIAL_SUBAREA_SIZE; lia). rewrite chunk_exact by lia.
    destruct (Z.eqb_spec (g_free s) 0); [lia|]. unfold init_subarea_freespace. cbn [vsubs]. eauto.
Qed.
Lemma add_fix_iff hd s len : SI hd s [] [] -> 0 < len <= 4096 -> len mod 8 = 0 -> (exists s', add_fix len s = Some s') <-> g_free s + 8192 < g_size s.
Proof.
  intros I L1 L2. pose proof (si_free _ _ _ _ I) as (F1 & F2 & F3). split.
  - intros (s' & E). destruct (add_fix_step _ _ _ _ I L1 L2 E) as (I' & G1 & G2 & _). pose proof (si_free _ _ _ _ I'). lia.
  - intros H. unfold add_fix, init_fix_area, init_db_subarea. cbn [fs_free fs_size]. change (INITIAL_SUBAREA_SIZE <? MINIMAL_SUBAREA_SIZE) with false. cbv iota.
    replace INITIAL_SUBAREA_SIZE with ((g_free s + 8192) - g_free s) by (unfold INITIAL_SUBAREA_SIZE; lia). rewrite chunk_exact by lia.
    destruct (Z.eqb_spec (g_free s) 0); [lia|]. eauto.
Qed.
Lemma hash_iff hd s live hs n : SI hd s live hs -> 0 <= n < 2 ^ 40 -> (exists s', init_hash_subarea s n = Some s') <-> g_free s + (n + 1) * 8 + 16 < g_size s.
Proof.
  intros I L. pose proof (si_free _ _ _ _ I) as (F1 & F2 & F3). split.
  - intros (s' & E). destruct (step_hash _ _ _ _ _ _ I L E) as (t & _ & _ & _ & T4 & T5 & _). lia.
  - intros H. unfold init_hash_subarea. change (2 * SUBAREA_ALIGNMENT_BYTES) with 16. replace ((n + 1) * 8 + 16) with (g_free s + (n + 3) * 8 - g_free s) by lia.
    rewrite chunk_exact by lia. destruct (Z.eqb_spec (g_free s) 0); [lia|]. eauto.
Qed.
Lemma obind_ex {A B} (o : option A) (f : A -> option B) : (exists b, obind o f = Some b) <-> exists a, o = Some a /\ exists b, f a = Some b.
Proof. destruct o; cbn; split; intros (b & H); try discriminate; try (destruct H; discriminate); eauto. destruct H as (H & b' & H'). injection H as <-. eauto. Qed.
(** A segment is created exactly when the header, the ten first subareas, the array
    of the string hash and the chunk of the lock queue fit into it. *)
Theorem C62_creation p m size slen : 0 <= size <= 2 ^ 40 -> 0 <= slen < 2 ^ 40 ->
  (exists s, wg_init_db_memsegment p m size slen = Some s) <-> HEADER p + 10 * 8192 + (slen + 1) * 8 + 16 + (if p then 8448 else 0) < size.
Proof.
  intros Hs Hl. unfold wg_init_db_memsegment. destruct (HEADER_val p) as (H1 & H2 & H3). rewrite H1.
  destruct (Z.lt_ge_cases (HEADER p) size) as [Hh|Hh].
  2: { split; [|intros; destruct p; lia]. rewrite obind_ex. intros (a & E & _). pose proof (add_small _ _ _ _ _ H2 H3 (proj2 Hs) E). lia. }
  pose proof (SI_start (HEADER p) m (HEADER p) size ltac:(lia) H3 ltac:(lia)) as I0. set (s0 := SG m (HEADER p) size [] [] 0) in *.
  assert (V : forall s h (f : seg -> option seg) (need : Z), SI (HEADER p) s [] [] -> g_size s = size -> 0 <= need ->
    (forall s', SI (HEADER p) s' [] [] -> g_size s' = size -> g_free s' = g_free s + 8192 -> (exists b, f s' = Some b) <-> g_free s' + need < size) ->
    (exists b, obind (add_var h s) f = Some b) <-> g_free s + (8192 + need) < size).
  { intros s h f need I Sz Hn Hf. rewrite obind_ex. split.
    - intros (a & E & Hb). destruct (add_var_step _ _ _ _ I E) as (I' & G1 & G2 & _). apply Hf in Hb; auto; lia.
    - intros H. destruct (proj2 (add_var_iff _ s h I)) as (a & E); [lia|]. destruct (add_var_step _ _ _ _ I E) as (I' & G1 & G2 & _). exists a. split; [exact E|]. apply Hf; auto; lia. }
  assert (F : forall s len (f : seg -> option seg) (need : Z), 0 < len <= 4096 -> len mod 8 = 0 -> SI (HEADER p) s [] [] -> g_size s = size -> 0 <= need ->
    (forall s', SI (HEADER p) s' [] [] -> g_size s' = size -> g_free s' = g_free s + 8192 -> (exists b, f s' = Some b) <-> g_free s' + need < size) ->
    (exists b, obind (add_fix len s) f = Some b) <-> g_free s + (8192 + need) < size).
  { intros s len f need L1 L2 I Sz Hn Hf. rewrite obind_ex. split.
    - intros (a & E & Hb). destruct (add_fix_step _ _ _ _ I L1 L2 E) as (I' & G1 & G2 & _). apply Hf in Hb; auto; lia.
    - intros H. destruct (proj2 (add_fix_iff _ s len I L1 L2)) as (a & E); [lia|]. destruct (add_fix_step _ _ _ _ I L1 L2 E) as (I' & G1 & G2 & _). exists a. split; [exact E|]. apply Hf; auto; lia. }
  set (need := (slen + 1) * 8 + 16 + (if p then 8448 else 0)).
  assert (Hn : 0 <= need) by (unfold need; destruct p; lia).
  assert (L : forall s, SI (HEADER p) s [] [] -> g_size s = size -> (exists b, obind (init_hash_subarea s slen) (init_syn_vars p) = Some b) <-> g_free s + need < size).
  { intros s I Sz. rewrite obind_ex. unfold need. split.
    - intros (a & E & b & Hb). destruct (step_hash _ _ _ _ _ _ I Hl E) as (t & _ & _ & _ & T4 & T5 & T6 & _ & _ & _ & _ & I'). pose proof (si_free _ _ _ _ I') as (F1 & F2 & F3). destruct p; [|lia].
      unfold init_syn_vars in Hb. destruct (alloc_db_segmentchunk _ _ _) as (c & f) eqn:Ec. destruct (Z.eqb_spec c 0) as [|Nc]; [discriminate|].
      apply FixAllocProofs.chunk_spec in Ec; [|lia|exact F2|lia|unfold SYN_VAR_PADDING, MAX_LOCKS; lia|lia]. unfold SYN_VAR_PADDING, MAX_LOCKS in Ec. lia.
    - intros H. destruct (proj2 (hash_iff _ _ _ _ slen I Hl)) as (a & E); [destruct p; lia|]. exists a. split; [exact E|].
      destruct (step_hash _ _ _ _ _ _ I Hl E) as (t & _ & _ & _ & T4 & T5 & T6 & _ & _ & _ & _ & I'). pose proof (si_free _ _ _ _ I') as (F1 & F2 & F3). destruct p; [|cbn; eauto].
      unfold init_syn_vars. change (SYN_VAR_PADDING * (MAX_LOCKS + 2)) with 8448. replace 8448 with (g_free a + 1056 * 8 - g_free a) by lia. rewrite chunk_exact by lia.
      destruct (Z.eqb_spec (g_free a) 0); [lia|]. eauto. }
  assert (G0 : g_free s0 = HEADER p) by reflexivity.
  rewrite (V s0 _ _ (9 * 8192 + need) I0 eq_refl ltac:(lia)); [rewrite G0; unfold need; lia|]. intros s1 I1 Z1 _.
  rewrite (V s1 _ _ (8 * 8192 + need) I1 Z1 ltac:(lia)); [lia|]. intros s2 I2 Z2 _.
  rewrite (F s2 16 _ (7 * 8192 + need) ltac:(lia) eq_refl I2 Z2 ltac:(lia)); [lia|]. intros s3 I3 Z3 _.
  rewrite (F s3 32 _ (6 * 8192 + need) ltac:(lia) eq_refl I3 Z3 ltac:(lia)); [lia|]. intros s4 I4 Z4 _.
  rewrite (F s4 8 _ (5 * 8192 + need) ltac:(lia) eq_refl I4 Z4 ltac:(lia)); [lia|]. intros s5 I5 Z5 _.
  rewrite (F s5 16 _ (4 * 8192 + need) ltac:(lia) eq_refl I5 Z5 ltac:(lia)); [lia|]. intros s6 I6 Z6 _.
  rewrite (F s6 128 _ (3 * 8192 + need) ltac:(lia) eq_refl I6 Z6 ltac:(lia)); [lia|]. intros s7 I7 Z7 _.
  rewrite (F s7 144 _ (2 * 8192 + need) ltac:(lia) eq_refl I7 Z7 ltac:(lia)); [lia|]. intros s8 I8 Z8 _.
  rewrite (F s8 24 _ (8192 + need) ltac:(lia) eq_refl I8 Z8 ltac:(lia)); [lia|]. intros s9 I9 Z9 _.
  rewrite (V s9 _ _ need I9 Z9 ltac:(lia)); [lia|]. intros s10 I10 Z10 _. apply L; assumption.
Qed.
Print Assumptions C62_creation.

(** ** Hash arrays and locks *)
(** A new hash array is clear and leaves everything below the border as it was. *)
Theorem C62_hash_clear p s live hs size s' : sreach p (s, live, hs) -> size < 2 ^ 40 -> wg_create_hash s size = Some s' ->
  exists t, g_hash s' = t :: g_hash s /\ ht_len t = (if size <=? 0 then 10000 else size) /\
    (forall i, 0 <= i < ht_len t -> g_mem s' (ht_start t + 8 * i) = 0) /\ g_free s <= ht_start t /\ ht_start t + 8 * ht_len t <= g_free s' /\
    forall x, x < g_free s -> g_mem s' x = g_mem s x.
Proof.
  intros R Hz E. apply reach_SI in R. cbn [fst snd] in R. unfold wg_create_hash in E. change DEFAULT_IDXHASH_LENGTH with 10000 in E.
  assert (Hn : 0 <= (if size <=? 0 then 10000 else size) < 2 ^ 40) by (destruct (Z.leb_spec size 0); lia).
  destruct (step_hash _ _ _ _ _ _ R Hn E) as (t & T1 & T2 & T3 & T4 & T5 & _ & _ & _ & T9 & T10 & _). exists t. rewrite T3, T2 in *. repeat split; auto; lia.
Qed.
Print Assumptions C62_hash_clear.

(** The lock word of the queue and its 64 nodes of 128 bytes lie in the chunk taken
    for them, each on a boundary of 128 bytes. *)
Theorem C62_queue_fits i : i <= queue_lock i /\ queue_lock i mod 128 = 0 /\ queue_storage i mod 128 = 0 /\
  queue_lock i + 8 <= queue_storage i /\ queue_storage i + 64 * 128 <= i + 8448.
Proof.
  unfold queue_storage, queue_lock. change SYN_VAR_PADDING with 128.
  assert (E : Z.land (i + 128 - 1) (-128) = 128 * ((i + 127) / 128)).
  { change (-128) with (Z.lnot (Z.ones 7)). rewrite <- Z.ldiff_land, Z.ldiff_ones_r by lia. rewrite Z.shiftr_div_pow2, Z.shiftl_mul_pow2 by lia. change (2 ^ 7) with 128. replace (i + 128 - 1) with (i + 127) by lia. lia. }
  change (- (128)) with (-128). rewrite E. lia.
Qed.
Print Assumptions C62_queue_fits.

(** ** How full a database is *)
Lemma no_chunk free size n : 0 < free < size -> free mod 8 = 0 -> size <= 2 ^ 40 -> size - free <= 8192 -> n < 2 ^ 63 -> 8192 <= n -> exists f, alloc_db_segmentchunk free size n = (0, f).
Proof.
  intros F1 F2 F3 F4 N1 N2. destruct (alloc_db_segmentchunk free size n) as (c & f) eqn:E. destruct (Z.eq_dec c 0) as [->|Nc]; [eauto|].
  apply FixAllocProofs.chunk_spec in E; [lia|lia|exact F2|lia|lia|lia].
Qed.
Lemma no_fix_growth n : forall s z, 0 < fs_free s < fs_size s -> fs_free s mod 8 = 0 -> fs_size s <= 2 ^ 40 -> fs_size s - fs_free s <= 8192 -> z < 2 ^ 63 -> extend_try n s z = None.
Proof.
  induction n as [|n IH]; intros s z H1 H2 H3 H4 H5; cbn [extend_try]; [reflexivity|]. unfold MINIMAL_SUBAREA_SIZE. destruct (Z.geb_spec z 8192); [|reflexivity].
  unfold init_db_subarea, MINIMAL_SUBAREA_SIZE. destruct (Z.ltb_spec z 8192); [lia|]. destruct (no_chunk _ _ z H1 H2 H3 H4) as (f & ->); [lia|lia|]. cbn [Z.eqb]. apply IH; auto. rewrite Z.shiftr_div_pow2 by lia. change (2 ^ 1) with 2. lia.
Qed.
Lemma no_var_growth n : forall s z m, 0 < vfree s < vsize s -> vfree s mod 8 = 0 -> vsize s <= 2 ^ 40 -> vsize s - vfree s <= 8192 -> 8192 <= m -> z < 2 ^ 63 -> extend_vtry n s z m = None.
Proof.
  induction n as [|n IH]; intros s z m H1 H2 H3 H4 Hm H5; cbn [extend_vtry]; [reflexivity|]. destruct (Z.leb_spec m z); [|reflexivity].
  unfold init_vsubarea, MINIMAL_SUBAREA_SIZE. destruct (Z.ltb_spec z 8192); [lia|]. destruct (no_chunk _ _ z H1 H2 H3 H4) as (f & ->); [lia|lia|]. cbn [Z.eqb]. apply IH; auto. rewrite Z.shiftr_div_pow2 by lia. change (2 ^ 1) with 2. lia.
Qed.
Lemma wrap64_lt z : wrap64 z < 2 ^ 63.
Proof. unfold wrap64. lia. Qed.
Lemma grow_lt n : forall z m, z < 2 ^ 63 -> grow n z m < 2 ^ 63.
Proof. induction n as [|n IH]; intros z m H; cbn [grow]; [exact H|]. destruct (_ && _); [|exact H]. apply IH, wrap64_lt. Qed.
Lemma no_extend s b : 0 < vfree s < vsize s -> vfree s mod 8 = 0 -> vsize s <= 2 ^ 40 -> vsize s - vfree s <= 8192 -> extend_varlen_area s b = VOk s 0.
Proof.
  intros H1 H2 H3 H4. unfold extend_varlen_area. destruct (vsubs s); [reflexivity|]. destruct (_ <=? _); [reflexivity|]. destruct (_ <? 0); [reflexivity|].
  rewrite no_var_growth; auto; [|apply grow_lt, wrap64_lt]. unfold MINIMAL_SUBAREA_SIZE. destruct (Z.ltb_spec (wrap64 (b + SUBAREA_ALIGNMENT_BYTES + 2 * MIN_VARLENOBJ_SIZE)) 8192); lia.
Qed.
(** When wg_database_freesize answers 0 (in fact already when 8192 bytes are left),
    no area can grow: a request is served from the subareas there are or fails. *)
Theorem C62_full p s live hs k nr s' r : sreach p (s, live, hs) -> wg_database_freesize s <= 8192 -> seg_alloc s k nr = Some (s', r) ->
  g_free s' = g_free s /\ forall j a', nth_error (g_areas s') j = Some a' -> exists a, nth_error (g_areas s) j = Some a /\ asubs a' = asubs a.
Proof.
  intros R Hf E. apply reach_SI in R. cbn [fst snd] in R. pose proof (si_free _ _ _ _ R) as (F1 & F2 & F3).
  assert (Hs : g_size s - g_free s <= 8192) by (unfold wg_database_freesize, MINIMAL_SUBAREA_SIZE in Hf; destruct (Z.ltb_spec (g_size s - g_free s) 8192); lia).
  assert (Q : forall a a', nth_error (g_areas s) k = Some a -> asubs a' = asubs a -> forall j b', nth_error (put k a' (g_areas s)) j = Some b' -> exists b, nth_error (g_areas s) j = Some b /\ asubs b' = asubs b).
  { intros a a' Ha Ea j b' Hb. rewrite nth_put in Hb. destruct (Nat.eqb_spec j k) as [->|N]; [|eauto]. rewrite Ha in Hb. injection Hb as <-. eauto. }
  unfold seg_alloc in E. destruct (nth_error (g_areas s) k) as [[len fl subs|h b subs]|] eqn:Ha; [| |discriminate].
  - destruct (wg_alloc_fixlen_object _) as (t & r') eqn:E1. injection E as <- <-. cbn [g_free g_areas].
    assert (G : fs_free t = g_free s /\ fs_subs t = subs).
    { unfold wg_alloc_fixlen_object in E1. cbn [fs_freelist fs_mem fs_free fs_size fs_objlen fs_subs] in E1. destruct (fl =? 0); [|injection E1 as <- _; auto].
      unfold extend_fixedlen_area in E1. cbn [fs_subs] in E1. destruct subs as [|u l]; [injection E1 as <- _; auto|]. destruct (_ >=? _); [injection E1 as <- _; auto|].
      rewrite no_fix_growth in E1; cbn [fs_free fs_size]; auto; try lia; [injection E1 as <- _; auto|apply wrap64_lt]. }
    destruct G as [G1 G2]. split; [exact G1|]. apply (Q _ _ eq_refl). cbn. exact G2.
  - destruct (wg_alloc_gints _ _) as [t r'|] eqn:E1; [|discriminate]. injection E as <- <-. cbn [g_free g_areas].
    assert (G : geo t = geo (VS (g_mem s) b h (g_free s) (g_size s) subs)).
    { unfold wg_alloc_gints in E1. destruct (_ <? 0); [injection E1 as <- _; reflexivity|]. cbn [alloc_rec] in E1. destruct (alloc_try _ _) as [t1 r1| |] eqn:E2; [| |discriminate].
      - injection E1 as <- _. exact (try_geo _ _ _ _ E2).
      - rewrite no_extend in E1; cbn [vfree vsize]; auto; try lia. cbn [Z.eqb] in E1. injection E1 as <- _. reflexivity. }
    injection G as _ G1 _ G2. split; [exact G1|]. apply (Q _ _ eq_refl). cbn. exact G2.
Qed.
Print Assumptions C62_full.

(** ** A run in a segment of 200000 bytes: records, a long string, list cells, words,
    a tree node, a write, releases, a hash array, growth. *)
Definition sg0 (p : bool) (size slen : Z) : config :=
  match wg_init_db_memsegment p (fun x => x) size slen with Some s => (s, [], arrays s) | None => (SG (fun _ => 0) 0 0 [] [] 0, [], []) end.
Definition sgo (c : config) (k : nat) (nr : Z) : config :=
  let '(s, live, hs) := c in
  match seg_alloc s k nr with Some (s', r) => (s', if r =? 0 then live else (k, Obj r (words s k nr) (g_mem s')) :: live, hs) | None => c end.
Definition sdel (c : config) (i : nat) : config :=
  let '(s, live, hs) := c in
  match nth_error live i with None => c | Some (k, o) => match seg_free s k (oa o) with Some s' => (s', VarAllocProps.drop_nth i live, hs) | None => c end end.
Definition swrite (c : config) (a v : Z) : config :=
  let '(s, live, hs) := c in
  match live with (k, o) :: l => if (first_byte s k o <=? a) && (a <? oa o + 8 * onr o) then (with_mem s (upd (g_mem s) a v), (k, Obj (oa o) (onr o) (upd (od o) a v)) :: l, hs) else c | [] => c end.
Definition shash (c : config) (n : Z) : config :=
  let '(s, live, hs) := c in
  match wg_create_hash s n with Some s' => match g_hash s' with t :: _ => (s', live, Obj (ht_start t) (ht_len t) (g_mem s') :: hs) | [] => c end | None => c end.
Lemma sgo_reach p c k nr : sreach p c -> - 2 ^ 60 <= nr -> nr * 8 < 2 ^ 40 -> sreach p (sgo c k nr).
Proof. intros R H1 H2. destruct c as [[s live] hs]. unfold sgo. destruct (seg_alloc s k nr) as [(s' & r)|] eqn:E; [|exact R]. eapply SStep; [exact R|]. now apply SAlloc. Qed.
Lemma sdel_reach p c i : sreach p c -> sreach p (sdel c i).
Proof.
  intros R. destruct c as [[s live] hs]. unfold sdel. destruct (nth_error live i) as [(k & o)|] eqn:En; [|exact R]. destruct (seg_free s k (oa o)) as [s'|] eqn:E; [|exact R].
  destruct (VarAllocProps.drop_nth_split i live _ En) as (l1 & l2 & -> & ->). eapply SStep; [exact R|]. now apply SFree.
Qed.
Lemma swrite_reach p c a v : sreach p c -> sreach p (swrite c a v).
Proof.
  intros R. destruct c as [[s live] hs]. unfold swrite. destruct live as [|(k & o) l]; [exact R|]. destruct (_ && _) eqn:E; [|exact R]. apply andb_true_iff in E as [E1 E2].
  apply Z.leb_le in E1. apply Z.ltb_lt in E2. eapply SStep; [exact R|]. apply (SWrite s [] k o l hs a v). lia.
Qed.
Lemma shash_reach p c n : sreach p c -> n < 2 ^ 40 -> sreach p (shash c n).
Proof.
  intros R Hn. destruct c as [[s live] hs]. unfold shash. destruct (wg_create_hash s n) as [s'|] eqn:E; [|exact R]. destruct (g_hash s') as [|t l] eqn:Eh; [exact R|].
  eapply SStep; [exact R|]. eapply SHash; [exact Hn|exact E|]. unfold wg_create_hash, init_hash_subarea in E. destruct (alloc_db_segmentchunk _ _ _) as (ch & f). destruct (ch =? 0); [discriminate|]. injection E as <-. cbn [g_hash] in *. injection Eh as <- <-. reflexivity.
Qed.
Lemma sg0_reach p size slen : size <= 2 ^ 40 -> 0 <= slen < 2 ^ 40 -> HEADER p + 10 * 8192 + (slen + 1) * 8 + 16 + (if p then 8448 else 0) < size -> sreach p (sg0 p size slen).
Proof.
  intros H1 H2 H3. destruct (HEADER_val p) as (_ & Hp & _). destruct (proj2 (C62_creation p (fun x => x) size slen ltac:(destruct p; lia) H2) H3) as (s & E). unfold sg0. rewrite E. exact (SInit p _ _ _ _ H1 H2 E).
Qed.
Ltac sreach_run := repeat match goal with |- sreach _ (sgo _ _ _) => apply sgo_reach; [|lia|lia] | |- sreach _ (sdel _ _) => apply sdel_reach | |- sreach _ (swrite _ _ _) => apply swrite_reach
  | |- sreach _ (shash _ _) => apply shash_reach; [|lia] end; apply sg0_reach; [lia|lia|vm_compute; reflexivity].

Definition srun (p : bool) : config :=
  sgo (shash (sdel (sgo (sgo (swrite (sgo (sgo (sgo (sgo (sg0 p 200000 100) DATAREC 5) LONGSTR 12) LISTCELL 0) DATAREC 4) (HEADER p + 96) 77) WORD 0) TNODE 0) 3) 50) DATAREC 2000.
Example C62_run_reach p : sreach p (srun p).
Proof. unfold srun. destruct p; sreach_run. Qed.
Example C62_run : map (fun q => (fst q, oa (snd q), onr (snd q))) (snd (fst (srun true))) =
    [(DATAREC, 138216, 2000); (TNODE, 95720, 16); (WORD, 79336, 1); (DATAREC, 46640, 4); (LONGSTR, 54792, 12); (DATAREC, 46600, 5)] /\
  map (fun o => (oa o, onr o)) (snd (srun true)) = [(137760, 50); (129312, 1056); (128488, 100)] /\
  g_mem (fst (fst (srun true))) 46664 = 77 /\ g_mem (fst (fst (srun true))) (137760 + 8 * 49) = 0.
Proof. vm_compute. repeat split; reflexivity. Qed.
Example C62_creation_case : wg_init_db_memsegment false (fun x => x) 128952 10 = None /\ exists s, wg_init_db_memsegment false (fun x => x) 128953 10 = Some s.
Proof. split; [vm_compute; reflexivity|]. apply C62_creation; [lia|lia|vm_compute; reflexivity]. Qed.

(** A full database: requests are still served from what there is. *)
Example C62_full_case : exists s live hs, sreach false (s, live, hs) /\ wg_database_freesize s = 0 /\
  (exists s' r, seg_alloc s DATAREC 500 = Some (s', r) /\ r <> 0) /\ (exists s', seg_alloc s DATAREC 5000 = Some (s', 0)).
Proof.
  pose proof (sg0_reach false 129000 10 ltac:(lia) ltac:(lia) ltac:(vm_compute; reflexivity)) as R.
  exists (fst (fst (sg0 false 129000 10))), (snd (fst (sg0 false 129000 10))), (snd (sg0 false 129000 10)). split; [now rewrite <- !surjective_pairing|]. split; [vm_compute; reflexivity|].
  pose proof R as R'. rewrite (surjective_pairing (sg0 false 129000 10)), (surjective_pairing (fst (sg0 false 129000 10))) in R'. destruct (C62_calls_defined _ _ _ _ R') as [D _]. split.
  - destruct (D DATAREC 500) as (s' & r & E); [unfold DATAREC; lia|lia|lia|]. exists s', r. split; [exact E|].
    assert (H : match seg_alloc (fst (fst (sg0 false 129000 10))) DATAREC 500 with Some (_, r) => negb (r =? 0) | None => false end = true) by (vm_compute; reflexivity).
    rewrite E in H. destruct (Z.eqb_spec r 0); [discriminate|assumption].
  - destruct (D DATAREC 5000) as (s' & r & E); [unfold DATAREC; lia|lia|lia|]. exists s'. rewrite E.
    assert (H : match seg_alloc (fst (fst (sg0 false 129000 10))) DATAREC 5000 with Some (_, r) => r =? 0 | None => false end = true) by (vm_compute; reflexivity).
    rewrite E in H. apply Z.eqb_eq in H as ->. reflexivity.
Qed.

(** wg_database_freesize can answer a size that no area can grow by: with exactly
    8192 bytes left it answers 8192, but a chunk of that size is refused (the border
    may not reach the end of the segment), so every request that needs growth fails. *)
Theorem C62_freesize_usable_refuted : exists s live hs s', sreach false (s, live, hs) /\ wg_database_freesize s = MINIMAL_SUBAREA_SIZE /\
  alloc_db_segmentchunk (g_free s) (g_size s) (wg_database_freesize s) = (0, g_free s) /\ seg_alloc s DATAREC 1000 = Some (s', 0) /\ 1000 * 8 + 64 < wg_database_freesize s.
Proof.
  pose proof (sg0_reach false 137144 10 ltac:(lia) ltac:(lia) ltac:(vm_compute; reflexivity)) as R.
  assert (H : (let s := fst (fst (sgo (sg0 false 137144 10) DATAREC 500)) in wg_database_freesize s =? 8192) = true) by (vm_compute; reflexivity).
  assert (R1 : sreach false (sgo (sg0 false 137144 10) DATAREC 500)) by (apply sgo_reach; [exact R|lia|lia]).
  set (c := sgo (sg0 false 137144 10) DATAREC 500) in *. pose proof R1 as R2. rewrite (surjective_pairing c), (surjective_pairing (fst c)) in R2. destruct (C62_calls_defined _ _ _ _ R2) as [D _].
  destruct (D DATAREC 1000) as (s' & r & E); [unfold DATAREC; lia|lia|lia|].
  assert (Hr : match seg_alloc (fst (fst c)) DATAREC 1000 with Some (_, r) => r =? 0 | None => false end = true) by (vm_compute; reflexivity). rewrite E in Hr. apply Z.eqb_eq in Hr as ->.
  exists (fst (fst c)), (snd (fst c)), (snd c), s'. split; [exact R2|]. cbn zeta in H. apply Z.eqb_eq in H. split; [exact H|]. split; [|split; [exact E|lia]].
  rewrite H. vm_compute. reflexivity.
Qed.
Print Assumptions C62_freesize_usable_refuted.

(** The header is written before the size is looked at: wg_attach_local_database
    with a size below 48 bytes (Db/dbmem.c l.376-411 has no lower limit) makes
    wg_init_db_memsegment store outside the block it got; from 48 bytes on the
    stores are inside, and every size that succeeds is far larger. *)
Theorem C62_header_inside_refuted : exists size, 0 < size /\ exists o n, In (o, n) header_writes /\ size < o + n.
Proof. exists 10. split; [lia|]. exists 40, 8. split; [|lia]. unfold header_writes. cbn [In]. tauto. Qed.
Print Assumptions C62_header_inside_refuted.
Theorem C62_header_inside p m size slen s o n : 0 <= size <= 2 ^ 40 -> 0 <= slen < 2 ^ 40 -> wg_init_db_memsegment p m size slen = Some s -> In (o, n) header_writes -> o + n <= size.
Proof.
  intros H1 H2 E Hi. assert (H : exists s, wg_init_db_memsegment p m size slen = Some s) by eauto. apply C62_creation in H; auto. destruct (HEADER_val p) as (_ & Hp & _).
  assert (o + n <= 48) by (unfold header_writes in Hi; cbn [In] in Hi; repeat destruct Hi as [Hi|Hi]; try injection Hi; try lia; contradiction). destruct p; lia.
Qed.
Print Assumptions C62_header_inside.
Example C62_queue_case : queue_lock 129312 = 129408 /\ queue_storage 129312 = 129536.
Proof. vm_compute. split; reflexivity. Qed.

(** ** The headers of the areas *)
(** Where the bucket array of an area is; [None] for a fixed-length area. *)
Definition bucket_array (a : area) : option Z := match a with AVar hdr _ _ => Some hdr | AFix _ _ _ => None end.
Lemma put_map {A B} (f : A -> B) (a : A) : forall l k x, nth_error l k = Some x -> f a = f x -> map f (put k a l) = map f l.
Proof. induction l as [|y l IH]; intros [|k] x; cbn; intros E F; try discriminate; [injection E as <-; now rewrite F|]. f_equal. eauto. Qed.
Lemma add_var_array h s s' : add_var h s = Some s' -> map bucket_array (g_areas s') = map bucket_array (g_areas s) ++ [Some h].
Proof.
  unfold add_var, init_var_area. destruct (init_vsubarea _ _) as [t|] eqn:E; [|discriminate]. destruct (init_subarea_freespace t) as [u|] eqn:Eu; [|discriminate]. intros H. injection H as <-. cbn [g_areas]. rewrite map_app. cbn [map bucket_array].
  apply freespace_geo in Eu. unfold geo in Eu. injection Eu as Eu _ _ _. rewrite Eu. unfold init_vsubarea in E. destruct (_ <? _); [discriminate|]. destruct (alloc_db_segmentchunk _ _ _) as (ch & fr). destruct (ch =? 0); [discriminate|]. injection E as <-. reflexivity.
Qed.
Lemma add_fix_array len s s' : add_fix len s = Some s' -> map bucket_array (g_areas s') = map bucket_array (g_areas s) ++ [None].
Proof. unfold add_fix. destruct (init_fix_area _ _ _ _) as [t|]; [|discriminate]. intros H. injection H as <-. cbn [g_areas]. rewrite map_app. reflexivity. Qed.
(** The bucket arrays do not move: those of the data records, the long strings and the index hash lists. *)
Lemma reach_arrays p c : sreach p c ->
  map bucket_array (g_areas (fst (fst c))) = [Some (48 + BUCKETS); Some (48 + AREA_HEADER + BUCKETS); None; None; None; None; None; None; None; Some (48 + 9 * AREA_HEADER + 40 + 2072 + BUCKETS)].
Proof.
  induction 1 as [m size slen s H1 H2 E|c c' R IH St].
  - cbn [fst]. unfold wg_init_db_memsegment in E.
    apply obind_some in E as (s1 & E1 & E). apply add_var_array in E1. apply obind_some in E as (s2 & E2 & E). apply add_var_array in E2.
    apply obind_some in E as (s3 & E3 & E). apply add_fix_array in E3. apply obind_some in E as (s4 & E4 & E). apply add_fix_array in E4.
    apply obind_some in E as (s5 & E5 & E). apply add_fix_array in E5. apply obind_some in E as (s6 & E6 & E). apply add_fix_array in E6.
    apply obind_some in E as (s7 & E7 & E). apply add_fix_array in E7. apply obind_some in E as (s8 & E8 & E). apply add_fix_array in E8.
    apply obind_some in E as (s9 & E9 & E). apply add_fix_array in E9. apply obind_some in E as (s10 & E10 & E). apply add_var_array in E10.
    apply obind_some in E as (s11 & E11 & E).
    assert (A : g_areas s = g_areas s10).
    { unfold init_hash_subarea in E11. destruct (alloc_db_segmentchunk _ _ _) as (ch & fr). destruct (ch =? 0); [discriminate|]. injection E11 as <-. unfold init_syn_vars in E. destruct p; [|now injection E as <-].
      destruct (alloc_db_segmentchunk _ _ _) as (ch' & fr'). destruct (ch' =? 0); [discriminate|]. now injection E as <-. }
    rewrite A, E10, E9, E8, E7, E6, E5, E4, E3, E2, E1. reflexivity.
  - pose proof (reach_SI _ _ R) as I. destruct St; cbn [fst snd] in *; auto.
    + rewrite <- IH. unfold seg_alloc in H1. destruct (nth_error (g_areas s) k) as [a|] eqn:Ea; [|discriminate]. destruct a as [len fl subs|h b subs].
      * destruct (wg_alloc_fixlen_object _) as (t, r'). injection H1 as <- _. cbn [g_areas]. now apply (put_map _ _ _ _ _ Ea).
      * destruct (wg_alloc_gints _ _) as [t r'|] eqn:Et; [|discriminate]. injection H1 as <- _. cbn [g_areas]. apply (put_map _ _ _ _ _ Ea). cbn [bucket_array].
        pose proof (si_view _ _ _ _ I _ _ Ea) as V. cbn [view] in V. destruct (alloc_grows _ _ _ _ _ V H H0 Et) as (G & _). cbn [vhdr] in G. now rewrite G.
    + rewrite <- IH. unfold seg_free in H. destruct (nth_error (g_areas s) k) as [a|] eqn:Ea; [|discriminate]. destruct a as [len fl subs|h b subs].
      * injection H as <-. cbn [g_areas]. now apply (put_map _ _ _ _ _ Ea).
      * destruct (wg_free_object _ _) as [t r'|] eqn:Et; [|discriminate]. injection H as <-. cbn [g_areas]. apply (put_map _ _ _ _ _ Ea). cbn [bucket_array].
        apply free_object_geo in Et. unfold geo in Et. injection Et as G _ _ _. now rewrite G.
    + rewrite <- IH. unfold wg_create_hash, init_hash_subarea in H0. destruct (alloc_db_segmentchunk _ _ _) as (ch & fr). destruct (ch =? 0); [discriminate|]. now injection H0 as <-.
Qed.
(** The 290 words of buckets of an area are in the header of the segment, before everything that is allocated, and
    are shared with no other area. *)
Theorem C62_buckets p s live hs : sreach p (s, live, hs) ->
  (forall k hdr b subs, nth_error (g_areas s) k = Some (AVar hdr b subs) -> hdr mod 8 = 0 /\ 48 <= hdr /\ hdr + 8 * 290 <= HEADER p) /\
  (forall j k hdr b subs hdr' b' subs', j <> k -> nth_error (g_areas s) j = Some (AVar hdr b subs) -> nth_error (g_areas s) k = Some (AVar hdr' b' subs') ->
     hdr + 8 * 290 <= hdr' \/ hdr' + 8 * 290 <= hdr).
Proof.
  intros R. pose proof (reach_arrays _ _ R) as E. cbn [fst] in E.
  assert (K : forall k hdr b subs, nth_error (g_areas s) k = Some (AVar hdr b subs) -> (k = 0%nat /\ hdr = 2128) \/ (k = 1%nat /\ hdr = 6528) \/ (k = 9%nat /\ hdr = 43840)).
  { intros k hdr b subs Ek. apply (map_nth_error bucket_array) in Ek. rewrite E in Ek. cbn [bucket_array] in Ek. do 10 (destruct k as [|k]; [cbn [nth_error] in Ek; try discriminate Ek; injection Ek as <-; auto|]). destruct k; discriminate Ek. }
  assert (Hp : 46160 <= HEADER p) by (destruct p; vm_compute; discriminate). split.
  - intros k hdr b subs Ek. destruct (K _ _ _ _ Ek) as [(_ & ->)|[(_ & ->)|(_ & ->)]]; (split; [reflexivity|lia]).
  - intros j k hdr b subs hdr' b' subs' N Ej Ek. destruct (K _ _ _ _ Ej) as [(-> & ->)|[(-> & ->)|(-> & ->)]]; destruct (K _ _ _ _ Ek) as [(-> & ->)|[(-> & ->)|(-> & ->)]]; lia.
Qed.
Print Assumptions C62_buckets.
Example C62_buckets_case : exists b0 s0 b1 s1, nth_error (g_areas (fst (fst (srun true)))) DATAREC = Some (AVar 2128 b0 s0) /\ nth_error (g_areas (fst (fst (srun true)))) LONGSTR = Some (AVar 6528 b1 s1).
Proof.
  pose proof (reach_arrays _ _ (C62_run_reach true)) as E. destruct (g_areas (fst (fst (srun true)))) as [|a l]; [discriminate|]. destruct l as [|a' l]; [discriminate|].
  cbn [map] in E. injection E as E1 E2 _. destruct a; [discriminate|]. destruct a'; [discriminate|]. cbn [bucket_array] in *. injection E1 as ->. injection E2 as ->. do 4 eexists. split; reflexivity.
Qed.
