(** Growth of a variable-length area; wg_alloc_gints as a whole. *)
From Coq Require Import ZArith List Lia Bool.
From Verif Require Import Base FixAllocModel FixAllocProofs VarAllocModel VarAllocCore VarAllocProofs VarAllocStep.
Import ListNotations.
Open Scope Z_scope.

Section WithRegion.
Context {rg : region}.

(** Used blocks before and after growth: a wanted size below 32 may become 32. *)
Definition lrel1 (p q : Z * Z * (Z -> Z)) : Prop :=
  fst (fst q) = fst (fst p) /\ snd q = snd p /\ (snd (fst q) = snd (fst p) \/ snd (fst p) < 32 /\ snd (fst q) = 32).
Definition lrel := Forall2 lrel1.
Lemma lrel_refl l : lrel l l.
Proof. induction l; constructor; auto. unfold lrel1. auto. Qed.
Lemma lrel_trans l1 l2 l3 : lrel l1 l2 -> lrel l2 l3 -> lrel l1 l3.
Proof.
  intros H. revert l3. induction H as [|x y l l' Hxy H IH]; intros l3 H3; inversion H3; subst; constructor; [|now apply IH].
  unfold lrel1 in *. destruct Hxy as (A1 & A2 & A3), H2 as (B1 & B2 & B3). rewrite B1, B2, A1, A2. split; [reflexivity|]. split; [reflexivity|]. lia.
Qed.
Lemma lrel_app l1 l2 m1 m2 : lrel l1 m1 -> lrel l2 m2 -> lrel (l1 ++ l2) (m1 ++ m2).
Proof. apply Forall2_app. Qed.
Lemma sameb_setw b : sameb b (setw b).
Proof. unfold sameb, setw. destruct b as [a n []]; cbn; auto. Qed.
Lemma sameb_trans x y z : sameb x y -> sameb y z -> sameb x z.
Proof.
  unfold sameb. destruct x as [a n k], y as [b m j], z as [c o i]. cbn. intros (-> & -> & E1) (-> & -> & E2). split; [reflexivity|]. split; [reflexivity|].
  destruct k, j; try contradiction; try discriminate; destruct i; try contradiction; try discriminate; congruence.
Qed.
Lemma lrel_setw v y : gok y -> lrel (live1 y) (live1 (setw (setpf v y))).
Proof.
  intros G. destruct y as [a n []]; cbn; try constructor; [|constructor]. unfold lrel1. cbn. split; [reflexivity|]. split; [reflexivity|]. unfold gok in G. cbn in G. lia.
Qed.
Lemma fl_setw {A} (f : blk -> bool) (g : blk -> A) v y : f = isSt \/ f = isEn \/ f = isDv -> (forall b, f b = true -> g (setw (setpf v b)) = g b) ->
  map g (filter f [setw (setpf v y)]) = map g (filter f [y]).
Proof. intros [->|[->| ->]]; destruct y as [a n []]; reflexivity. Qed.

Lemma retire_spec s L fl : core s L fl -> full L -> dvok s L -> (forall b, In b L -> bs b < 2 ^ 40) ->
  exists s' L' fl', retire_dv s = Some s' /\ core s' L' fl' /\ full L' /\ dvs L' = [] /\ sts L' = sts L /\ ens L' = ens L /\ lrel (lives L) (lives L') /\
    vhdr s' = vhdr s /\ vfree s' = vfree s /\ vsize s' = vsize s /\ vsubs s' = vsubs s /\ (forall b', In b' L' -> exists b, In b L /\ ba b = ba b' /\ bs b = bs b').
Proof.
  intros C F D Hs. unfold retire_dv. destruct D as [(E1 & E2 & Ed)|(a & n & Ed & E1 & E2)].
  - rewrite E1. cbn [Z.eqb negb andb]. exists s, L, fl. split; [reflexivity|]. split; [exact C|]. split; [exact F|]. split; [exact Ed|].
    do 2 (split; [reflexivity|]). split; [apply lrel_refl|]. do 4 (split; [reflexivity|]). eauto.
  - destruct (dvs_single _ _ Ed) as (l1 & l2 & -> & D1 & D2). rewrite E1, E2.
    pose proof (cok _ _ _ C _ (in_mid l1 _ l2)) as G. unfold gok in G. cbn in G.
    pose proof (Hs _ (in_mid l1 _ l2)) as Hn. cbn in Hn.
    destruct (Z.eqb_spec a 0); [lia|]. destruct (Z.leb_spec MIN_VARLENOBJ_SIZE n) as [Hm|Hm]; [|unfold MIN_VARLENOBJ_SIZE in Hm; lia]. cbn [negb andb].
    pose proof (core_forget _ _ _ _ _ _ _ C ltac:(discriminate)) as C1.
    destruct (push_spec s l1 a n l2 fl C1) as (s1 & fl1 & P & C2 & O2); [apply idx_range; lia|]. rewrite P.
    destruct (full_next _ _ _ F) as (y & l3 & -> & A); [discriminate|].
    assert (Ny : bk y <> KTmp). { apply (full_notmp _ _ F). apply in_or_app. right. right. now left. }
    assert (Ey : ba y = a + n). { unfold adj in A. cbn in A. unfold bend in A. cbn in A. lia. }
    assert (Gy : gok y). { apply (cok _ _ _ C). apply in_or_app. right. right. now left. }
    change (l1 ++ B a n KFree :: y :: l3) with (l1 ++ [B a n KFree] ++ y :: l3) in C2. rewrite app_assoc in C2.
    destruct (mark_prevfree_w_spec s1 _ y l3 fl1 C2 Ny) as (C3 & O3 & _). rewrite Ey in C3, O3. rewrite <- app_assoc in C3. cbn [app] in C3.
    eexists. exists (l1 ++ B a n KFree :: setw (setpf true y) :: l3), fl1. split; [reflexivity|].
    pose proof (others_trans _ _ _ O2 O3) as O. split; [exact C3|]. split; [|split; [|split; [|split; [|split]]]].
    + apply (full_replace l1 [B a n KDv] [B a n KFree] y _ l3 F); [eapply sameb_trans; [apply sameb_setpf|apply sameb_setw]|]. clear. loc.
    + rewrite dvs_app, D1. cbn [app]. destruct y as [? ? []]; cbn in D2 |- *; try discriminate; exact D2.
    + rewrite !sts_app. f_equal. destruct y as [? ? []]; reflexivity.
    + rewrite !ens_app. f_equal. destruct y as [? ? []]; reflexivity.
    + rewrite !lives_app, !lives_cons. cbn [live1 bk app]. apply lrel_app; [apply lrel_refl|]. apply lrel_app; [now apply lrel_setw|apply lrel_refl].
    + destruct O as (O1 & O4 & O5 & O6 & _). do 4 (split; [assumption|]). intros b' Hb. apply in_app_or in Hb as [Hb|[<-|[<-|Hb]]].
      * exists b'. split; [apply in_or_app; now left|auto].
      * exists (B a n KDv). split; [apply in_mid|auto].
      * exists y. split; [apply in_or_app; right; right; now left|]. destruct y as [? ? []]; auto.
      * exists b'. split; [apply in_or_app; right; right; now right|auto].
Qed.

Lemma chain_snoc l y : chain adj (l ++ [S1]) -> bk y = KStart -> chain adj (l ++ [y]).
Proof.
  induction l as [|a l IH]; cbn [app chain]; [auto|]. intros [H1 H2] K. split; [|now apply IH].
  destruct l as [|b l]; cbn [app] in *; [|exact H1]. unfold adj in *. rewrite K. cbn in H1. destruct (bk a); intuition congruence.
Qed.
Lemma full_add L a n : full L -> full (L ++ [B a 32 KStart; B (a + 32) n KDv; B (a + 32 + n) 32 KEnd]).
Proof.
  unfold full. intros H. rewrite <- app_assoc. cbn [app].
  change (E0 :: L ++ B a 32 KStart :: B (a + 32) n KDv :: B (a + 32 + n) 32 KEnd :: [S1]) with ((E0 :: L) ++ B a 32 KStart :: [B (a + 32) n KDv; B (a + 32 + n) 32 KEnd; S1]).
  apply chain_mid. split; [apply (chain_snoc (E0 :: L)); [exact H|reflexivity]|].
  cbn [chain]. unfold adj, bend. cbn. repeat split; discriminate.
Qed.
Lemma full_single a n : full [B a 32 KStart; B (a + 32) n KDv; B (a + 32 + n) 32 KEnd].
Proof. apply (full_add []). unfold full, adj. cbn. repeat split; discriminate. Qed.

(** The new subarea, Db/dballoc.c l.685-713. *)
Definition mark_new (s : vstate) (offset size : Z) : vstate :=
  let s := store s offset (makespecialusedobjectsize MIN_VARLENOBJ_SIZE) in
  let s := store s (offset + 8) 0 in
  let s := store s (offset + 16) 0 in
  let s := store s (offset + MIN_VARLENOBJ_SIZE - 8) MIN_VARLENOBJ_SIZE in
  let endm := offset + size - MIN_VARLENOBJ_SIZE in
  let s := store s endm (makespecialusedobjectsize MIN_VARLENOBJ_SIZE) in
  let s := store s (endm + 8) 0 in
  let s := store s (endm + 16) 0 in
  let s := store s (endm + MIN_VARLENOBJ_SIZE - 8) MIN_VARLENOBJ_SIZE in
  let fo := offset + MIN_VARLENOBJ_SIZE in
  let fs := size - 2 * MIN_VARLENOBJ_SIZE in
  let s := store s fo (makespecialusedobjectsize fs) in
  let s := store s (fo + 8) SPECIALGINT1DV in
  setb (setb s DVBUCKET fo) DVSIZEBUCKET fs.

Lemma mark_new_spec s L fl a n : core s L fl -> (forall b, In b L -> bend b <= a) -> (forall x, foreign x -> x < a) -> 0 < a -> a mod 8 = 0 -> 128 <= n -> n mod 8 = 0 ->
  core (mark_new s a n) (L ++ [B a 32 KStart; B (a + 32) (n - 64) KDv; B (a + 32 + (n - 64)) 32 KEnd]) fl.
Proof.
  intros C O Fr H1 H2 H3 H4. unfold mark_new, MIN_VARLENOBJ_SIZE. cbv zeta. change (2 * 32) with 64.
  apply core_setb; [|unfold DVSIZEBUCKET, EXACTBUCKETS_NR, VARBUCKETS_NR; lia]. apply core_setb; [|unfold DVBUCKET, EXACTBUCKETS_NR, VARBUCKETS_NR; lia].
  assert (C0 : core s (L ++ [B a n KTmp]) fl).
  { apply core_append; [exact C|discriminate| |exact I|exact O|]; [unfold gok; cbn; lia|]. intros x Hx Hf. specialize (Fr x Hf). cbn in Hx. lia. }
  assert (St : forall t x v, core t (L ++ [B a n KTmp]) fl -> a <= x < a + n -> core (store t x v) (L ++ [B a n KTmp]) fl).
  { intros t x v Ct Hx. apply (core_store_tmp t _ fl x v (B a n KTmp) Ct); [apply in_mid|reflexivity|exact Hx]. }
  match goal with |- core ?t _ _ => set (t0 := t) end.
  assert (C1 : core t0 (L ++ [B a n KTmp]) fl).
  { subst t0. repeat (apply St; [|lia]). exact C0. }
  apply (core_cut t0 L a n 32 [] fl) in C1; [|lia|lia|lia].
  assert (Fa : vm t0 a = 35 /\ vm t0 (a + 8) = 0 /\ vm t0 (a + 32) = n - 64 + 3 /\ vm t0 (a + 32 + 8) = 1 /\ vm t0 (a + n - 32) = 35 /\ vm t0 (a + n - 32 + 8) = 0).
  { subst t0. unfold SPECIALGINT1DV. cbn [vm store]. rewrite (mkspecial_eq (n - 64)) by lia. repeat split; (rewrite ?upd_other by lia; apply upd_same). }
  destruct Fa as (F1 & F2 & F3 & F4 & F5 & F6). clearbody t0.
  assert (C2 := core_kind t0 L a 32 KTmp KStart _ fl C1 ltac:(discriminate) ltac:(discriminate)).
  assert (C3 : core t0 (L ++ B a 32 KStart :: [B (a + 32) (n - 32) KTmp]) fl).
  { apply C2; [unfold gok; cbn; lia|]. unfold fixed. cbn [bk ba]. auto. }
  clear C1 C2. change (L ++ B a 32 KStart :: [B (a + 32) (n - 32) KTmp]) with (L ++ [B a 32 KStart] ++ B (a + 32) (n - 32) KTmp :: []) in C3. rewrite app_assoc in C3.
  apply (core_cut t0 _ (a + 32) (n - 32) (n - 64) [] fl) in C3; [|lia|lia|lia].
  assert (C4 : core t0 ((L ++ [B a 32 KStart]) ++ B (a + 32) (n - 64) KDv :: [B (a + 32 + (n - 64)) (n - 32 - (n - 64)) KTmp]) fl).
  { apply (core_kind t0 _ (a + 32) (n - 64) KTmp KDv _ fl C3); [discriminate|discriminate|unfold gok; cbn; lia|]. unfold fixed. cbn [bk ba bs]. auto. }
  clear C3. replace (n - 32 - (n - 64)) with 32 in C4 by lia.
  change ((L ++ [B a 32 KStart]) ++ B (a + 32) (n - 64) KDv :: [B (a + 32 + (n - 64)) 32 KTmp]) with ((L ++ [B a 32 KStart]) ++ [B (a + 32) (n - 64) KDv] ++ B (a + 32 + (n - 64)) 32 KTmp :: []) in C4.
  rewrite app_assoc in C4.
  apply (core_kind t0 _ _ 32 KTmp KEnd _ fl) in C4; [|discriminate|discriminate|unfold gok; cbn; lia|].
  - rewrite <- !app_assoc in C4. exact C4.
  - unfold fixed. cbn [bk ba bs]. replace (a + 32 + (n - 64)) with (a + n - 32) by lia. auto.
Qed.

Lemma pow_div8 k : 13 <= k -> 2 ^ k mod 32 = 0 /\ 8192 <= 2 ^ k.
Proof.
  intros H. replace k with (13 + (k - 13)) by lia. rewrite Z.pow_add_r by lia. change (2 ^ 13) with 8192.
  pose proof (Z.pow_pos_nonneg 2 (k - 13) ltac:(lia) ltac:(lia)). split; [|nia].
  replace (8192 * 2 ^ (k - 13)) with (256 * 2 ^ (k - 13) * 32) by ring. apply Z.mod_mul. lia.
Qed.

Lemma vsub_spec s k s' : 0 < vfree s -> vfree s mod 8 = 0 -> vfree s < vsize s <= 2 ^ 40 -> 13 <= k < 63 -> init_vsubarea s (2 ^ k) = Some s' ->
  exists free', s' = VS (vm s) (vb s) (vhdr s) free' (vsize s) (Sub (2 ^ k) (vfree s) (2 ^ k) (vfree s) :: vsubs s) /\
    vfree s + 2 ^ k <= free' /\ free' < vsize s /\ free' mod 8 = 0.
Proof.
  intros F1 F2 F3 Hk. unfold init_vsubarea. destruct (pow_div8 k ltac:(lia)) as [M G].
  assert (P63 : 2 ^ k < 2 ^ 63) by (apply Z.pow_lt_mono_r; lia).
  destruct (Z.ltb_spec (2 ^ k) MINIMAL_SUBAREA_SIZE); [discriminate|].
  destruct (alloc_db_segmentchunk (vfree s) (vsize s) (2 ^ k)) as [c free'] eqn:E.
  apply chunk_spec in E; [|lia|exact F2|lia|lia|lia]. destruct (Z.eqb_spec c 0) as [|N]; [discriminate|].
  destruct E as [(E & _)|(-> & E1 & E2 & E3)]; [congruence|]. rewrite align_fill_0 by lia. rewrite Z.sub_0_r, Z.add_0_r.
  assert (R : Z.rem (2 ^ k) MIN_VARLENOBJ_SIZE = 0).
  { unfold MIN_VARLENOBJ_SIZE. apply Z.rem_divide; [lia|]. apply Z.mod_divide; [lia|exact M]. }
  rewrite R, Z.sub_0_r. intros Hi. injection Hi as <-. exists free'. auto.
Qed.

Lemma grow_spec n : forall k m, 13 <= k <= 62 -> m <= 2 ^ 42 -> (62 - Z.to_nat k < n)%nat -> exists j, 13 <= j <= 62 /\ grow n (2 ^ k) m = 2 ^ j /\ m <= 2 ^ j.
Proof.
  induction n as [|n IH]; intros k m Hk Hm Hn; [lia|]. cbn [grow]. pose proof (Z.pow_pos_nonneg 2 k ltac:(lia) ltac:(lia)) as P.
  destruct (Z.leb_spec 0 (2 ^ k)); [|lia]. cbn [andb]. destruct (Z.ltb_spec (2 ^ k) m) as [L|L].
  - assert (k < 42). { destruct (Z.lt_ge_cases k 42) as [|Q]; [assumption|]. pose proof (Z.pow_le_mono_r 2 42 k ltac:(lia) Q). lia. }
    rewrite Z.shiftl_mul_pow2, Z.mul_comm, <- Z.pow_add_r by lia. rewrite wrap64_id.
    + rewrite (Z.add_comm 1 k). apply IH; lia.
    + unfold is64. pose proof (Z.pow_lt_mono_r 2 (1 + k) 63 ltac:(lia) ltac:(lia) ltac:(lia)). pose proof (Z.pow_pos_nonneg 2 (1 + k) ltac:(lia) ltac:(lia)). lia.
  - exists k. split; [lia|]. split; [reflexivity|lia].
Qed.

Lemma vtry_spec n : forall s k m s', 0 < vfree s -> vfree s mod 8 = 0 -> vfree s < vsize s <= 2 ^ 40 -> 12 <= k < 63 -> 8192 <= m ->
  extend_vtry n s (2 ^ k) m = Some s' ->
  exists j free', 13 <= j /\ s' = VS (vm s) (vb s) (vhdr s) free' (vsize s) (Sub (2 ^ j) (vfree s) (2 ^ j) (vfree s) :: vsubs s) /\
    m <= 2 ^ j /\ vfree s + 2 ^ j <= free' /\ free' < vsize s /\ free' mod 8 = 0.
Proof.
  induction n as [|n IH]; intros s k m s' F1 F2 F3 Hk Hm; cbn [extend_vtry]; [discriminate|].
  destruct (Z.leb_spec m (2 ^ k)) as [L|L]; [|discriminate].
  assert (13 <= k). { destruct (Z.lt_ge_cases k 13) as [Q|Q]; [|assumption]. replace k with 12 in L by lia. change (2 ^ 12) with 4096 in L. lia. }
  destruct (init_vsubarea s (2 ^ k)) as [s1|] eqn:E.
  - intros H1. injection H1 as <-. apply vsub_spec in E; auto; [|lia]. destruct E as (f & -> & E). exists k, f. split; [lia|]. split; [reflexivity|]. lia.
  - rewrite Z.shiftr_div_pow2 by lia. replace (2 ^ k) with (2 ^ (k - 1) * 2 ^ 1) by (rewrite <- Z.pow_add_r by lia; f_equal; lia).
    rewrite Z.div_mul by lia. apply IH; auto. lia.
Qed.

Lemma mark_new_others s a n : vhdr (mark_new s a n) = vhdr s /\ vfree (mark_new s a n) = vfree s /\ vsize (mark_new s a n) = vsize s /\ vsubs (mark_new s a n) = vsubs s.
Proof. repeat split. Qed.

Lemma max_sub s L fl : inv s L fl -> forall u, In u (vsubs s) -> exists k, 13 <= k < 40 /\ sa_size u = 2 ^ k.
Proof.
  intros I u Hu. pose proof (so_ok _ _ (i_subs _ _ _ I)) as O. rewrite Forall_forall in O. specialize (O u Hu).
  destruct O as (_ & _ & (k & K1 & K2) & O1 & O2 & O3). exists k. split; [|exact K2]. split; [exact K1|].
  pose proof (so_free _ _ (i_subs _ _ _ I)). destruct (Z.lt_ge_cases k 40) as [|Q]; [assumption|]. pose proof (Z.pow_le_mono_r 2 40 k ltac:(lia) Q). lia.
Qed.

Lemma extend_spec s L fl used : inv s L fl -> 32 <= used <= 2 ^ 40 ->
  extend_varlen_area s used = VOk s 0 \/
  exists s' L' fl' u, extend_varlen_area s used = VOk s' 1 /\ inv s' L' fl' /\ lrel (lives L) (lives L') /\ vsubs s' = u :: vsubs s.
Proof.
  intros I Hu. unfold extend_varlen_area. destruct I as [C F D S]. pose proof S as S0. destruct (vsubs s) as [|last rest] eqn:Es; [now left|].
  destruct (Z.leb_spec SUBAREA_ARRAY_SIZE (Z.of_nat (length (last :: rest)) - 1 + 1)) as [|Hl]; [now left|]. unfold SUBAREA_ARRAY_SIZE in Hl.
  assert (I : inv s L fl) by (constructor; assumption).
  rewrite wrap64_id by (unfold is64, SUBAREA_ALIGNMENT_BYTES, MIN_VARLENOBJ_SIZE; lia).
  set (m0 := used + SUBAREA_ALIGNMENT_BYTES + 2 * MIN_VARLENOBJ_SIZE). assert (Em : m0 = used + 72) by (unfold m0, SUBAREA_ALIGNMENT_BYTES, MIN_VARLENOBJ_SIZE; lia).
  destruct (Z.ltb_spec m0 0); [lia|]. set (m := if m0 <? MINIMAL_SUBAREA_SIZE then MINIMAL_SUBAREA_SIZE else m0).
  assert (Hm : 8192 <= m <= 2 ^ 42 /\ m0 <= m). { unfold m, MINIMAL_SUBAREA_SIZE. destruct (Z.ltb_spec m0 8192); lia. } clearbody m m0.
  destruct (max_sub s L fl I last) as (k & Hk & Ek); [rewrite Es; now left|]. rewrite Ek, Z.shiftl_mul_pow2, Z.mul_comm, <- Z.pow_add_r by lia.
  rewrite wrap64_id.
  2: { unfold is64. pose proof (Z.pow_lt_mono_r 2 (1 + k) 63 ltac:(lia) ltac:(lia) ltac:(lia)). pose proof (Z.pow_pos_nonneg 2 (1 + k) ltac:(lia) ltac:(lia)). lia. }
  destruct (grow_spec 64 (1 + k) m) as (j & Hj & Eg & _); [lia|lia|lia|]. rewrite Eg.
  destruct (so_free _ _ S) as (F1 & F2 & F3).
  destruct (extend_vtry 64 s (2 ^ j) m) as [s1|] eqn:Et; [|now left].
  apply vtry_spec in Et; [|lia|lia|lia|lia|lia]. destruct Et as (j' & f & Hj' & E1 & Ef1 & Ef2 & Ef3 & Ef4).
  right. unfold init_subarea_freespace. rewrite E1. cbn [vsubs]. rewrite Es. cbn [sa_asize sa_aoffset].
  set (u := Sub (2 ^ j') (vfree s) (2 ^ j') (vfree s)) in *. rewrite Es in E1. rewrite <- E1.
  assert (C1 : core s1 L fl) by (apply (core_ext s); [exact C| | |]; now rewrite E1).
  assert (D1 : dvok s1 L). { unfold dvok in *. rewrite E1. exact D. }
  destruct (retire_spec s1 L fl C1 F D1) as (s2 & L2 & fl2 & R & C2 & F2' & Dv & St & En & Lr & Q1 & Q2 & Q3 & Q4 & Q5).
  { intros b Hb. apply (size_ok s L fl b C F S Hb). }
  rewrite R. destruct (pow_div8 j' Hj') as [M G].
  pose proof (mark_new_spec s2 L2 fl2 (vfree s) (2 ^ j') C2) as C3. fold (mark_new s2 (vfree s) (2 ^ j')).
  set (s3 := mark_new s2 (vfree s) (2 ^ j')) in *. set (L3 := L2 ++ _) in C3.
  exists s3, L3, fl2, u. split; [reflexivity|]. destruct (mark_new_others s2 (vfree s) (2 ^ j')) as (X1 & X2 & X3 & X4). fold s3 in X1, X2, X3, X4.
  assert (Vs : vsubs s3 = u :: last :: rest) by (rewrite X4, Q4, E1; reflexivity).
  assert (Vf : vfree s3 = f) by (rewrite X2, Q2, E1; reflexivity).
  assert (Vz : vsize s3 = vsize s) by (rewrite X3, Q3, E1; reflexivity).
  split; [|split; [|rewrite Vs; reflexivity]].
  - constructor.
    + apply C3; [|exact (so_for _ _ S)|lia|lia|lia|lia]. intros b Hb. destruct (Q5 b Hb) as (c & Hc & E2 & E3).
      destruct (last_end s L fl C F S c Hc) as [_ Z]. unfold bend in *. lia.
    + apply full_add. exact F2'.
    + right. exists (vfree s + 32), (2 ^ j' - 64). split; [|split; reflexivity]. unfold L3. rewrite dvs_app, Dv. reflexivity.
    + destruct S as [S1' S2' S3' S4' S5' S6' S7']. constructor.
      * unfold L3. rewrite sts_app, St, S1', Vs, Es. cbn [rev]. rewrite !map_app. reflexivity.
      * unfold L3. rewrite ens_app, En, S2', Vs, Es. cbn [rev]. rewrite !map_app. cbn [map]. f_equal. unfold ens, bend. cbn. f_equal. lia.
      * rewrite Vs, Vf. constructor.
        -- unfold subok, u. cbn. repeat split; try lia. exists j'. split; [exact Hj'|reflexivity].
        -- rewrite Es in S3'. apply (Forall_impl (subok f)) in S3'; [exact S3'|]. intros v. unfold subok. intuition lia.
      * rewrite Vs. constructor; [|rewrite <- Es; exact S4']. rewrite <- Es. apply (Forall_impl _ (P := subok (vfree s))); [|exact S3'].
        intros v. unfold subok, u. cbn. lia.
      * rewrite Vf, Vz. lia.
      * rewrite Vs. split; [discriminate|]. cbn [length] in *. lia.
      * intros x Hx. specialize (S7' x Hx). rewrite Vf. lia.
  - unfold L3. rewrite lives_app. cbn. rewrite app_nil_r. exact Lr.
Qed.

Lemma alloc_rec_spec n : forall s L fl w, inv s L fl -> 0 <= w < 2 ^ 40 -> w mod 8 = 0 -> (64 < n + length (vsubs s))%nat ->
  exists s' r, alloc_rec n s w = VOk s' r /\
   exists L' fl', inv s' L' fl' /\
    if r =? 0 then lrel (lives L) (lives L')
    else exists l1 l2 d, lrel (lives L) (l1 ++ l2) /\ lives L' = l1 ++ (r, w, d) :: l2.
Proof.
  induction n as [|n IH]; intros s L fl w I W1 W2 Hn; cbn [alloc_rec].
  - destruct (so_ne _ _ (i_subs _ _ _ I)). lia.
  - pose proof (alloc_try_spec s L fl w I W1 W2) as T. destruct (alloc_try s w) as [s' r| |].
    + destruct T as (L' & fl' & l1 & l2 & d & I' & Nz & _ & E1 & E2). exists s', r. split; [reflexivity|]. exists L', fl'. split; [exact I'|].
      destruct (Z.eqb_spec r 0); [congruence|]. exists l1, l2, d. rewrite E1. split; [apply lrel_refl|exact E2].
    + rewrite used_bytes_eq by lia. destruct (extend_spec s L fl (Z.max 32 w) I ltac:(lia)) as [E|(s1 & L1 & fl1 & u & E & I1 & R1 & V)]; rewrite E.
      * cbn [Z.eqb]. exists s, 0. split; [reflexivity|]. exists L, fl. split; [exact I|]. apply lrel_refl.
      * cbn [Z.eqb]. destruct (IH s1 L1 fl1 w I1 W1 W2) as (s' & r & Ea & L' & fl' & I' & R); [rewrite V; cbn [length]; lia|].
        exists s', r. split; [exact Ea|]. exists L', fl'. split; [exact I'|]. destruct (r =? 0).
        -- eapply lrel_trans; eauto.
        -- destruct R as (l1 & l2 & d & R & El). exists l1, l2, d. split; [eapply lrel_trans; eauto|exact El].
    + contradiction.
Qed.

Lemma alloc_gints_spec s L fl nr : inv s L fl -> nr * 8 < 2 ^ 40 -> - 2 ^ 60 <= nr ->
  exists s' r, wg_alloc_gints s nr = VOk s' r /\
   exists L' fl', inv s' L' fl' /\
    if r =? 0 then lrel (lives L) (lives L')
    else 0 <= nr /\ exists l1 l2 d, lrel (lives L) (l1 ++ l2) /\ lives L' = l1 ++ (r, nr * 8, d) :: l2.
Proof.
  intros I H1 H2. unfold wg_alloc_gints, wanted_bytes. rewrite wrap64_id by (unfold is64; lia).
  destruct (Z.ltb_spec (nr * 8) 0).
  - exists s, 0. split; [reflexivity|]. exists L, fl. split; [exact I|]. apply lrel_refl.
  - destruct (alloc_rec_spec 64 s L fl (nr * 8) I) as (s' & r & E & L' & fl' & I' & R); [lia|apply Z.mod_mul; lia| |].
    + destruct (so_ne _ _ (i_subs _ _ _ I)). destruct (vsubs s); [congruence|cbn; lia].
    + exists s', r. split; [exact E|]. exists L', fl'. split; [exact I'|]. destruct (r =? 0); [exact R|]. split; [lia|exact R].
Qed.

(** Creation. *)
Lemma core_empty m hdr free size subs : (forall x, foreign x -> m x = base x) -> core (VS m (fun _ => 0) hdr free size subs) [] (fun _ => []).
Proof.
  intros Fm. constructor; try constructor; cbn.
  - exact Fm.
  - contradiction.
  - reflexivity.
  - split; [exact I|constructor].
  - contradiction.
  - intros (b & [] & _).
Qed.
Lemma init_spec m hdr free size s : (forall x, foreign x -> m x = base x) -> (forall x, foreign x -> x < free) -> 0 < free -> free mod 8 = 0 -> free < size <= 2 ^ 40 -> init_var_area m hdr free size = Some s ->
  exists L fl, inv s L fl /\ lives L = [].
Proof.
  intros Fm Fr F1 F2 F3. unfold init_var_area. change INITIAL_SUBAREA_SIZE with (2 ^ 13).
  destruct (init_vsubarea (VS m (fun _ => 0) hdr free size []) (2 ^ 13)) as [s1|] eqn:E; [|discriminate].
  apply vsub_spec in E; cbn; auto; [|lia]. destruct E as (f & E1 & E2 & E3 & E4). cbn in E1, E2, E3.
  unfold init_subarea_freespace. rewrite E1. cbn [vsubs sa_asize sa_aoffset]. rewrite <- E1. fold (mark_new s1 free 8192). intros H. injection H as <-.
  pose proof (mark_new_spec s1 [] (fun _ => []) free 8192) as C. cbn [app] in C.
  destruct (mark_new_others s1 free 8192) as (X1 & X2 & X3 & X4). exists [B free 32 KStart; B (free + 32) (8192 - 64) KDv; B (free + 32 + (8192 - 64)) 32 KEnd], (fun _ => []).
  split; [|reflexivity]. constructor.
  - apply C; try lia; [|intros b []|exact Fr]. rewrite E1. apply core_empty, Fm.
  - apply full_single.
  - right. exists (free + 32), (8192 - 64). split; [reflexivity|]. split; reflexivity.
  - assert (Vs : vsubs (mark_new s1 free 8192) = [Sub (2 ^ 13) free (2 ^ 13) free]) by (rewrite X4, E1; reflexivity).
    constructor; rewrite ?Vs.
    + reflexivity.
    + cbn. unfold bend. cbn. f_equal. lia.
    + constructor; [|constructor]. rewrite X2, E1. cbn [vfree]. unfold subok. cbn [sa_aoffset sa_asize sa_size sa_offset]. repeat split; try lia. exists 13. split; [lia|reflexivity].
    + constructor; constructor.
    + rewrite X2, X3, E1. cbn [vfree vsize]. lia.
    + split; [discriminate|cbn; lia].
    + intros x Hx. specialize (Fr x Hx). rewrite X2, E1. cbn [vfree]. lia.
Qed.

End WithRegion.
