(** Memory pool properties. *)
From Coq Require Import ZArith List Lia Bool.
From Verif Require Import Base MpoolModel MpoolProofs.
Import ListNotations.
Open Scope Z_scope.

(** ** C32: in every execution, with any behaviour of malloc allowed by its
    contract, the blocks given out are word aligned, non-empty, inside one
    malloc-ed area, outside the pool's own header, and pairwise disjoint. *)
Theorem C32_blocks_disjoint p m h : mreach p m h ->
  (forall o, In o h -> let '(q, n) := extent o in
     0 < n /\ q mod 4 = 0 /\
     exists ar, In ar (cur p :: older p) /\ astart ar <= q /\ q + n <= aend ar) /\
  (forall i j o1 o2, i <> j -> nth_error h i = Some o1 -> nth_error h j = Some o2 ->
     fst (extent o1) + snd (extent o1) <= fst (extent o2) \/ fst (extent o2) + snd (extent o2) <= fst (extent o1)).
Proof.
  intros R. destruct (reach_inv p m h R) as (base & I & _). split.
  - intros o Ho. destruct (pi_in _ _ _ I (extent o) (in_map extent _ _ Ho)) as (I1 & I2 & I3 & _).
    destruct (extent o) as [q n]. cbn [fst snd] in *. split; [exact I1|]. split; [exact I2|].
    destruct I3 as [(ar & A & B & C)|(A & B & _)]; cbn [fst snd] in *.
    + exists ar. split; [now right|]. auto.
    + exists (cur p). split; [now left|]. auto.
  - pose proof (pi_disj _ _ _ I) as D. clear I R. revert D.
    induction h as [|o h IH]; intros D i j o1 o2 N H1 H2; [destruct i; discriminate|].
    cbn [map] in D. inversion D as [|? ? D1 D2]; subst. rewrite Forall_forall in D1.
    destruct i as [|i], j as [|j]; cbn [nth_error] in *.
    + congruence.
    + injection H1 as <-. apply nth_error_In in H2. apply (D1 _ (in_map extent _ _ H2)).
    + injection H2 as <-. apply nth_error_In in H1. destruct (D1 _ (in_map extent _ _ H1)); auto.
    + apply (IH D2 i j); congruence.
Qed.
Print Assumptions C32_blocks_disjoint.

(** The areas themselves never overlap, and the table of 100 areas is never
    outgrown: at most 21 areas exist. *)
Theorem C32_area_table p m h : mreach p m h -> 0 <= cur_subarea p <= 20.
Proof.
  intros R. destruct (reach_inv p m h R) as (base & I & _). destruct (pi_size _ _ _ I) as [[S1 S2] S3].
  split; [exact S3|]. destruct (Z.le_gt_cases (cur_subarea p) 20) as [|L]; [assumption|exfalso].
  assert (2 ^ 21 <= 2 ^ cur_subarea p) by (apply Z.pow_le_mono_r; lia). change (2 ^ 21) with 2097152 in *. unfold INT_MAX in *. lia.
Qed.
Print Assumptions C32_area_table.

(** The call has a defined outcome whenever the request and the current area are
    below 2^30 bytes; it fails only for a non-positive size or when malloc does. *)
Lemma double_size_defined n : forall b w, 0 < b < 2 ^ 30 -> w <= 2 ^ 30 -> exists r, double_size n b w = Some r.
Proof.
  induction n as [|n IH]; intros b w Hb Hw; cbn [double_size]; [eauto|]. cbv zeta. change (2 ^ 30) with 1073741824 in *.
  destruct (Z.ltb_spec INT_MAX (b * 2)) as [H|H]; [unfold INT_MAX in H; lia|].
  destruct (Z.leb_spec w (b * 2)); [eauto|]. apply IH; lia.
Qed.
Theorem C32_defined p m h malloc n : mreach p m h -> n + 4 <= 2 ^ 30 -> asize (cur p) < 2 ^ 30 ->
  (exists p' q, wg_alloc_mpool malloc p n = ROk (p', q)) \/
  (wg_alloc_mpool malloc p n = RNull /\ (n <= 0 \/ exists k, n <= k /\ malloc k = None)).
Proof.
  intros R Hn Ha. pose proof (C32_area_table _ _ _ R) as T. destruct (reach_inv p m h R) as (base & I & _). destruct (pi_size _ _ _ I) as [[S1 S2] S3].
  assert (0 < 2 ^ cur_subarea p) by (apply Z.pow_pos_nonneg; lia).
  unfold wg_alloc_mpool. destruct (Z.leb_spec n 0) as [|Hp]; [right; auto|]. cbv zeta.
  destruct (Z.ltb_spec (aend (cur p)) (freeptr p + n)) as [Ext|]; [|left; eauto].
  unfold extend_mpool. unfold ALIGNMENT_BYTES.
  destruct (Z.ltb_spec INT_MAX (n + 4)) as [L|L]; [change (2 ^ 30) with 1073741824 in *; unfold INT_MAX in L; lia|].
  assert (Sp : 0 < asize (cur p) < 2 ^ 30) by lia.
  destruct (double_size_defined 100 (asize (cur p)) (n + 4) Sp Hn) as [r Hr]. rewrite Hr.
  destruct (double_size_fits _ _ _ (proj1 Sp) Hr L) as [F1 F2].
  destruct (malloc r) as [sub|] eqn:Em.
  - destruct (Z.leb_spec NROF_SUBAREAS (cur_subarea p + 1)) as [Q|Q]; [unfold NROF_SUBAREAS in Q; lia|]. left. eauto.
  - right. split; [reflexivity|]. right. exists r. split; [lia|exact Em].
Qed.
Print Assumptions C32_defined.

(** Finding: a large request makes the doubled int size overflow (in practice
    the size wraps round to 0, malloc(0) succeeds, and memory that was never
    allocated is handed out). *)
Definition demo_malloc : Z -> option Z := fun n => Some 4097.
Definition demo_pool : pool := Pool 6516 0 (Area 1028 4097 7541) [].
Theorem C32_large_request_refuted : exists malloc p m h n, mreach p m h /\ malloc_ok (cur p :: older p) malloc /\ 0 < n <= INT_MAX /\
  wg_alloc_mpool malloc p n = RUndef.
Proof.
  exists (fun _ => None), demo_pool, (fun _ => 0), [], 1200000000.
  split; [|split; [|split; [unfold INT_MAX; lia|reflexivity]]].
  - apply (MRcreate demo_malloc 10); [|reflexivity]. intros n a H. injection H as <-. split; [lia|intros ? []].
  - intros n a H. discriminate.
Qed.
Print Assumptions C32_large_request_refuted.

(** Non-trivial execution: a pool at an odd address, a block of 7 bytes, an atom,
    a pair, and a block that does not fit the first area. *)
Definition demo_malloc2 : Z -> option Z := fun n => Some 9999.
Definition run_demo :=
  match wg_create_mpool demo_malloc 10 with
  | ROk p0 => match wg_alloc_mpool demo_malloc p0 7 with
    | ROk (p1, q1) => match wg_mkatom demo_malloc p1 (fun _ => 77) 5 (Some [72;105]) (Some [120;121;122]) with
      | ROk (p2, m2, a2) => match wg_mkpair demo_malloc p2 m2 a2 (-3) with
        | ROk (p3, m3, a3) => match wg_alloc_mpool demo_malloc2 p3 5000 with
          | ROk (p4, q4) => Some (p4, m3, [OBlock q4 5000; OPair a3 a2 (-3); OAtom a2 5 (Some [72;105]) (Some [120;121;122]); OBlock q1 7])
          | _ => None end
        | _ => None end
      | _ => None end
    | _ => None end
  | _ => None end.
Local Opaque put le8.
Lemma demo_reach : exists p m h, run_demo = Some (p, m, h) /\ mreach p m h /\
  map extent h = [(10000, 5000); (6536, 16); (6524, 9); (6516, 7)] /\ freeptr p = 15000 /\ length (older p) = 1%nat.
Proof.
  assert (M : malloc_ok [] demo_malloc) by (intros n a H; injection H as <-; split; [lia|intros ? []]).
  destruct run_demo as [[[p m] h]|] eqn:E; [|exfalso; vm_compute in E; discriminate]. exists p, m, h. split; [reflexivity|].
  unfold run_demo in E. remember (fun _ : Z => 77) as m0 eqn:Em0.
  destruct (wg_create_mpool demo_malloc 10) as [p0| |] eqn:E0; try discriminate.
  destruct (wg_alloc_mpool demo_malloc p0 7) as [[p1 q1]| |] eqn:E1; try discriminate.
  destruct (wg_mkatom demo_malloc p1 m0 5 (Some [72;105]) (Some [120;121;122])) as [[[p2 m2] a2]| |] eqn:E2; try discriminate.
  destruct (wg_mkpair demo_malloc p2 m2 a2 (-3)) as [[[p3 m3] a3]| |] eqn:E3; try discriminate.
  destruct (wg_alloc_mpool demo_malloc2 p3 5000) as [[p4 q4]| |] eqn:E4; try discriminate.
  injection E as <- <- <-.
  vm_compute in E0. injection E0 as E0. rewrite <- E0 in E1. vm_compute in E1. injection E1 as E1 E1'.
  assert (R0 : mreach p0 m0 []) by (rewrite <- E0; now apply (MRcreate demo_malloc 10)).
  assert (N : forall pp, malloc_ok [] demo_malloc -> malloc_ok (cur pp :: older pp) (fun _ => None)) by (intros; intros ? ? X; discriminate).
  assert (A1 : wg_alloc_mpool (fun _ => None) p0 7 = ROk (p1, q1)) by (rewrite <- E0, <- E1, <- E1'; reflexivity).
  assert (I7 : 7 <= INT_MAX) by (unfold INT_MAX; lia). assert (I5 : 5000 <= INT_MAX) by (unfold INT_MAX; lia).
  assert (R1 := MRalloc _ _ _ _ _ _ _ R0 (N p0 M) I7 A1).
  assert (A2 : wg_mkatom (fun _ => None) p1 m0 5 (Some [72;105]) (Some [120;121;122]) = ROk (p2, m2, a2)).
  { rewrite <- E2, <- E1. reflexivity. }
  assert (K1 : cstr_ok (Some [72;105])) by (repeat constructor; lia).
  assert (K2 : cstr_ok (Some [120;121;122])) by (repeat constructor; lia).
  assert (R2 := MRatom _ _ _ _ _ _ _ _ _ _ R1 (N p1 M) K1 K2 A2).
  assert (P2 : p2 = Pool 6536 0 (Area 1028 4097 7541) [] /\ a2 = 6525).
  { rewrite <- E1 in E2. unfold wg_mkatom in E2. cbn in E2. injection E2 as <- _ <-. auto. }
  destruct P2 as [P2 P2'].
  assert (A3 : wg_mkpair (fun _ => None) p2 m2 a2 (-3) = ROk (p3, m3, a3)) by (rewrite <- E3, P2; reflexivity).
  assert (R3 := MRpair _ _ _ _ _ _ _ _ _ R2 (N p2 M) A3).
  assert (P3 : p3 = Pool 6552 0 (Area 1028 4097 7541) [] /\ a3 = 6536).
  { rewrite P2 in E3. unfold wg_mkpair in E3.
    change (wg_alloc_mpool demo_malloc (Pool 6536 0 (Area 1028 4097 7541) []) 16) with (@ROk (pool * Z) (Pool 6552 0 (Area 1028 4097 7541) [], 6536)) in E3. injection E3 as <- _ <-. auto. }
  destruct P3 as [P3 P3']. 
  assert (M4 : malloc_ok (cur p3 :: older p3) demo_malloc2).
  { rewrite P3. intros n a H. injection H as <-. split; [lia|]. intros ar [<-|[]]. right. cbn. lia. }
  assert (R4 := MRalloc _ _ _ _ _ _ _ R3 M4 I5 E4).
  split; [exact R4|]. rewrite P3 in E4. vm_compute in E4. injection E4 as <- <-. rewrite P3', P2', <- E1'. cbn. auto.
Qed.
Example C32_example : exists p m h, mreach p m h /\ length h = 4%nat /\ asize (cur p) < 2 ^ 30 /\ 1000 + 4 <= 2 ^ 30.
Proof.
  destruct demo_reach as (p & m & h & E & R & X & _). exists p, m, h. split; [exact R|].
  assert (L : length (map extent h) = 4%nat) by now rewrite X. rewrite map_length in L. split; [exact L|].
  destruct (reach_inv p m h R) as (base & I & _). vm_compute in E. injection E as <- _ _. split; vm_compute; congruence.
Qed.

Local Transparent put le8.
(** ** C33 *)
Definition str_holds (m : bmem) (q : Z) (s : list Z) : Prop :=
  (forall i, (i < length s)%nat -> m (q + Z.of_nat i) = nth i s 0) /\ m (q + Z.of_nat (length s)) = 0.

Lemma strat_app l : forall f m p, Forall (fun b => 0 < b < 256) l ->
  (forall i, (i < length l)%nat -> m (p + Z.of_nat i) = nth i l 0) -> m (p + Z.of_nat (length l)) = 0 ->
  (length l < f)%nat -> strat f m p = l.
Proof.
  induction l as [|b l IH]; intros f m p F H H0 L; cbn [length] in *; destruct f as [|f]; try lia; cbn [strat].
  - replace (p + Z.of_nat 0) with p in H0 by lia. rewrite H0. reflexivity.
  - inversion F as [|? ? F1 F2]; subst. assert (Hb := H 0%nat ltac:(lia)). cbn [nth] in Hb. replace (p + Z.of_nat 0) with p in Hb by lia.
    rewrite Hb. destruct (Z.eqb_spec b 0); [lia|]. f_equal. apply IH; auto; try lia.
    + intros i Hi. specialize (H (S i) ltac:(lia)). cbn [nth] in H. rewrite <- H. f_equal. lia.
    + rewrite <- H0. f_equal. lia.
Qed.

(** The bytes of an atom in memory. *)
Lemma atom_bytes p m h a t s1 s2 : mreach p m h -> In (OAtom a t s1 s2) h ->
  m a = t mod 256 /\ str_holds m (a + 1) (chars s1) /\ str_holds m (a + 2 + Z.of_nat (length (chars s1))) (chars s2) /\
  cstr_ok s1 /\ cstr_ok s2 /\ 0 < a /\ a mod 4 = 1.
Proof.
  intros R Hin. destruct (reach_inv p m h R) as (base & I & C & O). rewrite Forall_forall in C, O. specialize (C _ Hin). specialize (O _ Hin). cbn in O.
  destruct O as (K1 & K2 & A1 & A2). unfold holds in C. cbn [bytes_of] in C. set (c1 := chars s1) in *. set (c2 := chars s2) in *.
  assert (L : length (t mod 256 :: c1 ++ [0] ++ c2 ++ [0]) = (3 + length c1 + length c2)%nat) by (cbn [length]; rewrite !app_length; cbn [length]; lia).
  rewrite L in C.
  split; [assert (E := C 0%nat ltac:(lia)); cbn [nth] in E; rewrite <- E; f_equal; lia|].
  split; [split|split; [split|repeat split; assumption]].
  - intros i Hi. assert (E := C (S i) ltac:(lia)). cbn [nth] in E. rewrite app_nth1 in E by exact Hi. rewrite <- E. f_equal. lia.
  - assert (E := C (S (length c1)) ltac:(lia)). cbn [nth] in E. rewrite app_nth2, Nat.sub_diag in E by lia. cbn [app nth] in E. rewrite <- E. f_equal. lia.
  - intros i Hi. assert (E := C (2 + length c1 + i)%nat ltac:(lia)). cbn [nth plus] in E. rewrite app_nth2 in E by lia.
    replace (S (length c1 + i) - length c1)%nat with (S i) in E by lia. cbn [app nth] in E. rewrite app_nth1 in E by exact Hi. rewrite <- E. f_equal. lia.
  - assert (E := C (2 + length c1 + length c2)%nat ltac:(lia)). cbn [nth plus] in E. rewrite app_nth2 in E by lia.
    replace (S (length c1 + length c2) - length c1)%nat with (S (length c2)) in E by lia. cbn [app nth] in E. rewrite app_nth2, Nat.sub_diag in E by lia. cbn in E.
    rewrite <- E. f_equal. lia.
Qed.

(** What holds: after any later calls on the pool an atom with a type in 1..127, a
    non-empty first string and a second string of two or more bytes gives back all
    three parts.  Missing from the full claim: the cases refuted below. *)
Theorem C33_atom_parts_partial p m h a t s1 s2 fuel : mreach p m h -> In (OAtom a t s1 s2) h ->
  1 <= t <= 127 -> (1 <= length (chars s1))%nat -> (2 <= length (chars s2))%nat -> (S (length (chars s1)) < fuel)%nat ->
  wg_isatom a = true /\ wg_ispair a = false /\ wg_atomtype m a = t /\
  (exists q, wg_atomstr1 m a = Some q /\ str_holds m q (chars s1)) /\
  (exists q, wg_atomstr2 fuel m a = Some q /\ str_holds m q (chars s2)).
Proof.
  intros R Hin Ht L1 L2 Lf. destruct (atom_bytes _ _ _ _ _ _ _ R Hin) as (B0 & (B1 & B1') & (B2 & B2') & K1 & K2 & A1 & A2).
  rewrite Z.mod_small in B0 by lia. unfold wg_isatom, wg_ispair, wg_atomtype, wg_atomstr1, wg_atomstr2.
  assert (Z0 : a =? 0 = false) by (apply Z.eqb_neq; lia). rewrite Z0. cbn [negb andb].
  assert (La : Z.land a 1 = 1). { change 1 with (Z.ones 1) at 1. rewrite Z.land_ones by lia. change (2 ^ 1) with 2. lia. }
  rewrite La. split; [reflexivity|]. split; [reflexivity|].
  split; [cbv zeta; rewrite B0; destruct (Z.ltb_spec t 128); lia|].
  unfold cstr_ok in K1, K2. split.
  - assert (N : m (a + 1) <> 0).
    { assert (E := B1 0%nat ltac:(lia)). replace (a + 1 + Z.of_nat 0) with (a + 1) in E by lia. rewrite E.
      rewrite Forall_forall in K1. assert (Lx : (0 < length (chars s1))%nat) by lia. specialize (K1 (nth 0 (chars s1) 0) (nth_In _ _ Lx)). lia. }
    apply Z.eqb_neq in N. rewrite N. exists (a + 1). split; [reflexivity|]. split; assumption.
  - unfold strlen. rewrite (strat_app (t :: chars s1)).
    + cbn [length]. cbv zeta. replace (a + Z.of_nat (S (length (chars s1))) + 1) with (a + 2 + Z.of_nat (length (chars s1))) by lia.
      assert (N : m (a + 2 + Z.of_nat (length (chars s1)) + 1) <> 0).
      { assert (E := B2 1%nat ltac:(lia)). change (Z.of_nat 1) with 1 in E. rewrite E.
        rewrite Forall_forall in K2. assert (Lx : (1 < length (chars s2))%nat) by lia. specialize (K2 (nth 1 (chars s2) 0) (nth_In _ _ Lx)). lia. }
      apply Z.eqb_neq in N. rewrite N. eexists. split; [reflexivity|]. split; assumption.
    + constructor; [lia|exact K1].
    + intros [|i] Hi; cbn [nth length] in *; [rewrite <- B0; f_equal; lia|]. rewrite <- (B1 i) by lia. f_equal. lia.
    + cbn [length]. rewrite <- B1'. f_equal. lia.
    + cbn [length]. lia.
Qed.
Print Assumptions C33_atom_parts_partial.

(** The type of every atom is kept modulo 256, read back as a signed byte. *)
Theorem C33_type p m h a t s1 s2 : mreach p m h -> In (OAtom a t s1 s2) h -> -128 <= wg_atomtype m a <= 127 /\ (wg_atomtype m a - t) mod 256 = 0.
Proof.
  intros R Hin. destruct (atom_bytes _ _ _ _ _ _ _ R Hin) as (B0 & _ & _ & _ & _ & A1 & A2). unfold wg_atomtype.
  assert (Z0 : a =? 0 = false) by (apply Z.eqb_neq; lia). rewrite Z0. cbv zeta. rewrite B0. destruct (Z.ltb_spec (t mod 256) 128); lia.
Qed.
Print Assumptions C33_type.

(** A NULL or empty first string is read back as NULL, any other as itself. *)
Theorem C33_str1 p m h a t s1 s2 : mreach p m h -> In (OAtom a t s1 s2) h ->
  (chars s1 = [] -> wg_atomstr1 m a = None) /\
  (chars s1 <> [] -> exists q, wg_atomstr1 m a = Some q /\ str_holds m q (chars s1)).
Proof.
  intros R Hin. destruct (atom_bytes _ _ _ _ _ _ _ R Hin) as (B0 & (B1 & B1') & _ & K1 & _ & A1 & A2). unfold wg_atomstr1.
  assert (Z0 : a =? 0 = false) by (apply Z.eqb_neq; lia). rewrite Z0. split.
  - intros E. rewrite E in B1'. cbn [length] in B1'. replace (a + 1 + Z.of_nat 0) with (a + 1) in B1' by lia. now rewrite B1'.
  - intros E. assert (N : m (a + 1) <> 0).
    { assert (L : (0 < length (chars s1))%nat) by (destruct (chars s1); [congruence|cbn [length]; lia]).
      assert (E1 := B1 0%nat L). replace (a + 1 + Z.of_nat 0) with (a + 1) in E1 by lia. rewrite E1.
      unfold cstr_ok in K1. rewrite Forall_forall in K1. specialize (K1 (nth 0 (chars s1) 0) (nth_In _ _ L)). lia. }
    apply Z.eqb_neq in N. rewrite N. exists (a + 1). split; [reflexivity|]. split; assumption.
Qed.
Print Assumptions C33_str1.

(** The address a pair got tells it from an atom, and the two parts stay. *)
Lemma get8_le8 m p v : - 2 ^ 63 <= v < 2 ^ 63 -> (forall i, (i < 8)%nat -> m (p + Z.of_nat i) = nth i (le8 v) 0) -> get8 m p = v.
Proof.
  intros Hv H. unfold get8. cbn [seq fold_right].
  rewrite (H 0%nat), (H 1%nat), (H 2%nat), (H 3%nat), (H 4%nat), (H 5%nat), (H 6%nat), (H 7%nat) by lia.
  unfold le8. cbn [seq map nth]. assert (U : 0 <= u64 v < 2 ^ 64) by (unfold u64; apply Z.mod_pos_bound; reflexivity).
  assert (W : wrap64 (u64 v) = v). { unfold u64, wrap64. change (2 ^ 64) with 18446744073709551616 in *. change (2^63) with 9223372036854775808 in *. lia. }
  rewrite <- W at 9. f_equal. set (u := u64 v) in *. clearbody u. rewrite !Z.shiftr_div_pow2 by lia.
  change (8 * Z.of_nat 0) with 0. change (8 * Z.of_nat 1) with 8. change (8 * Z.of_nat 2) with 16. change (8 * Z.of_nat 3) with 24.
  change (8 * Z.of_nat 4) with 32. change (8 * Z.of_nat 5) with 40. change (8 * Z.of_nat 6) with 48. change (8 * Z.of_nat 7) with 56.
  change (2 ^ 0) with 1. change (2 ^ 8) with 256. change (2 ^ 16) with (256*256). change (2 ^ 24) with (256*256*256). change (2 ^ 32) with (256*256*256*256).
  change (2 ^ 40) with (256*256*256*256*256). change (2 ^ 48) with (256*256*256*256*256*256). change (2 ^ 56) with (256*256*256*256*256*256*256).
  rewrite Z.div_1_r. rewrite <- !Z.div_div by lia. change (2 ^ 64) with 18446744073709551616 in U. lia.
Qed.
Theorem C33_pair p m h a x y : mreach p m h -> In (OPair a x y) h -> - 2 ^ 63 <= x < 2 ^ 63 -> - 2 ^ 63 <= y < 2 ^ 63 ->
  wg_ispair a = true /\ wg_isatom a = false /\ wg_first m a = x /\ wg_rest m a = y.
Proof.
  intros R Hin Hx Hy. destruct (reach_inv p m h R) as (base & I & C & O). rewrite Forall_forall in C, O. specialize (C _ Hin). specialize (O _ Hin). cbn in O.
  destruct O as [A1 A2]. unfold holds in C. cbn [bytes_of] in C. rewrite app_length, !le8_length in C.
  unfold wg_isatom, wg_ispair, wg_first, wg_rest. assert (Z0 : a =? 0 = false) by (apply Z.eqb_neq; lia). rewrite Z0.
  assert (La : Z.land a 1 = 0). { change 1 with (Z.ones 1) at 1. rewrite Z.land_ones by lia. change (2 ^ 1) with 2. lia. }
  rewrite La. split; [reflexivity|]. split; [reflexivity|]. split.
  - apply get8_le8; [exact Hx|]. intros i Hi. rewrite C by lia. now rewrite app_nth1 by (rewrite le8_length; exact Hi).
  - apply get8_le8; [exact Hy|]. intros i Hi. replace (a + 8 + Z.of_nat i) with (a + Z.of_nat (8 + i)) by lia. rewrite C by lia.
    rewrite app_nth2 by (rewrite le8_length; lia). f_equal. rewrite le8_length. lia.
Qed.
Print Assumptions C33_pair.

Example C33_example : exists p m h a, mreach p m h /\ In (OAtom a 5 (Some [72;105]) (Some [120;121;122])) h /\ In (OPair 6536 a (-3)) h /\
  wg_atomstr2 10 m a = Some 6529.
Proof.
  destruct demo_reach as (p & m & h & E & R & X & _). exists p, m, h, 6525. split; [exact R|].
  assert (F := C33_atom_parts_partial p m h 6525 5 (Some [72;105]) (Some [120;121;122]) 10 R).
  assert (In (OAtom 6525 5 (Some [72;105]) (Some [120;121;122])) h) as Hin by (vm_compute in E; injection E as _ _ <-; cbn; auto).
  split; [exact Hin|]. split; [vm_compute in E; injection E as _ _ <-; cbn; auto|].
  vm_compute in E. injection E as _ <- _. vm_compute. reflexivity.
Qed.

(** Findings: a second string of one byte is reported as missing; with type 0
    the first string is returned for the second; a type above 127 comes back
    negative; for an empty second string the answer depends on a byte after the atom. *)
Definition atom1 (m : bmem) (t : Z) (s1 s2 : list Z) : bmem * Z := fill_atom m 6516 t (Some s1) (Some s2).
Lemma atom1_reach m t s1 s2 : cstr_ok (Some s1) -> cstr_ok (Some s2) -> atom_size (Some s1) (Some s2) <= 64 ->
  exists p, mreach p (fst (atom1 m t s1 s2)) [OAtom 6517 t (Some s1) (Some s2)].
Proof.
  intros K1 K2 L. assert (M : malloc_ok [] demo_malloc) by (intros n a H; injection H as <-; split; [lia|intros ? []]).
  assert (R0 : mreach demo_pool m []) by now apply (MRcreate demo_malloc 10).
  eexists. refine (MRatom (fun _ => None) _ _ _ t (Some s1) (Some s2) _ _ _ R0 _ K1 K2 _); [intros ? ? X; discriminate|].
  assert (0 < atom_size (Some s1) (Some s2)) by (unfold atom_size; lia).
  unfold wg_mkatom. destruct (Z.ltb_spec INT_MAX (atom_size (Some s1) (Some s2))) as [Q|_]; [unfold INT_MAX in Q; lia|].
  unfold wg_alloc_mpool. destruct (Z.leb_spec (atom_size (Some s1) (Some s2)) 0); [lia|].
  cbn [demo_pool cur aend freeptr older cur_subarea]. destruct (Z.ltb_spec 7541 (6516 + atom_size (Some s1) (Some s2))); [lia|]. reflexivity.
Qed.
Theorem C33_short_string_refuted : exists p m h a, mreach p m h /\ In (OAtom a 1 (Some [97]) (Some [98])) h /\ wg_atomstr2 100 m a = None.
Proof.
  destruct (atom1_reach (fun _ => 0) 1 [97] [98]) as [p R]; [repeat constructor; lia|repeat constructor; lia|vm_compute; congruence|].
  exists p, (fst (atom1 (fun _ => 0) 1 [97] [98])), [OAtom 6517 1 (Some [97]) (Some [98])], 6517.
  split; [exact R|]. split; [now left|]. reflexivity.
Qed.
Theorem C33_type_zero_refuted : exists p m h a q, mreach p m h /\ In (OAtom a 0 (Some [97;98]) (Some [99;100])) h /\
  wg_atomstr2 100 m a = Some q /\ strat 100 m q = [97;98].
Proof.
  destruct (atom1_reach (fun _ => 0) 0 [97;98] [99;100]) as [p R]; [repeat constructor; lia|repeat constructor; lia|vm_compute; congruence|].
  exists p, (fst (atom1 (fun _ => 0) 0 [97;98] [99;100])), [OAtom 6517 0 (Some [97;98]) (Some [99;100])], 6517, 6518.
  split; [exact R|]. split; [now left|]. split; reflexivity.
Qed.
Theorem C33_type_sign_refuted : exists p m h a, mreach p m h /\ In (OAtom a 200 (Some [97]) (Some [98])) h /\ wg_atomtype m a = -56.
Proof.
  destruct (atom1_reach (fun _ => 0) 200 [97] [98]) as [p R]; [repeat constructor; lia|repeat constructor; lia|vm_compute; congruence|].
  exists p, (fst (atom1 (fun _ => 0) 200 [97] [98])), [OAtom 6517 200 (Some [97]) (Some [98])], 6517.
  split; [exact R|]. split; [now left|]. reflexivity.
Qed.
Theorem C33_empty_string_refuted : exists p1 m1 p2 m2 h a, mreach p1 m1 h /\ mreach p2 m2 h /\ In (OAtom a 1 (Some [97]) (Some [])) h /\
  wg_atomstr2 100 m1 a = None /\ wg_atomstr2 100 m2 a <> None.
Proof.
  assert (K1 : cstr_ok (Some [97])) by (repeat constructor; lia). assert (K2 : cstr_ok (Some [])) by constructor.
  destruct (atom1_reach (fun _ => 0) 1 [97] [] K1 K2) as [p1 R1]; [vm_compute; congruence|].
  destruct (atom1_reach (fun _ => 7) 1 [97] [] K1 K2) as [p2 R2]; [vm_compute; congruence|].
  exists p1, (fst (atom1 (fun _ => 0) 1 [97] [])), p2, (fst (atom1 (fun _ => 7) 1 [97] [])), [OAtom 6517 1 (Some [97]) (Some [])], 6517.
  split; [exact R1|]. split; [exact R2|]. split; [now left|]. split; [reflexivity|]. vm_compute. discriminate.
Qed.
Print Assumptions C33_empty_string_refuted.
