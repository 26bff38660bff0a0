(** What the areas of a segment leave alone: an operation of a variable-length area
    changes only words of its own subareas and words beyond the old border. *)
From Coq Require Import ZArith List Bool Lia Permutation.
From Verif Require Import Base FixAllocModel FixAllocSpec VarAllocModel VarAllocSpec VarAllocCore VarAllocProofs VarAllocStep VarAllocFree VarAllocGrow VarAllocReach.
From Verif Require FixAllocProofs.
Import ListNotations.
Open Scope Z_scope.

(** ** What only growth changes *)
Definition geo (s : vstate) := (vhdr s, vfree s, vsize s, vsubs s).
Lemma geo_store s a v : geo (store s a v) = geo s.
Proof. reflexivity. Qed.
Lemma geo_setb s a v : geo (setb s a v) = geo s.
Proof. reflexivity. Qed.
Lemma push_geo s o z s' : push_free s o z = Some s' -> geo s' = geo s.
Proof. unfold push_free. destruct (_ <? 0); [discriminate|]. cbv zeta. intros E. injection E as <-. destruct (_ =? 0); reflexivity. Qed.
Lemma unlink_geo s o z s' : unlink_free s o z = Some s' -> geo s' = geo s.
Proof. unfold unlink_free. destruct (_ <? 0); [discriminate|]. destruct (vb s _ =? o); intros E; injection E as <-; destruct (_ =? 0); reflexivity. Qed.
Lemma take_geo s i : geo (take_first s i) = geo s.
Proof. unfold take_first. cbv zeta. destruct (_ =? 0); reflexivity. Qed.
Lemma mark_geo s o : geo (mark_prevused s o) = geo s.
Proof. unfold mark_prevused. cbv zeta. destruct (isnormalusedobject _); reflexivity. Qed.
Lemma split_geo s nr i : geo (fst (split_free s nr i)) = geo s.
Proof.
  unfold split_free. destruct (negb _); [reflexivity|]. destruct (push_free _ _ _) as [s'|] eqn:E.
  - apply push_geo in E. cbn [fst]. rewrite E. exact (take_geo s i).
  - exact (take_geo s i).
Qed.
Lemma give_geo s i u w : geo (fst (split_give s i u w)) = geo s.
Proof. unfold split_give. pose proof (split_geo s u i) as E. destruct (split_free s u i) as (s' & t). cbn [fst] in E. destruct (t <? 0); exact E. Qed.
Lemma var_loop_geo n : forall s i u w s' r, var_loop n s i u w = Some (s', r) -> geo s' = geo s.
Proof.
  induction n as [|n IH]; intros s i u w s' r; cbn [var_loop]; [discriminate|]. destruct (i <? _); [|discriminate]. destruct (vb s i =? 0); [apply IH|].
  destruct (getfreeobjectsize _ =? u); [intros E; injection E as <- _; rewrite mark_geo; exact (take_geo s i)|]. destruct (_ <=? _); [|apply IH]. intros E. injection E as E. pose proof (give_geo s i u w) as G. now rewrite E in G.
Qed.
Lemma try_geo s w s' r : alloc_try s w = TDone s' r -> geo s' = geo s.
Proof.
  unfold alloc_try. destruct (_ && _); [intros E; injection E as <- _; rewrite mark_geo; exact (take_geo s _)|]. destruct (find_split 3 s _ _) as [i|].
  { pose proof (give_geo s i (used_bytes w) w) as G. destruct (split_give _ _ _ _). intros E. injection E as <- _. exact G. }
  destruct (_ && _); [intros E; injection E as <- _; reflexivity|]. destruct (_ && _); [intros E; injection E as <- _; reflexivity|].
  destruct (find_split 256 s _ _) as [i|]. { pose proof (give_geo s i (used_bytes w) w) as G. destruct (split_give _ _ _ _). intros E. injection E as <- _. exact G. }
  destruct (_ <? 0); [discriminate|]. destruct (var_loop _ _ _ _ _) as [(s1 & r1)|] eqn:E; [|discriminate]. intros E'. injection E' as <- _. exact (var_loop_geo _ _ _ _ _ _ _ E).
Qed.
Lemma free_tail_geo s o z s' r : free_tail s o z = VOk s' r -> geo s' = geo s.
Proof.
  unfold free_tail. cbv zeta.
  assert (F : forall s z, (if vb s DVSIZEBUCKET <? z then match replace_dv s o z with (s0, None) => VOk s0 0 | (s0, Some (o', z')) => match push_free s0 o' z' with None => VUndef | Some s1 => VOk s1 0 end end
     else match push_free s o z with None => VUndef | Some s0 => VOk s0 0 end) = VOk s' r -> geo s' = geo s).
  { clear. intros s z. destruct (_ <? z).
    - assert (R : geo (fst (replace_dv s o z)) = geo s). { unfold replace_dv. cbv zeta. destruct (_ =? 0); cbn [fst]; [repeat first [rewrite geo_store|rewrite geo_setb|rewrite mark_geo]; reflexivity|]. destruct (isnormalusedobject _); [repeat first [rewrite geo_store|rewrite geo_setb|rewrite mark_geo]; reflexivity|repeat first [rewrite geo_store|rewrite geo_setb|rewrite mark_geo]; reflexivity]. }
      destruct (replace_dv s o z) as (s1 & [(o' & z')|]); cbn [fst] in R; [|intros E; injection E as <- _; exact R]. destruct (push_free s1 o' z') as [s2|] eqn:E2; [|discriminate]. intros E. injection E as <- _. rewrite (push_geo _ _ _ _ E2). exact R.
    - destruct (push_free s o z) as [s2|] eqn:E2; [|discriminate]. intros E. injection E as <- _. exact (push_geo _ _ _ _ E2). }
  destruct (isfreeobject _).
  - destruct (unlink_free _ _ _) as [s1|] eqn:E1; [|discriminate]. intros E. rewrite <- (unlink_geo _ _ _ _ E1). exact (F _ _ E).
  - destruct (_ && _); [intros E; injection E as <- _; reflexivity|]. destruct (isnormalusedobject _); intros E; exact (F _ _ E).
Qed.
Lemma free_object_geo s o s' r : wg_free_object s o = VOk s' r -> geo s' = geo s.
Proof.
  unfold wg_free_object. cbv zeta. destruct (isfreeobject _); [intros E; now injection E as <- _|]. destruct (_ <? _); [intros E; now injection E as <- _|]. destruct (isnormalusedobjectprevfree _).
  - destruct (_ || _); [intros E; now injection E as <- _|]. destruct (unlink_free _ _ _) as [s1|] eqn:E1; [|discriminate]. intros E. rewrite <- (unlink_geo _ _ _ _ E1). exact (free_tail_geo _ _ _ _ _ E).
  - destruct (_ =? o); [|apply free_tail_geo]. unfold free_onto_dv. cbv zeta. destruct (isfreeobject _); [|intros E; injection E as <- _; reflexivity].
    destruct (unlink_free _ _ _) as [s1|] eqn:E1; [|discriminate]. intros E. injection E as <- _. repeat first [rewrite geo_store|rewrite geo_setb|rewrite mark_geo]. exact (unlink_geo _ _ _ _ E1).
Qed.
Lemma freespace_geo s s' : init_subarea_freespace s = Some s' -> geo s' = geo s.
Proof.
  unfold init_subarea_freespace. destruct (vsubs s) as [|u l] eqn:Es; [discriminate|]. destruct (match l with [] => Some s | _ => retire_dv s end) as [s1|] eqn:E1; [|discriminate].
  intros E. injection E as <-. change (geo s1 = geo s). destruct l; [now injection E1 as <-|]. unfold retire_dv in E1. destruct (_ && _); [|now injection E1 as <-].
  destruct (push_free _ _ _) as [s2|] eqn:E2; [|discriminate]. apply push_geo in E2. injection E1 as <-. destruct (isnormalusedobject _); exact E2.
Qed.
(** Growth adds subareas beyond the border. *)
Definition grows (s s' : vstate) : Prop :=
  vhdr s' = vhdr s /\ vsize s' = vsize s /\ vfree s <= vfree s' /\
  exists new, vsubs s' = new ++ vsubs s /\ Forall (fun u => vfree s <= sa_aoffset u) new.
Lemma grows_geo s s' : geo s' = geo s -> grows s s'.
Proof. unfold geo. intros E. injection E as E1 E2 E3 E4. unfold grows. repeat split; auto; [lia|]. exists []. split; [exact E4|constructor]. Qed.
Lemma grows_trans s1 s2 s3 : grows s1 s2 -> grows s2 s3 -> grows s1 s3.
Proof.
  intros (A1 & A2 & A3 & n1 & A4 & A5) (B1 & B2 & B3 & n2 & B4 & B5). unfold grows. repeat split; try congruence; [lia|].
  exists (n2 ++ n1). split; [rewrite B4, A4; apply app_assoc|]. apply Forall_app. split; [|exact A5]. eapply Forall_impl; [|exact B5]. cbn. intros. lia.
Qed.
Lemma extend_grows s L fl used s' r `{region} : inv s L fl -> 32 <= used <= 2 ^ 40 -> extend_varlen_area s used = VOk s' r -> grows s s'.
Proof.
  intros I Hu. pose proof (so_free _ _ (i_subs _ _ _ I)) as (F1 & F2 & F3). unfold extend_varlen_area.
  destruct (vsubs s) as [|last rest] eqn:Es; [intros E; injection E as <- _; now apply grows_geo|].
  destruct (_ <=? _); [intros E; injection E as <- _; now apply grows_geo|]. cbv zeta.
  rewrite wrap64_id by (unfold is64, SUBAREA_ALIGNMENT_BYTES, MIN_VARLENOBJ_SIZE; lia).
  destruct (_ <? 0); [intros E; injection E as <- _; now apply grows_geo|].
  set (m0 := used + SUBAREA_ALIGNMENT_BYTES + 2 * MIN_VARLENOBJ_SIZE). assert (Em : m0 = used + 72) by (unfold m0, SUBAREA_ALIGNMENT_BYTES, MIN_VARLENOBJ_SIZE; lia).
  set (m := if m0 <? MINIMAL_SUBAREA_SIZE then MINIMAL_SUBAREA_SIZE else m0).
  assert (Hm : 8192 <= m <= 2 ^ 42) by (unfold m, MINIMAL_SUBAREA_SIZE; destruct (Z.ltb_spec m0 8192); lia).
  destruct (max_sub s L fl I last) as (k & K1 & K2); [rewrite Es; now left|].
  assert (P63 : 2 ^ (1 + k) < 2 ^ 63) by (apply Z.pow_lt_mono_r; lia). assert (P0 : 0 < 2 ^ (1 + k)) by (apply Z.pow_pos_nonneg; lia).
  rewrite K2, Z.shiftl_mul_pow2, Z.mul_comm, <- Z.pow_add_r by lia. rewrite wrap64_id by (unfold is64; lia).
  destruct (grow_spec 64 (1 + k) m ltac:(lia) ltac:(lia) ltac:(lia)) as (j & J1 & J2 & _). rewrite J2.
  destruct (extend_vtry 64 s (2 ^ j) m) as [s1|] eqn:E1; [|intros E; injection E as <- _; now apply grows_geo].
  apply vtry_spec in E1; auto; [|lia|lia]. destruct E1 as (i & f & Hi & -> & _ & G1 & G2 & G3).
  destruct (init_subarea_freespace _) as [s2|] eqn:E2; [|discriminate]. intros E. injection E as <- _. apply freespace_geo in E2. unfold geo in E2. cbn [vhdr vfree vsize vsubs] in E2. injection E2 as G4 G5 G6 G7.
  pose proof (Z.pow_pos_nonneg 2 i ltac:(lia) ltac:(lia)).
  unfold grows. split; [exact G4|]. split; [exact G6|]. split; [lia|]. exists [Sub (2 ^ i) (vfree s) (2 ^ i) (vfree s)]. split; [exact G7|]. constructor; [cbn; lia|constructor].
Qed.
Lemma alloc_rec_grows `{region} n : forall s L fl w s' r, inv s L fl -> 0 <= w < 2 ^ 40 -> w mod 8 = 0 -> alloc_rec n s w = VOk s' r -> grows s s'.
Proof.
  induction n as [|n IH]; intros s L fl w s' r I W1 W2; cbn [alloc_rec]; destruct (alloc_try s w) as [s1 r1| |] eqn:E; try discriminate;
    try (intros E'; injection E' as <- _; apply grows_geo; exact (try_geo _ _ _ _ E)).
  rewrite used_bytes_eq by lia. destruct (extend_spec s L fl (Z.max 32 w) I ltac:(lia)) as [E1|(s1 & L1 & fl1 & u & E1 & I1 & _)].
  - rewrite E1. cbn [Z.eqb]. intros E'. injection E' as <- _. now apply grows_geo.
  - pose proof (extend_grows s L fl (Z.max 32 w) _ _ I ltac:(lia) E1) as G. rewrite E1. cbn [Z.eqb]. intros E2. eapply grows_trans; [exact G|]. exact (IH _ _ _ _ _ _ I1 W1 W2 E2).
Qed.
Lemma alloc_grows s live nr s' r : vreach (s, live) -> - 2 ^ 60 <= nr -> nr * 8 < 2 ^ 40 -> wg_alloc_gints s nr = VOk s' r -> grows s s'.
Proof.
  intros R H1 H2. apply RI_reach in R as (L & fl & live' & I & _). cbn [fst] in I. unfold wg_alloc_gints, wanted_bytes. rewrite wrap64_id by (unfold is64; lia).
  destruct (Z.ltb_spec (nr * 8) 0); [intros E; injection E as <- _; now apply grows_geo|]. apply (alloc_rec_grows 64 s L fl (nr * 8) s' r I); [lia|apply Z.mod_mul; lia].
Qed.

(** ** Words of others *)
(** The words below the border that are not in the area, with their contents. *)
Definition outer (s : vstate) : region := Region (fun x => x < vfree s /\ ~ in_varea s x) (vm s).
Lemma inv_outer s L fl : @inv no_region s L fl -> @inv (outer s) s L fl.
Proof.
  intros I. pose proof I as [C F D S]. constructor; [|exact F|exact D|].
  - apply (core_region no_region); [exact C|reflexivity|]. intros b x Hb Hx (_ & Hn). apply Hn.
    destruct (block_in_sub s L fl b I Hb) as (u & Hu & U1 & U2). exists u. split; [exact Hu|lia].
  - destruct S as [S1 S2 S3 S4 S5 S6 _]. constructor; auto. intros x (Hx & _). exact Hx.
Qed.
Lemma alloc_frame s live nr s' r x : vreach (s, live) -> - 2 ^ 60 <= nr -> nr * 8 < 2 ^ 40 -> wg_alloc_gints s nr = VOk s' r ->
  x < vfree s -> ~ in_varea s x -> vm s' x = vm s x.
Proof.
  intros R H1 H2 E Hx Hn. apply RI_reach in R as (L & fl & live' & I & _). cbn [fst] in I. apply inv_outer in I.
  destruct (@alloc_gints_spec (outer s) s L fl nr I H2 H1) as (t & r' & E' & L' & fl' & I' & _). rewrite E in E'. injection E' as <- <-.
  apply (c_off _ _ _ (i_core _ _ _ I')). cbn. auto.
Qed.
Lemma free_frame s l1 o l2 s' r x : vreach (s, l1 ++ o :: l2) -> wg_free_object s (oa o) = VOk s' r -> ~ in_varea s x -> x < vfree s -> vm s' x = vm s x.
Proof.
  intros R E Hn Hx. apply RI_reach in R as (L & fl & live' & I & P & M). cbn [fst snd] in *.
  assert (Ho : In o live') by (apply (Permutation_in _ P), in_mid).
  apply in_split in Ho as (m1 & m2 & ->). apply Forall2_app_inv_r in M as (n1 & n2 & M1 & M2 & El). inversion M2 as [|[[a w] d] ? n3 ? Hl M3]; subst.
  destruct (lives_split _ _ _ _ _ _ El) as (l3 & n & pf & l4 & -> & _). destruct Hl as (Ea & _). cbn [fst] in Ea. rewrite Ea in E.
  apply inv_outer in I. destruct (@free_spec (outer s) _ _ _ _ _ _ _ _ _ I) as (t & L' & fl' & E' & I' & _). rewrite E in E'. injection E' as <- _.
  apply (c_off _ _ _ (i_core _ _ _ I')). cbn. auto.
Qed.
Lemma init_frame m hdr free size s x : 0 < free -> free mod 8 = 0 -> free < size <= 2 ^ 40 -> init_var_area m hdr free size = Some s -> x < free -> vm s x = m x.
Proof.
  intros F1 F2 F3 E Hx. destruct (@init_spec (Region (fun x => x < free) m) m hdr free size s) as (L & fl & I & _); auto.
  apply (c_off _ _ _ (i_core _ _ _ I)). exact Hx.
Qed.
Lemma init_geo m hdr free size s : 0 < free -> free mod 8 = 0 -> free < size <= 2 ^ 40 -> init_var_area m hdr free size = Some s ->
  vhdr s = hdr /\ vsize s = size /\ vfree s = free + 8192 /\ vsubs s = [Sub 8192 free 8192 free].
Proof.
  intros F1 F2 F3. unfold init_var_area. change INITIAL_SUBAREA_SIZE with (2 ^ 13).
  destruct (init_vsubarea (VS m (fun _ => 0) hdr free size []) (2 ^ 13)) as [s1|] eqn:E; [|discriminate]. intros E2. apply freespace_geo in E2.
  unfold init_vsubarea in E. cbn [vfree vsize vm vb vhdr vsubs] in E. change (2 ^ 13 <? MINIMAL_SUBAREA_SIZE) with false in E. cbv iota in E.
  unfold alloc_db_segmentchunk in E. rewrite wrap64_id in E by (unfold is64; lia). destruct (Z.ltb_spec (free + 2 ^ 13) 0); [lia|].
  rewrite FixAllocProofs.align_fill_0 in E; [|lia|change (2 ^ 13) with (1024 * 8); rewrite Z.mod_add by lia; exact F2]. destruct (_ >=? size); [discriminate|]. destruct (Z.eqb_spec free 0); [lia|].
  rewrite FixAllocProofs.align_fill_0 in E by lia. injection E as <-. unfold geo in E2. cbn [vhdr vfree vsize vsubs] in E2. injection E2 as -> G5 -> G7. split; [reflexivity|]. split; [reflexivity|]. split; [rewrite G5; lia|]. rewrite G7, Z.add_0_r. reflexivity.
Qed.

(** ** Fixed-length areas *)
Lemma fix_alloc_geo hdr size len s live s' r : params_ok hdr size len -> freach hdr size len (s, live) -> wg_alloc_fixlen_object s = (s', r) ->
  fs_size s' = fs_size s /\ fs_objlen s' = fs_objlen s /\ fs_free s <= fs_free s' /\ fs_free s' mod 8 = 0 /\ fs_free s' < size /\
  (exists new, fs_subs s' = new ++ fs_subs s /\ Forall (fun u => fs_free s <= sa_aoffset u /\ sa_aoffset u + sa_asize u <= fs_free s') new) /\
  (forall x, x < fs_free s -> fs_mem s' x = fs_mem s x).
Proof.
  intros P R E. destruct (FixAllocProofs.reach_inv _ _ _ _ P R) as (fl & I). cbn [fst snd] in I.
  destruct (FixAllocProofs.alloc_inv _ _ _ _ _ _ _ _ P I E) as (_ & M & _).
  destruct I as [[G1 G2 G3 G4 G5 G6 G7 G8] _ _ _]. destruct P as (P1 & P2 & P3 & P4 & P5).
  assert (Same : fs_size s = fs_size s /\ fs_objlen s = fs_objlen s /\ fs_free s <= fs_free s /\ fs_free s mod 8 = 0 /\ fs_free s < size /\
    (exists new, fs_subs s = new ++ fs_subs s /\ Forall (fun u => fs_free s <= sa_aoffset u /\ sa_aoffset u + sa_asize u <= fs_free s) new)).
  { repeat split; auto; [lia|]. exists []. split; [reflexivity|constructor]. }
  assert (H : fs_size s' = fs_size s /\ fs_objlen s' = fs_objlen s /\ fs_free s <= fs_free s' /\ fs_free s' mod 8 = 0 /\ fs_free s' < size /\
    (exists new, fs_subs s' = new ++ fs_subs s /\ Forall (fun u => fs_free s <= sa_aoffset u /\ sa_aoffset u + sa_asize u <= fs_free s') new)).
  { unfold wg_alloc_fixlen_object in E. destruct (fs_freelist s =? 0); [|injection E as <- _; exact Same].
    destruct (extend_fixedlen_area s) as [s1|] eqn:Ex; [|injection E as <- _; exact Same].
    assert (H1 : fs_size s1 = fs_size s /\ fs_objlen s1 = fs_objlen s /\ fs_free s <= fs_free s1 /\ fs_free s1 mod 8 = 0 /\ fs_free s1 < size /\
      (exists new, fs_subs s1 = new ++ fs_subs s /\ Forall (fun u => fs_free s <= sa_aoffset u /\ sa_aoffset u + sa_asize u <= fs_free s1) new)).
    { unfold extend_fixedlen_area in Ex. destruct (fs_subs s) as [|last rest] eqn:Es; [discriminate|]. destruct (_ >=? _); [discriminate|].
      destruct (extend_try _ _ _) as [s2|] eqn:E2; [|discriminate]. injection Ex as <-.
      apply FixAllocProofs.extend_try_some in E2; [|apply (wrap64_range (Z.shiftl (sa_size last) 1))]. destruct E2 as (ns & Hns & E2).
      apply FixAllocProofs.init_sub_spec in E2; try lia. destruct E2 as (u & f & -> & _ & Hm & U1 & U2 & U3 & U4). unfold make_subarea_freelist. cbn [fs_subs fs_size fs_objlen fs_free].
      unfold MINIMAL_SUBAREA_SIZE in Hm. repeat split; auto; [lia|lia|]. exists [u]. rewrite Es. split; [reflexivity|]. constructor; [lia|constructor]. }
    destruct (_ =? 0); injection E as <- _; exact H1. }
  destruct H as (H1 & H2 & H3 & H4 & H5 & H6). auto 10.
Qed.
Lemma fix_init_geo m free size len s : params_ok free size len -> init_fix_area m free size len = Some s ->
  fs_size s = size /\ fs_objlen s = len /\ fs_free s = free + 8192 /\ fs_free s < size /\ fs_subs s = [Sub 8192 free 8192 free] /\ (forall x, x < free -> fs_mem s x = m x).
Proof.
  intros P E. pose proof P as (P1 & P2 & P3 & P4 & P5). unfold init_fix_area in E. destruct (init_db_subarea _ _) as [s1|] eqn:E1; [|discriminate]. injection E as <-.
  destruct (FixAllocProofs.new_sub_inv free size len (FS m free size len 0 []) INITIAL_SUBAREA_SIZE s1 [] P) as (fl & _ & _ & M); cbn; auto; try easy; try lia.
  { constructor. }
  { intros c. split; [easy|]. intros (sub & j & [] & _). }
  cbn [fs_free fs_mem] in M. 
  unfold init_db_subarea in E1. change (INITIAL_SUBAREA_SIZE <? MINIMAL_SUBAREA_SIZE) with false in E1. cbn [fs_free fs_size fs_mem fs_objlen fs_subs] in E1.
  change INITIAL_SUBAREA_SIZE with (1024 * 8) in E1. unfold alloc_db_segmentchunk in E1.
  destruct (Z.ltb_spec (wrap64 (free + 1024 * 8)) 0) as [|W]; [discriminate|].
  assert (W64 : wrap64 (free + 1024 * 8) = free + 1024 * 8). { destruct (Z.lt_ge_cases (free + 1024 * 8) (2 ^ 63)) as [|W1]; [apply wrap64_id; unfold is64; lia|]. exfalso. unfold wrap64 in W.
    replace (free + 1024 * 8 + 2 ^ 63) with ((free + 1024 * 8 - 2 ^ 63) + 1 * 2 ^ 64) in W by lia. rewrite Z.mod_add in W by lia. rewrite Z.mod_small in W; lia. }
  rewrite W64 in E1. rewrite FixAllocProofs.align_fill_0 in E1; [|lia|rewrite Z.mod_add by lia; exact P2].
  destruct (Z.geb_spec (free + 1024 * 8 + 0) size); [discriminate|]. destruct (Z.eqb_spec free 0); [lia|]. rewrite FixAllocProofs.align_fill_0 in E1 by lia. injection E1 as <-.
  unfold make_subarea_freelist in *. cbn [fs_subs fs_size fs_objlen fs_free fs_mem] in *. repeat split; auto; try lia. rewrite Z.add_0_r. reflexivity.
Qed.
