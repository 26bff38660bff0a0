(** Properties of the variable-length areas and of the scan over records. *)
From Coq Require Import ZArith List Lia Bool Permutation Sorting.Sorted.
From Verif Require Import Base FixAllocModel VarAllocModel VarAllocCore VarAllocProofs VarAllocStep VarAllocGrow VarAllocFree VarAllocSpec VarAllocReach VarAllocScan.
Import ListNotations.
Open Scope Z_scope.
#[local] Ltac Zify.zify_post_hook ::= Z.div_mod_to_equations.

(** ** Blocks of live objects *)
Lemma live_block s L fl live' o : inv s L fl -> Forall2 lmatch (lives L) live' -> In o live' ->
  exists l1 n w pf d l2, L = l1 ++ B (oa o) n (KUsed w pf d) :: l2 /\ 0 <= onr o /\ n = osize (onr o) /\
    (w = onr o * 8 \/ onr o * 8 < 32 /\ w = 32) /\ (forall x, oa o + 8 <= x < oa o + 8 * onr o -> vm s x = od o x).
Proof.
  intros I M Ho. apply in_split in Ho as (m1 & m2 & ->). apply Forall2_app_inv_r in M as (n1 & n' & M1 & M2 & E).
  inversion M2 as [|p ? n2 ? Rp M3]; subst. destruct p as [[a w] d]. destruct Rp as (R1 & R2 & R3 & R4). cbn [fst snd] in *. subst a.
  apply lives_split in E as (l1 & n & pf & l2 & -> & _ & _). exists l1, n, w, pf, d, l2. split; [reflexivity|]. split; [exact R2|].
  destruct I as [C F D S]. pose proof (cok _ _ _ C _ (in_mid l1 (B (oa o) n (KUsed w pf d)) l2)) as G. pose proof (cfix _ _ _ C _ (in_mid l1 (B (oa o) n (KUsed w pf d)) l2)) as X.
  unfold gok in G. unfold fixed, bend in X. cbn [ba bs bk] in *. unfold osize. split; [lia|]. split; [exact R3|]. intros x Hx. rewrite (proj2 X x) by lia. apply R4. exact Hx.
Qed.
Lemma wanted_hdr w pf : w mod 8 = 0 -> getusedobjectwantedgintsnr (w + flagz pf) = w / 8.
Proof.
  intros H. unfold getusedobjectwantedgintsnr. change (Z.land (w + flagz pf) (Z.lnot 3)) with (makeusedobjectsizeprevused (w + flagz pf)).
  rewrite mkpu_eq by exact H. now rewrite Z.shiftr_div_pow2 by lia.
Qed.

(** ** C14: after every history of requests, releases, writes by the owners and
    growth of other areas, each live object is aligned, inside the memory of the
    area, of the size asked for, holds what its owner wrote, and any two live
    objects are disjoint. *)
Theorem C14_live_objects s live : vreach (s, live) ->
  (forall o, In o live -> oa o mod 8 = 0 /\ 0 <= onr o /\
     (exists u, In u (vsubs s) /\ sa_aoffset u <= oa o /\ oa o + osize (onr o) <= sa_aoffset u + sa_asize u) /\
     (forall x, oa o + 8 <= x < oa o + 8 * onr o -> vm s x = od o x) /\
     onr o <= getusedobjectwantedgintsnr (vm s (oa o)) /\ (4 <= onr o -> getusedobjectwantedgintsnr (vm s (oa o)) = onr o)) /\
  (forall l1 o1 l2 o2 l3, live = l1 ++ o1 :: l2 ++ o2 :: l3 ->
     oa o1 + osize (onr o1) <= oa o2 \/ oa o2 + osize (onr o2) <= oa o1).
Proof.
  intros R. apply RI_reach in R as (L & fl & live' & I & P & M). cbn [fst snd] in *. split.
  - intros o Ho. apply (Permutation_in _ P) in Ho. destruct (live_block _ _ _ _ _ I M Ho) as (l1 & n & w & pf & d & l2 & EL & N & En & Ew & Hd).
    set (b := B (oa o) n (KUsed w pf d)) in *. assert (Hb : In b L) by (rewrite EL; apply in_mid). pose proof (cok _ _ _ (i_core _ _ _ I) b Hb) as G. assert (G' := G). unfold gok in G'. cbn in G'.
    split; [lia|]. split; [exact N|]. split.
    { destruct (block_in_sub _ _ _ b I Hb) as (u & U1 & U2 & U3). exists u. unfold bend in U3. cbn [b ba bs] in *. rewrite <- En. auto. }
    split; [exact Hd|]. pose proof (fetch_hdr s L fl b (i_core _ _ _ I) Hb ltac:(discriminate)) as Hh. unfold fetch, hdr in Hh. cbn [b ba bk] in Hh. rewrite Hh, wanted_hdr by lia. split; [lia|]. intros H4. lia.
  - intros l1 o1 l2 o2 l3 El.
    assert (H2 : exists m1 m2 m3, (live' = m1 ++ o1 :: m2 ++ o2 :: m3 \/ live' = m1 ++ o2 :: m2 ++ o1 :: m3)).
    { rewrite El in P. assert (I1 : In o1 live') by (apply (Permutation_in _ P), in_mid). apply in_split in I1 as (m1 & m2 & ->).
      apply Permutation_app_inv in P. assert (I2 : In o2 (m1 ++ m2)) by (apply (Permutation_in _ P); apply in_or_app; right; apply in_mid).
      apply in_app_or in I2 as [I2|I2]; apply in_split in I2 as (k1 & k2 & ->).
      - exists k1, k2, m2. right. rewrite <- app_assoc. reflexivity.
      - exists m1, k1, k2. now left. }
    assert (W : forall p q m1 m2 m3, live' = m1 ++ p :: m2 ++ q :: m3 -> oa p + osize (onr p) <= oa q).
    { intros p q m1 m2 m3 E. rewrite E in M. apply Forall2_app_inv_r in M as (n1 & n' & M1 & M2 & EM). inversion M2 as [|x ? n2 ? Rp M3]; subst.
      apply Forall2_app_inv_r in M3 as (n3 & n'' & M3 & M4 & ->). inversion M4 as [|y ? n4 ? Rq M5]; subst. destruct x as [[a w] d], y as [[a' w'] d'].
      destruct Rp as (R1 & R2 & R3 & _), Rq as (Q1 & Q2 & Q3 & _). cbn [fst snd] in *. subst a a'.
      apply lives_split in EM as (k1 & n & pf & k2 & EL & _ & EM). apply lives_split in EM as (k3 & n' & pf' & k4 & -> & _ & _).
      pose proof (c_ord _ _ _ (i_core _ _ _ I)) as O. rewrite EL in O. apply fop_app in O as (_ & O & _). inversion O as [|? ? O1 _]; subst. rewrite Forall_forall in O1.
      specialize (O1 _ (in_mid k3 (B (oa q) n' (KUsed w' pf' d')) k4)). unfold before, bend in O1. cbn [ba bs] in O1.
      pose proof (cok _ _ _ (i_core _ _ _ I) _ (in_mid k1 (B (oa p) n (KUsed w pf d)) _)) as G. unfold gok in G. cbn in G. unfold osize. lia. }
    destruct H2 as (m1 & m2 & m3 & [E|E]); [left|right]; apply (W _ _ _ _ _ E).
Qed.
Print Assumptions C14_live_objects.

(** Every request below 2^40 bytes and every release of a live object has a
    defined outcome; the release succeeds. *)
Theorem C14_calls_defined s live : vreach (s, live) ->
  (forall nr, - 2 ^ 60 <= nr -> nr * 8 < 2 ^ 40 -> exists s' r, wg_alloc_gints s nr = VOk s' r /\ (nr < 0 -> r = 0)) /\
  (forall o, In o live -> exists s', wg_free_object s (oa o) = VOk s' 0).
Proof.
  intros R. apply RI_reach in R as (L & fl & live' & I & P & M). cbn [fst snd] in *. split.
  - intros nr H1 H2. destruct (alloc_gints_spec s L fl nr I H2 H1) as (s' & r & E & L' & fl' & _ & Q). exists s', r. split; [exact E|].
    intros Hn. destruct (Z.eqb_spec r 0); [assumption|]. destruct Q as [Q _]. lia.
  - intros o Ho. apply (Permutation_in _ P) in Ho. destruct (live_block _ _ _ _ _ I M Ho) as (l1 & n & w & pf & d & l2 & -> & _).
    destruct (free_spec _ _ _ _ _ _ _ _ _ I) as (s' & L' & fl' & E & _). exists s'. exact E.
Qed.
Print Assumptions C14_calls_defined.

(** A run: four requests, a write, releases in another order, a request served
    from freed memory, a request that makes the area grow. *)
Definition vseg0 : vstate := match init_var_area (fun _ => 0) 800 4096 1000000 with Some s => s | None => VS (fun _ => 0) (fun _ => 0) 0 0 0 [] end.
Definition vgo (c : vstate * list obj) (nr : Z) : vstate * list obj :=
  match wg_alloc_gints (fst c) nr with VOk s' r => (s', if r =? 0 then snd c else Obj r nr (vm s') :: snd c) | VUndef => c end.
Fixpoint drop_nth {A} (k : nat) (l : list A) : list A := match k, l with O, _ :: r => r | S k', x :: r => x :: drop_nth k' r | _, [] => [] end.
Definition vdel (c : vstate * list obj) (k : nat) : vstate * list obj :=
  match nth_error (snd c) k with None => c | Some o => match wg_free_object (fst c) (oa o) with VOk s' _ => (s', drop_nth k (snd c)) | VUndef => c end end.
Lemma drop_nth_split {A} k : forall (l : list A) o, nth_error l k = Some o -> exists l1 l2, l = l1 ++ o :: l2 /\ drop_nth k l = l1 ++ l2.
Proof.
  induction k as [|k IH]; intros [|x l] o; cbn; try discriminate.
  - intros [= ->]. now exists [], l.
  - intros H. destruct (IH l o H) as (l1 & l2 & -> & ->). now exists (x :: l1), l2.
Qed.
Lemma vgo_reach c nr : vreach c -> - 2 ^ 60 <= nr -> nr * 8 < 2 ^ 40 -> vreach (vgo c nr).
Proof.
  intros R H1 H2. destruct c as [s live]. unfold vgo. cbn [fst snd]. destruct (wg_alloc_gints s nr) as [s' r|] eqn:E; [|exact R].
  apply (VStep (s, live)); [exact R|]. now apply VAlloc.
Qed.
Lemma vdel_reach c k : vreach c -> vreach (vdel c k).
Proof.
  intros R. destruct c as [s live]. unfold vdel. cbn [fst snd]. destruct (nth_error live k) as [o|] eqn:Ek; [|exact R].
  destruct (wg_free_object s (oa o)) as [s' r|] eqn:E; [|exact R]. destruct (drop_nth_split k live o Ek) as (l1 & l2 & -> & ->).
  apply (VStep (s, l1 ++ o :: l2)); [exact R|]. eapply VFree; eauto.
Qed.
Lemma vseg0_reach : vreach (vseg0, []).
Proof.
  apply (VInit (fun _ => 0) 800 4096 1000000); [lia|reflexivity|lia|].
  assert (H : match init_var_area (fun _ => 0) 800 4096 1000000 with Some _ => true | None => false end = true) by (vm_compute; reflexivity).
  unfold vseg0. destruct (init_var_area (fun _ => 0) 800 4096 1000000); [reflexivity|discriminate].
Qed.
Definition vdef (r : vres) : bool := match r with VOk _ _ => true | VUndef => false end.

Ltac vreach_run := repeat match goal with |- vreach (vgo _ _) => apply vgo_reach; [|lia|lia] | |- vreach (vdel _ _) => apply vdel_reach end; exact vseg0_reach.

Definition vrun1 := vdel (vdel (vgo (vgo (vgo (vgo (vseg0, []) 5) 3) 100) 40) 2) 0.
Definition vrun2 := vgo (vgo vrun1 12) 2000.
Example C14_run_reach : vreach vrun2.
Proof. unfold vrun2, vrun1. vreach_run. Qed.
Example C14_run : map (fun o => (oa o, onr o)) (snd vrun1) = [(4200, 100); (4128, 5)] /\
  map (fun o => (oa o, onr o)) (snd vrun2) = [(12320, 2000); (5000, 12); (4200, 100); (4128, 5)] /\ length (vsubs (fst vrun2)) = 2%nat.
Proof. vm_compute. auto. Qed.

(** The length in the header is not always the length asked for: an object of
    fewer than 4 words that follows the victim reads as 4 words once the area
    grows, so the length of a live record changes from 0 fields to 1. *)
Definition vrunA := vdel (vgo (vgo (vseg0, []) 625) 3) 1.
Definition vrunB := vgo vrunA 750.
Theorem C14_length_kept_refuted : exists s live s' nr r o, vreach (s, live) /\ wg_alloc_gints s nr = VOk s' r /\ In o live /\ onr o = 3 /\
  getusedobjectwantedgintsnr (vm s (oa o)) = 3 /\ getusedobjectwantedgintsnr (vm s' (oa o)) = 4.
Proof.
  assert (H : vdef (wg_alloc_gints (fst vrunA) 750) = true) by (vm_compute; reflexivity).
  destruct (wg_alloc_gints (fst vrunA) 750) as [s' r|] eqn:E; [clear H|discriminate].
  exists (fst vrunA), (snd vrunA), s', 750, r, (hd (Obj 0 0 (fun _ => 0)) (snd vrunA)). split; [|split; [exact E|]].
  - rewrite <- surjective_pairing. unfold vrunA. vreach_run.
  - assert (Es : s' = fst vrunB) by (unfold vrunB, vgo; rewrite E; reflexivity). rewrite Es. 
    assert (Hc : let o := hd (Obj 0 0 (fun _ => 0)) (snd vrunA) in (onr o =? 3) && (getusedobjectwantedgintsnr (vm (fst vrunA) (oa o)) =? 3) && (getusedobjectwantedgintsnr (vm (fst vrunB) (oa o)) =? 4) = true) by (vm_compute; reflexivity).
    cbv zeta in Hc. apply andb_true_iff in Hc as [Hc H3]. apply andb_true_iff in Hc as [H1 H2]. apply Z.eqb_eq in H1, H2, H3. 
    split; [|exact (conj H1 (conj H2 H3))]. assert (Hl : length (snd vrunA) = 1%nat) by (vm_compute; reflexivity). destruct (snd vrunA); [discriminate|now left].
Qed.
Print Assumptions C14_length_kept_refuted.

(** Very large requests: 2^61 words wrap to 0 bytes and succeed with a region of
    32 bytes; 2^37 words make wg_alloc_gints access freebuckets[-1]. *)
Theorem C14_size_wrap_refuted : exists s r, wg_alloc_gints vseg0 (2 ^ 61) = VOk s r /\ r <> 0 /\ getusedobjectsize (vm s r) = 32.
Proof.
  assert (H : match wg_alloc_gints vseg0 (2 ^ 61) with VOk s r => negb (r =? 0) && (getusedobjectsize (vm s r) =? 32) | VUndef => false end = true) by (vm_compute; reflexivity).
  destruct (wg_alloc_gints vseg0 (2 ^ 61)) as [s r|]; [|discriminate]. exists s, r. split; [reflexivity|]. apply andb_true_iff in H as [H1 H2]. apply negb_true_iff, Z.eqb_neq in H1. apply Z.eqb_eq in H2. auto.
Qed.
Print Assumptions C14_size_wrap_refuted.
Theorem C14_huge_request_refuted : wg_alloc_gints vseg0 (2 ^ 37) = VUndef.
Proof. vm_compute. reflexivity. Qed.
Print Assumptions C14_huge_request_refuted.

(** ** C15 *)
Lemma addrs_live L live' : Forall2 lmatch (lives L) live' -> addrs L = map oa live'.
Proof. unfold addrs. induction 1 as [|p o l m (E & _) _ IH]; [reflexivity|]. cbn [map]. now rewrite IH, E. Qed.
Theorem C15_raw_scan s live : vreach (s, live) -> exists l N, Permutation l (map oa live) /\ StronglySorted Z.lt l /\ Forall (fun a => 0 < a) l /\
  forall n, (N <= n)%nat -> wg_get_first_raw_record n s = Some (hd 0 l) /\
    forall l1 a l2, l = l1 ++ a :: l2 -> wg_get_next_raw_record n s a = Some (hd 0 l2).
Proof.
  intros R. apply RI_reach in R as (L & fl & live' & I & P & M). cbn [fst snd] in *. exists (addrs L), (length L).
  split; [rewrite (addrs_live _ _ M); apply Permutation_map; now apply Permutation_sym|]. destruct (addrs_sorted _ _ _ (i_core _ _ _ I)) as [S1 S2]. split; [exact S1|]. split; [exact S2|].
  intros n Hn. split; [now apply (first_spec s L fl)|]. intros l1 a l2 E. apply addrs_split in E as (k1 & b & k2 & EL & U & <- & _ & <-). now apply (next_spec s L fl n k1 b k2).
Qed.
Print Assumptions C15_raw_scan.

(** The scan over data records: exactly the live objects without the not-data
    bit, each once, in increasing address order, then NULL. *)
Theorem C15_scan s live : vreach (s, live) -> exists l N,
  Permutation l (filter (fun a => negb (is_special_record s a)) (map oa live)) /\ StronglySorted Z.lt l /\ Forall (fun a => 0 < a) l /\
  forall k n, (N <= n)%nat -> (N <= k)%nat -> wg_get_first_record k n s = Some (hd 0 l) /\
    forall l1 a l2, l = l1 ++ a :: l2 -> wg_get_next_record k n s a = Some (hd 0 l2).
Proof.
  intros R. destruct (C15_raw_scan s live R) as (l & N & P & S & Ps & H). set (f := fun a => negb (is_special_record s a)).
  exists (filter f l), (N + Datatypes.S (length l))%nat. 
  assert (Pf : forall l l', Permutation l l' -> Permutation (filter f l) (filter f l')).
  { induction 1 as [|x l1 l2 _ IH|x y l1|l1 l2 l3 _ IH1 _ IH2]; cbn [filter]; [constructor|destruct (f x); auto|destruct (f x), (f y); auto using perm_swap|eapply perm_trans; eauto]. }
  split; [now apply Pf|]. split.
  { clear - S. induction S as [|x l S IH F]; cbn [filter]; [constructor|]. destruct (f x); [|exact IH]. constructor; [exact IH|]. rewrite Forall_forall in *. intros y Hy. apply filter_In in Hy as [Hy _]. auto. }
  split; [rewrite Forall_forall in *; intros y Hy; apply filter_In in Hy as [Hy _]; auto|].
  intros k n Hn Hk. destruct (H n ltac:(lia)) as [H1 H2].
  assert (X : forall l2 k l1 a, l = l1 ++ a :: l2 -> (length l2 < k)%nat -> wg_get_next_record k n s a = Some (hd 0 (filter f l2))).
  { induction l2 as [|b l2 IH]; intros j l1 a E Hj; destruct j as [|j]; try lia; cbn [wg_get_next_record]; rewrite (H2 _ _ _ E); cbn [hd filter].
    - reflexivity.
    - assert (Hb : 0 < b) by (rewrite Forall_forall in Ps; apply Ps; rewrite E; apply in_or_app; right; right; now left).
      destruct (Z.eqb_spec b 0); [lia|]. cbn [negb andb]. unfold f at 1. destruct (is_special_record s b); cbn [negb]; [|reflexivity].
      apply (IH j (l1 ++ [a]) b); [now rewrite <- app_assoc|cbn in Hj; lia]. }
  split.
  - unfold wg_get_first_record. rewrite H1. destruct l as [|b l2]; [reflexivity|]. cbn [hd filter]. inversion Ps as [|? ? Hb _]; subst. destruct (Z.eqb_spec b 0); [lia|]. cbn [negb andb].
    unfold f at 1. destruct (is_special_record s b) eqn:E; cbn [negb]; [|reflexivity]. apply (X l2 k [] b eq_refl). cbn in Hk. lia.
  - intros l1 a l2 E.
    assert (Y : forall m l1, filter f m = l1 ++ a :: l2 -> exists m1 m2, m = m1 ++ a :: m2 /\ filter f m2 = l2).
    { induction m as [|x m IH]; intros q E'; cbn [filter] in E'; [destruct q; discriminate|]. destruct (f x).
      - destruct q as [|y q]; cbn in E'; injection E' as -> E'; [exists [], m; auto|]. destruct (IH _ E') as (m1 & m2 & -> & E2). now exists (y :: m1), m2.
      - destruct (IH _ E') as (m1 & m2 & -> & E2). now exists (x :: m1), m2. }
    destruct (Y l l1 E) as (m1 & m2 & -> & <-). apply (X m2 k m1 a eq_refl). rewrite app_length in Hk. cbn in Hk. lia.
Qed.
Print Assumptions C15_scan.
(** A scan of the run above, with one record marked as not data. *)
Definition vmark (c : vstate * list obj) : vstate := store (store (fst c) (5000 + 8) 0) (4200 + 8) 1.
Example C15_run :
  wg_get_first_raw_record 20 (fst vrun2) = Some 4128 /\ wg_get_next_raw_record 20 (fst vrun2) 4128 = Some 4200 /\ wg_get_next_raw_record 20 (fst vrun2) 4200 = Some 5000 /\
  wg_get_next_raw_record 20 (fst vrun2) 5000 = Some 12320 /\ wg_get_next_raw_record 20 (fst vrun2) 12320 = Some 0 /\
  wg_get_next_record 20 20 (vmark vrun2) 4128 = Some 5000.
Proof. vm_compute. repeat split; reflexivity. Qed.
Example C15_mark_reach : exists live, vreach (vmark vrun2, live).
Proof.
  assert (R := C14_run_reach). destruct vrun2 as [s live] eqn:E. assert (Hl : map (fun o => (oa o, onr o)) live = [(12320, 2000); (5000, 12); (4200, 100); (4128, 5)]).
  { change live with (snd (s, live)). rewrite <- E. apply C14_run. }
  clear E. destruct live as [|o1 [|o2 [|o3 l]]]; try discriminate Hl. injection Hl as _ _ H1 H2 H3 H4 _.
  exists ([o1; Obj (oa o2) (onr o2) (upd (od o2) (5000 + 8) 0)] ++ Obj (oa o3) (onr o3) (upd (od o3) (4200 + 8) 1) :: l).
  apply (VStep (store s (5000 + 8) 0, [o1; Obj (oa o2) (onr o2) (upd (od o2) (5000 + 8) 0)] ++ o3 :: l)).
  - apply (VStep (s, [o1] ++ o2 :: o3 :: l)); [exact R|]. apply (VWrite s [o1] o2 (o3 :: l)). lia.
  - unfold vmark. cbn [fst]. apply VWrite. lia.
Qed.

(** ** C16 *)
Lemma sub_walk s L fl u : inv s L fl -> In u (vsubs s) -> exists st body en, let bl := st :: body ++ [en] in
  (forall b, In b bl -> In b L /\ bk b <> KTmp) /\ chain adj bl /\ bk st = KStart /\ bk en = KEnd /\ ens body = [] /\ sts body = [] /\
  walk (S (length bl)) s (sa_aoffset u) (sa_aoffset u + sa_asize u) = Some (map (fun b => (ba b, bs b, hdr b)) bl) /\
  forall b, In b L -> sa_aoffset u <= ba b < sa_aoffset u + sa_asize u -> In b bl.
Proof.
  intros I Hu. destruct I as [C F D S]. destruct (sub_blocks s L u F S Hu) as (l1 & st & body & en & l2 & EL & Ks & Es & Ke & Ee & B1 & B2 & Ch).
  exists st, body, en. cbv zeta. assert (Hin : forall b, In b (st :: body ++ [en]) -> In b L /\ bk b <> KTmp).
  { intros b Hb. assert (Hb' : In b L). { rewrite EL. apply in_or_app. right. destruct Hb as [<-|Hb]; [now left|]. right. apply in_app_or in Hb as [Hb|[<-|[]]]; apply in_or_app; [now left|right; now left]. }
    split; [exact Hb'|]. exact (full_notmp _ _ F Hb'). }
  split; [exact Hin|]. split; [exact Ch|]. split; [exact Ks|]. split; [exact Ke|]. split; [exact B1|]. split; [exact B2|]. split.
  - rewrite <- Es at 1. apply (walk_spec s L fl C); [exact Ch|exact Hin| | |cbn [length]; lia].
    + change (st :: body ++ [en]) with ((st :: body) ++ [en]). rewrite removelast_last. unfold ens. cbn [filter]. unfold isEn at 1. rewrite Ks. exact B1.
    + rewrite last_last. exact Ee.
  - intros b Hb [R1 R2]. rewrite EL in Hb. apply in_app_or in Hb as [Hb|Hb].
    + exfalso. pose proof (c_ord _ _ _ C) as O. rewrite EL in O. apply fop_app in O as (_ & _ & O). specialize (O b st Hb (or_introl eq_refl)). unfold before, bend in O.
      pose proof (cok _ _ _ C b) as G. rewrite EL in G. specialize (G (in_or_app _ _ _ (or_introl Hb))). unfold gok in G. lia.
    + change (st :: body ++ en :: l2) with ((st :: body) ++ en :: l2) in Hb. apply in_app_or in Hb as [Hb|[<-|Hb]].
      * destruct Hb as [<-|Hb]; [now left|right; apply in_or_app; now left].
      * right. apply in_or_app. right. now left.
      * exfalso. pose proof (c_ord _ _ _ C) as O. rewrite EL in O. apply fop_app in O as (_ & O & _). change (st :: body ++ en :: l2) with ((st :: body) ++ en :: l2) in O.
        apply fop_app in O as (_ & O & _). inversion O as [|? ? O1 _]; subst. rewrite Forall_forall in O1. specialize (O1 b Hb). unfold before in O1. lia.
Qed.
Lemma dv_bucket s L b : dvok s L -> In b L -> bk b = KDv -> ba b = vb s DVBUCKET /\ bs b = vb s DVSIZEBUCKET /\ 0 < ba b \/ ba b <= 0.
Proof.
  intros D Hb K. assert (Hd : In b (dvs L)) by (apply filter_In; split; [exact Hb|]; unfold isDv; now rewrite K).
  destruct D as [(_ & _ & E)|(a & n & E & E1 & E2)]; rewrite E in Hd; [destruct Hd|]. destruct Hd as [<-|[]]. cbn [ba bs]. lia.
Qed.
Lemma avail_hdr s L fl b : inv s L fl -> In b L -> bk b <> KTmp -> available s (ba b, bs b, hdr b) = frs (bk b).
Proof.
  intros I Hb N. destruct I as [C F D S]. pose proof (cok _ _ _ C b Hb) as G. unfold available. rewrite (isfree_hdr b G N), (isspecial_hdr b G N).
  destruct (bk b) eqn:K; cbn [isF isX frs andb orb]; try reflexivity; try congruence.
  3: { destruct (dv_bucket s L b D Hb K) as [(E & _)|E]; [now apply Z.eqb_eq|unfold gok in G; lia]. }
  all: apply Z.eqb_neq; intros E; destruct D as [(E0 & _)|(a & n & Ed & E1 & _)]; [unfold gok in G; lia|];
    assert (Hd : In (B a n KDv) (dvs L)) by (rewrite Ed; now left); apply filter_In in Hd as [Hd _]; assert (b = B a n KDv) by (apply (cinj _ _ _ C); auto; cbn; lia); subst b; discriminate.
Qed.

(** Every byte of a subarea belongs to exactly one region: the headers lead from
    its first to its last byte; the regions are the two markers at the ends, the
    live objects, and available regions, no two of which are adjacent; a free
    region is in the list of its bucket. *)
Theorem C16_regions s live u : vreach (s, live) -> In u (vsubs s) -> exists n first mid last,
  walk n s (sa_aoffset u) (sa_aoffset u + sa_asize u) = Some (first :: mid ++ [last]) /\
  (forall r, In r mid -> available s r = true /\ region_used r = false \/ available s r = false /\ region_used r = true) /\
  (forall r, r = first \/ r = last -> available s r = false /\ region_used r = false /\ snd (fst r) = 32) /\
  (forall r1 r2 l1 l2, mid = l1 ++ r1 :: r2 :: l2 -> available s r1 && available s r2 = false) /\
  (forall a k h, In (a, k, h) mid -> region_used (a, k, h) = true -> exists o, In o live /\ oa o = a /\ osize (onr o) = k) /\
  (forall o, In o live -> sa_aoffset u <= oa o < sa_aoffset u + sa_asize u -> In (oa o, osize (onr o), vm s (oa o)) mid) /\
  (forall a k h, In (a, k, h) mid -> available s (a, k, h) = true ->
     a = vb s DVBUCKET /\ k = vb s DVSIZEBUCKET \/ exists m, In a (follow m s (vb s (wg_freebuckets_index k)))).
Proof.
  intros R Hu. apply RI_reach in R as (L & fl & live' & I & P & M). cbn [fst snd] in *.
  destruct (sub_walk s L fl u I Hu) as (st & body & en & Hin & Ch & Ks & Ke & B1 & B2 & W & Hall).
  set (f := fun b => (ba b, bs b, hdr b)) in *. exists (Datatypes.S (length (st :: body ++ [en]))), (f st), (map f body), (f en).
  split; [rewrite W; cbn [map]; rewrite map_app; reflexivity|].
  assert (Hbody : forall b, In b body -> In b L /\ bk b <> KTmp /\ bk b <> KStart /\ bk b <> KEnd).
  { intros b Hb. destruct (Hin b) as [H1 H2]; [right; apply in_or_app; now left|]. split; [exact H1|]. split; [exact H2|]. split; intros E.
    - assert (In (ba b) (sts body)) as H; [apply in_map, filter_In; split; [exact Hb|unfold isSt; now rewrite E]|]. rewrite B2 in H. destruct H.
    - assert (In (bend b) (ens body)) as H; [apply in_map, filter_In; split; [exact Hb|unfold isEn; now rewrite E]|]. rewrite B1 in H. destruct H. }
  assert (Hst : In st L /\ bk st <> KTmp) by (apply Hin; now left). assert (Hen : In en L /\ bk en <> KTmp) by (apply Hin; right; apply in_or_app; right; now left).
  pose proof (i_core _ _ _ I) as C. split.
  { intros r Hr. apply in_map_iff in Hr as (b & <- & Hb). destruct (Hbody b Hb) as (H1 & H2 & H3 & H4). unfold f. rewrite (avail_hdr s L fl b I H1 H2). unfold region_used. rewrite (isused_hdr b (cok _ _ _ C b H1) H2).
    destruct (bk b); try congruence; cbn; auto. }
  split.
  { intros r Hr. assert (exists b, r = f b /\ In b L /\ bk b <> KTmp /\ (bk b = KStart \/ bk b = KEnd)) as (b & -> & H1 & H2 & H3) by (destruct Hr as [-> | ->]; eexists; split; try reflexivity; tauto).
    unfold f. rewrite (avail_hdr s L fl b I H1 H2). unfold region_used. rewrite (isused_hdr b (cok _ _ _ C b H1) H2). pose proof (cok _ _ _ C b H1) as G. unfold gok in G. cbn [fst snd].
    destruct H3 as [E|E]; rewrite E in *; cbn; repeat split; lia. }
  split.
  { intros r1 r2 l1 l2 E. apply map_eq_app in E as (k1 & k' & EB & E1 & E2). destruct k' as [|b1 [|b2 k']]; try discriminate. cbn in E2. injection E2 as <- <- _.
    assert (A : adj b1 b2).
    { rewrite EB in Ch. change (st :: (k1 ++ b1 :: b2 :: k') ++ [en]) with ((st :: k1 ++ b1 :: b2 :: k') ++ [en]) in Ch. 
      change (st :: k1 ++ b1 :: b2 :: k') with ((st :: k1) ++ b1 :: b2 :: k') in Ch. rewrite <- app_assoc in Ch. cbn [app] in Ch.
      change (st :: k1 ++ b1 :: b2 :: k' ++ [en]) with ((st :: k1) ++ b1 :: b2 :: k' ++ [en]) in Ch. apply chain_mid in Ch as [_ Ch]. apply Ch. }
    destruct (Hbody b1) as (H1 & H2 & _); [rewrite EB; apply in_mid|]. destruct (Hbody b2) as (H3 & H4 & _); [rewrite EB; apply in_or_app; right; right; now left|].
    unfold f. rewrite (avail_hdr s L fl b1 I H1 H2), (avail_hdr s L fl b2 I H3 H4). apply A. }
  split.
  { intros a k h Hr U. apply in_map_iff in Hr as (b & E & Hb). unfold f in E. injection E as <- <- <-. destruct (Hbody b Hb) as (H1 & H2 & _). unfold region_used in U. rewrite (isused_hdr b (cok _ _ _ C b H1) H2) in U.
    assert (Ha : In (ba b) (addrs L)). { apply in_split in H1 as (k1 & k2 & ->). unfold addrs. rewrite lives_app, lives_cons, map_app. apply in_or_app. right. unfold live1. destruct (bk b); try discriminate. now left. }
    rewrite (addrs_live _ _ M) in Ha. apply in_map_iff in Ha as (o & Eo & Ho). destruct (live_block _ _ _ _ _ I M Ho) as (l1 & n & w & pf & d & l2 & EL & _ & En & _).
    assert (b = B (oa o) n (KUsed w pf d)) by (apply (cinj _ _ _ C); [exact H1|rewrite EL; apply in_mid|cbn; lia]). subst b. exists o. split; [|auto]. now apply (Permutation_in _ (Permutation_sym P)). }
  split.
  { intros o Ho [R1 R2]. apply (Permutation_in _ P) in Ho. destruct (live_block _ _ _ _ _ I M Ho) as (l1 & n & w & pf & d & l2 & EL & _ & En & _).
    set (b := B (oa o) n (KUsed w pf d)) in *. assert (Hb : In b L) by (rewrite EL; apply in_mid). pose proof (Hall b Hb (conj R1 R2)) as Hb2.
    destruct Hb2 as [E|Hb2]; [rewrite E in Ks; discriminate|]. apply in_app_or in Hb2 as [Hb2|[E|[]]]; [|rewrite E in Ke; discriminate].
    apply in_map_iff. exists b. split; [|exact Hb2]. unfold f. cbn [b ba bs]. rewrite <- En. f_equal. symmetry. apply (fetch_hdr s L fl b C Hb). discriminate. }
  { intros a k h Hr A. apply in_map_iff in Hr as (b & E & Hb). unfold f in E. injection E as <- <- <-. destruct (Hbody b Hb) as (H1 & H2 & _). rewrite (avail_hdr s L fl b I H1 H2) in A.
    destruct (bk b) eqn:K; try discriminate.
    - left. destruct (dv_bucket s L b (i_dv _ _ _ I) H1 K) as [(E1 & E2 & _)|E]; [auto|]. pose proof (cok _ _ _ C b H1) as G. unfold gok in G. lia.
    - right. now apply (free_listed s L fl). }
Qed.
Print Assumptions C16_regions.

(** A region that a request of [nr] words is certain to find. *)
Definition suits (s : vstate) (used : Z) (r : Z * Z * Z) : Prop :=
  let '(a, k, h) := r in
  if isfreeobject h then k = used /\ k < 256 \/ used + 32 <= k < 256 \/ 256 <= k /\ used + 32 <= 2 ^ Z.log2 k
  else a = vb s DVBUCKET /\ (k = used \/ used + 32 <= k).

(** With such a region the request is served and the area does not grow. *)
Theorem C16_reused s live u n l r nr : vreach (s, live) -> In u (vsubs s) ->
  walk n s (sa_aoffset u) (sa_aoffset u + sa_asize u) = Some l -> In r l -> available s r = true ->
  0 <= nr -> nr * 8 < 2 ^ 40 -> suits s (osize nr) r ->
  exists s' a, wg_alloc_gints s nr = VOk s' a /\ a <> 0 /\ vsubs s' = vsubs s.
Proof.
  intros R Hu W Hr A N1 N2 Su. apply RI_reach in R as (L & fl & live' & I & P & M). cbn [fst snd] in *.
  destruct (sub_walk s L fl u I Hu) as (st & body & en & Hin & _ & _ & _ & _ & _ & W' & _).
  assert (Wd : forall n n' s a e l l', walk n s a e = Some l -> walk n' s a e = Some l' -> l = l').
  { clear. induction n as [|n IH]; intros n' s a e l l' H1 H2; cbn [walk] in H1; destruct n' as [|n']; cbn [walk] in H2; destruct (a =? e); try congruence.
    cbv zeta in *. destruct (walk n s _ e) eqn:E1; [|discriminate]. destruct (walk n' s _ e) eqn:E2; [|discriminate]. rewrite (IH _ _ _ _ _ _ E1 E2) in H1. congruence. }
  rewrite (Wd _ _ _ _ _ _ _ W W') in Hr. apply in_map_iff in Hr as (b & <- & Hb). destruct (Hin b Hb) as [H1 H2]. rewrite (avail_hdr s L fl b I H1 H2) in A.
  pose proof (cok _ _ _ (i_core _ _ _ I) b H1) as G. unfold suits in Su. rewrite (isfree_hdr b G H2) in Su.
  unfold wg_alloc_gints, wanted_bytes. rewrite wrap64_id by (unfold is64; lia). destruct (Z.ltb_spec (nr * 8) 0); [lia|]. cbn [alloc_rec].
  pose proof (alloc_try_spec s L fl (nr * 8) I ltac:(lia) ltac:(lia)) as T. destruct (alloc_try s (nr * 8)) as [s' a| |] eqn:E; [|exfalso|destruct T].
  - destruct T as (L' & fl' & l1 & l2 & d & _ & Nz & V & _). eauto.
  - destruct (try_none s L fl (nr * 8) I ltac:(lia) ltac:(lia) E) as [T1 T2]. unfold osize in Su. replace (Z.max 32 (nr * 8)) with (Z.max 32 (8 * nr)) in * by lia.
    destruct (bk b) eqn:K; try discriminate; cbn [isF] in Su.
    + destruct (dv_bucket s L b (i_dv _ _ _ I) H1 K) as [(E1 & E2 & _)|E']; [|unfold gok in G; lia]. unfold gok in G. lia.
    + destruct (T2 b H1 K) as [T3 T4]. lia.
Qed.
Print Assumptions C16_reused.

(** After a release the freed region (or the larger one it was merged into) is
    available: a request of the same size as a released object of fewer than 256
    bytes is served without growth, if nothing around it was free. *)
Example C16_run : walk 20 (fst vrun1) 4096 (4096 + 8192) = Some [(4096, 32, 35); (4128, 40, 40); (4168, 32, 33); (4200, 800, 802); (5000, 7256, 7259); (12256, 32, 35)] /\
  vb (fst vrun1) DVBUCKET = 5000 /\ follow 5 (fst vrun1) (vb (fst vrun1) 32) = [4168] /\
  match wg_alloc_gints (fst vrun1) 4 with VOk s' r => r = 4168 /\ length (vsubs s') = 1%nat | VUndef => False end.
Proof. vm_compute. repeat split; reflexivity. Qed.
Example C16_run_suits : suits (fst vrun1) (osize 4) (4168, 32, 33) /\ suits (fst vrun1) (osize 100) (5000, 7256, 7259).
Proof. vm_compute. split; [left; split; reflexivity|]. split; [reflexivity|right; intros H; discriminate]. Qed.

(** Only the first element of a bucket is tried. Here a free region of 440 bytes
    could serve 400 bytes, but one of 264 bytes is before it in the list, and the
    area grows. *)
Definition vrunC := vgo (vdel (vdel (vgo (vgo (vgo (vgo (vseg0, []) 55) 4) 33) 4) 3) 1) 905.
Theorem C16_any_region_refuted : exists s live u n l a k h nr s' r, vreach (s, live) /\ In u (vsubs s) /\
  walk n s (sa_aoffset u) (sa_aoffset u + sa_asize u) = Some l /\ In (a, k, h) l /\ available s (a, k, h) = true /\ osize nr + 32 <= k /\
  wg_alloc_gints s nr = VOk s' r /\ length (vsubs s') = S (length (vsubs s)).
Proof.
  assert (H : match wg_alloc_gints (fst vrunC) 50 with VOk s' _ => Nat.eqb (length (vsubs s')) (S (length (vsubs (fst vrunC)))) | VUndef => false end = true) by (vm_compute; reflexivity).
  assert (W : walk 20 (fst vrunC) (sa_aoffset (Sub 8192 4096 8192 4096)) (sa_aoffset (Sub 8192 4096 8192 4096) + sa_asize (Sub 8192 4096 8192 4096)) =
    Some [(4096, 32, 35); (4128, 440, 441); (4568, 32, 34); (4600, 264, 265); (4864, 32, 34); (4896, 7240, 7240); (12136, 120, 123); (12256, 32, 35)]) by (vm_compute; reflexivity).
  assert (Hu : vsubs (fst vrunC) = [Sub 8192 4096 8192 4096]) by (vm_compute; reflexivity).
  assert (Ha : available (fst vrunC) (4128, 440, 441) = true) by (vm_compute; reflexivity).
  assert (R : vreach vrunC) by (unfold vrunC; vreach_run).
  destruct vrunC as [s live] eqn:EC. clear EC. cbn [fst] in *. destruct (wg_alloc_gints s 50) as [s' r|] eqn:E; [|discriminate H]. apply Nat.eqb_eq in H.
  eexists s, live, _, 20%nat, _, 4128, 440, 441, 50, s', r. split; [exact R|]. split; [rewrite Hu; now left|]. split; [exact W|]. split; [right; now left|]. split; [exact Ha|].
  split; [unfold osize; lia|]. split; [exact E|exact H].
Qed.
Print Assumptions C16_any_region_refuted.

(** C14: the array of subareas is not overrun. *)
Lemma push_subs s o z s' : push_free s o z = Some s' -> vsubs s' = vsubs s.
Proof. unfold push_free. destruct (_ <? 0); [discriminate|]. cbv zeta. intros E. injection E as <-. destruct (_ =? 0); reflexivity. Qed.
Lemma unlink_subs s o z s' : unlink_free s o z = Some s' -> vsubs s' = vsubs s.
Proof. unfold unlink_free. destruct (_ <? 0); [discriminate|]. destruct (vb s _ =? o); intros E; injection E as <-; destruct (_ =? 0); reflexivity. Qed.
Lemma take_subs s i : vsubs (take_first s i) = vsubs s.
Proof. unfold take_first. cbv zeta. destruct (_ =? 0); reflexivity. Qed.
Lemma mark_subs s o : vsubs (mark_prevused s o) = vsubs s.
Proof. unfold mark_prevused. cbv zeta. destruct (isnormalusedobject _); reflexivity. Qed.
Lemma split_subs s nr i : vsubs (fst (split_free s nr i)) = vsubs s.
Proof.
  unfold split_free. destruct (negb _); [reflexivity|]. destruct (push_free _ _ _) as [s'|] eqn:E.
  - apply push_subs in E. cbn [fst]. rewrite E. exact (take_subs s i).
  - exact (take_subs s i).
Qed.
Lemma give_subs s i u w : vsubs (fst (split_give s i u w)) = vsubs s.
Proof. unfold split_give. pose proof (split_subs s u i) as E. destruct (split_free s u i) as (s' & t). cbn [fst] in E. destruct (t <? 0); exact E. Qed.
Lemma var_loop_subs n : forall s i u w s' r, var_loop n s i u w = Some (s', r) -> vsubs s' = vsubs s.
Proof.
  induction n as [|n IH]; intros s i u w s' r; cbn [var_loop]; [discriminate|]. destruct (i <? _); [|discriminate]. destruct (vb s i =? 0); [apply IH|].
  destruct (getfreeobjectsize _ =? u); [intros E; injection E as <- _; rewrite mark_subs; exact (take_subs s i)|]. destruct (_ <=? _); [|apply IH]. intros E. injection E as E. pose proof (give_subs s i u w) as G. now rewrite E in G.
Qed.
Lemma try_subs s w s' r : alloc_try s w = TDone s' r -> vsubs s' = vsubs s.
Proof.
  unfold alloc_try. destruct (_ && _); [intros E; injection E as <- _; rewrite mark_subs; exact (take_subs s _)|]. destruct (find_split 3 s _ _) as [i|].
  { pose proof (give_subs s i (used_bytes w) w) as G. destruct (split_give _ _ _ _). intros E. injection E as <- _. exact G. }
  destruct (_ && _); [intros E; injection E as <- _; reflexivity|]. destruct (_ && _); [intros E; injection E as <- _; reflexivity|].
  destruct (find_split 256 s _ _) as [i|]. { pose proof (give_subs s i (used_bytes w) w) as G. destruct (split_give _ _ _ _). intros E. injection E as <- _. exact G. }
  destruct (_ <? 0); [discriminate|]. destruct (var_loop _ _ _ _ _) as [(s1 & r1)|] eqn:E; [|discriminate]. intros E'. injection E' as <- _. exact (var_loop_subs _ _ _ _ _ _ _ E).
Qed.
Lemma init_vsub_subs s n s' : init_vsubarea s n = Some s' -> length (vsubs s') = S (length (vsubs s)).
Proof.
  unfold init_vsubarea. destruct (n <? MINIMAL_SUBAREA_SIZE); [discriminate|]. destruct (alloc_db_segmentchunk _ _ _) as (c & f). destruct (c =? 0); [discriminate|].
  intros E. injection E as <-. reflexivity.
Qed.
Lemma freespace_subs s s' : init_subarea_freespace s = Some s' -> vsubs s' = vsubs s.
Proof.
  unfold init_subarea_freespace. destruct (vsubs s) as [|u l] eqn:Es; [discriminate|]. destruct (match l with [] => Some s | _ => retire_dv s end) as [s1|] eqn:E1; [|discriminate].
  intros E. injection E as <-. change (vsubs s1 = u :: l). rewrite <- Es. destruct l; [now injection E1 as <-|]. unfold retire_dv in E1. destruct (_ && _); [|now injection E1 as <-].
  destruct (push_free _ _ _) as [s2|] eqn:E2; [|discriminate]. apply push_subs in E2. injection E1 as <-. destruct (isnormalusedobject _); exact E2.
Qed.
Lemma extend_vtry_subs n : forall s z m s', extend_vtry n s z m = Some s' -> length (vsubs s') = S (length (vsubs s)).
Proof.
  induction n as [|n IH]; intros s z m s'; cbn [extend_vtry]; [discriminate|]. destruct (m <=? z); [|discriminate].
  destruct (init_vsubarea s z) eqn:E; [|apply IH]. intros E'. injection E' as <-. exact (init_vsub_subs _ _ _ E).
Qed.
Lemma extend_varlen_subs s b s' r : extend_varlen_area s b = VOk s' r -> Z.of_nat (length (vsubs s)) <= 64 -> Z.of_nat (length (vsubs s')) <= 64.
Proof.
  unfold extend_varlen_area. intros E L. destruct (vsubs s) as [|u l] eqn:Es; [injection E as <- _; rewrite Es; exact L|]. rewrite <- Es in *.
  destruct (Z.leb_spec SUBAREA_ARRAY_SIZE (Z.of_nat (length (vsubs s)) - 1 + 1)) as [|Hl]; [injection E as <- _; exact L|]. cbv zeta in E. unfold SUBAREA_ARRAY_SIZE in Hl.
  destruct (wrap64 _ <? 0); [injection E as <- _; exact L|]. destruct (extend_vtry _ _ _ _) as [s1|] eqn:E1; [|injection E as <- _; exact L].
  destruct (init_subarea_freespace s1) as [s2|] eqn:E2; [|discriminate]. injection E as <- _. rewrite (freespace_subs _ _ E2), (extend_vtry_subs _ _ _ _ _ E1). lia.
Qed.
Lemma alloc_rec_subs n : forall s w s' r, alloc_rec n s w = VOk s' r -> Z.of_nat (length (vsubs s)) <= 64 -> Z.of_nat (length (vsubs s')) <= 64.
Proof.
  induction n as [|n IH]; intros s w s' r; cbn [alloc_rec]; destruct (alloc_try s w) as [s1 r1| |] eqn:E; try discriminate; try (intros E'; injection E' as <- _; now rewrite (try_subs _ _ _ _ E)).
  destruct (extend_varlen_area s _) as [s1 r1|] eqn:E1; [|discriminate]. intros E2 L. pose proof (extend_varlen_subs _ _ _ _ E1 L) as L1. destruct (r1 =? 0); [now injection E2 as <- _|]. exact (IH _ _ _ _ E2 L1).
Qed.
Lemma free_tail_subs s o z s' r : free_tail s o z = VOk s' r -> vsubs s' = vsubs s.
Proof.
  unfold free_tail. cbv zeta.
  assert (F : forall s z, (if vb s DVSIZEBUCKET <? z then match replace_dv s o z with (s0, None) => VOk s0 0 | (s0, Some (o', z')) => match push_free s0 o' z' with None => VUndef | Some s1 => VOk s1 0 end end
     else match push_free s o z with None => VUndef | Some s0 => VOk s0 0 end) = VOk s' r -> vsubs s' = vsubs s).
  { clear. intros s z. destruct (_ <? z).
    - assert (R : vsubs (fst (replace_dv s o z)) = vsubs s). { unfold replace_dv. cbv zeta. destruct (_ =? 0); cbn [fst]; [rewrite mark_subs; reflexivity|]. destruct (isnormalusedobject _); [cbn [store vsubs]; rewrite mark_subs; reflexivity|rewrite mark_subs; reflexivity]. }
      destruct (replace_dv s o z) as (s1 & [(o' & z')|]); cbn [fst] in R; [|intros E; injection E as <- _; exact R]. destruct (push_free s1 o' z') as [s2|] eqn:E2; [|discriminate]. intros E. injection E as <- _. rewrite (push_subs _ _ _ _ E2). exact R.
    - destruct (push_free s o z) as [s2|] eqn:E2; [|discriminate]. intros E. injection E as <- _. exact (push_subs _ _ _ _ E2). }
  destruct (isfreeobject _).
  - destruct (unlink_free _ _ _) as [s1|] eqn:E1; [|discriminate]. intros E. rewrite <- (unlink_subs _ _ _ _ E1). exact (F _ _ E).
  - destruct (_ && _); [intros E; injection E as <- _; reflexivity|]. destruct (isnormalusedobject _); intros E; exact (F _ _ E).
Qed.
Lemma free_object_subs s o s' r : wg_free_object s o = VOk s' r -> vsubs s' = vsubs s.
Proof.
  unfold wg_free_object. cbv zeta. destruct (isfreeobject _); [intros E; now injection E as <- _|]. destruct (_ <? _); [intros E; now injection E as <- _|]. destruct (isnormalusedobjectprevfree _).
  - destruct (_ || _); [intros E; now injection E as <- _|]. destruct (unlink_free _ _ _) as [s1|] eqn:E1; [|discriminate]. intros E. rewrite <- (unlink_subs _ _ _ _ E1). exact (free_tail_subs _ _ _ _ _ E).
  - destruct (_ =? o); [|apply free_tail_subs]. unfold free_onto_dv. cbv zeta. destruct (isfreeobject _); [|intros E; injection E as <- _; reflexivity].
    destruct (unlink_free _ _ _) as [s1|] eqn:E1; [|discriminate]. intros E. injection E as <- _. cbn [setb store vsubs]. rewrite mark_subs. exact (unlink_subs _ _ _ _ E1).
Qed.
Theorem C14_subarea_array s live : vreach (s, live) -> Z.of_nat (length (vsubs s)) <= 64.
Proof.
  intros R. remember (s, live) as c eqn:Ec. revert s live Ec. induction R as [m hdr free size s0 H1 H2 H3 E|c c' R IH St]; intros s live Ec.
  - injection Ec as <- <-. unfold init_var_area in E. destruct (init_vsubarea _ _) as [s1|] eqn:E1; [|discriminate]. rewrite (freespace_subs _ _ E), (init_vsub_subs _ _ _ E1). cbn. lia.
  - destruct St as [s0 l0 nr s1 r H1 H2 E|s0 l1 o l2 s1 r E|s0 l1 o l2 a v H|s0 l0 a v H|s0 l0 req c0 free' H E]; injection Ec as <- <-; specialize (IH _ _ eq_refl); try exact IH.
    + unfold wg_alloc_gints in E. destruct (wanted_bytes nr <? 0); [injection E as <- _; exact IH|]. exact (alloc_rec_subs _ _ _ _ _ E IH).
    + rewrite (free_object_subs _ _ _ _ E). exact IH.
Qed.
Print Assumptions C14_subarea_array.
