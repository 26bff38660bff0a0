(** Record scan, tiling of the subareas, reuse of free regions. *)
From Coq Require Import ZArith List Lia Bool Permutation Sorting.Sorted.
From Verif Require Import Base FixAllocModel VarAllocModel VarAllocCore VarAllocProofs VarAllocStep VarAllocGrow VarAllocFree VarAllocSpec VarAllocReach.
Import ListNotations.
Open Scope Z_scope.

Section WithRegion.
Context {rg : region}.

(** ** Scan *)
Definition addrs (L : list blk) : list Z := map (fun p => fst (fst p)) (lives L).
Definition nxt (l : list blk) : Z := hd 0 (addrs l).
Definition rsize (h : Z) : Z := if isfreeobject h then getfreeobjectsize h else getusedobjectsize h.
Lemma rsize_hdr b : gok b -> bk b <> KTmp -> rsize (hdr b) = bs b.
Proof.
  intros G N. unfold rsize. rewrite (isfree_hdr b G N). destruct (isF (bk b)) eqn:E.
  - destruct b as [a n []]; try discriminate. unfold hdr. cbn. apply getfree_free. unfold gok in G. cbn in G. lia.
  - apply used_size_hdr; auto. intros E'. rewrite E' in E. discriminate.
Qed.

Lemma find_at l : forall k u cur, nth_error l k = Some u -> sa_aoffset u <= cur < sa_offset u + sa_size u ->
  (forall j v, (j < k)%nat -> nth_error l j = Some v -> sa_offset v + sa_size v <= cur) -> forall i, find_subarea l i cur = Some (i + k)%nat.
Proof.
  induction l as [|w l IH]; intros k u cur Hk Hc Ho i; [destruct k; discriminate|]. cbn [find_subarea]. destruct k as [|k].
  - injection Hk as ->. destruct (Z.leb_spec (sa_aoffset u) cur); [|lia]. destruct (Z.ltb_spec cur (sa_offset u + sa_size u)); [|lia]. cbn. f_equal. lia.
  - pose proof (Ho 0%nat w ltac:(lia) eq_refl). destruct (Z.ltb_spec cur (sa_offset w + sa_size w)); [lia|]. rewrite andb_false_r.
    rewrite (IH k u cur Hk Hc); [f_equal; lia|]. intros j v Hj Hv. apply (Ho (S j) v); [lia|exact Hv].
Qed.
Lemma ord_nth l : ForallOrdPairs (fun u v => sa_offset v + sa_size v <= sa_offset u) l -> forall j k u v, (j < k)%nat ->
  nth_error (rev l) k = Some u -> nth_error (rev l) j = Some v -> sa_offset v + sa_size v <= sa_offset u.
Proof.
  induction 1 as [|x l F O IH]; intros j k u v Hj Hu Hv; [destruct k; discriminate|]. cbn [rev] in *.
  assert (Hk : (k < length (rev l ++ [x]))%nat) by (apply nth_error_Some; congruence). rewrite app_length in Hk. cbn in Hk.
  rewrite nth_error_app1 in Hv by lia. destruct (Nat.eq_dec k (length (rev l))) as [->|N].
  - rewrite nth_error_app2, Nat.sub_diag in Hu by lia. cbn in Hu. injection Hu as <-. rewrite Forall_forall in F. apply F. apply in_rev. eapply nth_error_In; eauto.
  - rewrite nth_error_app1 in Hu by lia. exact (IH j k u v Hj Hu Hv).
Qed.

Lemma next_loop_spec s L fl : inv s L fl -> forall fuel l1 b l2, L = l1 ++ b :: l2 -> bk b <> KEnd -> (length l2 <= fuel)%nat ->
  next_loop fuel s (ba b) (fetch s (ba b)) (isF (bk b)) = Some (nxt l2).
Proof.
  intros I. destruct I as [C F D S]. induction fuel as [|fuel IH]; intros l1 b l2 EL N Hl.
  - rewrite EL in F. destruct (full_next _ _ _ F N) as (y & l3 & -> & _). cbn in Hl. lia.
  - assert (F' := F). rewrite EL in F'. destruct (full_next _ _ _ F' N) as (y & l3 & E2 & A). subst l2.
    destruct (adj_next _ _ A N) as [Ey Ny]. cbn [next_loop]. cbv zeta.
    assert (Hb : In b L) by (rewrite EL; apply in_mid). assert (Hy : In y L) by (rewrite EL; apply in_or_app; right; right; now left).
    pose proof (full_notmp _ _ F Hb) as Nb. pose proof (cok _ _ _ C b Hb) as Gb. pose proof (cok _ _ _ C y Hy) as Gy.
    assert (Esz : (if isF (bk b) then getfreeobjectsize (fetch s (ba b)) else getusedobjectsize (fetch s (ba b))) = bs b).
    { rewrite (fetch_hdr s L fl b C Hb Nb), <- (isfree_hdr b Gb Nb). apply rsize_hdr; assumption. }
    rewrite Esz. replace (ba b + bs b) with (ba y) by (unfold bend in Ey; lia).
    rewrite (fetch_hdr s L fl y C Hy Ny), (isused_hdr y Gy Ny), (isfree_hdr y Gy Ny).
    assert (EL2 : L = (l1 ++ [b]) ++ y :: l3) by (rewrite EL, <- app_assoc; reflexivity).
    cbn [length] in Hl. pose proof (cfix _ _ _ C y Hy) as Fy. rewrite <- (fetch_hdr s L fl y C Hy Ny).
    destruct (bk y) eqn:Ky; cbn [isU isF].
    + exfalso. unfold adj in A. rewrite Ky in A. destruct (bk b); intuition congruence.
    + (* end marker *)
      unfold fixed in Fy. rewrite Ky in Fy. destruct Fy as [_ Fy]. unfold fetch at 1. rewrite Fy. cbn [Z.eqb SPECIALGINT1DV].
      set (subs := rev (vsubs s)). set (k := length (ens (l1 ++ [b]))).
      assert (H2 : nth_error (ens L) k = Some (bend y)).
      { rewrite EL2, ens_app, nth_error_app2 by (unfold k; lia). unfold k. rewrite Nat.sub_diag. unfold ens. cbn [filter]. unfold isEn. rewrite Ky. reflexivity. }
      rewrite (so_ens _ _ S) in H2. fold subs in H2. destruct (nth_error subs k) as [u|] eqn:Hu.
      2: { apply nth_error_None in Hu. apply nth_error_Some in H2 as H3 || assert (H3 : nth_error (map (fun u => sa_aoffset u + sa_asize u) subs) k <> None) by congruence; apply nth_error_Some in H3. rewrite map_length in H3. lia. }
      rewrite (map_nth_error _ _ _ Hu) in H2. injection H2 as H2.
      pose proof (so_ok _ _ S) as O. rewrite Forall_forall in O. specialize (O u ltac:(apply in_rev; eapply nth_error_In; eauto)).
      destruct O as (O1 & O2 & (q & Q1 & Q2) & O3 & O4 & O5). destruct (pow_div8 q Q1) as [_ Q3]. unfold gok in Gy. rewrite Ky in Gy. unfold bend in H2.
      rewrite (find_at subs k u (ba y) Hu) by (lia || (intros j v Hj Hv; pose proof (ord_nth _ (so_ord _ _ S) j k u v Hj Hu Hv); lia)). cbn [Nat.add].
      assert (Cn : length (sts (l1 ++ [b])) = Datatypes.S k) by (apply (count_inside _ y l3); [rewrite <- EL2; exact F|congruence]).
      assert (L3 : sts L = sts (l1 ++ [b]) ++ sts l3). { rewrite EL2, sts_app. f_equal. unfold sts. cbn [filter]. unfold isSt at 1. rewrite Ky. reflexivity. }
      destruct l3 as [|z l4].
      * rewrite (proj2 (nth_error_None subs (Datatypes.S k))); [cbn; unfold nxt, addrs, lives; cbn; unfold live1; rewrite Ky; reflexivity|].
        rewrite (so_sts _ _ S) in L3. apply (f_equal (@length Z)) in L3. rewrite app_length, map_length in L3. fold subs in L3. cbn in L3. lia.
      * assert (Kz : bk z = KStart).
        { unfold full in F. rewrite EL2, <- app_assoc in F. cbn [app] in F.
          change (E0 :: (l1 ++ [b]) ++ y :: z :: l4 ++ [S1]) with ((E0 :: (l1 ++ [b])) ++ y :: z :: l4 ++ [S1]) in F. apply chain_mid in F as [_ F].
          destruct F as [Az _]. unfold adj in Az. rewrite Ky in Az. tauto. }
        assert (Hz : nth_error (map sa_aoffset subs) (Datatypes.S k) = Some (ba z)).
        { unfold subs. rewrite <- (so_sts _ _ S), L3, nth_error_app2 by lia. rewrite Cn, Nat.sub_diag. unfold sts. cbn [filter]. unfold isSt. rewrite Kz. reflexivity. }
        destruct (nth_error subs (Datatypes.S k)) as [u'|] eqn:Hu'; [|apply nth_error_None in Hu'; assert (H3 : nth_error (map sa_aoffset subs) (Datatypes.S k) <> None) by congruence; apply nth_error_Some in H3; rewrite map_length in H3; lia].
        rewrite (map_nth_error _ _ _ Hu') in Hz. injection Hz as Hz. rewrite Hz.
        replace false with (isF (bk z)) by (rewrite Kz; reflexivity). rewrite (IH ((l1 ++ [b]) ++ [y]) z l4).
        -- unfold nxt, addrs, lives. cbn [flat_map]. unfold live1 at 2 3. rewrite Ky, Kz. reflexivity.
        -- rewrite EL2, <- !app_assoc. reflexivity.
        -- congruence.
        -- cbn [length] in Hl. lia.
    + (* victim *)
      unfold fixed in Fy. rewrite Ky in Fy. destruct Fy as [_ Fy]. unfold fetch at 1. rewrite Fy. cbn [Z.eqb SPECIALGINT1DV Pos.eqb].
      replace false with (isF (bk y)) by (rewrite Ky; reflexivity). rewrite (IH (l1 ++ [b]) y l3 EL2); [|congruence|lia].
      unfold nxt, addrs, lives. cbn [flat_map]. unfold live1 at 2. rewrite Ky. reflexivity.
    + replace true with (isF (bk y)) by (rewrite Ky; reflexivity). rewrite (IH (l1 ++ [b]) y l3 EL2); [|congruence|lia].
      unfold nxt, addrs, lives. cbn [flat_map]. unfold live1 at 2. rewrite Ky. reflexivity.
    + congruence.
    + unfold nxt, addrs, lives. cbn [flat_map]. unfold live1 at 1. rewrite Ky. reflexivity.
Qed.

Lemma first_spec s L fl n : inv s L fl -> (length L <= n)%nat -> wg_get_first_raw_record n s = Some (hd 0 (addrs L)).
Proof.
  intros I Hn. assert (I0 := I). destruct I as [C F D S]. unfold wg_get_first_raw_record. destruct L as [|st L].
  - exfalso. pose proof (so_sts _ _ S) as H. destruct (so_ne _ _ S) as [N _]. cbn in H. destruct (vsubs s) as [|u r]; [congruence|]. cbn [rev] in H. rewrite map_app in H. destruct (map sa_aoffset (rev r)); discriminate.
  - assert (Ks : bk st = KStart) by (unfold full in F; cbn [app chain] in F; destruct F as [A _]; unfold adj in A; cbn in A; tauto).
    pose proof (so_sts _ _ S) as H. unfold sts in H. cbn [filter] in H. unfold isSt in H at 1. rewrite Ks in H. cbn [map] in H.
    destruct (rev (vsubs s)) as [|u r]; [discriminate|]. cbn [map] in H. injection H as H _. rewrite <- H.
    unfold wg_get_next_raw_record. cbv zeta.
    pose proof (cok _ _ _ C st (or_introl eq_refl)) as G.
    rewrite (fetch_hdr s _ fl st C (or_introl eq_refl)), (isfree_hdr st G) by congruence. rewrite <- (fetch_hdr s _ fl st C (or_introl eq_refl)) by congruence. rewrite Ks. cbn [isF].
    replace false with (isF (bk st)) by (rewrite Ks; reflexivity).
    rewrite (next_loop_spec s _ fl I0 n [] st L eq_refl); [|congruence|cbn in Hn; lia]. f_equal. unfold nxt, addrs, lives. cbn [flat_map]. unfold live1 at 2. rewrite Ks. reflexivity.
Qed.
Lemma next_spec s L fl n l1 b l2 : inv s L fl -> (length L <= n)%nat -> L = l1 ++ b :: l2 -> isU (bk b) = true -> wg_get_next_raw_record n s (ba b) = Some (hd 0 (addrs l2)).
Proof.
  intros I Hn EL U. assert (I0 := I). destruct I as [C F D S]. unfold wg_get_next_raw_record. cbv zeta.
  assert (Hb : In b L) by (rewrite EL; apply in_mid). pose proof (cok _ _ _ C b Hb) as G.
  assert (Nb : bk b <> KTmp /\ bk b <> KEnd /\ isF (bk b) = false) by (destruct (bk b); try discriminate; repeat split; discriminate).
  rewrite (fetch_hdr s _ fl b C Hb) by tauto. rewrite (isfree_hdr b G) by tauto. rewrite (proj2 (proj2 Nb)). rewrite <- (fetch_hdr s _ fl b C Hb) by tauto.
  rewrite <- (proj2 (proj2 Nb)). apply (next_loop_spec s L fl I0 n l1 b l2 EL); [tauto|]. rewrite EL, app_length in Hn. cbn in Hn. lia.
Qed.
Lemma addrs_split L : forall l1 a l2, addrs L = l1 ++ a :: l2 -> exists k1 b k2, L = k1 ++ b :: k2 /\ isU (bk b) = true /\ ba b = a /\ addrs k1 = l1 /\ addrs k2 = l2.
Proof.
  intros l1 a l2 H. unfold addrs in *. apply map_eq_app in H as (p1 & p2 & E & <- & H2). destruct p2 as [|[[a' w] d] p2]; [discriminate|]. cbn in H2. injection H2 as <- <-.
  apply lives_split in E as (k1 & n & pf & k2 & -> & <- & <-). exists k1, (B a' n (KUsed w pf d)), k2. auto.
Qed.
Lemma addrs_sorted s L fl : core s L fl -> StronglySorted Z.lt (addrs L) /\ Forall (fun a => 0 < a) (addrs L).
Proof.
  intros C. pose proof (c_ord _ _ _ C) as O. pose proof (c_ok _ _ _ C) as G. clear C. induction O as [|b L F O IH]; [split; constructor|].
  inversion G as [|? ? Gb GL]; subst. destruct (IH GL) as [S P].
  assert (X : Forall (fun a => ba b < a) (addrs L)).
  { rewrite Forall_forall in F, GL |- *. intros a Ha. apply in_split in Ha as (l1 & l2 & Ha). apply addrs_split in Ha as (k1 & c & k2 & -> & _ & <- & _).
    specialize (F c (in_mid _ _ _)). unfold before, bend in F. unfold gok in Gb. lia. }
  unfold addrs in *. rewrite lives_cons, map_app. unfold live1. destruct (bk b); cbn [map app]; try (split; assumption).
  split; constructor; auto. unfold gok in Gb. cbn. lia.
Qed.

(** ** Regions *)
Lemma walk_spec s L fl : core s L fl -> forall l x e n, chain adj (x :: l) -> (forall b, In b (x :: l) -> In b L /\ bk b <> KTmp) -> ens (removelast (x :: l)) = [] ->
  bend (last l x) = e -> (length l < n)%nat -> walk n s (ba x) e = Some (map (fun b => (ba b, bs b, hdr b)) (x :: l)).
Proof.
  intros C. induction l as [|y l IH]; intros x e n H Hin He Hl Hn.
  - destruct n as [|n]; [lia|]. destruct (Hin x (or_introl eq_refl)) as [Hx Nx]. pose proof (cok _ _ _ C x Hx) as G. cbn [walk last] in *.
    destruct (Z.eqb_spec (ba x) e) as [E|_]; [unfold bend, gok in *; lia|]. change (vm s (ba x)) with (fetch s (ba x)). rewrite (fetch_hdr s L fl x C Hx Nx). cbv zeta.
    change (if isfreeobject (hdr x) then getfreeobjectsize (hdr x) else getusedobjectsize (hdr x)) with (rsize (hdr x)). rewrite (rsize_hdr x G Nx).
    unfold bend in Hl. rewrite Hl. destruct n; cbn [walk]; rewrite Z.eqb_refl; reflexivity.
  - destruct n as [|n]; [lia|]. destruct (Hin x (or_introl eq_refl)) as [Hx Nx]. pose proof (cok _ _ _ C x Hx) as G. destruct H as [A H].
    assert (Ne : bk x <> KEnd). { intros E. unfold ens in He. cbn [removelast filter] in He. unfold isEn at 1 in He. rewrite E in He. discriminate. }
    destruct (adj_next _ _ A Ne) as [Ey _].
    assert (Hm : walk n s (ba y) e = Some (map (fun b => (ba b, bs b, hdr b)) (y :: l))).
    { apply IH; [exact H|intros b Hb; apply Hin; now right| | |cbn in Hn; lia].
      - unfold ens in *. change (removelast (x :: y :: l)) with (x :: removelast (y :: l)) in He. cbn [filter] in He. destruct (isEn x); [discriminate|exact He].
      - rewrite <- Hl. f_equal. destruct l as [|z l]; [reflexivity|]. cbn [last]. clear. revert z. induction l as [|w l IH]; intros z; [reflexivity|]. cbn [last] in *. apply IH. }
    cbn [walk]. destruct (Z.eqb_spec (ba x) e) as [E|_].
    { exfalso. assert (Q : ba x < bend (last (y :: l) x)); [|lia]. 
      assert (In (last (y :: l) x) (y :: l)) as Hz. { clear. revert y. induction l as [|z l IH]; intros y; [now left|]. right. apply IH. }
      destruct (Hin _ (or_intror Hz)) as [Hz' _]. pose proof (cok _ _ _ C _ Hz') as Gz.
      assert (Hmono : forall l x, chain adj (x :: l) -> (forall b, In b (x :: l) -> In b L) -> ens (removelast (x :: l)) = [] -> ba x <= ba (last l x)).
      { clear - C. induction l as [|y l IH]; intros x H Hin He; [cbn; lia|]. destruct H as [A H].
        assert (Ne : bk x <> KEnd). { intros E. unfold ens in He. cbn [removelast filter] in He. unfold isEn at 1 in He. rewrite E in He. discriminate. }
        destruct (adj_next _ _ A Ne) as [Ey _]. pose proof (cok _ _ _ C x (Hin x (or_introl eq_refl))) as G.
        assert (E2 : last (y :: l) x = last l y). { clear. revert x y. induction l as [|z l IH]; intros x y; [reflexivity|]. change (last (z :: l) x = last (z :: l) y). rewrite (IH x z), (IH y z). reflexivity. }
        rewrite E2. assert (ba y <= ba (last l y)). { apply IH; [exact H|intros b Hb; apply Hin; now right|]. unfold ens in *. change (removelast (x :: y :: l)) with (x :: removelast (y :: l)) in He. cbn [filter] in He. destruct (isEn x); [discriminate|exact He]. }
        unfold gok, bend in *. lia. }
      pose proof (Hmono (y :: l) x (conj A H) (fun b Hb => proj1 (Hin b Hb)) He). unfold gok, bend in *. lia. }
    change (vm s (ba x)) with (fetch s (ba x)). rewrite (fetch_hdr s L fl x C Hx Nx). cbv zeta.
    change (if isfreeobject (hdr x) then getfreeobjectsize (hdr x) else getusedobjectsize (hdr x)) with (rsize (hdr x)). rewrite (rsize_hdr x G Nx).
    replace (ba x + bs x) with (ba y) by (unfold bend in Ey; lia). rewrite Hm. reflexivity.
Qed.

Lemma follow_dll s : forall l p, dll (vm s) p l -> (forall a, In a l -> a <> 0) -> follow (length l) s (hd 0 l) = l.
Proof.
  induction l as [|a l IH]; intros p D N; cbn [length follow hd]; [reflexivity|]. destruct (Z.eqb_spec a 0) as [E|_]; [destruct (N a (or_introl eq_refl) E)|].
  destruct D as (D1 & _ & D3). rewrite D1. f_equal. apply (IH a D3). intros b Hb. apply N. now right.
Qed.
Lemma free_listed s L fl b : inv s L fl -> In b L -> bk b = KFree -> exists n, In (ba b) (follow n s (vb s (wg_freebuckets_index (bs b)))).
Proof.
  intros [C F D S] Hb K. pose proof (size_ok _ _ _ _ C F S Hb) as Sz. pose proof (idx_range (bs b) ltac:(lia)) as Hi.
  destruct (c_fl _ _ _ C _ Hi) as (F1 & F2 & F3). exists (length (fl (idx (bs b)))). change (wg_freebuckets_index (bs b)) with (idx (bs b)). rewrite F1.
  rewrite (follow_dll s _ _ F2); [apply (fl_of_free _ _ _ C b Hb K Hi)|]. intros a Ha E. pose proof (fl_pos _ _ _ C _ _ Hi Ha). lia.
Qed.

(** ** Reuse *)
Lemma idx_log n : 256 <= n < 2 ^ 40 -> idx n = 248 + Z.log2 n.
Proof.
  intros H. unfold idx, wg_freebuckets_index. destruct (Z.ltb_spec n EXACTBUCKETS_NR) as [L|_]; [unfold EXACTBUCKETS_NR in L; lia|].
  assert (X : forall k i, 0 <= i -> 2 ^ (8 + i) <= n < 2 ^ (8 + i + Z.of_nat k) -> fbi_loop k i (2 ^ (9 + i)) n = 248 + Z.log2 n).
  { induction k as [|k IH]; intros i Hi Hn.
    - rewrite Z.add_0_r in Hn. lia.
    - cbn [fbi_loop]. destruct (Z.ltb_spec n (2 ^ (9 + i))) as [L|L].
      + unfold EXACTBUCKETS_NR. assert (Z.log2 n = 8 + i); [|lia]. apply Z.log2_unique; [lia|]. replace (Z.succ (8 + i)) with (9 + i) by lia. lia.
      + replace (2 ^ (9 + i) * 2) with (2 ^ (9 + (i + 1))) by (rewrite !Z.pow_add_r by lia; change (2 ^ 1) with 2; ring).
        apply IH; [lia|]. replace (8 + (i + 1)) with (9 + i) by lia. split; [exact L|]. replace (9 + i + Z.of_nat k) with (8 + i + Z.of_nat (S k)) by lia. lia. }
  apply (X 32%nat 0); [lia|]. change (2 ^ (8 + 0)) with 256. change (2 ^ (8 + 0 + Z.of_nat 32)) with (2 ^ 40). exact H.
Qed.
Lemma find_split_none n : forall s i used, find_split n s i used = None -> forall j, i <= j -> j < i + Z.of_nat n -> j < 256 ->
  vb s j = 0 \/ getfreeobjectsize (fetch s (vb s j)) < used + 32.
Proof.
  induction n as [|n IH]; intros s i used H j H1 H2 H3; [lia|]. cbn [find_split] in H. destruct (Z.ltb_spec i EXACTBUCKETS_NR) as [L|L]; unfold EXACTBUCKETS_NR in L; [|lia].
  destruct (negb (vb s i =? 0) && (used + MIN_VARLENOBJ_SIZE <=? getfreeobjectsize (fetch s (vb s i)))) eqn:E; [discriminate|].
  destruct (Z.eq_dec j i) as [->|N]; [|apply (IH s (i + 1) used H); lia].
  apply andb_false_iff in E as [E|E]; [left; now apply negb_false_iff, Z.eqb_eq in E|right; apply Z.leb_gt in E; unfold MIN_VARLENOBJ_SIZE in E; lia].
Qed.
Lemma var_loop_none n : forall s i used w, var_loop n s i used w = None -> forall j, i <= j -> j < i + Z.of_nat n -> j < 288 ->
  vb s j = 0 \/ getfreeobjectsize (fetch s (vb s j)) < used + 32 /\ getfreeobjectsize (fetch s (vb s j)) <> used.
Proof.
  induction n as [|n IH]; intros s i used w H j H1 H2 H3; [lia|]. cbn [var_loop] in H. destruct (Z.ltb_spec i (EXACTBUCKETS_NR + VARBUCKETS_NR)) as [L|L]; unfold EXACTBUCKETS_NR, VARBUCKETS_NR in L; [|lia].
  destruct (Z.eqb_spec (vb s i) 0) as [E|E].
  - destruct (Z.eq_dec j i) as [->|N]; [now left|]. apply (IH s (i + 1) used w H); lia.
  - destruct (Z.eqb_spec (getfreeobjectsize (fetch s (vb s i))) used) as [Eu|Eu]; [discriminate|].
    destruct (Z.leb_spec (used + MIN_VARLENOBJ_SIZE) (getfreeobjectsize (fetch s (vb s i)))) as [Hl|Hl]; [discriminate|]. unfold MIN_VARLENOBJ_SIZE in Hl.
    destruct (Z.eq_dec j i) as [->|N]; [right; lia|]. apply (IH s (i + 1) used w H); lia.
Qed.

(** When nothing suits, no region of these sizes is available. *)
Lemma try_none s L fl w : inv s L fl -> 0 <= w < 2 ^ 40 -> w mod 8 = 0 -> alloc_try s w = TNone ->
  (vb s DVBUCKET = 0 \/ vb s DVSIZEBUCKET < Z.max 32 w + 32 /\ vb s DVSIZEBUCKET <> Z.max 32 w) /\
  forall b, In b L -> bk b = KFree ->
    (bs b < 256 -> bs b < Z.max 32 w + 32 /\ bs b <> Z.max 32 w) /\ (256 <= bs b -> 2 ^ Z.log2 (bs b) < Z.max 32 w + 32).
Proof.
  intros I W1 W2. unfold alloc_try. rewrite (used_bytes_eq w) by lia. set (u := Z.max 32 w). cbv zeta.
  destruct ((u <? EXACTBUCKETS_NR) && negb (vb s u =? 0)) eqn:Q1; [discriminate|].
  destruct (find_split 3 s (u + 1) u) as [i|]; [destruct (split_give s i u w); discriminate|].
  destruct ((u <=? vb s DVSIZEBUCKET) && negb (vb s DVBUCKET =? 0) && (u =? vb s DVSIZEBUCKET)) eqn:Q2; [discriminate|].
  destruct ((u <=? vb s DVSIZEBUCKET) && negb (vb s DVBUCKET =? 0) && (u + MIN_VARLENOBJ_SIZE <=? vb s DVSIZEBUCKET)) eqn:Q3; [discriminate|].
  destruct (find_split 256 s (u + 1) u) as [i|] eqn:Q4; [destruct (split_give s i u w); discriminate|].
  change (wg_freebuckets_index u) with (idx u). pose proof (idx_range u ltac:(lia)) as Hx. destruct (Z.ltb_spec (idx u) 0); [discriminate|].
  destruct (var_loop 288 s (idx u) u w) as [[? ?]|] eqn:Q5; [discriminate|]. intros _. split.
  - destruct (Z.eqb_spec (vb s DVBUCKET) 0) as [E|E]; [now left|]. right. cbn [negb] in Q2, Q3. rewrite andb_true_r in Q2, Q3.
    apply andb_false_iff in Q2. apply andb_false_iff in Q3. rewrite Z.leb_gt, Z.eqb_neq in Q2. rewrite !Z.leb_gt in Q3. unfold MIN_VARLENOBJ_SIZE in Q3. lia.
  - destruct I as [C F D S]. intros b Hb K. pose proof (size_ok _ _ _ _ C F S Hb) as Sz. pose proof (idx_range (bs b) ltac:(lia)) as Hi.
    pose proof (fl_of_free _ _ _ C b Hb K Hi) as Hl. destruct (c_fl _ _ _ C _ Hi) as (F1 & _ & _).
    assert (Nz : vb s (idx (bs b)) <> 0). { destruct (fl (idx (bs b))) as [|a q] eqn:E; [destruct Hl|]. rewrite F1. cbn. assert (In a (fl (idx (bs b)))) by (rewrite E; now left). pose proof (fl_pos _ _ _ C _ _ Hi H0). lia. }
    destruct (first_block s L fl _ C Hi Nz) as (l1 & n & l2 & q2 & EL & Ei & _).
    assert (Hf : In (B (vb s (idx (bs b))) n KFree) L) by (rewrite EL; apply in_mid). pose proof (size_ok _ _ _ _ C F S Hf) as Sf. cbn in Sf.
    pose proof (cok _ _ _ C _ Hf) as Gf. unfold gok in Gf. cbn in Gf.
    assert (Hh := fetch_hdr s _ fl _ C Hf ltac:(discriminate)). unfold hdr in Hh. cbn [bk bs ba] in Hh.
    assert (Esz : getfreeobjectsize (fetch s (vb s (idx (bs b)))) = n) by (rewrite Hh; apply getfree_free; lia).
    split; intros Hb2.
    + rewrite (idx_small (bs b)) in * by lia. apply idx_exact in Ei; [|lia|lia]. subst n. 
      assert (bs b <> u).
      { intros E. apply andb_false_iff in Q1 as [Q1|Q1]; [apply Z.ltb_ge in Q1; unfold EXACTBUCKETS_NR in Q1; lia|]. apply negb_false_iff, Z.eqb_eq in Q1. congruence. }
      split; [|assumption]. destruct (Z.lt_ge_cases (bs b) (u + 1)) as [|Hge]; [lia|].
      destruct (find_split_none 256 s (u + 1) u Q4 (bs b)) as [X|X]; [lia|lia|lia|congruence|lia].
    + rewrite (idx_log (bs b)) in * by lia. destruct (Z.lt_ge_cases (2 ^ Z.log2 (bs b)) (u + 32)) as [|Hge]; [assumption|]. exfalso.
      assert (8 <= Z.log2 (bs b)) by (change 8 with (Z.log2 256); apply Z.log2_le_mono; lia).
      assert (256 <= n). { destruct (Z.lt_ge_cases n 256) as [L6|]; [|lia]. rewrite idx_small in Ei by lia. lia. }
      rewrite idx_log in Ei by lia. assert (Eg : Z.log2 n = Z.log2 (bs b)) by lia. pose proof (Z.log2_spec n ltac:(lia)) as [Ln _]. rewrite Eg in Ln.
      assert (Hu : idx u <= 248 + Z.log2 (bs b)).
      { destruct (Z.lt_ge_cases u 256) as [L6|G6]; [rewrite idx_small by lia; lia|]. rewrite idx_log by lia. pose proof (Z.log2_le_mono u (2 ^ Z.log2 (bs b)) ltac:(lia)) as M. rewrite Z.log2_pow2 in M by lia. lia. }
      destruct (var_loop_none 288 s (idx u) u w Q5 (248 + Z.log2 (bs b))) as [X|[X _]]; [lia|lia|lia|congruence|lia].
Qed.

End WithRegion.
