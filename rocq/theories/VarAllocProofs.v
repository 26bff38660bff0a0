(** Invariant of a variable-length area; allocation and freeing preserve it. *)
From Coq Require Import ZArith List Lia Bool.
From Verif Require Import Base FixAllocModel VarAllocModel VarAllocCore.
Import ListNotations.
Open Scope Z_scope.

Section WithRegion.
Context {rg : region}.

(** ** Bucket index *)
Lemma fbi_loop_spec n : forall i c size, 0 < c -> size < c * 2 ^ (Z.of_nat n) ->
  i + EXACTBUCKETS_NR <= fbi_loop (S n) i c size < i + EXACTBUCKETS_NR + Z.of_nat (S n).
Proof.
  induction n as [|n IH]; intros i c size Hc H; cbn [fbi_loop].
  - rewrite Z.pow_0_r, Z.mul_1_r in H. destruct (Z.ltb_spec size c); lia.
  - destruct (Z.ltb_spec size c); [lia|]. change (if size <? c * 2 then EXACTBUCKETS_NR + (i + 1) else fbi_loop n (i + 1 + 1) (c * 2 * 2) size) with (fbi_loop (S n) (i + 1) (c * 2) size).
    rewrite Nat2Z.inj_succ, Z.pow_succ_r in H by lia.
    assert (H' : size < c * 2 * 2 ^ Z.of_nat n) by lia. specialize (IH (i + 1) (c * 2) size ltac:(lia) H'). lia.
Qed.
Lemma idx_small n : n < 256 -> idx n = n.
Proof. intros H. unfold idx, wg_freebuckets_index, EXACTBUCKETS_NR. destruct (Z.ltb_spec n 256); lia. Qed.
Lemma idx_big n : 256 <= n < 2 ^ 40 -> 256 <= idx n < 288.
Proof.
  intros H. unfold idx, wg_freebuckets_index. destruct (Z.ltb_spec n EXACTBUCKETS_NR) as [L|L]; [unfold EXACTBUCKETS_NR in L; lia|].
  assert (Hb : n < EXACTBUCKETS_NR * 2 * 2 ^ Z.of_nat 31).
  { change (EXACTBUCKETS_NR * 2 * 2 ^ Z.of_nat 31) with (2 ^ 40). lia. }
  pose proof (fbi_loop_spec 31 0 (EXACTBUCKETS_NR * 2) n ltac:(unfold EXACTBUCKETS_NR; lia) Hb). unfold EXACTBUCKETS_NR in *. lia.
Qed.
Lemma idx_range n : 0 <= n < 2 ^ 40 -> 0 <= idx n < 288.
Proof. intros H. destruct (Z.lt_ge_cases n 256); [rewrite idx_small; lia|pose proof (idx_big n); lia]. Qed.
Lemma idx_exact n i : 0 <= n < 2 ^ 40 -> idx n = i -> i < 256 -> n = i.
Proof. intros H E Hi. destruct (Z.lt_ge_cases n 256); [rewrite idx_small in E; lia|pose proof (idx_big n); lia]. Qed.

(** ** Adjacent blocks *)
Definition isF (k : kind) : bool := match k with KFree => true | _ => false end.
Definition frs (k : kind) : bool := match k with KFree | KDv => true | _ => false end.
Definition adj (x y : blk) : Prop :=
  match bk x with KEnd => bk y = KStart | _ => bk y <> KStart /\ ba y = bend x end /\
  frs (bk x) && frs (bk y) = false /\
  match bk y with KUsed _ pf _ => pf = isF (bk x) | KTmp => False | _ => True end.

Fixpoint chain (R : blk -> blk -> Prop) (l : list blk) : Prop :=
  match l with
  | x :: r => match r with y :: _ => R x y | [] => True end /\ chain R r
  | [] => True
  end.
Lemma chain_mid R l1 x l2 : chain R (l1 ++ x :: l2) <-> chain R (l1 ++ [x]) /\ chain R (x :: l2).
Proof.
  induction l1 as [|a l1 IH]; cbn [app].
  - cbn [chain]. tauto.
  - destruct l1 as [|b l1]; cbn [app chain] in *; tauto.
Qed.
Definition E0 := B 0 0 KEnd.
Definition S1 := B 0 0 KStart.
Definition full (L : list blk) : Prop := chain adj (E0 :: L ++ [S1]).

Definition setpf (v : bool) (b : blk) : blk := match bk b with KUsed w _ d => B (ba b) (bs b) (KUsed w v d) | _ => b end.
Definition setw (b : blk) : blk := match bk b with KUsed w v d => B (ba b) (bs b) (KUsed (Z.max 32 w) v d) | _ => b end.
(** Same block up to the header word of a used one. *)
Definition sameb (x y : blk) : Prop :=
  ba x = ba y /\ bs x = bs y /\ match bk x, bk y with KUsed _ _ d, KUsed _ _ d' => d = d' | KUsed _ _ _, _ => False | _, KUsed _ _ _ => False | a, b => a = b end.
Lemma sameb_setpf v b : sameb b (setpf v b).
Proof. unfold sameb, setpf. destruct b as [a n []]; cbn; auto. Qed.
Lemma adj_left x x' y : sameb x x' -> adj x y -> adj x' y.
Proof.
  unfold sameb, adj, bend. destruct x as [a n k], x' as [a' n' k']. cbn. intros (-> & -> & E).
  destruct k, k'; try contradiction; try discriminate; auto.
Qed.
Lemma chain_left x x' l : sameb x x' -> chain adj (x :: l) -> chain adj (x' :: l).
Proof. intros S. cbn [chain]. intros [H1 H2]. split; [|exact H2]. destruct l; [exact I|]. eapply adj_left; eauto. Qed.

(** Replacing the blocks between an unknown left neighbour and [y]. *)
Lemma full_replace l1 mid mid' y y' l2 : full (l1 ++ mid ++ y :: l2) -> sameb y y' ->
  (forall x, chain adj (x :: mid ++ [y]) -> chain adj (x :: mid' ++ [y'])) -> full (l1 ++ mid' ++ y' :: l2).
Proof.
  unfold full. intros H Sy X.
  destruct (exists_last (l := E0 :: l1)) as (P & x & EP); [discriminate|].
  assert (E : forall Z, E0 :: (l1 ++ Z) ++ [S1] = P ++ x :: (Z ++ [S1])).
  { intros Z. change (E0 :: (l1 ++ Z) ++ [S1]) with ((E0 :: l1 ++ Z) ++ [S1]). change (E0 :: l1 ++ Z) with ((E0 :: l1) ++ Z). rewrite EP, <- !app_assoc. reflexivity. }
  rewrite E in H |- *. apply chain_mid in H as [H1 H2]. apply chain_mid. split; [exact H1|].
  rewrite <- !app_assoc in *. cbn [app] in *.
  change (x :: mid ++ y :: l2 ++ [S1]) with ((x :: mid) ++ y :: (l2 ++ [S1])) in H2.
  change (x :: mid' ++ y' :: l2 ++ [S1]) with ((x :: mid') ++ y' :: (l2 ++ [S1])).
  apply chain_mid in H2 as [H2 H3]. apply chain_mid. split; [apply X; exact H2|]. eapply chain_left; eauto.
Qed.

(** Left and right neighbours. *)
Lemma full_next l1 b l2 : full (l1 ++ b :: l2) -> bk b <> KEnd -> exists y l3, l2 = y :: l3 /\ adj b y.
Proof.
  unfold full. intros H N. change (E0 :: (l1 ++ b :: l2) ++ [S1]) with ((E0 :: l1 ++ b :: l2) ++ [S1]) in H.
  change (E0 :: l1 ++ b :: l2) with ((E0 :: l1) ++ b :: l2) in H. rewrite <- app_assoc in H. cbn [app] in H.
  change (E0 :: l1 ++ b :: l2 ++ [S1]) with ((E0 :: l1) ++ b :: (l2 ++ [S1])) in H. apply chain_mid in H as [_ H]. cbn [chain] in H.
  destruct l2 as [|y l3]; cbn [app] in H.
  - destruct H as [A _]. exfalso. unfold adj in A. cbn in A. destruct (bk b); intuition congruence.
  - exists y, l3. split; [reflexivity|]. apply H.
Qed.
Lemma full_prev l1 b l2 : full (l1 ++ b :: l2) -> bk b <> KStart -> exists l0 x, l1 = l0 ++ [x] /\ adj x b.
Proof.
  unfold full. intros H N. change (E0 :: (l1 ++ b :: l2) ++ [S1]) with ((E0 :: l1 ++ b :: l2) ++ [S1]) in H.
  change (E0 :: l1 ++ b :: l2) with ((E0 :: l1) ++ b :: l2) in H. rewrite <- app_assoc in H. cbn [app] in H.
  destruct l1 as [|a l1].
  - cbn [app chain] in H. destruct H as [A _]. exfalso. unfold adj in A. cbn in A. tauto.
  - destruct (exists_last (l := a :: l1)) as (P & x & EP); [discriminate|]. rewrite EP in *. exists P, x. split; [reflexivity|].
    change (E0 :: (P ++ [x]) ++ b :: l2 ++ [S1]) with ((E0 :: P ++ [x]) ++ b :: l2 ++ [S1]) in H.
    change (E0 :: P ++ [x]) with ((E0 :: P) ++ [x]) in H. rewrite <- app_assoc in H. cbn [app] in H.
    change (E0 :: P ++ x :: b :: l2 ++ [S1]) with ((E0 :: P) ++ x :: b :: l2 ++ [S1]) in H. apply chain_mid in H as [_ H]. cbn [chain] in H. tauto.
Qed.
Lemma full_notmp L b : full L -> In b L -> bk b <> KTmp.
Proof.
  intros F H. apply in_split in H as (l1 & l2 & ->). destruct (bk b) eqn:K; try discriminate.
  destruct (full_prev l1 b l2 F) as (l0 & x & _ & A); [congruence|]. unfold adj in A. rewrite K in A. tauto.
Qed.

(** ** Invariant *)
Definition isSt (b : blk) : bool := match bk b with KStart => true | _ => false end.
Definition isEn (b : blk) : bool := match bk b with KEnd => true | _ => false end.
Definition isDv (b : blk) : bool := match bk b with KDv => true | _ => false end.
Definition sts (L : list blk) : list Z := map ba (filter isSt L).
Definition ens (L : list blk) : list Z := map bend (filter isEn L).
Definition dvs (L : list blk) : list blk := filter isDv L.
Lemma sts_app l1 l2 : sts (l1 ++ l2) = sts l1 ++ sts l2.
Proof. unfold sts. now rewrite filter_app, map_app. Qed.
Lemma ens_app l1 l2 : ens (l1 ++ l2) = ens l1 ++ ens l2.
Proof. unfold ens. now rewrite filter_app, map_app. Qed.
Lemma dvs_app l1 l2 : dvs (l1 ++ l2) = dvs l1 ++ dvs l2.
Proof. apply filter_app. Qed.

(** Used blocks: address, wanted bytes, contents. *)
Definition live1 (b : blk) : list (Z * Z * (Z -> Z)) := match bk b with KUsed w _ d => [(ba b, w, d)] | _ => [] end.
Definition lives (L : list blk) : list (Z * Z * (Z -> Z)) := flat_map live1 L.
Lemma lives_app l1 l2 : lives (l1 ++ l2) = lives l1 ++ lives l2.
Proof. apply flat_map_app. Qed.
Lemma lives_cons b l : lives (b :: l) = live1 b ++ lives l.
Proof. reflexivity. Qed.

Definition dvok (s : vstate) (L : list blk) : Prop :=
  (vb s DVBUCKET = 0 /\ vb s DVSIZEBUCKET = 0 /\ dvs L = []) \/
  (exists a n, dvs L = [B a n KDv] /\ vb s DVBUCKET = a /\ vb s DVSIZEBUCKET = n).

Definition subok (free : Z) (u : subarea) : Prop :=
  sa_aoffset u = sa_offset u /\ sa_asize u = sa_size u /\ (exists k, 13 <= k /\ sa_size u = 2 ^ k) /\ 0 < sa_offset u /\ sa_offset u mod 8 = 0 /\
  sa_offset u + sa_size u <= free.
Record subsok (s : vstate) (L : list blk) : Prop := {
  so_sts : sts L = map sa_aoffset (rev (vsubs s));
  so_ens : ens L = map (fun u => sa_aoffset u + sa_asize u) (rev (vsubs s));
  so_ok : Forall (subok (vfree s)) (vsubs s);
  so_ord : ForallOrdPairs (fun u v => sa_offset v + sa_size v <= sa_offset u) (vsubs s);
  so_free : 0 < vfree s /\ vfree s mod 8 = 0 /\ vfree s < vsize s <= 2 ^ 40;
  so_ne : vsubs s <> [] /\ (length (vsubs s) <= 64)%nat;
  so_for : forall x, foreign x -> x < vfree s }.

Record inv (s : vstate) (L : list blk) (fl : Z -> list Z) : Prop := {
  i_core : core s L fl;
  i_full : full L;
  i_dv : dvok s L;
  i_subs : subsok s L }.

(** All blocks end below the free part of the segment. *)
Lemma last_end s L fl : core s L fl -> full L -> subsok s L -> forall b, In b L -> 0 < ba b /\ bend b <= vfree s.
Proof.
  intros C F S b Hb. split; [apply (cok _ _ _ C) in Hb; unfold gok in Hb; lia|].
  destruct L as [|z L0]; [destruct Hb|]. destruct (exists_last (l := z :: L0)) as (P & e & EP); [discriminate|]. rewrite EP in *.
  assert (Ke : bk e = KEnd).
  { destruct (bk e) eqn:K; try reflexivity; (destruct (full_next P e [] F) as (y & l3 & E & _); [congruence|discriminate]). }
  assert (He : bend e <= vfree s).
  { assert (In (bend e) (ens (P ++ [e]))). { rewrite ens_app. apply in_or_app. right. unfold ens. cbn. unfold isEn. rewrite Ke. now left. }
    rewrite (so_ens _ _ S) in H. apply in_map_iff in H as (u & <- & Hu). apply in_rev in Hu.
    pose proof (so_ok _ _ S) as O. rewrite Forall_forall in O. specialize (O u Hu). unfold subok in O. lia. }
  apply in_app_or in Hb as [Hb|[<-|[]]]; [|exact He].
  pose proof (c_ord _ _ _ C) as O. apply fop_app in O as (_ & _ & O). specialize (O b e Hb (or_introl eq_refl)). unfold before in O.
  pose proof (cok _ _ _ C e (in_mid P e [])) as G. unfold gok, bend in *. lia.
Qed.
Lemma size_ok s L fl b : core s L fl -> full L -> subsok s L -> In b L -> 32 <= bs b < 2 ^ 40.
Proof.
  intros C F S Hb. destruct (last_end s L fl C F S b Hb). pose proof (so_free _ _ S). apply (cok _ _ _ C) in Hb. unfold gok, bend in *. lia.
Qed.

(** ** Reading headers *)
Definition hdr (b : blk) : Z :=
  match bk b with
  | KStart | KEnd => 35 | KDv => bs b + 3 | KFree => bs b + 1 | KTmp => 0 | KUsed w pf _ => w + flagz pf end.
Lemma fetch_hdr s L fl b : core s L fl -> In b L -> bk b <> KTmp -> fetch s (ba b) = hdr b.
Proof. intros C Hb N. apply (cfix _ _ _ C) in Hb. unfold fetch, hdr, fixed in *. destruct (bk b); tauto. Qed.

End WithRegion.
Ltac bits := unfold isfreeobject, isnormalusedobject, isnormalusedobjectprevfree, isspecialusedobject; rewrite ?land3, ?land1;
  apply Z.eqb_eq || apply Z.eqb_neq; lia.
Section WithRegion.
Context {rg : region}.

Lemma isfree_hdr b : gok b -> bk b <> KTmp -> isfreeobject (hdr b) = isF (bk b).
Proof. intros G N. unfold gok, hdr in *. destruct (bk b) as [| | | | |w pf d]; cbn [isF]; try (now contradiction N); try bits. destruct pf; cbn [flagz]; bits. Qed.
Definition isU (k : kind) : bool := match k with KUsed _ _ _ => true | _ => false end.
Lemma isused_hdr b : gok b -> bk b <> KTmp -> isnormalusedobject (hdr b) = isU (bk b).
Proof. intros G N. unfold gok, hdr in *. destruct (bk b) as [| | | | |w pf d]; cbn [isU]; try (now contradiction N); try bits. destruct pf; cbn [flagz]; bits. Qed.
Definition isX (k : kind) : bool := match k with KStart | KEnd | KDv => true | _ => false end.
Lemma isspecial_hdr b : gok b -> bk b <> KTmp -> isspecialusedobject (hdr b) = isX (bk b).
Proof. intros G N. unfold gok, hdr in *. destruct (bk b) as [| | | | |w pf d]; cbn [isX]; try (now contradiction N); try bits. destruct pf; cbn [flagz]; bits. Qed.
Lemma prevfree_hdr b : gok b -> bk b <> KTmp -> isnormalusedobjectprevfree (hdr b) = match bk b with KUsed _ pf _ => pf | _ => false end.
Proof. intros G N. unfold gok, hdr in *. destruct (bk b) as [| | | | |w pf d]; try (now contradiction N); try bits. destruct pf; cbn [flagz]; bits. Qed.
Lemma used_size_hdr b : gok b -> bk b <> KTmp -> bk b <> KFree -> getusedobjectsize (hdr b) = bs b.
Proof.
  intros G N N2. unfold gok, hdr, getusedobjectsize, MIN_VARLENOBJ_SIZE in *. rewrite landn3. cbv zeta.
  assert (R : forall z, z mod 8 = 0 -> Z.rem z 8 = 0). { intros z Hz. apply Z.rem_divide; [lia|]. apply Z.mod_divide; [lia|exact Hz]. }
  destruct (bk b) as [| | | | |w pf d]; try congruence; try (replace (35 - 35 mod 4) with 32 by reflexivity; cbn; lia).
  - replace (bs b + 3 - (bs b + 3) mod 4) with (bs b) by lia. destruct (Z.leb_spec (bs b) 32); [lia|]. rewrite R by lia. reflexivity.
  - replace (w + flagz pf - (w + flagz pf) mod 4) with w by (destruct pf; cbn [flagz]; lia).
    destruct (Z.leb_spec w 32); [lia|]. rewrite R by lia. cbn. lia.
Qed.

(** ** Flag of the following block *)
Lemma mark_prevused_spec s l1 y l2 fl : core s (l1 ++ y :: l2) fl -> bk y <> KTmp ->
  core (mark_prevused s (ba y)) (l1 ++ setpf false y :: l2) fl /\ others s (mark_prevused s (ba y)) /\ vb (mark_prevused s (ba y)) = vb s.
Proof.
  intros C N. pose proof (in_mid l1 y l2) as Hy. pose proof (cok _ _ _ C y Hy) as G.
  unfold mark_prevused. rewrite (fetch_hdr s _ fl y C Hy N), (isused_hdr y G N).
  destruct y as [a n k]. cbn [bk ba bs] in *. destruct k as [| | | | |w pf d]; cbn [isU setpf bk]; try (split; [exact C|]; split; [apply others_refl|reflexivity]).
  unfold hdr, gok in *. cbn in *. rewrite mkpu_eq by lia. split; [|split; [unfold others; cbn; auto 10|reflexivity]].
  replace w with (w + flagz false) at 1 by (cbn; lia). apply (core_set_used s l1 a n w pf d l2 fl); [exact C|lia|lia|lia].
Qed.
(** The marking as following a free block, Db/dballoc.c l.1333-1335 and l.1356-1358. *)
Lemma mark_prevfree_spec s l1 y l2 fl : core s (l1 ++ y :: l2) fl -> bk y <> KTmp ->
  let s' := if isnormalusedobject (fetch s (ba y)) then store s (ba y) (makeusedobjectsizeprevfree (fetch s (ba y))) else s in
  core s' (l1 ++ setpf true y :: l2) fl /\ others s s' /\ vb s' = vb s.
Proof.
  intros C N. pose proof (in_mid l1 y l2) as Hy. pose proof (cok _ _ _ C y Hy) as G.
  cbv zeta. rewrite (fetch_hdr s _ fl y C Hy N), (isused_hdr y G N).
  destruct y as [a n k]. cbn [bk ba bs] in *. destruct k as [| | | | |w pf d]; cbn [isU setpf bk]; try (split; [exact C|]; split; [apply others_refl|reflexivity]).
  unfold hdr, gok in *. cbn in *. rewrite mkpf_eq by lia. split; [|split; [unfold others; cbn; auto 10|reflexivity]].
  change 2 with (flagz true). apply (core_set_used s l1 a n w pf d l2 fl); [exact C|lia|lia|lia].
Qed.
(** The same with the size rounded up, Db/dballoc.c l.665-668. *)
Lemma mark_prevfree_w_spec s l1 y l2 fl : core s (l1 ++ y :: l2) fl -> bk y <> KTmp ->
  let s' := if isnormalusedobject (fetch s (ba y)) then store s (ba y) (makeusedobjectsizeprevfree (getusedobjectsize (fetch s (ba y)))) else s in
  core s' (l1 ++ setw (setpf true y) :: l2) fl /\ others s s' /\ vb s' = vb s.
Proof.
  intros C N. pose proof (in_mid l1 y l2) as Hy. pose proof (cok _ _ _ C y Hy) as G.
  cbv zeta. rewrite (fetch_hdr s _ fl y C Hy N), (isused_hdr y G N).
  destruct (isU (bk y)) eqn:U.
  - rewrite (used_size_hdr y G N) by (intros E; rewrite E in U; discriminate).
    destruct y as [a n k]. cbn [bk ba bs] in *. destruct k as [| | | | |w pf d]; try discriminate. cbn [setpf setw bk ba bs].
    unfold gok in *. cbn in G. rewrite mkpf_eq0 by lia. split; [|split; [unfold others; cbn; auto 10|reflexivity]].
    replace n with (Z.max 32 w) at 1 by lia. change 2 with (flagz true). apply (core_set_used s l1 a n w pf d l2 fl); [exact C|lia|lia|lia].
  - destruct y as [a n k]. cbn [bk ba bs] in *. destruct k as [| | | | |w pf d]; try discriminate; cbn [setpf setw bk]; (split; [exact C|]; split; [apply others_refl|reflexivity]).
Qed.
Lemma live1_setpf v b : live1 (setpf v b) = live1 b.
Proof. destruct b as [a n []]; reflexivity. Qed.
Lemma sts_setpf v b l : sts (setpf v b :: l) = sts (b :: l).
Proof. destruct b as [a n []]; reflexivity. Qed.
Lemma ens_setpf v b l : ens (setpf v b :: l) = ens (b :: l).
Proof. destruct b as [a n []]; reflexivity. Qed.
Lemma dvs_setpf v b l : dvs (setpf v b :: l) = dvs (b :: l).
Proof. destruct b as [a n []]; reflexivity. Qed.

Lemma subsok_ext s s' L L' : subsok s L -> vfree s' = vfree s -> vsize s' = vsize s -> vsubs s' = vsubs s -> sts L' = sts L -> ens L' = ens L -> subsok s' L'.
Proof. intros [] E1 E2 E3 E4 E5. constructor; rewrite ?E1, ?E2, ?E3, ?E4, ?E5; assumption. Qed.

End WithRegion.
