(** Reachable states of a variable-length area; scan, tiling and reuse. *)
From Coq Require Import ZArith List Lia Bool Permutation Sorting.Sorted.
From Verif Require Import Base FixAllocModel FixAllocProofs VarAllocModel VarAllocCore VarAllocProofs VarAllocStep VarAllocGrow VarAllocFree VarAllocSpec.
Import ListNotations.
Open Scope Z_scope.
#[local] Ltac Zify.zify_post_hook ::= idtac.

Section WithRegion.
Context {rg : region}.

(** ** Counting start and end markers *)
Definition endk (k : kind) : nat := match k with KEnd => 0 | _ => 1 end.
Lemma count_chain l : forall x, chain adj (x :: l) -> (length (sts l) + endk (bk x) = length (ens l) + endk (bk (last (x :: l) x)))%nat.
Proof.
  induction l as [|y l IH]; intros x H; [reflexivity|]. destruct H as [A H].
  assert (E : last (x :: y :: l) x = last (y :: l) y).
  { change (last (x :: y :: l) x) with (last (y :: l) x). clear. revert x y. induction l as [|z l IH]; intros x y; [reflexivity|]. change (last (z :: l) x = last (z :: l) y). rewrite (IH x z). rewrite (IH y z). reflexivity. }
  rewrite E. specialize (IH y H). unfold adj in A. unfold sts, ens in *. cbn [filter].
  destruct y as [ya yn yk]. destruct x as [xa xn xk]. cbn [bk ba bs isSt isEn] in *.
  unfold isSt, isEn in IH |- *. destruct yk, xk; cbn [bk map length endk] in *; try lia; try (exfalso; intuition congruence).
Qed.
Lemma full_prefix l1 l2 : full (l1 ++ l2) -> chain adj (E0 :: l1).
Proof.
  unfold full. rewrite <- app_assoc. change (E0 :: l1 ++ l2 ++ [S1]) with ((E0 :: l1) ++ (l2 ++ [S1])). generalize (E0 :: l1) (l2 ++ [S1]). clear.
  intros l m. induction l as [|x l IH]; cbn [app chain]; [auto|]. intros [H1 H2]. split; [|auto]. destruct l; [exact I|exact H1].
Qed.
(** Before a block that is no start marker one subarea is open. *)
Lemma count_inside l1 b l2 : full (l1 ++ b :: l2) -> bk b <> KStart -> length (sts l1) = S (length (ens l1)).
Proof.
  intros F N. destruct (full_prev _ _ _ F N) as (l0 & x & -> & A). pose proof (count_chain _ _ (full_prefix _ _ F)) as H.
  replace (last (E0 :: l0 ++ [x]) E0) with x in H.
  - change (endk (bk E0)) with 0%nat in H. unfold adj in A. destruct (bk x); cbn [endk] in H; try lia. tauto.
  - symmetry. change (E0 :: l0 ++ [x]) with ((E0 :: l0) ++ [x]). apply last_last.
Qed.
(** Before a start marker all subareas are closed. *)
Lemma count_outside l1 b l2 : full (l1 ++ b :: l2) -> bk b = KStart -> length (sts l1) = length (ens l1).
Proof.
  intros F N. pose proof (count_chain _ _ (full_prefix _ _ F)) as H. destruct l1 as [|a l1 _] using rev_ind; [reflexivity|].
  replace (last (E0 :: l1 ++ [a]) E0) with a in H.
  - unfold full in F. rewrite <- app_assoc in F. cbn [app] in F. rewrite <- app_assoc in F. cbn [app] in F.
    change (E0 :: l1 ++ a :: b :: l2 ++ [S1]) with ((E0 :: l1) ++ a :: b :: l2 ++ [S1]) in F. apply chain_mid in F as [_ F].
    destruct F as [A _]. unfold adj in A. change (endk (bk E0)) with 0%nat in H. destruct (bk a); cbn [endk] in H; try lia; exfalso; tauto.
  - symmetry. change (E0 :: l1 ++ [a]) with ((E0 :: l1) ++ [a]). apply last_last.
Qed.

Lemma nth_split_map {A} (g : blk -> A) (f : blk -> bool) L : forall k x, nth_error (map g (filter f L)) k = Some x ->
  exists l1 b l2, L = l1 ++ b :: l2 /\ f b = true /\ g b = x /\ length (filter f l1) = k.
Proof.
  induction L as [|a L IH]; intros k x; cbn [filter map]; [destruct k; discriminate|]. destruct (f a) eqn:E.
  - destruct k as [|k]; cbn [map nth_error].
    + intros H. injection H as <-. exists [], a, L. auto.
    + intros H. destruct (IH k x H) as (l1 & b & l2 & -> & H1 & H2 & H3). exists (a :: l1), b, l2. split; [reflexivity|]. split; [exact H1|]. split; [exact H2|]. cbn [filter]. rewrite E. cbn. lia.
  - intros H. destruct (IH k x H) as (l1 & b & l2 & -> & H1 & H2 & H3). exists (a :: l1), b, l2. split; [reflexivity|]. split; [exact H1|]. split; [exact H2|]. cbn [filter]. rewrite E. exact H3.
Qed.

(** ** The blocks of one subarea *)
Lemma to_end L : forall y, chain adj (y :: L ++ [S1]) -> bk y <> KEnd ->
  exists body en l2, L = body ++ en :: l2 /\ bk en = KEnd /\ ens body = [] /\ sts body = [] /\ chain adj (y :: body ++ [en]).
Proof.
  induction L as [|z L IH]; intros y H N.
  - exfalso. destruct H as [A _]. unfold adj in A. cbn in A. destruct (bk y); intuition congruence.
  - cbn [app] in H. destruct H as [A H]. destruct (bk z) eqn:K.
    1: exfalso; unfold adj in A; rewrite K in A; destruct (bk y); intuition congruence.
    1: { exists [], z, L. split; [reflexivity|]. split; [exact K|]. split; [reflexivity|]. split; [reflexivity|]. cbn. tauto. }
    all: destruct (IH z H ltac:(congruence)) as (body & en & l2 & -> & Ke & E1 & E2 & C); exists (z :: body), en, l2; split; [reflexivity|]; split; [exact Ke|];
      unfold ens, sts in *; cbn [filter]; unfold isEn, isSt at 1; rewrite ?K; (split; [exact E1|]); (split; [exact E2|]); cbn [app chain]; split; [exact A|exact C].
Qed.
Lemma sub_blocks s L u : full L -> subsok s L -> In u (vsubs s) ->
  exists l1 st body en l2, L = l1 ++ st :: body ++ en :: l2 /\ bk st = KStart /\ ba st = sa_aoffset u /\ bk en = KEnd /\ bend en = sa_aoffset u + sa_asize u /\
    ens body = [] /\ sts body = [] /\ chain adj (st :: body ++ [en]).
Proof.
  intros F S Hu. apply in_rev in Hu. apply In_nth_error in Hu as (k & Hk).
  assert (H1 : nth_error (sts L) k = Some (sa_aoffset u)) by (rewrite (so_sts _ _ S); now apply map_nth_error).
  assert (H2 : nth_error (ens L) k = Some (sa_aoffset u + sa_asize u)) by (rewrite (so_ens _ _ S); now apply (map_nth_error (fun u => sa_aoffset u + sa_asize u))).
  apply nth_split_map in H1 as (l1 & st & l2 & -> & T1 & T2 & T3).
  assert (Ks : bk st = KStart) by (unfold isSt in T1; destruct (bk st); congruence).
  pose proof (count_outside _ _ _ F Ks) as Cn. 
  assert (Hc : chain adj (st :: l2 ++ [S1])).
  { unfold full in F. rewrite <- app_assoc in F. cbn [app] in F. change (E0 :: l1 ++ st :: l2 ++ [S1]) with ((E0 :: l1) ++ st :: l2 ++ [S1]) in F. now apply chain_mid in F. }
  destruct (to_end l2 st Hc ltac:(congruence)) as (body & en & l3 & -> & Ke & B1 & B2 & B3).
  exists l1, st, body, en, l3. repeat (split; [first [reflexivity|assumption]|]). split; [|split; [exact B1|split; [exact B2|exact B3]]].
  rewrite ens_app in H2. rewrite nth_error_app2 in H2.
  - unfold sts in Cn. rewrite map_length in Cn. rewrite T3 in Cn. rewrite <- Cn, Nat.sub_diag in H2.
    change (ens (st :: body ++ en :: l3)) with (ens ([st] ++ body ++ [en] ++ l3)) in H2. rewrite !ens_app, B1 in H2. unfold ens in H2 at 1 2. cbn [filter] in H2. unfold isEn at 1 2 in H2. rewrite Ks, Ke in H2. cbn in H2. congruence.
  - unfold sts in Cn. rewrite map_length in Cn. lia.
Qed.

(** Every block lies in a subarea. *)
Lemma block_in_sub s L fl b : inv s L fl -> In b L -> exists u, In u (vsubs s) /\ sa_aoffset u <= ba b /\ bend b <= sa_aoffset u + sa_asize u.
Proof.
  intros [C F D S] Hb. pose proof (cok _ _ _ C b Hb) as G. apply in_split in Hb as (l1 & l2 & EL).
  assert (Gp : 0 < bs b) by (unfold gok in G; lia).
  assert (exists k, (length (sts (l1 ++ [b])) = Datatypes.S k /\ (length (ens l1) <= k)%nat)) as (k & K1 & K2).
  { rewrite EL in F. destruct (bk b) eqn:Kb.
    1: { pose proof (count_outside _ _ _ F Kb) as H. exists (length (sts l1)). rewrite sts_app, app_length. unfold sts at 2. cbn [filter]. unfold isSt. rewrite Kb. cbn. lia. }
    all: pose proof (count_inside _ _ _ F ltac:(congruence)) as H; exists (length (ens l1)); rewrite sts_app, app_length; unfold sts at 2; cbn [filter]; unfold isSt; rewrite Kb; cbn; lia. }
  assert (Lk : (k < length (vsubs s))%nat).
  { pose proof (f_equal (@length Z) (so_sts _ _ S)) as H. rewrite EL in H. change (l1 ++ b :: l2) with (l1 ++ [b] ++ l2) in H. rewrite app_assoc, sts_app, app_length, map_length, rev_length in H. lia. }
  destruct (nth_error (rev (vsubs s)) k) as [u|] eqn:Hk; [|apply nth_error_None in Hk; rewrite rev_length in Hk; lia].
  exists u. split; [apply in_rev; eapply nth_error_In; eauto|].
  assert (H1 : nth_error (sts L) k = Some (sa_aoffset u)) by (rewrite (so_sts _ _ S); now apply map_nth_error).
  assert (H2 : nth_error (ens L) k = Some (sa_aoffset u + sa_asize u)) by (rewrite (so_ens _ _ S); now apply (map_nth_error (fun u => sa_aoffset u + sa_asize u))).
  pose proof (c_ord _ _ _ C) as O. rewrite EL in O, H1, H2. split.
  - change (l1 ++ b :: l2) with (l1 ++ [b] ++ l2) in H1. rewrite app_assoc, sts_app, nth_error_app1 in H1 by lia. apply nth_error_In in H1.
    apply in_map_iff in H1 as (c & Ec & Hc). apply filter_In in Hc as [Hc _]. apply in_app_or in Hc as [Hc|[<-|[]]]; [|lia].
    apply fop_app in O as (_ & _ & O). specialize (O c b Hc (or_introl eq_refl)). unfold before, bend in O.
    pose proof (cok _ _ _ C c) as Gc. rewrite EL in Gc. specialize (Gc (in_or_app _ _ _ (or_introl Hc))). unfold gok in Gc. lia.
  - rewrite ens_app, nth_error_app2 in H2 by lia. apply nth_error_In in H2.
    apply in_map_iff in H2 as (c & Ec & Hc). apply filter_In in Hc as [Hc _]. destruct Hc as [<-|Hc]; [lia|].
    apply fop_app in O as (_ & O & _). inversion O as [|? ? O1 _]; subst. rewrite Forall_forall in O1. specialize (O1 c Hc). unfold before, bend in O1.
    pose proof (cok _ _ _ C c) as Gc. specialize (Gc ltac:(apply in_or_app; right; now right)). unfold gok, bend in *. lia.
Qed.

End WithRegion.

(** ** Reachable states *)
(** No foreign words. *)
#[global] Instance no_region : region := Region (fun _ => False) (fun _ => 0).
Definition lmatch (p : Z * Z * (Z -> Z)) (o : obj) : Prop :=
  oa o = fst (fst p) /\ 0 <= onr o /\ (snd (fst p) = onr o * 8 \/ onr o * 8 < 32 /\ snd (fst p) = 32) /\
  (forall x, oa o + 8 <= x < oa o + 8 * onr o -> snd p x = od o x).
Definition RI (c : vstate * list obj) : Prop :=
  exists L fl live', inv (fst c) L fl /\ Permutation (snd c) live' /\ Forall2 lmatch (lives L) live'.

Lemma lmatch_lrel l l' : lrel l l' -> forall m, Forall2 lmatch l m -> Forall2 lmatch l' m.
Proof.
  intros H. induction H as [|p q l l' (A1 & A2 & A3) H IH]; intros m Hm; inversion Hm as [|? o ? m' (B1 & B2 & B3 & B4) Hm']; subst; constructor; [|now apply IH].
  unfold lmatch. rewrite A1, A2. split; [exact B1|]. split; [exact B2|]. split; [|exact B4]. lia.
Qed.
Lemma lives_split L : forall n1 a w d n2, lives L = n1 ++ (a, w, d) :: n2 ->
  exists l1 n pf l2, L = l1 ++ B a n (KUsed w pf d) :: l2 /\ lives l1 = n1 /\ lives l2 = n2.
Proof.
  induction L as [|b L IH]; intros n1 a w d n2; rewrite ?lives_cons; [cbn; destruct n1; discriminate|].
  destruct b as [ba' bs' k]. destruct k as [| | | | |w' pf' d']; cbn [live1 bk ba app].
  1-5: intros H; destruct (IH n1 a w d n2 H) as (l1 & n & pf & l2 & -> & E1 & E2); eexists (_ :: l1), n, pf, l2; split; [reflexivity|]; split; [exact E1|exact E2].
  destruct n1 as [|p n1]; cbn [app]; intros H.
  - injection H as -> -> -> <-. exists [], bs', pf', L. auto.
  - injection H as <- H. destruct (IH n1 a w d n2 H) as (l1 & n & pf & l2 & -> & <- & E2). eexists (_ :: l1), n, pf, l2. split; [reflexivity|]. split; [reflexivity|exact E2].
Qed.
Lemma pick {A B} (R : A -> B -> Prop) l m1 o m2 live1 live2 live' : Forall2 R l live' -> Permutation (live1 ++ o :: live2) live' -> live' = m1 ++ o :: m2 ->
  exists n1 p n2, l = n1 ++ p :: n2 /\ Forall2 R n1 m1 /\ R p o /\ Forall2 R n2 m2.
Proof.
  intros F P ->. apply Forall2_app_inv_r in F as (n1 & n' & F1 & F2 & ->). inversion F2 as [|p ? n2 ? Rp F3]; subst. exists n1, p, n2. auto.
Qed.

Theorem RI_step c c' : RI c -> vstep c c' -> RI c'.
Proof.
  intros (L & fl & live' & I & P & M) St. destruct St as [s live nr s' r H1 H2 E|s live1 o live2 s' r E|s live1 o live2 a v Ha|s live m Ha|s live req ch free' Hr E]; cbn [fst snd] in *.
  - destruct (alloc_gints_spec s L fl nr I H2 H1) as (s1 & r1 & E1 & L' & fl' & I' & Q). rewrite E in E1. injection E1 as <- <-.
    destruct (r =? 0).
    + exists L', fl', live'. split; [exact I'|]. split; [exact P|]. eapply lmatch_lrel; eauto.
    + destruct Q as (Hn & l1 & l2 & d & R & El). apply (lmatch_lrel _ _ R) in M. apply Forall2_app_inv_l in M as (m1 & m2 & M1 & M2 & ->).
      exists L', fl', (m1 ++ Obj r nr (vm s') :: m2). split; [exact I'|]. split; [cbn [snd]; now apply Permutation_cons_app|]. rewrite El. apply Forall2_app; [exact M1|]. constructor; [|exact M2].
      unfold lmatch. cbn [fst snd oa onr od]. split; [reflexivity|]. split; [exact Hn|]. split; [now left|]. intros x Hx.
      destruct (lives_split L' _ _ _ _ _ El) as (k1 & n & pf & k2 & EL & _ & _).
      pose proof (cfix _ _ _ (i_core _ _ _ I') (B r n (KUsed (nr * 8) pf d))) as Fx. rewrite EL in Fx. specialize (Fx (in_mid _ _ _)). unfold fixed in Fx. cbn [bk ba] in Fx.
      pose proof (cok _ _ _ (i_core _ _ _ I') (B r n (KUsed (nr * 8) pf d))) as G. rewrite EL in G. specialize (G (in_mid _ _ _)). unfold gok in G. cbn in G.
      symmetry. apply Fx. unfold bend. cbn. lia.
  - assert (In o live') as Ho by (apply (Permutation_in _ P), in_mid). apply in_split in Ho as (m1 & m2 & Em).
    destruct (pick lmatch _ m1 o m2 _ _ _ M P Em) as (n1 & [[a w] d] & n2 & El & M1 & (Ao & _) & M2). cbn in Ao.
    destruct (lives_split L _ _ _ _ _ El) as (l1 & n & pf & l2 & -> & <- & <-).
    destruct (free_spec s l1 a n w pf d l2 fl I) as (s1 & L' & fl' & E1 & I' & Lv & _). rewrite <- Ao, E in E1. injection E1 as <- _.
    exists L', fl', (m1 ++ m2). split; [exact I'|]. cbn [snd]. split; [rewrite Em in P; now apply Permutation_app_inv in P|]. rewrite Lv. now apply Forall2_app.
  - assert (In o live') as Ho by (apply (Permutation_in _ P), in_mid). apply in_split in Ho as (m1 & m2 & Em).
    destruct (pick lmatch _ m1 o m2 _ _ _ M P Em) as (n1 & [[a0 w] d] & n2 & El & M1 & (Ao & A1 & A2 & A3) & M2). cbn in Ao, A2, A3.
    destruct (lives_split L _ _ _ _ _ El) as (l1 & n & pf & l2 & -> & <- & <-).
    pose proof (cok _ _ _ (i_core _ _ _ I) _ (in_mid l1 _ l2)) as G. unfold gok in G. cbn in G.
    pose proof (core_user s l1 a0 n w pf d l2 fl a v (i_core _ _ _ I)) as C.
    exists (l1 ++ B a0 n (KUsed w pf (upd d a v)) :: l2), fl, (m1 ++ Obj (oa o) (onr o) (upd (od o) a v) :: m2). split; [constructor|split].
    + apply C. lia.
    + destruct (full_next _ _ _ (i_full _ _ _ I)) as (y & l3 & -> & _); [discriminate|].
      apply (full_replace l1 [B a0 n (KUsed w pf d)] [B a0 n (KUsed w pf (upd d a v))] y y l3 (i_full _ _ _ I) (sameb_refl _)). generalize (upd d a v). clear. intros d'. loc.
    + pose proof (i_dv _ _ _ I) as D. unfold dvok in *. rewrite dvs_app in *. exact D.
    + refine (subsok_ext s _ _ _ (i_subs _ _ _ I) _ _ _ _ _); try reflexivity; rewrite ?sts_app, ?ens_app; reflexivity.
    + cbn [snd]. rewrite Em in P. apply Permutation_app_inv in P. now apply Permutation_elt.
    + rewrite lives_app, lives_cons. cbn [VarAllocProofs.live1 bk ba app]. apply Forall2_app; [exact M1|]. constructor; [|exact M2]. unfold lmatch. cbn [fst snd oa onr od].
      split; [exact Ao|]. split; [exact A1|]. split; [exact A2|]. intros x Hx. unfold upd. destruct (x =? a); [reflexivity|]. now apply A3.
  - exists L, fl, live'. split; [|auto]. destruct I as [C F D S]. cbn [fst]. constructor; [|exact F|exact D|refine (subsok_ext s _ L L S _ _ _ _ _); reflexivity].
    apply core_mem; [exact C| |intros x []]. intros b x Hb Hx. destruct (block_in_sub s L fl b ltac:(constructor; assumption) Hb) as (u & Hu & U1 & U2).
    apply Ha. exists u. split; [exact Hu|]. lia.
  - exists L, fl, live'. split; [|auto]. destruct I as [C F D [S1' S2' S3' S4' S5' S6' S7']]. cbn [fst]. constructor; [apply (core_ext s); [exact C|reflexivity..]|exact F|exact D|].
    assert (Hf : vfree s <= free' /\ free' mod 8 = 0 /\ free' < vsize s).
    { apply chunk_spec in E; [|lia|lia|lia|lia|lia]. destruct E as [(_ & ->)|(_ & E1 & E2 & E3)]; lia. }
    constructor; cbn [vsubs vfree vsize]; try assumption; [|lia|intros x []].
    apply (Forall_impl _ (P := subok (vfree s))); [|exact S3']. intros u. unfold subok. intuition lia.
Qed.
Theorem RI_reach c : vreach c -> RI c.
Proof.
  induction 1 as [m hdr free size s F1 F2 F3 E|c c' R IH St]; [|eapply RI_step; eauto].
  destruct (@init_spec no_region m hdr free size s (fun _ X => False_ind _ X) (fun _ X => False_ind _ X) F1 F2 F3 E) as (L & fl & I & El). exists L, fl, []. split; [exact I|]. split; [constructor|]. rewrite El. constructor.
Qed.
