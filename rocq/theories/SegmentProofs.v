(** Proofs for the segment: every area sees a history of its own, and the areas do
    not get in each other's way. *)
From Coq Require Import ZArith List Bool Lia Permutation.
From Verif Require Import Base FixAllocModel FixAllocSpec VarAllocModel VarAllocSpec SegmentModel SegmentSpec SegmentFrame.
From Verif Require FixAllocProofs VarAllocProps VarAllocReach VarAllocProofs.
Import ListNotations.
Open Scope Z_scope.

(** ** Lists *)
Lemma nth_put {A} (a : A) : forall l k j, nth_error (put k a l) j = if Nat.eqb j k then match nth_error l j with Some _ => Some a | None => None end else nth_error l j.
Proof.
  induction l as [|x l IH]; intros k j; [destruct k, j; cbn; try reflexivity; destruct (Nat.eqb j k); reflexivity|].
  destruct k as [|k], j as [|j]; cbn; try reflexivity. apply IH.
Qed.
Lemma nth_put_same {A} (a b : A) l k : nth_error l k = Some b -> nth_error (put k a l) k = Some a.
Proof. intros H. rewrite nth_put, Nat.eqb_refl, H. reflexivity. Qed.
Lemma nth_put_other {A} (a : A) l k j : j <> k -> nth_error (put k a l) j = nth_error l j.
Proof. intros H. rewrite nth_put. destruct (Nat.eqb_spec j k); [contradiction|reflexivity]. Qed.
Lemma live_of_app k l1 l2 : live_of k (l1 ++ l2) = live_of k l1 ++ live_of k l2.
Proof. unfold live_of. now rewrite filter_app, map_app. Qed.
Lemma live_of_same k o l : live_of k ((k, o) :: l) = o :: live_of k l.
Proof. unfold live_of. cbn [filter fst]. now rewrite Nat.eqb_refl. Qed.
Lemma live_of_other j k o l : j <> k -> live_of j ((k, o) :: l) = live_of j l.
Proof. intros H. unfold live_of. cbn [filter fst]. destruct (Nat.eqb_spec k j); [congruence|reflexivity]. Qed.
Lemma in_live_of k o live : In o (live_of k live) <-> In (k, o) live.
Proof.
  unfold live_of. rewrite in_map_iff. split.
  - intros ([j o'] & E & H). cbn in E. subst. apply filter_In in H as [H E]. cbn in E. apply Nat.eqb_eq in E. now subst.
  - intros H. exists (k, o). split; [reflexivity|]. apply filter_In. split; [exact H|]. apply Nat.eqb_refl.
Qed.

(** ** Areas *)
Definition asubs (a : area) : list subarea := match a with AFix _ _ subs => subs | AVar _ _ subs => subs end.
Definition in_a (a : area) (x : Z) : Prop := exists u, In u (asubs a) /\ sa_aoffset u <= x < sa_aoffset u + sa_asize u.
(** The history seen by area [k]. *)
Definition view (hd : Z) (s : seg) (live : list (nat * obj)) (k : nat) (a : area) : Prop :=
  match a with
  | AFix len fl subs => exists h, params_ok h (g_size s) len /\ hd <= h /\ freach h (g_size s) len (FS (g_mem s) (g_free s) (g_size s) len fl subs, map oa (live_of k live))
  | AVar h b subs => vreach (VS (g_mem s) b h (g_free s) (g_size s) subs, live_of k live)
  end.
Definition apart (o p : obj) : Prop := oa o + 8 * onr o <= oa p \/ oa p + 8 * onr p <= oa o.
Record SI (hd : Z) (s : seg) (live : list (nat * obj)) (hs : list obj) : Prop := {
  si_free : 0 < hd <= g_free s /\ g_free s mod 8 = 0 /\ g_free s < g_size s <= 2 ^ 40;
  si_view : forall k a, nth_error (g_areas s) k = Some a -> view hd s live k a;
  si_low : forall k a x, nth_error (g_areas s) k = Some a -> in_a a x -> hd <= x < g_free s;
  si_dis : forall j k a b x, j <> k -> nth_error (g_areas s) j = Some a -> nth_error (g_areas s) k = Some b -> in_a a x -> in_a b x -> False;
  si_live : forall k o, In (k, o) live -> exists a, nth_error (g_areas s) k = Some a /\ forall len fl subs, a = AFix len fl subs -> len = 8 * onr o;
  si_cont : forall k o len fl subs x, In (k, o) live -> nth_error (g_areas s) k = Some (AFix len fl subs) -> oa o <= x < oa o + len -> g_mem s x = od o x;
  si_arr : forall o, In o hs -> hd <= oa o /\ oa o mod 8 = 0 /\ 0 <= onr o /\ oa o + 8 * onr o <= g_free s;
  si_arrd : ForallOrdPairs apart hs;
  si_arra : forall o k a x, In o hs -> nth_error (g_areas s) k = Some a -> oa o <= x < oa o + 8 * onr o -> in_a a x -> False;
  si_arrc : forall o x, In o hs -> oa o <= x < oa o + 8 * onr o -> g_mem s x = od o x }.

(** A live object lies in its area. *)
Lemma fix_live_in hd s live k len fl subs o x : view hd s live k (AFix len fl subs) -> In (k, o) live -> oa o <= x < oa o + len -> in_a (AFix len fl subs) x.
Proof.
  intros (h & P & _ & R) Ho Hx. pose proof P as (P1 & P2 & P3 & P4 & P5). destruct (FixAllocProofs.reach_inv _ _ _ _ P R) as (fr & [G _ _ Hc]). cbn [fst snd] in *.
  assert (H : FixAllocProofs.is_cell (FS (g_mem s) (g_free s) (g_size s) len fl subs) (oa o)).
  { apply Hc. apply in_or_app. right. apply in_map. now apply in_live_of. }
  destruct H as (u & j & Hu & Hj & E & He). cbn [fs_subs fs_objlen] in *. exists u. split; [exact Hu|]. nia.
Qed.
Lemma osize_le n : 8 * n <= osize n.
Proof. unfold osize. lia. Qed.
Lemma var_live_in hd s live k h b subs o x : view hd s live k (AVar h b subs) -> In (k, o) live -> oa o <= x < oa o + osize (onr o) -> in_a (AVar h b subs) x.
Proof.
  intros R Ho Hx. destruct (VarAllocProps.C14_live_objects _ _ R) as [H _]. apply in_live_of in Ho. destruct (H o Ho) as (_ & _ & (u & Hu & U1 & U2) & _).
  exists u. split; [exact Hu|]. lia.
Qed.

(** ** What others do *)
Lemma chunk_exact free size free' : 0 <= free -> free <= free' -> free' mod 8 = 0 -> free' < size -> free' < 2 ^ 63 -> alloc_db_segmentchunk free size (free' - free) = (free, free').
Proof.
  intros H0 H1 H2 H3 H4. unfold alloc_db_segmentchunk. replace (free + (free' - free)) with free' by lia. rewrite wrap64_id by (unfold is64; lia).
  destruct (Z.ltb_spec free' 0); [lia|]. rewrite FixAllocProofs.align_fill_0 by lia. rewrite Z.add_0_r. destruct (Z.geb_spec free' size); [lia|reflexivity].
Qed.
Lemma view_env hd s s' live k a : 0 < g_free s -> g_size s <= 2 ^ 40 -> g_size s' = g_size s -> g_free s <= g_free s' -> g_free s' mod 8 = 0 -> g_free s' < g_size s ->
  (forall x, in_a a x -> g_mem s' x = g_mem s x) -> view hd s live k a -> view hd s' live k a.
Proof.
  intros H0 Hs E F1 F2 F3 M V. pose proof (chunk_exact (g_free s) (g_size s) (g_free s') ltac:(lia) F1 F2 F3 ltac:(lia)) as Hc. destruct a as [len fl subs|h b subs]; cbn [view] in *; rewrite E.
  - destruct V as (h & P & Hh & R). exists h. split; [exact P|]. split; [exact Hh|].
    eapply FStep; [eapply FStep; [exact R|]|].
    + apply (FOther (FS (g_mem s) (g_free s) (g_size s) len fl subs) _ (g_mem s')). intros x Hx. cbn. apply M. exact Hx.
    + apply (FChunk (FS (g_mem s') (g_free s) (g_size s) len fl subs) _ (g_free s' - g_free s) (g_free s)); [lia|exact Hc].
  - eapply VStep; [eapply VStep; [exact V|]|].
    + apply (VOther (VS (g_mem s) b h (g_free s) (g_size s) subs) _ (g_mem s')). intros x Hx. cbn. apply M. exact Hx.
    + apply (VChunk (VS (g_mem s') b h (g_free s) (g_size s) subs) _ (g_free s' - g_free s) (g_free s)); [lia|exact Hc].
Qed.
Lemma view_live hd s live live' k a : live_of k live' = live_of k live -> view hd s live k a -> view hd s live' k a.
Proof. intros E. unfold view. rewrite E. auto. Qed.

(** An operation on area [k]. *)
Record chg (s : seg) (a a' : area) (m' : mem) (f' : Z) : Prop := {
  ch_free : g_free s <= f' /\ f' mod 8 = 0 /\ f' < g_size s;
  ch_mem : forall x, x < g_free s -> ~ in_a a x -> m' x = g_mem s x;
  ch_in : forall x, in_a a' x -> in_a a x \/ g_free s <= x < f' }.

Lemma area_step hd s live hs k a a' m' f' live' : SI hd s live hs -> nth_error (g_areas s) k = Some a -> chg s a a' m' f' ->
  let s' := SG m' f' (g_size s) (put k a' (g_areas s)) (g_hash s) (g_locks s) in
  view hd s' live' k a' -> (forall j, j <> k -> live_of j live' = live_of j live) ->
  (forall o, In (k, o) live' -> forall len fl subs, a' = AFix len fl subs -> len = 8 * onr o /\ forall x, oa o <= x < oa o + len -> m' x = od o x) ->
  SI hd s' live' hs.
Proof.
  intros [I1 I2 I3 I4 I5 I6 I7 I8 I9 I10] Ha [(C1 & C2 & C3) Cm Ci] s' V Ho Hk.
  assert (Hout : forall x, x < g_free s -> ~ in_a a x -> g_mem s' x = g_mem s x) by exact Cm.
  assert (Oth : forall j o, j <> k -> In (j, o) live' -> In (j, o) live).
  { intros j o Hj H. apply in_live_of. rewrite <- Ho by exact Hj. now apply in_live_of. }
  assert (Nk : nth_error (g_areas s') k = Some a') by (apply (nth_put_same a' a), Ha).
  assert (No : forall j, j <> k -> nth_error (g_areas s') j = nth_error (g_areas s) j) by (intros j Hj; now apply nth_put_other).
  constructor.
  - cbn. lia.
  - intros j b Hb. destruct (Nat.eq_dec j k) as [->|Hj].
    + rewrite Nk in Hb. injection Hb as <-. exact V.
    + rewrite No in Hb by exact Hj. apply (view_live _ _ live); [now apply Ho|]. apply (view_env hd s); auto; try lia.
      intros x Hx. apply Hout; [destruct (I3 _ _ _ Hb Hx); assumption|]. intros Hx'. exact (I4 j k b a x Hj Hb Ha Hx Hx').
  - intros j b x Hb Hx. cbn [g_free s']. destruct (Nat.eq_dec j k) as [->|Hj].
    + rewrite Nk in Hb. injection Hb as <-. destruct (Ci x Hx) as [H|H]; [|lia]. destruct (I3 _ _ _ Ha H). lia.
    + rewrite No in Hb by exact Hj. destruct (I3 _ _ _ Hb Hx). lia.
  - assert (D : forall j b x, j <> k -> nth_error (g_areas s) j = Some b -> in_a b x -> in_a a' x -> False).
    { intros j b x Hj Hb Hx Hx'. destruct (Ci x Hx') as [H|H]; [exact (I4 j k b a x Hj Hb Ha Hx H)|]. destruct (I3 _ _ _ Hb Hx). lia. }
    intros i j b c x Hij Hb Hc Hx Hx'. destruct (Nat.eq_dec i k) as [->|Hi], (Nat.eq_dec j k) as [->|Hj].
    + congruence.
    + rewrite Nk in Hb. injection Hb as <-. rewrite No in Hc by exact Hj. exact (D j c x Hj Hc Hx' Hx).
    + rewrite Nk in Hc. injection Hc as <-. rewrite No in Hb by exact Hi. exact (D i b x Hi Hb Hx Hx').
    + rewrite No in Hb by exact Hi. rewrite No in Hc by exact Hj. exact (I4 i j b c x Hij Hb Hc Hx Hx').
  - intros j o H. destruct (Nat.eq_dec j k) as [->|Hj].
    + exists a'. split; [exact Nk|]. intros len fl subs E. now apply (Hk o H len fl subs).
    + rewrite No by exact Hj. apply I5. now apply Oth.
  - intros j o len fl subs x H Hb Hx. destruct (Nat.eq_dec j k) as [->|Hj].
    + rewrite Nk in Hb. injection Hb as Hb. now apply (Hk o H len fl subs Hb).
    + rewrite No in Hb by exact Hj. apply Oth in H; [|exact Hj]. rewrite <- (I6 j o len fl subs x H Hb Hx).
      pose proof (fix_live_in hd s live j len fl subs o x (I2 _ _ Hb) H Hx) as Hin.
      apply Hout; [destruct (I3 _ _ _ Hb Hin); assumption|]. intros Hx'. exact (I4 j k _ a x Hj Hb Ha Hin Hx').
  - intros o H. cbn [g_free s']. destruct (I7 o H) as (A1 & A2 & A3 & A4). repeat split; auto. lia.
  - exact I8.
  - intros o j b x H Hb Hx Hin. destruct (Nat.eq_dec j k) as [->|Hj].
    + rewrite Nk in Hb. injection Hb as <-. destruct (Ci x Hin) as [H'|H']; [exact (I9 o k a x H Ha Hx H')|]. destruct (I7 o H). lia.
    + rewrite No in Hb by exact Hj. exact (I9 o j b x H Hb Hx Hin).
  - intros o x H Hx. rewrite <- (I10 o x H Hx). destruct (I7 o H) as (A1 & A2 & A3 & A4). apply Hout; [lia|]. intros Hin. exact (I9 o k a x H Ha Hx Hin).
Qed.

(** A chunk taken beside the areas. *)
Lemma chunk_step hd s live hs m' f' gh gl o : SI hd s live hs -> g_free s <= f' -> f' mod 8 = 0 -> f' < g_size s -> (forall x, x < g_free s -> m' x = g_mem s x) ->
  g_free s <= oa o -> oa o mod 8 = 0 -> 0 <= onr o -> oa o + 8 * onr o <= f' -> (forall x, oa o <= x < oa o + 8 * onr o -> m' x = od o x) ->
  SI hd (SG m' f' (g_size s) (g_areas s) gh gl) live (o :: hs).
Proof.
  intros [I1 I2 I3 I4 I5 I6 I7 I8 I9 I10] F1 F2 F3 M O1 O2 O3 O4 Oc. constructor; cbn [g_free g_size g_areas g_mem].
  - lia.
  - intros k a Ha. apply (view_env hd s); auto; try lia. intros x Hx. apply M. destruct (I3 _ _ _ Ha Hx). assumption.
  - intros k a x Ha Hx. destruct (I3 _ _ _ Ha Hx). lia.
  - exact I4.
  - exact I5.
  - intros k p len fl subs x H Ha Hx. rewrite <- (I6 k p len fl subs x H Ha Hx). apply M. pose proof (fix_live_in hd s live k len fl subs p x (I2 _ _ Ha) H Hx) as Hin. destruct (I3 _ _ _ Ha Hin). assumption.
  - intros p [<-|H]; [repeat split; auto; lia|]. destruct (I7 p H) as (A1 & A2 & A3 & A4). repeat split; auto. lia.
  - constructor; [|exact I8]. apply Forall_forall. intros p Hp. destruct (I7 p Hp). unfold apart. lia.
  - intros p k a x [<-|H] Ha Hx Hin; [|exact (I9 p k a x H Ha Hx Hin)]. destruct (I3 _ _ _ Ha Hin). lia.
  - intros p x [<-|H] Hx; [now apply Oc|]. rewrite <- (I10 p x H Hx). apply M. destruct (I7 p H). lia.
Qed.

(** ** The operations *)
Lemma fix_chg_alloc s a t r h len fl subs : a = AFix len fl subs -> params_ok h (g_size s) len -> forall live, freach h (g_size s) len (FS (g_mem s) (g_free s) (g_size s) len fl subs, live) ->
  wg_alloc_fixlen_object (FS (g_mem s) (g_free s) (g_size s) len fl subs) = (t, r) ->
  fs_size t = g_size s /\ fs_objlen t = len /\ chg s a (AFix len (fs_freelist t) (fs_subs t)) (fs_mem t) (fs_free t).
Proof.
  intros -> P live R E. destruct (fix_alloc_geo _ _ _ _ _ _ _ P R E) as (G1 & G2 & G3 & G4 & G5 & (new & Gs & Gf) & G7). cbn [fs_size fs_objlen fs_free fs_subs fs_mem] in *.
  split; [exact G1|]. split; [exact G2|]. constructor; auto.
  intros x (u & Hu & Hx). cbn [asubs] in Hu. rewrite Gs in Hu. apply in_app_or in Hu as [Hu|Hu]; [|left; now exists u].
  right. rewrite Forall_forall in Gf. specialize (Gf u Hu). lia.
Qed.
Lemma step_alloc hd s live hs k nr s' r : SI hd s live hs -> - 2 ^ 60 <= nr -> nr * 8 < 2 ^ 40 -> seg_alloc s k nr = Some (s', r) ->
  SI hd s' (if r =? 0 then live else (k, Obj r (words s k nr) (g_mem s')) :: live) hs.
Proof.
  intros I N1 N2. unfold seg_alloc, words, fixed_len. destruct (nth_error (g_areas s) k) as [[len fl subs|h b subs]|] eqn:Ha; [| |discriminate].
  - destruct (wg_alloc_fixlen_object _) as (t & r') eqn:E. intros H. injection H as <- <-. cbn [g_mem].
    destruct (si_view _ _ _ _ I _ _ Ha) as (h & P & Hh & R). destruct (fix_chg_alloc s _ t r' h len fl subs eq_refl P _ R E) as (E1 & E2 & C). rewrite E1, E2.
    assert (M8 : len = 8 * (len / 8)) by (destruct P as (_ & _ & _ & _ & P5); lia).
    apply (area_step hd s live hs k (AFix len fl subs)); auto.
    + cbn [view]. exists h. cbn [g_mem g_free g_size]. split; [exact P|]. split; [exact Hh|].
      pose proof (FAlloc _ (map oa (live_of k live)) _ _ E) as St. assert (Et : t = FS (fs_mem t) (fs_free t) (g_size s) len (fs_freelist t) (fs_subs t)) by (destruct t; cbn in *; congruence).
      rewrite <- Et. replace (map oa (live_of k (if r' =? 0 then live else _ :: live))) with (if r' =? 0 then map oa (live_of k live) else r' :: map oa (live_of k live)).
      * eapply FStep; [exact R|exact St].
      * destruct (r' =? 0); [reflexivity|]. rewrite live_of_same. reflexivity.
    + intros j Hj. destruct (r' =? 0); [reflexivity|]. now apply live_of_other.
    + intros o Ho len' fl' subs' E'. injection E' as <- _ _.
      assert (H : In (k, o) live \/ o = Obj r' (len / 8) (fs_mem t)). { destruct (r' =? 0); [now left|]. destruct Ho as [Ho|Ho]; [right; congruence|now left]. }
      destruct H as [H| ->]; [|cbn [onr oa od]; split; auto].
      destruct (si_live _ _ _ _ I k o H) as (a & Ha' & Hl). rewrite Ha in Ha'. injection Ha' as <-. split; [exact (Hl _ _ _ eq_refl)|].
      intros x Hx. rewrite <- (si_cont _ _ _ _ I k o len fl subs x H Ha Hx). 
      refine (FixAllocProofs.fix_alloc_keeps _ _ _ _ _ _ _ (oa o) x P R E _ Hx). apply in_map. now apply in_live_of.
  - destruct (wg_alloc_gints _ nr) as [t r'|] eqn:E; [|discriminate]. intros H. injection H as <- <-. cbn [g_mem].
    pose proof (si_view _ _ _ _ I _ _ Ha) as R. cbn [view] in R. destruct (alloc_grows _ _ _ _ _ R N1 N2 E) as (G1 & G2 & G3 & new & G4 & G5). cbn [vhdr vsize vfree vsubs] in *.
    assert (R' : vreach (t, if r' =? 0 then live_of k live else Obj r' nr (vm t) :: live_of k live)) by (eapply VStep; [exact R|now apply VAlloc]).
    destruct (VarAllocReach.RI_reach _ R') as (L & fr & _ & I' & _). cbn [fst] in I'. pose proof (VarAllocProofs.i_subs _ _ _ I') as S. destruct (VarAllocProofs.so_free _ _ S) as (S1 & S2 & S3).
    rewrite G2. apply (area_step hd s live hs k (AVar h b subs)); auto.
    + constructor; [rewrite <- G2; lia| |].
      * intros x Hx Hn. exact (alloc_frame _ _ _ _ _ x R N1 N2 E Hx Hn).
      * intros x (u & Hu & Hx). cbn [asubs] in Hu. pose proof (VarAllocProofs.so_ok _ _ S) as O. rewrite Forall_forall in O. specialize (O u Hu). unfold VarAllocProofs.subok in O.
        rewrite G4 in Hu. apply in_app_or in Hu as [Hu|Hu]; [|left; now exists u]. right. rewrite Forall_forall in G5. specialize (G5 u Hu). lia.
    + cbn [view g_mem g_free g_size]. assert (Et : t = VS (vm t) (vb t) (vhdr t) (vfree t) (g_size s) (vsubs t)) by (destruct t; cbn in *; congruence).
      rewrite <- Et. replace (live_of k (if r' =? 0 then live else _ :: live)) with (if r' =? 0 then live_of k live else Obj r' nr (vm t) :: live_of k live); [exact R'|].
      destruct (r' =? 0); [reflexivity|]. now rewrite live_of_same.
    + intros j Hj. destruct (r' =? 0); [reflexivity|]. now apply live_of_other.
    + intros o Ho len' fl' subs' E'. discriminate E'.
Qed.
Lemma step_free hd s l1 k o l2 hs s' : SI hd s (l1 ++ (k, o) :: l2) hs -> seg_free s k (oa o) = Some s' -> SI hd s' (l1 ++ l2) hs.
Proof.
  intros I. unfold seg_free. destruct (nth_error (g_areas s) k) as [[len fl subs|h b subs]|] eqn:Ha; [| |discriminate].
  - intros H. injection H as <-. cbn [wg_free_fixlen_object fs_mem fs_free fs_size fs_objlen fs_freelist fs_subs].
    destruct (si_view _ _ _ _ I _ _ Ha) as (h & P & Hh & R). pose proof R as R0. rewrite live_of_app, live_of_same, map_app in R. cbn [map] in R.
    pose proof (si_free _ _ _ _ I) as (F1 & F2 & F3). pose proof P as (P1 & P2 & P3 & P4 & P5).
    apply (area_step hd s (l1 ++ (k, o) :: l2) hs k (AFix len fl subs)); auto.
    + constructor; [lia| |].
      * intros x Hx Hn. apply upd_other. intros ->. apply Hn. apply (fix_live_in hd s (l1 ++ (k, o) :: l2) k len fl subs o (oa o)); [exact (si_view _ _ _ _ I _ _ Ha)|apply in_or_app; right; now left|lia].
      * intros x (u & Hu & Hx). left. now exists u.
    + cbn [view]. exists h. cbn [g_mem g_free g_size]. split; [exact P|]. split; [exact Hh|]. rewrite live_of_app, map_app.
      eapply FStep; [exact R|]. exact (FFree (FS (g_mem s) (g_free s) (g_size s) len fl subs) (map oa (live_of k l1)) (oa o) (map oa (live_of k l2))).
    + intros j Hj. now rewrite !live_of_app, live_of_other.
    + intros p Hp len' fl' subs' E'. injection E' as <- _ _.
      assert (H : In (k, p) (l1 ++ (k, o) :: l2)) by (apply in_app_or in Hp; apply in_or_app; cbn; tauto).
      destruct (si_live _ _ _ _ I k p H) as (a & Ha' & Hl). rewrite Ha in Ha'. injection Ha' as <-. split; [exact (Hl _ _ _ eq_refl)|].
      intros x Hx. rewrite <- (si_cont _ _ _ _ I k p len fl subs x H Ha Hx).
      refine (FixAllocProofs.fix_free_keeps _ _ _ _ _ (oa o) (oa p) x P R0 _ _ _ Hx).
      * apply in_map. apply in_live_of. apply in_or_app. right. now left.
      * apply in_map. now apply in_live_of.
      * destruct (FixAllocProofs.fix_nodup_live _ _ _ _ _ P R) as [Nd _]. apply NoDup_remove_2 in Nd. intros E. apply Nd. rewrite <- E, <- map_app, <- live_of_app. apply in_map. now apply in_live_of.
  - destruct (wg_free_object _ (oa o)) as [t r'|] eqn:E; [|discriminate]. intros H. injection H as <-.
    pose proof (si_view _ _ _ _ I _ _ Ha) as R. cbn [view] in R. rewrite live_of_app, live_of_same in R.
    pose proof (free_object_geo _ _ _ _ E) as G. unfold geo in G. cbn [vhdr vfree vsize vsubs] in G. injection G as G1 G2 G3 G4. rewrite G1, G2, G3, G4. pose proof (si_free _ _ _ _ I) as (F1 & F2 & F3).
    apply (area_step hd s (l1 ++ (k, o) :: l2) hs k (AVar h b subs)); auto.
    + constructor; [lia| |].
      * intros x Hx Hn. exact (free_frame _ _ _ _ _ _ x R E Hn Hx).
      * intros x (u & Hu & Hx). left. now exists u.
    + cbn [view g_mem g_free g_size]. rewrite live_of_app.
      assert (Et : t = VS (vm t) (vb t) h (g_free s) (g_size s) subs) by (destruct t; cbn in *; congruence). rewrite <- Et. eapply VStep; [exact R|]. eapply VFree. exact E.
    + intros j Hj. now rewrite !live_of_app, live_of_other.
    + intros p Hp len' fl' subs' E'. discriminate E'.
Qed.
Lemma put_same {A} (a : A) : forall l k, nth_error l k = Some a -> put k a l = l.
Proof. induction l as [|x l IH]; intros [|k]; cbn; intros E; try congruence. now rewrite IH. Qed.
Lemma step_write hd s l1 k o l2 hs a v : SI hd s (l1 ++ (k, o) :: l2) hs -> first_byte s k o <= a < oa o + 8 * onr o ->
  SI hd (with_mem s (upd (g_mem s) a v)) (l1 ++ (k, Obj (oa o) (onr o) (upd (od o) a v)) :: l2) hs.
Proof.
  intros I Hx. pose proof (si_free _ _ _ _ I) as (F1 & F2 & F3). assert (Ho : In (k, o) (l1 ++ (k, o) :: l2)) by (apply in_or_app; right; now left).
  destruct (si_live _ _ _ _ I k o Ho) as (b & Hb & Hl). pose proof (si_view _ _ _ _ I _ _ Hb) as V.
  assert (Hin : in_a b a).
  { destruct b as [len fl subs|h b subs].
    - specialize (Hl len fl subs eq_refl). unfold first_byte, fixed_len in Hx. rewrite Hb in Hx. apply (fix_live_in hd s (l1 ++ (k, o) :: l2) k len fl subs o a); [exact V|exact Ho|lia].
    - unfold first_byte, fixed_len in Hx. rewrite Hb in Hx. apply (var_live_in hd s (l1 ++ (k, o) :: l2) k h b subs o a); [exact V|exact Ho|]. pose proof (osize_le (onr o)). lia. }
  unfold with_mem. rewrite <- (put_same b (g_areas s) k Hb).
  apply (area_step hd s (l1 ++ (k, o) :: l2) hs k b); auto.
  - constructor; [lia| |].
    + intros x _ Hn. apply upd_other. intros ->. contradiction.
    + intros x H. now left.
  - unfold first_byte, fixed_len in Hx. rewrite Hb in Hx. destruct b as [len fl subs|h b subs]; cbn [view g_mem g_free g_size] in *.
    + destruct V as (h & P & Hh & R). exists h. split; [exact P|]. split; [exact Hh|]. specialize (Hl len fl subs eq_refl).
      replace (map oa (live_of k (l1 ++ (k, Obj (oa o) (onr o) (upd (od o) a v)) :: l2))) with (map oa (live_of k (l1 ++ (k, o) :: l2))) by (rewrite !live_of_app, !live_of_same, !map_app; reflexivity).
      eapply FStep; [exact R|]. apply (FWrite (FS (g_mem s) (g_free s) (g_size s) len fl subs) _ a v). left. exists (oa o). split; [apply in_map; now apply in_live_of|]. cbn. lia.
    + rewrite live_of_app, live_of_same in V |- *. eapply VStep; [exact V|]. apply (VWrite (VS (g_mem s) b h (g_free s) (g_size s) subs)). lia.
  - intros j Hj. now rewrite !live_of_app, !live_of_other.
  - intros p Hp len fl subs ->. 
    assert (H : In (k, p) (l1 ++ l2) \/ p = Obj (oa o) (onr o) (upd (od o) a v)). { apply in_app_or in Hp as [Hp|[Hp|Hp]]; [left; apply in_or_app; now left|right; congruence|left; apply in_or_app; now right]. }
    destruct H as [H| ->].
    + assert (H' : In (k, p) (l1 ++ (k, o) :: l2)) by (apply in_app_or in H; apply in_or_app; cbn; tauto).
      destruct (si_live _ _ _ _ I k p H') as (b & Hb' & Hl'). rewrite Hb in Hb'. injection Hb' as <-. split; [exact (Hl' _ _ _ eq_refl)|].
      intros x Hx'. rewrite <- (si_cont _ _ _ _ I k p len fl subs x H' Hb Hx'). apply upd_other. intros ->.
      destruct V as (h & P & Hh & R). rewrite live_of_app, live_of_same, map_app in R. cbn [map] in R. destruct (FixAllocProofs.fix_nodup_live _ _ _ _ _ P R) as [Nd D]. apply NoDup_remove_2 in Nd.
      specialize (Hl len fl subs eq_refl). unfold first_byte, fixed_len in Hx. rewrite Hb in Hx.
      apply (D (oa o) (oa p)); [apply in_or_app; right; now left| | |exists a; lia].
      * assert (Hq : In (oa p) (map oa (live_of k (l1 ++ l2)))) by (apply in_map; now apply in_live_of). rewrite live_of_app, map_app in Hq. apply in_app_or in Hq. apply in_or_app. cbn. tauto.
      * intros E. apply Nd. rewrite E, <- map_app, <- live_of_app. apply in_map. now apply in_live_of.
    + cbn [onr oa od]. specialize (Hl len fl subs eq_refl). split; [exact Hl|]. intros x Hx'. unfold upd. destruct (x =? a); [reflexivity|]. exact (si_cont _ _ _ _ I k o len fl subs x Ho Hb Hx').
Qed.
Lemma step_array hd s live h1 o h2 a v : SI hd s live (h1 ++ o :: h2) -> oa o <= a < oa o + 8 * onr o ->
  SI hd (with_mem s (upd (g_mem s) a v)) live (h1 ++ Obj (oa o) (onr o) (upd (od o) a v) :: h2).
Proof.
  intros [I1 I2 I3 I4 I5 I6 I7 I8 I9 I10] Hx. assert (Ho : In o (h1 ++ o :: h2)) by (apply in_or_app; right; now left).
  assert (Hn : forall k b x, nth_error (g_areas s) k = Some b -> in_a b x -> upd (g_mem s) a v x = g_mem s x).
  { intros k b x Hb Hin. apply upd_other. intros ->. exact (I9 o k b a Ho Hb Hx Hin). }
  assert (Hp : forall p, In p (h1 ++ Obj (oa o) (onr o) (upd (od o) a v) :: h2) -> In p (h1 ++ h2) \/ p = Obj (oa o) (onr o) (upd (od o) a v)).
  { intros p H. apply in_app_or in H as [H|[H|H]]; [left; apply in_or_app; now left|right; congruence|left; apply in_or_app; now right]. }
  assert (Hq : forall p, In p (h1 ++ h2) -> In p (h1 ++ o :: h2)) by (intros p H; apply in_app_or in H; apply in_or_app; cbn; tauto).
  constructor; cbn [with_mem g_free g_size g_areas g_mem].
  - exact I1.
  - intros k b Hb. apply (view_env hd s); auto; try (cbn; lia). intros x Hin. exact (Hn k b x Hb Hin).
  - exact I3.
  - exact I4.
  - exact I5.
  - intros k p len fl subs x H Hb Hx'. rewrite <- (I6 k p len fl subs x H Hb Hx'). apply (Hn k _ x Hb). exact (fix_live_in hd s live k len fl subs p x (I2 _ _ Hb) H Hx').
  - intros p H. destruct (Hp p H) as [H'| ->]; [apply I7; now apply Hq|]. exact (I7 o Ho).
  - clear - I8. induction h1 as [|q h1 IH]; cbn [app] in *; inversion I8 as [|? ? A1 A2]; subst.
    + constructor; [|exact A2]. exact A1.
    + constructor; [|now apply IH]. apply Forall_app in A1 as [A1 A3]. inversion A3 as [|? ? A4 A5]; subst. apply Forall_app. split; [exact A1|]. constructor; [exact A4|exact A5].
  - intros p k b x H Hb Hx' Hin. destruct (Hp p H) as [H'| ->]; [exact (I9 p k b x (Hq p H') Hb Hx' Hin)|]. exact (I9 o k b x Ho Hb Hx' Hin).
  - intros p x H Hx'. destruct (Hp p H) as [H'| ->].
    + rewrite <- (I10 p x (Hq p H') Hx'). apply upd_other. intros ->.
      assert (Ap : apart o p). { apply VarAllocCore.fop_app in I8 as (_ & B2 & B3). inversion B2 as [|? ? B4 _]; subst. apply in_app_or in H' as [H'|H'].
        - specialize (B3 p o H' (or_introl eq_refl)). unfold apart in *. lia.
        - rewrite Forall_forall in B4. exact (B4 p H'). }
      unfold apart in Ap. lia.
    + cbn [oa onr od] in *. unfold upd. destruct (x =? a); [reflexivity|]. exact (I10 o x Ho Hx').
Qed.
(** ** Creation *)
Lemma clear_spec n : forall m i x, clear n m i x = if (i <=? x) && (x <? i + 8 * Z.of_nat n) && ((x - i) mod 8 =? 0) then 0 else m x.
Proof.
  induction n as [|n IH]; intros m i x; cbn [clear].
  - destruct (Z.leb_spec i x), (Z.ltb_spec x (i + 8 * Z.of_nat 0)); try reflexivity. lia.
  - rewrite IH. unfold upd. destruct (Z.eqb_spec x i) as [->|N].
    + destruct (Z.leb_spec (i + 8) i); [lia|]. cbn [andb]. destruct (Z.leb_spec i i); [|lia]. destruct (Z.ltb_spec i (i + 8 * Z.of_nat (S n))); [|lia]. rewrite Z.sub_diag. reflexivity.
    + replace (x - (i + 8)) with (x - i + (-1) * 8) by lia. rewrite Z.mod_add by lia. replace (i + 8 + 8 * Z.of_nat n) with (i + 8 * Z.of_nat (S n)) by lia.
      destruct (Z.leb_spec (i + 8) x), (Z.leb_spec i x); try reflexivity; try lia. cbn [andb].
      destruct (Z.ltb_spec x (i + 8 * Z.of_nat (S n))), (Z.eqb_spec ((x - i) mod 8) 0); cbn [andb]; try reflexivity. exfalso. lia.
Qed.
Lemma step_hash hd s live hs n s' : SI hd s live hs -> 0 <= n < 2 ^ 40 -> init_hash_subarea s n = Some s' ->
  exists t, g_hash s' = t :: g_hash s /\ ht_start t = g_free s /\ ht_len t = n /\ g_free s' = g_free s + (n + 1) * 8 + 16 /\ g_free s' < g_size s /\ g_size s' = g_size s /\ g_areas s' = g_areas s /\ g_locks s' = g_locks s /\
    (forall x, x < g_free s -> g_mem s' x = g_mem s x) /\ (forall i, 0 <= i < n -> g_mem s' (ht_start t + 8 * i) = 0) /\
    SI hd s' live (Obj (ht_start t) (ht_len t) (g_mem s') :: hs).
Proof.
  intros I Hn. pose proof (si_free _ _ _ _ I) as (F1 & F2 & F3). unfold init_hash_subarea. change (2 * SUBAREA_ALIGNMENT_BYTES) with 16.
  unfold alloc_db_segmentchunk. rewrite wrap64_id by (unfold is64; lia). destruct (Z.ltb_spec (g_free s + ((n + 1) * 8 + 16)) 0); [lia|].
  rewrite FixAllocProofs.align_fill_0; [|lia|replace (g_free s + ((n + 1) * 8 + 16)) with (g_free s + (n + 3) * 8) by lia; rewrite Z.mod_add by lia; exact F2].
  destruct (Z.geb_spec (g_free s + ((n + 1) * 8 + 16) + 0) (g_size s)); [discriminate|]. destruct (Z.eqb_spec (g_free s) 0); [lia|].
  rewrite FixAllocProofs.align_fill_0 by lia. intros E. injection E as <-. cbn [g_mem g_free g_size g_areas g_hash g_locks].
  eexists. split; [reflexivity|]. cbn [ht_start ht_len]. rewrite Z.add_0_r. split; [reflexivity|]. split; [reflexivity|]. split; [lia|]. split; [lia|]. do 3 (split; [reflexivity|]). 
  assert (M : forall x, x < g_free s -> clear (Z.to_nat n) (g_mem s) (g_free s) x = g_mem s x). { intros x Hx. rewrite clear_spec. destruct (Z.leb_spec (g_free s) x); [lia|reflexivity]. }
  split; [exact M|]. split.
  - intros i Hi. rewrite clear_spec. replace (g_free s + 8 * i - g_free s) with (i * 8) by lia. rewrite Z.mod_mul by lia. destruct (Z.leb_spec (g_free s) (g_free s + 8 * i)); [|lia]. destruct (Z.ltb_spec (g_free s + 8 * i) (g_free s + 8 * Z.of_nat (Z.to_nat n))); [reflexivity|lia].
  - apply chunk_step; cbn [oa onr od]; auto; lia.
Qed.
Lemma nth_app_one {A} (l : list A) a k b : nth_error (l ++ [a]) k = Some b -> nth_error l k = Some b \/ k = length l /\ b = a.
Proof.
  destruct (Nat.lt_ge_cases k (length l)) as [H|H].
  - rewrite nth_error_app1 by exact H. now left.
  - rewrite nth_error_app2 by exact H. destruct (k - length l)%nat as [|n] eqn:E; [|destruct n; discriminate]. intros [= <-]. right. split; [lia|reflexivity].
Qed.
(** A new area at the border. *)
Lemma add_step hd s m' a : SI hd s [] [] -> (forall x, x < g_free s -> m' x = g_mem s x) -> asubs a = [Sub 8192 (g_free s) 8192 (g_free s)] -> g_free s + 8192 < g_size s ->
  let s' := SG m' (g_free s + 8192) (g_size s) (g_areas s ++ [a]) (g_hash s) (g_locks s) in view hd s' [] (length (g_areas s)) a -> SI hd s' [] [].
Proof.
  intros [I1 I2 I3 I4 I5 I6 I7 I8 I9 I10] M Es Fs s' V.
  assert (Na : forall x, in_a a x <-> g_free s <= x < g_free s + 8192). { intros x. unfold in_a. rewrite Es. split; [intros (u & [<-|[]] & H); exact H|]. intros H. eexists. split; [now left|]. exact H. }
  assert (M8 : (g_free s + 8192) mod 8 = 0) by (change 8192 with (1024 * 8); rewrite Z.mod_add by lia; tauto).
  constructor; cbn [g_free g_size g_areas g_mem s'].
  - lia.
  - intros k b Hb. apply nth_app_one in Hb as [Hb|(-> & ->)]; [|exact V].
    apply (view_env hd s); auto; try (cbn; lia). intros x Hx. apply M. destruct (I3 _ _ _ Hb Hx). assumption.
  - intros k b x Hb Hx. apply nth_app_one in Hb as [Hb|(-> & ->)]; [pose proof (I3 _ _ _ Hb Hx)|apply Na in Hx]; lia.
  - intros j k b c x Hjk Hb Hc H1 H2. apply nth_app_one in Hb as [Hb|(-> & ->)], Hc as [Hc|(-> & ->)].
    + exact (I4 j k b c x Hjk Hb Hc H1 H2).
    + apply Na in H2. destruct (I3 _ _ _ Hb H1). lia.
    + apply Na in H1. destruct (I3 _ _ _ Hc H2). lia.
    + congruence.
  - intros k o [].
  - intros k o len fl subs x [].
  - intros o [].
  - constructor.
  - intros o k b x [].
  - intros o x [].
Qed.

Lemma add_fix_step hd s len s' : SI hd s [] [] -> 0 < len <= 4096 -> len mod 8 = 0 -> add_fix len s = Some s' ->
  SI hd s' [] [] /\ g_free s' = g_free s + 8192 /\ g_size s' = g_size s /\ g_hash s' = g_hash s /\ g_locks s' = g_locks s.
Proof.
  intros I L1 L2. unfold add_fix. destruct (init_fix_area _ _ _ _) as [t|] eqn:E; [|discriminate]. intros H. injection H as <-.
  pose proof (si_free _ _ _ _ I) as (F1 & F2 & F3).
  assert (P : params_ok (g_free s) (g_size s) len) by (unfold params_ok; lia).
  destruct (fix_init_geo _ _ _ _ _ P E) as (G1 & G2 & G3 & G4 & G5 & G6). cbn [g_free g_size g_hash g_locks]. rewrite G1, G3 in *. split; [|auto].
  apply add_step; auto. cbn [view g_mem g_free g_size]. exists (g_free s). split; [rewrite G2; exact P|]. split; [lia|]. rewrite G2.
  assert (Et : t = FS (fs_mem t) (g_free s + 8192) (g_size s) len (fs_freelist t) (fs_subs t)) by (destruct t; cbn in *; congruence). rewrite <- Et. eapply FInit. exact E.
Qed.
Lemma add_var_step hd s h s' : SI hd s [] [] -> add_var h s = Some s' ->
  SI hd s' [] [] /\ g_free s' = g_free s + 8192 /\ g_size s' = g_size s /\ g_hash s' = g_hash s /\ g_locks s' = g_locks s.
Proof.
  intros I. unfold add_var. destruct (init_var_area _ _ _ _) as [t|] eqn:E; [|discriminate]. intros H. injection H as <-.
  pose proof (si_free _ _ _ _ I) as (F1 & F2 & F3).
  assert (F0 : 0 < g_free s) by lia. destruct (init_geo _ _ _ _ _ F0 F2 F3 E) as (G1 & G2 & G3 & G4). cbn [g_free g_size g_hash g_locks]. 
  assert (R : vreach (t, [])) by (eapply VInit; [| | |exact E]; [lia|exact F2|exact F3]).
  assert (B : vfree t < vsize t). { destruct (VarAllocReach.RI_reach _ R) as (L & fr & _ & I' & _). pose proof (VarAllocProofs.so_free _ _ (VarAllocProofs.i_subs _ _ _ I')). cbn [fst] in *. lia. }
  rewrite G2, G3 in *. split; [|auto].
  apply add_step; auto; [intros x Hx; exact (init_frame _ _ _ _ _ x F0 F2 F3 E Hx)|]. cbn [view g_mem g_free g_size].
  assert (Et : t = VS (vm t) (vb t) (vhdr t) (g_free s + 8192) (g_size s) (vsubs t)) by (destruct t; cbn in *; congruence). rewrite <- Et. exact R.
Qed.
Lemma HEADER_val p : HEADER p + align_fill (HEADER p) = HEADER p /\ 0 < HEADER p < 2 ^ 16 /\ HEADER p mod 8 = 0.
Proof. destruct p; vm_compute; auto. Qed.
Lemma obind_some {A B} (o : option A) (f : A -> option B) b : obind o f = Some b -> exists a, o = Some a /\ f a = Some b.
Proof. destruct o; cbn; [eauto|discriminate]. Qed.
Lemma SI_start hd m free size : 0 < hd <= free -> free mod 8 = 0 -> free < size <= 2 ^ 40 -> SI hd (SG m free size [] [] 0) [] [].
Proof.
  intros H1 H2 H3. assert (N : forall k (a : area), nth_error [] k = Some a -> False) by (intros [|k] a; discriminate).
  constructor; cbn [g_free g_size g_areas g_mem].
  - auto.
  - intros k a H. destruct (N _ _ H).
  - intros k a x H. destruct (N _ _ H).
  - intros j k a b x _ H. destruct (N _ _ H).
  - intros k o [].
  - intros k o len fl subs x [].
  - intros o [].
  - constructor.
  - intros o k a x [].
  - intros o x [].
Qed.
Lemma add_small m size h free s : 0 < free < 2 ^ 16 -> free mod 8 = 0 -> size <= 2 ^ 40 -> add_var h (SG m free size [] [] 0) = Some s -> free < size.
Proof.
  intros F1 F2 F3. unfold add_var. cbn [g_mem g_free g_size]. unfold init_var_area, init_vsubarea. cbn [vfree vsize]. change (INITIAL_SUBAREA_SIZE <? MINIMAL_SUBAREA_SIZE) with false. cbv iota.
  change INITIAL_SUBAREA_SIZE with 8192. unfold alloc_db_segmentchunk. rewrite wrap64_id by (unfold is64; lia). destruct (Z.ltb_spec (free + 8192) 0); [lia|].
  pose proof (FixAllocProofs.align_fill_spec (free + 8192) ltac:(lia)). destruct (Z.geb_spec (free + 8192 + align_fill (free + 8192)) size); [discriminate|]. lia.
Qed.
Lemma init_SI p m size slen s : size <= 2 ^ 40 -> 0 <= slen < 2 ^ 40 -> wg_init_db_memsegment p m size slen = Some s ->
  SI (HEADER p) s [] (arrays s) /\ g_size s = size /\ length (g_areas s) = 10%nat /\ (exists t, g_hash s = [t] /\ ht_len t = slen /\ forall i, 0 <= i < slen -> g_mem s (ht_start t + 8 * i) = 0).
Proof.
  intros Hs Hl. unfold wg_init_db_memsegment. destruct (HEADER_val p) as (H1 & H2 & H3). rewrite H1. intros E.
  apply obind_some in E as (s1 & E1 & E). pose proof (add_small _ _ _ _ _ H2 H3 Hs E1) as H4.
  pose proof (SI_start (HEADER p) m (HEADER p) size ltac:(lia) H3 ltac:(lia)) as I0.
  destruct (add_var_step _ _ _ _ I0 E1) as (I1 & _ & Z1 & Q1 & W1). cbn [g_size g_hash g_locks] in *.
  apply obind_some in E as (s2 & E2 & E). destruct (add_var_step _ _ _ _ I1 E2) as (I2 & _ & Z2 & Q2 & W2).
  apply obind_some in E as (s3 & E3 & E). destruct (add_fix_step _ _ 16 _ I2 ltac:(lia) eq_refl E3) as (I3 & _ & Z3 & Q3 & W3).
  apply obind_some in E as (s4 & E4 & E). destruct (add_fix_step _ _ 32 _ I3 ltac:(lia) eq_refl E4) as (I4 & _ & Z4 & Q4 & W4).
  apply obind_some in E as (s5 & E5 & E). destruct (add_fix_step _ _ 8 _ I4 ltac:(lia) eq_refl E5) as (I5 & _ & Z5 & Q5 & W5).
  apply obind_some in E as (s6 & E6 & E). destruct (add_fix_step _ _ 16 _ I5 ltac:(lia) eq_refl E6) as (I6 & _ & Z6 & Q6 & W6).
  apply obind_some in E as (s7 & E7 & E). destruct (add_fix_step _ _ 128 _ I6 ltac:(lia) eq_refl E7) as (I7 & _ & Z7 & Q7 & W7).
  apply obind_some in E as (s8 & E8 & E). destruct (add_fix_step _ _ 144 _ I7 ltac:(lia) eq_refl E8) as (I8 & _ & Z8 & Q8 & W8).
  apply obind_some in E as (s9 & E9 & E). destruct (add_fix_step _ _ 24 _ I8 ltac:(lia) eq_refl E9) as (I9 & _ & Z9 & Q9 & W9).
  apply obind_some in E as (s10 & E10 & E). destruct (add_var_step _ _ _ _ I9 E10) as (I10 & _ & Z10 & Q10 & W10).
  apply obind_some in E as (s11 & E11 & E). destruct (step_hash _ _ _ _ _ _ I10 Hl E11) as (t & T1 & T2 & T3 & T4 & T5 & T6 & T7 & T8 & T9 & T10 & I11).
  assert (Q : g_hash s10 = []) by congruence. assert (W : g_locks s10 = 0) by congruence. assert (Sz : g_size s10 = size) by congruence. rewrite Q in T1.
  assert (La : length (g_areas s10) = 10%nat).
  { assert (Lf : forall len s s', add_fix len s = Some s' -> length (g_areas s') = S (length (g_areas s))).
    { clear. intros len s s'. unfold add_fix. destruct (init_fix_area _ _ _ _); [|discriminate]. intros H. injection H as <-. cbn. rewrite app_length. cbn. lia. }
    assert (Lv : forall h s s', add_var h s = Some s' -> length (g_areas s') = S (length (g_areas s))).
    { clear. intros h s s'. unfold add_var. destruct (init_var_area _ _ _ _); [|discriminate]. intros H. injection H as <-. cbn. rewrite app_length. cbn. lia. }
    rewrite (Lv _ _ _ E10), (Lf _ _ _ E9), (Lf _ _ _ E8), (Lf _ _ _ E7), (Lf _ _ _ E6), (Lf _ _ _ E5), (Lf _ _ _ E4), (Lf _ _ _ E3), (Lv _ _ _ E2), (Lv _ _ _ E1). reflexivity. }
  unfold init_syn_vars in E. destruct p.
  - pose proof (si_free _ _ _ _ I11) as (F1 & F2 & F3). change (SYN_VAR_PADDING * (MAX_LOCKS + 2)) with (1056 * 8) in E. unfold alloc_db_segmentchunk in E.
    rewrite wrap64_id in E by (unfold is64; lia). destruct (Z.ltb_spec (g_free s11 + 1056 * 8) 0); [lia|]. rewrite FixAllocProofs.align_fill_0 in E; [|lia|rewrite Z.mod_add by lia; exact F2].
    destruct (Z.geb_spec (g_free s11 + 1056 * 8 + 0) (g_size s11)); [discriminate|]. destruct (Z.eqb_spec (g_free s11) 0); [lia|]. injection E as <-. unfold arrays. cbn [g_locks g_mem g_hash g_size g_areas].
    destruct (Z.eqb_spec (g_free s11) 0); [lia|]. rewrite T1. cbn [map app]. split; [|split; [congruence|split; [congruence|exists t; auto]]].
    refine (chunk_step (HEADER true) s11 [] [Obj (ht_start t) (ht_len t) (g_mem s11)] (g_mem s11) (g_free s11 + 1056 * 8 + 0) [t] (g_free s11) (Obj (g_free s11) 1056 (g_mem s11)) I11 _ _ _ _ _ _ _ _ _); cbn [oa onr od]; auto; lia.
  - injection E as <-. unfold arrays. rewrite T8, W, T1. cbn [Z.eqb map app]. split; [exact I11|split; [congruence|split; [congruence|exists t; auto]]].
Qed.
Theorem reach_SI p c : sreach p c -> SI (HEADER p) (fst (fst c)) (snd (fst c)) (snd c).
Proof.
  induction 1 as [m size slen s H1 H2 E|c c' R IH St].
  - cbn [fst snd]. now apply (init_SI p m size slen).
  - destruct St; cbn [fst snd] in *.
    + eapply step_alloc; eauto.
    + eapply step_free; eauto.
    + apply step_write; auto.
    + unfold wg_create_hash in H0. assert (Hn : 0 <= (if size <=? 0 then DEFAULT_IDXHASH_LENGTH else size) < 2 ^ 40) by (unfold DEFAULT_IDXHASH_LENGTH; destruct (Z.leb_spec size 0); lia).
      destruct (step_hash _ _ _ _ _ _ IH Hn H0) as (t' & T1 & _ & _ & _ & _ & _ & _ & _ & _ & _ & I'). rewrite H1 in T1. injection T1 as <-. exact I'.
    + apply step_array; auto.
Qed.
