From Coq Require Import ZArith List Bool Lia.
From Verif Require Import Base FixAllocModel FixAllocSpec.
Import ListNotations.
Open Scope Z_scope.

Fixpoint chain (m : mem) (p : Z) (l : list Z) : Prop :=
  match l with
  | [] => p = 0
  | x :: r => p = x /\ x <> 0 /\ chain m (m x) r
  end.

Lemma chain_ext m m' l : forall p,
  (forall x, In x l -> m' x = m x) -> chain m p l -> chain m' p l.
Proof.
  induction l as [|x r IH]; cbn; intros p Hm H; auto.
  destruct H as (-> & Hx & H). repeat split; auto.
  rewrite Hm by auto. apply IH; auto.
Qed.

Fixpoint cells (i len : Z) (k : nat) : list Z :=
  match k with O => [] | S k' => i :: cells (i + len) len k' end.

Lemma in_cells len k : forall i c, In c (cells i len k) <-> exists j, 0 <= j < Z.of_nat k /\ c = i + j * len.
Proof.
  induction k as [|k IH]; intros i c.
  - cbn. split; [easy|]. intros (j & ? & ?). lia.
  - cbn [cells In]. rewrite IH. split.
    + intros [<-|(j & Hj & ->)].
      * exists 0. lia.
      * exists (j + 1). lia.
    + intros (j & Hj & ->).
      destruct (Z.eq_dec j 0) as [->|]; [left; lia|right].
      exists (j - 1). lia.
Qed.

Lemma nodup_cells len k : 0 < len -> forall i, NoDup (cells i len k).
Proof.
  intros Hl. induction k as [|k IH]; intros i; cbn; constructor; auto.
  rewrite in_cells. intros (j & ? & ?). nia.
Qed.

Lemma fill_spec len max : 0 < len ->
  forall n m i, 0 < i -> i <= max + len -> (max - i) / len + 2 <= Z.of_nat n ->
  exists k, let m' := fill_freelist n m i max len in
    chain m' i (cells i len k) /\
    max < i + (Z.of_nat k - 1) * len <= max + len /\ (1 <= k)%nat /\
    (forall a, ~ In a (cells i len k) -> m' a = m a).
Proof.
  intros Hl. induction n as [|n IH]; intros m i Hi Hmax Hn.
  - exfalso. change (Z.of_nat 0) with 0 in Hn. assert (- 1 <= (max - i) / len); [|lia].
    apply Z.div_le_lower_bound; lia.
  - cbn [fill_freelist]. destruct (Z.leb_spec i max) as [Hle|Hgt].
    + destruct (IH (upd m i (i + len)) (i + len)) as (k & Hc & Hk & Hk1 & Hf); [lia|lia| |].
      * replace (max - (i + len)) with ((max - i) + (-1) * len) by ring.
        rewrite Z.div_add by lia. lia.
      * exists (S k). cbn [cells chain]. repeat split; try lia.
        -- rewrite Hf; [rewrite upd_same; exact Hc|].
           rewrite in_cells. intros (j & ? & ?). nia.
        -- intros a Ha. cbn in Ha. rewrite Hf by tauto. apply upd_other. intuition.
    + exists 1%nat. cbn. repeat split; try lia.
      * apply upd_same.
      * intros a Ha. apply upd_other. intuition.
Qed.

Definition disj (a b : subarea) : Prop :=
  sa_aoffset a + sa_asize a <= sa_aoffset b \/ sa_aoffset b + sa_asize b <= sa_aoffset a.

Definition sub_ok (hdr : Z) (s : fstate) (a : subarea) : Prop :=
  hdr <= sa_aoffset a /\ sa_aoffset a mod 8 = 0 /\ 0 <= sa_asize a /\
  sa_aoffset a + sa_asize a <= fs_free s /\ 0 < sa_size a.

Fixpoint pairwise (l : list subarea) : Prop :=
  match l with [] => True | x :: r => (forall y, In y r -> disj x y) /\ pairwise r end.

Definition is_cell (s : fstate) (c : Z) : Prop :=
  exists sub j, In sub (fs_subs s) /\ 0 <= j /\ c = sa_aoffset sub + j * fs_objlen s /\
                c + fs_objlen s <= sa_aoffset sub + sa_asize sub.

Record geom (hdr size objlen : Z) (s : fstate) : Prop := {
  g_size : fs_size s = size;
  g_len : fs_objlen s = objlen;
  g_free8 : fs_free s mod 8 = 0;
  g_hdr : hdr <= fs_free s;
  g_fs : fs_free s < size;
  g_subs : forall a, In a (fs_subs s) -> sub_ok hdr s a;
  g_pw : pairwise (fs_subs s);
  g_ne : fs_subs s <> [] }.

Record inv (hdr size objlen : Z) (s : fstate) (live fl : list Z) : Prop := {
  i_geom : geom hdr size objlen s;
  i_chain : chain (fs_mem s) (fs_freelist s) fl;
  i_nodup : NoDup (fl ++ live);
  i_cells : forall c, In c (fl ++ live) <-> is_cell s c }.

Lemma pairwise_in l : pairwise l -> forall x y, In x l -> In y l -> x = y \/ disj x y.
Proof.
  induction l as [|z r IH]; cbn; [easy|].
  intros (Hz & Hr) x y [<-|Hx] [<-|Hy]; auto.
  right. specialize (Hz _ Hx). unfold disj in *. tauto.
Qed.

Lemma align_fill_0 x : 0 <= x -> x mod 8 = 0 -> align_fill x = 0.
Proof.
  unfold align_fill, SUBAREA_ALIGNMENT_BYTES. intros H0 H.
  rewrite Z.rem_mod_nonneg by lia. rewrite H. reflexivity.
Qed.

Lemma align_fill_spec x : 0 <= x -> 0 <= align_fill x < 8 /\ (x + align_fill x) mod 8 = 0.
Proof.
  unfold align_fill, SUBAREA_ALIGNMENT_BYTES. intros H0.
  rewrite Z.rem_mod_nonneg by lia.
  destruct (Z.eqb_spec (8 - x mod 8) 8); lia.
Qed.

Lemma chunk_spec free size req c free' :
  0 < free -> free mod 8 = 0 -> free < 2^63 -> 0 <= req < 2 ^ 63 -> size < 2 ^ 63 ->
  alloc_db_segmentchunk free size req = (c, free') ->
  (c = 0 /\ free' = free) \/
  (c = free /\ free + req <= free' /\ free' < size /\ free' mod 8 = 0).
Proof.
  unfold alloc_db_segmentchunk. intros Hf Hf8 Hf63 Hr Hs.
  destruct (Z.ltb_spec (wrap64 (free + req)) 0) as [|Hw].
  - intros [= <- <-]. auto.
  - assert (Hid : wrap64 (free + req) = free + req).
    { apply wrap64_id. unfold is64. unfold wrap64 in Hw.
      assert (free + req < 2 ^ 63); [|lia].
      destruct (Z.lt_ge_cases (free + req) (2^63)); [assumption|exfalso].
      replace (free + req + 2^63) with ((free + req - 2^63) + 1 * 2^64) in Hw by lia.
      rewrite Z.mod_add in Hw by lia. rewrite Z.mod_small in Hw; lia. }
    rewrite Hid. pose proof (align_fill_spec (free + req) ltac:(lia)) as (Ha & Hb).
    destruct (Z.geb_spec (free + req + align_fill (free + req)) size).
    + intros [= <- <-]. auto.
    + intros [= <- <-]. right. lia.
Qed.

Lemma init_sub_spec s size s' :
  0 < fs_free s -> fs_free s mod 8 = 0 -> fs_free s < 2^63 -> fs_size s < 2 ^ 63 -> size < 2 ^ 63 ->
  init_db_subarea s size = Some s' ->
  exists sub f', s' = FS (fs_mem s) f' (fs_size s) (fs_objlen s) 0 (sub :: fs_subs s) /\
    sa_size sub = size /\ MINIMAL_SUBAREA_SIZE <= size /\
    sa_aoffset sub = fs_free s /\ size - 31 <= sa_asize sub <= size /\
    fs_free s + size <= f' < fs_size s /\ f' mod 8 = 0.
Proof.
  intros Hf H8 H63 Hs Hz. unfold init_db_subarea.
  destruct (Z.ltb_spec size MINIMAL_SUBAREA_SIZE) as [|Hmin]; [easy|].
  destruct (alloc_db_segmentchunk _ _ _) as (c, free') eqn:E.
  apply chunk_spec in E; try (unfold MINIMAL_SUBAREA_SIZE in *; lia).
  destruct (Z.eqb_spec c 0) as [|Hc]; [easy|].
  destruct E as [(-> & _)|(-> & Hg & Hlt & Hm)]; [easy|].
  rewrite align_fill_0 by lia. rewrite Z.add_0_r, Z.sub_0_r.
  intros [= <-]. cbn.
  exists (Sub size (fs_free s) (size - Z.rem size MIN_VARLENOBJ_SIZE) (fs_free s)), free'. cbn.
  unfold MINIMAL_SUBAREA_SIZE in *.
  assert (0 <= Z.rem size MIN_VARLENOBJ_SIZE < 32).
  { unfold MIN_VARLENOBJ_SIZE. rewrite Z.rem_mod_nonneg by lia. lia. }
  repeat split; try lia.
Qed.

Lemma nodup_app {A} (l1 l2 : list A) :
  NoDup l1 -> NoDup l2 -> (forall x, In x l1 -> In x l2 -> False) -> NoDup (l1 ++ l2).
Proof.
  induction l1 as [|x l1 IH]; cbn; auto. intros H1 H2 H.
  inversion H1; subst. constructor.
  - rewrite in_app_iff. intros [?|?]; eauto.
  - apply IH; eauto.
Qed.

Lemma is_cell_disjoint hdr size objlen s c1 c2 a :
  geom hdr size objlen s -> 0 < objlen ->
  is_cell s c1 -> is_cell s c2 -> c1 <> c2 ->
  c1 <= a < c1 + objlen -> c2 <= a < c2 + objlen -> False.
Proof.
  intros G Hl (s1 & j1 & Hi1 & Hj1 & -> & He1) (s2 & j2 & Hi2 & Hj2 & -> & He2) Hne H1 H2.
  rewrite (g_len _ _ _ _ G) in *.
  destruct (pairwise_in _ (g_pw _ _ _ _ G) _ _ Hi1 Hi2) as [<-|[D|D]].
  - assert (j1 <> j2) by (intros ->; easy). nia.
  - nia.
  - nia.
Qed.

Lemma is_cell_range hdr size objlen s c :
  geom hdr size objlen s -> 0 < objlen -> is_cell s c -> hdr <= c /\ c + objlen <= fs_free s.
Proof.
  intros G Hl (sub & j & Hi & Hj & -> & He).
  destruct (g_subs _ _ _ _ G _ Hi) as (? & ? & ? & ? & ?).
  rewrite (g_len _ _ _ _ G) in *. nia.
Qed.

(** A successful new subarea: the geometry is kept, the new cells form the
    free list. *)
Lemma new_sub_inv hdr size objlen s newsize s1 live :
  params_ok hdr size objlen ->
  fs_size s = size -> fs_objlen s = objlen -> hdr <= fs_free s -> fs_free s mod 8 = 0 ->
  fs_free s < 2^63 ->
  (forall a, In a (fs_subs s) -> sub_ok hdr s a) -> pairwise (fs_subs s) ->
  NoDup live -> (forall c, In c live <-> is_cell s c) ->
  newsize < 2^63 ->
  init_db_subarea s newsize = Some s1 ->
  exists fl, inv hdr size objlen (make_subarea_freelist s1) live fl /\ fl <> [] /\
    (forall a, a < fs_free s -> fs_mem (make_subarea_freelist s1) a = fs_mem s a).
Proof.
  intros (P1 & P2 & P3 & P4 & P5) Hsz Hln Hh H8 H63 Hsub Hpw Hnd Hcells Hns Hinit.
  apply init_sub_spec in Hinit; try lia.
  destruct Hinit as (nsub & f' & -> & Hsize & Hmin & Hoff & Has & Hfree & Hf8).
  unfold MINIMAL_SUBAREA_SIZE in *.
  unfold make_subarea_freelist. cbn [fs_subs fs_objlen fs_mem fs_free fs_size].
  set (off := sa_aoffset nsub) in *. set (sz := sa_asize nsub) in *.
  rewrite Hln.
  destruct (fill_spec objlen (off + sz - 2 * objlen) ltac:(lia)
     (S (Z.to_nat sz)) (fs_mem s) off) as (k & Hch & Hk & Hk1 & Hfr); try lia.
  { rewrite Nat2Z.inj_succ, Z2Nat.id by lia.
    assert ((off + sz - 2 * objlen - off) / objlen <= sz - 2); [|lia].
    replace (off + sz - 2 * objlen - off) with (sz + (-2) * objlen) by ring.
    rewrite Z.div_add by lia.
    assert (sz / objlen <= sz); [|lia].
    apply Z.div_le_upper_bound; nia. }
  assert (Hcell : forall c, In c (cells off objlen k) <->
            exists j, 0 <= j /\ c = off + j * objlen /\ c + objlen <= off + sz).
  { intros c. rewrite in_cells. split; intros (j & Hj & Hc).
    - exists j. subst c. repeat split; try lia. nia.
    - destruct Hc as (-> & Hc). exists j. split; [|lia]. nia. }
  exists (cells off objlen k).
  split; [|split].
  - constructor.
    + constructor; cbn [fs_size fs_objlen fs_free fs_subs]; auto; try lia; try easy.
      * intros a [<-|Ha].
        -- unfold sub_ok; cbn. fold off sz. repeat split; lia.
        -- destruct (Hsub _ Ha) as (?&?&?&?&?). unfold sub_ok; cbn. repeat split; lia.
      * cbn. split; auto. intros y Hy. destruct (Hsub _ Hy) as (?&?&?&?&?).
        unfold disj. fold off sz. right. lia.
    + exact Hch.
    + apply nodup_app; auto.
      * apply nodup_cells. lia.
      * intros x Hx Hx2. apply Hcell in Hx. destruct Hx as (j & Hj & -> & Hx).
        apply Hcells in Hx2. destruct Hx2 as (sub & j' & Hi & Hj' & He & Hb).
        destruct (Hsub _ Hi) as (?&?&?&?&?). rewrite Hln in *. nia.
    + intros c. rewrite in_app_iff, Hcell, Hcells. unfold is_cell.
      cbn [fs_subs fs_objlen]. rewrite Hln. split.
      * intros [(j & Hj & -> & Hb)|(sub & j & Hi & H)].
        -- exists nsub, j. cbn. auto.
        -- exists sub, j. cbn. tauto.
      * intros (sub & j & [<-|Hi] & Hj & -> & Hb).
        -- left. exists j. auto.
        -- right. exists sub, j. auto.
  - destruct k; [lia|easy].
  - intros a Ha. cbn [fs_mem]. apply Hfr. rewrite Hcell. intros (j & Hj & -> & _). nia.
Qed.

Lemma is_cell_same s s' :
  fs_subs s' = fs_subs s -> fs_objlen s' = fs_objlen s -> forall c, is_cell s c <-> is_cell s' c.
Proof. unfold is_cell. intros -> -> c. reflexivity. Qed.

Lemma geom_same hdr size objlen s s' :
  fs_subs s' = fs_subs s -> fs_objlen s' = fs_objlen s -> fs_free s' = fs_free s -> fs_size s' = fs_size s ->
  geom hdr size objlen s -> geom hdr size objlen s'.
Proof.
  intros E1 E2 E3 E4 [A B C D E F G H].
  constructor; try congruence.
  - intros a. rewrite E1. intros Ha. destruct (F _ Ha) as (?&?&?&?&?).
    unfold sub_ok. rewrite E3. auto.
Qed.

Lemma extend_try_some n : forall s newsize s',
  newsize < 2 ^ 63 -> extend_try n s newsize = Some s' ->
  exists ns, ns < 2 ^ 63 /\ init_db_subarea s ns = Some s'.
Proof.
  induction n as [|n IH]; intros s newsize s' Hns; cbn [extend_try]; [easy|].
  destruct (Z.geb_spec newsize MINIMAL_SUBAREA_SIZE) as [Hge|]; [|easy].
  destruct (init_db_subarea s newsize) eqn:E.
  - intros [= <-]. eauto.
  - intros H. eapply IH; [|exact H].
    rewrite Z.shiftr_div_pow2 by lia. unfold MINIMAL_SUBAREA_SIZE in *. change (2^1) with 2. lia.
Qed.

Lemma extend_inv hdr size objlen s live s' :
  params_ok hdr size objlen -> inv hdr size objlen s live [] ->
  extend_fixedlen_area s = Some s' ->
  exists fl, inv hdr size objlen s' live fl /\ fl <> [] /\
    (forall a, a < fs_free s -> fs_mem s' a = fs_mem s a).
Proof.
  intros P [G Hch Hnd Hc] H. unfold extend_fixedlen_area in H.
  destruct (fs_subs s) as [|last rest] eqn:Esub; [easy|].
  destruct (_ >=? SUBAREA_ARRAY_SIZE); [easy|].
  destruct (extend_try _ _ _) as [s1|] eqn:E; [|easy].
  injection H as <-.
  apply extend_try_some in E; [|apply (wrap64_range (Z.shiftl (sa_size last) 1))].
  destruct E as (ns & Hns & E).
  pose proof P as (P1 & P2 & P3 & P4 & P5).
  destruct G.
  eapply (new_sub_inv _ _ _ s ns s1 live P); auto; lia.
Qed.

Lemma take_inv hdr size objlen s live x fl :
  inv hdr size objlen s live (x :: fl) ->
  x = fs_freelist s /\ x <> 0 /\
  inv hdr size objlen
    (FS (fs_mem s) (fs_free s) (fs_size s) (fs_objlen s) (fs_mem s (fs_freelist s)) (fs_subs s))
    (x :: live) fl.
Proof.
  intros [G Hch Hnd Hc]. cbn [chain] in Hch. destruct Hch as (Hx & Hx0 & Hch).
  split; [auto|split; [auto|constructor]].
  - eapply geom_same; [..|exact G]; reflexivity.
  - cbn. rewrite Hx. exact Hch.
  - apply NoDup_cons_iff in Hnd. destruct Hnd as (Hni & Hnd).
    apply nodup_app.
    + clear -Hnd. induction fl; [constructor|]. inversion Hnd; subst. constructor; auto.
      rewrite in_app_iff in *. tauto.
    + constructor; [rewrite in_app_iff in Hni; tauto|].
      clear -Hnd. induction fl; auto. inversion Hnd; auto.
    + intros y Hy [<-|Hy2]; [rewrite in_app_iff in Hni; tauto|].
      clear -Hnd Hy Hy2. induction fl as [|z fl IH]; [easy|].
      inversion Hnd; subst. destruct Hy as [->|Hy]; [rewrite in_app_iff in *; tauto|auto].
  - intros c. rewrite <- (is_cell_same s) by reflexivity. rewrite <- Hc.
    cbn [app In]. rewrite !in_app_iff. cbn [In]. tauto.
Qed.

Lemma alloc_inv hdr size objlen s live fl s' r :
  params_ok hdr size objlen -> inv hdr size objlen s live fl ->
  wg_alloc_fixlen_object s = (s', r) ->
  (r = 0 /\ s' = s /\ fl = [] \/
   r <> 0 /\ exists fl', inv hdr size objlen s' (r :: live) fl') /\
  (forall a, a < fs_free s -> fs_mem s' a = fs_mem s a) /\
  (fl <> [] -> exists fl', fl = r :: fl').
Proof.
  intros P I. unfold wg_alloc_fixlen_object.
  destruct (Z.eqb_spec (fs_freelist s) 0) as [E|E].
  - assert (fl = []) as ->.
    { destruct I as [_ Hch _ _]. destruct fl; [easy|]. cbn in Hch. lia. }
    destruct (extend_fixedlen_area s) as [s1|] eqn:Ex.
    + destruct (extend_inv _ _ _ _ _ _ P I Ex) as (fl & I1 & Hne & Hm).
      destruct fl as [|x fl]; [easy|].
      destruct (take_inv _ _ _ _ _ _ _ I1) as (Hx & Hx0 & I2).
      destruct (Z.eqb_spec (fs_freelist s1) 0); [congruence|].
      intros [= <- <-]. split; [|split].
      * right. rewrite <- Hx at 1. split; auto. exists fl. rewrite <- Hx at 2. exact I2.
      * exact Hm.
      * easy.
    + intros [= <- <-]. split; [left; auto|split; [auto|easy]].
  - destruct fl as [|x fl].
    { destruct I as [_ Hch _ _]. cbn in Hch. lia. }
    destruct (take_inv _ _ _ _ _ _ _ I) as (Hx & Hx0 & I2).
    intros [= <- <-]. rewrite <- Hx. split; [|split]; auto.
    + right. split; auto. exists fl. rewrite Hx at 1. exact I2.
    + intros _. eauto.
Qed.

Lemma free_inv hdr size objlen s l1 o l2 fl :
  params_ok hdr size objlen -> inv hdr size objlen s (l1 ++ o :: l2) fl ->
  inv hdr size objlen (wg_free_fixlen_object s o) (l1 ++ l2) (o :: fl).
Proof.
  intros (P1 & P2 & P3 & P4 & P5) [G Hch Hnd Hc].
  assert (Hperm : forall c, In c (o :: fl ++ l1 ++ l2) <-> In c (fl ++ l1 ++ o :: l2)).
  { intros c. cbn. rewrite !in_app_iff. cbn. tauto. }
  rewrite app_assoc in Hnd. pose proof (NoDup_remove _ _ _ Hnd) as (Hnd1 & Hni).
  rewrite <- app_assoc in Hnd1, Hni.
  constructor.
  - eapply geom_same; [..|exact G]; reflexivity.
  - cbn. repeat split.
    + assert (hdr <= o); [|lia].
      eapply (is_cell_range hdr size objlen s); eauto; [lia|].
      apply Hc. rewrite !in_app_iff. cbn. tauto.
    + rewrite upd_same. eapply chain_ext; [|exact Hch].
      intros x Hx. apply upd_other. intros ->. apply Hni. rewrite in_app_iff. auto.
  - cbn. constructor; auto.
  - intros c. rewrite <- (is_cell_same s) by reflexivity. rewrite <- Hc. apply Hperm.
Qed.

Lemma reach_inv hdr size objlen c :
  params_ok hdr size objlen -> freach hdr size objlen c ->
  exists fl, inv hdr size objlen (fst c) (snd c) fl.
Proof.
  intros P H. pose proof P as (P1 & P2 & P3 & P4 & P5).
  induction H as [m s Hi | c op c' Hr (fl & IH) Hs].
  - unfold init_fix_area in Hi.
    destruct (init_db_subarea _ _) as [s1|] eqn:E; [|easy]. injection Hi as <-.
    eapply new_sub_inv with (live := []) (hdr := hdr) (size := size) (objlen := objlen) in E; cbn; auto; try easy; try lia.
    + destruct E as (fl & E & _). exists fl. exact E.
    + constructor.
    + intros c. split; [easy|]. intros (sub & j & [] & _).
  - destruct Hs as [s live s' r Ha | s l1 o l2 | s live a v Hw | s live m Hw | s live req c free' Hreq Hc]; cbn [fst snd] in *.
    + destruct (alloc_inv _ _ _ _ _ _ _ _ P IH Ha) as ([(-> & -> & ->)|(Hr0 & fl' & I)] & _).
      * eauto.
      * exists fl'. destruct (Z.eqb_spec r 0); [easy|]. exact I.
    + eexists. apply free_inv; eauto.
    + exists fl. pose proof IH as IH'. destruct IH as [G Hch Hnd Hcl].
      constructor; auto.
      * eapply geom_same; [..|exact G]; reflexivity.
      * cbn. eapply chain_ext; [|exact Hch].
        intros x Hx. apply upd_other. intros <-.
        assert (Hxc : is_cell s x) by (apply Hcl; rewrite in_app_iff; auto).
        destruct Hw as [(o & Ho & Hoa)|Hw].
        -- assert (Hoc : is_cell s o) by (apply Hcl; rewrite in_app_iff; auto).
           rewrite (g_len _ _ _ _ G) in Hoa.
           apply (is_cell_disjoint _ _ _ _ x o x G ltac:(lia) Hxc Hoc); try lia.
           intros ->. clear - Hnd Hx Ho.
           induction fl as [|z fl IH]; [easy|]. inversion Hnd; subst.
           rewrite in_app_iff in *. destruct Hx as [->|Hx]; tauto.
        -- apply Hw. destruct Hxc as (sub & j & Hi & Hj & -> & Hb).
           rewrite (g_len _ _ _ _ G) in *.
           exists sub. split; auto. nia.
    + exists fl. destruct IH as [G Hch Hnd Hcl].
      constructor; auto.
      * eapply geom_same; [..|exact G]; reflexivity.
      * cbn. eapply chain_ext; [|exact Hch]. intros x Hx. apply Hw.
        assert (Hxc : is_cell s x) by (apply Hcl; rewrite in_app_iff; auto).
        destruct Hxc as (sub & j & Hi & Hj & -> & Hb). rewrite (g_len _ _ _ _ G) in *.
        exists sub. split; auto. nia.
    + exists fl. destruct IH as [G Hch Hnd Hcl].
      pose proof G as [A B C D E F G' H].
      apply chunk_spec in Hc; try lia.
      constructor; auto.
      constructor; cbn; auto; try lia.
      intros a Ha. destruct (F _ Ha) as (?&?&?&?&?). unfold sub_ok; cbn. repeat split; lia.
Qed.

Definition aligned8 (a : Z) : Prop := a mod 8 = 0.

(** ** Results used by the property files *)

Lemma fix_alloc_fresh hdr size objlen s live s' r :
  params_ok hdr size objlen -> freach hdr size objlen (s, live) ->
  wg_alloc_fixlen_object s = (s', r) -> r <> 0 ->
  ~ In r live /\ (forall o, In o live -> ~ overlap r o objlen) /\
  aligned8 r /\ hdr <= r /\ r + objlen <= fs_free s' /\ fs_free s' < size.
Proof.
  intros P R Ha Hr. pose proof P as (P1 & P2 & P3 & P4 & P5).
  destruct (reach_inv _ _ _ _ P R) as (fl & I). cbn in I.
  destruct (alloc_inv _ _ _ _ _ _ _ _ P I Ha) as ([(-> & _)|(_ & fl' & I')] & _); [easy|].
  destruct I' as [G Hch Hnd Hc].
  pose proof (NoDup_remove _ _ _ Hnd) as (_ & Hni).
  assert (Hrc : is_cell s' r) by (apply Hc; rewrite in_app_iff; cbn; auto).
  pose proof (is_cell_range _ _ _ _ _ G ltac:(lia) Hrc) as (Hr1 & Hr2).
  repeat split; auto.
  - intros Hin. apply Hni. rewrite in_app_iff. auto.
  - intros o Ho (a & H1 & H2).
    apply (is_cell_disjoint _ _ _ _ r o a G ltac:(lia)); auto.
    + apply Hc. rewrite in_app_iff. cbn. auto.
    + intros ->. apply Hni. rewrite in_app_iff. auto.
  - destruct Hrc as (sub & j & Hi & Hj & -> & Hb).
    destruct (g_subs _ _ _ _ G _ Hi) as (?&?&?&?&?). unfold aligned8.
    rewrite (g_len _ _ _ _ G). rewrite Z.add_mod, Z.mul_mod, P5 by lia.
    rewrite H0, Z.mul_0_r. reflexivity.
  - exact (g_fs _ _ _ _ G).
Qed.

Lemma fix_live_range hdr size objlen s live o :
  params_ok hdr size objlen -> freach hdr size objlen (s, live) -> In o live ->
  hdr <= o /\ o + objlen <= fs_free s /\ in_area s o.
Proof.
  intros P R Ho. pose proof P as (P1 & P2 & P3 & P4 & P5).
  destruct (reach_inv _ _ _ _ P R) as (fl & [G Hch Hnd Hc]). cbn in *.
  assert (Hrc : is_cell s o) by (apply Hc; rewrite in_app_iff; cbn; auto).
  pose proof (is_cell_range _ _ _ _ _ G ltac:(lia) Hrc) as (Hr1 & Hr2).
  repeat split; auto.
  destruct Hrc as (sub & j & Hi & Hj & -> & Hb). exists sub. split; auto.
  rewrite (g_len _ _ _ _ G) in *. nia.
Qed.

Lemma fix_nodup_live hdr size objlen s live :
  params_ok hdr size objlen -> freach hdr size objlen (s, live) ->
  NoDup live /\
  (forall o1 o2, In o1 live -> In o2 live -> o1 <> o2 -> ~ overlap o1 o2 objlen).
Proof.
  intros P R. pose proof P as (P1 & P2 & P3 & P4 & P5).
  destruct (reach_inv _ _ _ _ P R) as (fl & [G Hch Hnd Hc]). cbn in *. split.
  - clear -Hnd. induction fl; auto. inversion Hnd; auto.
  - intros o1 o2 H1 H2 Hne (a & Ha & Hb).
    apply (is_cell_disjoint _ _ _ _ o1 o2 a G ltac:(lia)); auto; apply Hc; rewrite in_app_iff; auto.
Qed.

Lemma fix_alloc_keeps hdr size objlen s live s' r o a :
  params_ok hdr size objlen -> freach hdr size objlen (s, live) ->
  wg_alloc_fixlen_object s = (s', r) -> In o live -> o <= a < o + objlen ->
  fs_mem s' a = fs_mem s a.
Proof.
  intros P R Ha Ho Hoa.
  destruct (fix_live_range _ _ _ _ _ _ P R Ho) as (_ & Hb & _).
  destruct (reach_inv _ _ _ _ P R) as (fl & I). cbn in I.
  destruct (alloc_inv _ _ _ _ _ _ _ _ P I Ha) as (_ & Hm & _). apply Hm. lia.
Qed.

Lemma fix_free_keeps hdr size objlen s live o' o a :
  params_ok hdr size objlen -> freach hdr size objlen (s, live) ->
  In o' live -> In o live -> o <> o' -> o <= a < o + objlen ->
  fs_mem (wg_free_fixlen_object s o') a = fs_mem s a.
Proof.
  intros P R Ho' Ho Hne Ha. cbn. apply upd_other. intros ->.
  destruct (fix_nodup_live _ _ _ _ _ P R) as (_ & H).
  apply (H o o' Ho Ho' Hne). exists o'. destruct P as (_&_&_&?&_). lia.
Qed.

(** While some cell has been returned and not handed out again, requests are
    served from the returned cells: no growth, and no failure. *)
Lemma fix_reuse hdr size objlen s live :
  params_ok hdr size objlen -> freach hdr size objlen (s, live) ->
  (exists c, is_cell s c /\ ~ In c live) ->
  exists r, wg_alloc_fixlen_object s = (FS (fs_mem s) (fs_free s) (fs_size s) (fs_objlen s) (fs_mem s r) (fs_subs s), r)
    /\ r <> 0 /\ is_cell s r /\ ~ In r live.
Proof.
  intros P R (c & Hc & Hni).
  destruct (reach_inv _ _ _ _ P R) as (fl & I). cbn in I.
  pose proof I as [G Hch Hnd Hcl].
  apply Hcl in Hc. rewrite in_app_iff in Hc. destruct Hc as [Hc|]; [|easy].
  destruct fl as [|x fl]; [easy|].
  destruct (take_inv _ _ _ _ _ _ _ I) as (Hx & Hx0 & _).
  exists x. unfold wg_alloc_fixlen_object. rewrite <- Hx.
  destruct (Z.eqb_spec x 0); [easy|]. repeat split; auto.
  - apply Hcl. cbn. auto.
  - intros Hl. apply NoDup_cons_iff in Hnd. destruct Hnd as (Hn & _). apply Hn. rewrite in_app_iff. auto.
Qed.
