(** Representation of a variable-length area: blocks in memory order, free lists;
    effect of the elementary steps. *)
From Coq Require Import ZArith List Lia Bool.
From Verif Require Import Base FixAllocModel VarAllocModel.
Import ListNotations.
Open Scope Z_scope.

(** ** Header words *)
Lemma land3 h : Z.land h 3 = h mod 4.
Proof. change 3 with (2 ^ 2 - 1). rewrite land_ones_mod by lia. reflexivity. Qed.
Lemma land1 h : Z.land h 1 = h mod 2.
Proof. change 1 with (2 ^ 1 - 1) at 1. rewrite land_ones_mod by lia. reflexivity. Qed.
Lemma landn3 h : Z.land h (Z.lnot 3) = h - h mod 4.
Proof. change 3 with (2 ^ 2 - 1). rewrite land_lnot_mask by lia. reflexivity. Qed.
Lemma lor4 x c : x mod 4 = 0 -> 0 <= c < 4 -> Z.lor x c = x + c.
Proof.
  intros H Hc. replace x with (x / 4 * 2 ^ 2) by (change (2 ^ 2) with 4; lia). apply lor_low; lia.
Qed.

Lemma getfree_free n : n mod 8 = 0 -> getfreeobjectsize (n + 1) = n.
Proof. intros. unfold getfreeobjectsize. rewrite landn3. lia. Qed.
Lemma mkfree_eq n : n mod 8 = 0 -> makefreeobjectsize n = n + 1.
Proof. intros. unfold makefreeobjectsize. rewrite landn3, lor4; lia. Qed.
Lemma mkspecial_eq n : n mod 8 = 0 -> makespecialusedobjectsize n = n + 3.
Proof. intros. unfold makespecialusedobjectsize. rewrite lor4; lia. Qed.
Definition flagz (pf : bool) : Z := if pf then 2 else 0.
Lemma mkpu_eq w pf : w mod 8 = 0 -> makeusedobjectsizeprevused (w + flagz pf) = w.
Proof. intros. unfold makeusedobjectsizeprevused. rewrite landn3. destruct pf; cbn [flagz]; lia. Qed.
Lemma mkpu_eq0 w : w mod 8 = 0 -> makeusedobjectsizeprevused w = w.
Proof. intros. unfold makeusedobjectsizeprevused. rewrite landn3. lia. Qed.
Lemma mkpf_eq w pf : w mod 8 = 0 -> makeusedobjectsizeprevfree (w + flagz pf) = w + 2.
Proof. intros. unfold makeusedobjectsizeprevfree. rewrite landn3, lor4; destruct pf; cbn [flagz]; lia. Qed.
Lemma mkpf_eq0 w : w mod 8 = 0 -> makeusedobjectsizeprevfree w = w + 2.
Proof. intros. unfold makeusedobjectsizeprevfree. rewrite landn3, lor4; lia. Qed.

(** ** Blocks *)
Inductive kind := KStart | KEnd | KDv | KFree | KTmp | KUsed (w : Z) (pf : bool) (d : Z -> Z).
Record blk := B { ba : Z; bs : Z; bk : kind }.
Definition bend (b : blk) : Z := ba b + bs b.

Definition gok (b : blk) : Prop :=
  0 < ba b /\ ba b mod 8 = 0 /\ 32 <= bs b /\ bs b mod 8 = 0 /\
  match bk b with
  | KStart | KEnd => bs b = 32
  | KUsed w _ _ => 0 <= w /\ w mod 8 = 0 /\ bs b = Z.max 32 w
  | _ => True
  end.

(** The words of a block that are fixed by its kind; a used block keeps its contents. *)
Definition fixed (m : mem) (b : blk) : Prop :=
  match bk b with
  | KStart | KEnd => m (ba b) = 35 /\ m (ba b + 8) = 0
  | KDv => m (ba b) = bs b + 3 /\ m (ba b + 8) = 1
  | KFree => m (ba b) = bs b + 1 /\ m (ba b + bs b - 8) = bs b + 1
  | KTmp => True
  | KUsed w pf d => m (ba b) = w + flagz pf /\ forall x, ba b + 8 <= x < bend b -> m x = d x
  end.

Definition before (x y : blk) : Prop := bend x <= ba y.

(** Doubly linked list of free blocks; [p] is the pointer back from its first element. *)
Fixpoint dll (m : mem) (p : Z) (l : list Z) : Prop :=
  match l with
  | [] => True
  | a :: r => m (a + 8) = hd 0 r /\ m (a + 16) = p /\ dll m a r
  end.

Definition idx := wg_freebuckets_index.

(** Words that belong to somebody else, and what they contain; used to show that the area leaves them alone. *)
Class region := Region { foreign : Z -> Prop; base : mem }.
Section WithRegion.
Context {rg : region}.

Record core (s : vstate) (L : list blk) (fl : Z -> list Z) : Prop := {
  c_off : forall x, foreign x -> vm s x = base x;
  c_dis : forall b x, In b L -> ba b <= x < bend b -> ~ foreign x;
  c_ok : Forall gok L;
  c_ord : ForallOrdPairs before L;
  c_fix : Forall (fixed (vm s)) L;
  c_fl : forall i, 0 <= i < 288 -> vb s i = hd 0 (fl i) /\ dll (vm s) (baddr s i) (fl i) /\ NoDup (fl i);
  c_mem : forall i a, 0 <= i < 288 -> (In a (fl i) <-> exists b, In b L /\ bk b = KFree /\ ba b = a /\ idx (bs b) = i) }.

(** ** Lists *)
Lemma fop_app {A} (R : A -> A -> Prop) l1 l2 :
  ForallOrdPairs R (l1 ++ l2) <-> ForallOrdPairs R l1 /\ ForallOrdPairs R l2 /\ forall x y, In x l1 -> In y l2 -> R x y.
Proof.
  induction l1 as [|a l1 IH]; cbn [app].
  - split; [intros H; repeat split; [constructor|exact H|intros ? ? []]|tauto].
  - split.
    + intros H. inversion H as [|? ? F1 F2]; subst. apply IH in F2 as (H1 & H2 & H3). rewrite Forall_app in F1. destruct F1 as [F1 F3].
      repeat split; [constructor; assumption|exact H2|]. intros x y [<-|Hx] Hy; [|auto]. rewrite Forall_forall in F3. auto.
    + intros (H1 & H2 & H3). inversion H1 as [|? ? F1 F2]; subst. constructor.
      * apply Forall_app. split; [exact F1|]. apply Forall_forall. intros y Hy. apply H3; [now left|exact Hy].
      * apply IH. repeat split; auto. intros x y Hx Hy. apply H3; [now right|exact Hy].
Qed.
Lemma fop_in {A} (R : A -> A -> Prop) l x y : ForallOrdPairs R l -> In x l -> In y l -> x = y \/ R x y \/ R y x.
Proof. intros H. now apply ForallOrdPairs_In. Qed.

Section WithCore.
Context (s : vstate) (L : list blk) (fl : Z -> list Z) (C : core s L fl).

Lemma cok b : In b L -> gok b.
Proof. intros H. pose proof (c_ok _ _ _ C) as F. rewrite Forall_forall in F. auto. Qed.
Lemma cfix b : In b L -> fixed (vm s) b.
Proof. intros H. pose proof (c_fix _ _ _ C) as F. rewrite Forall_forall in F. auto. Qed.
Lemma cdisj b c : In b L -> In c L -> b = c \/ bend b <= ba c \/ bend c <= ba b.
Proof. intros Hb Hc. destruct (fop_in before L b c (c_ord _ _ _ C) Hb Hc) as [->|[H|H]]; auto. Qed.
Lemma cinj b c : In b L -> In c L -> ba b = ba c -> b = c.
Proof.
  intros Hb Hc E. destruct (cdisj b c Hb Hc) as [|[H|H]]; [assumption| |]; pose proof (cok b Hb) as Gb; pose proof (cok c Hc) as Gc;
    unfold gok, bend in *; lia.
Qed.
(** A word outside block [b]. *)
Definition outside (x : Z) (b : blk) : Prop := x < ba b \/ bend b <= x.
Lemma fixed_out b x v : gok b -> outside x b -> fixed (vm s) b -> fixed (upd (vm s) x v) b.
Proof.
  intros (G1 & G2 & G3 & G4 & G5) O F. unfold outside, bend in O. unfold fixed in *. destruct (bk b).
  - rewrite !upd_other by lia. exact F.
  - rewrite !upd_other by lia. exact F.
  - rewrite !upd_other by lia. exact F.
  - rewrite !upd_other by lia. exact F.
  - exact I.
  - destruct F as [F1 F2]. split; [rewrite upd_other by lia; exact F1|]. intros y Hy. unfold bend in Hy. rewrite upd_other by lia. apply F2. exact Hy.
Qed.
(** The link words of a free block. *)
Lemma fixed_link b c k v : In b L -> In c L -> bk c = KFree -> k = 8 \/ k = 16 -> fixed (upd (vm s) (ba c + k) v) b.
Proof.
  intros Hb Hc K Hk. pose proof (cok b Hb) as Gb. pose proof (cok c Hc) as Gc. destruct (cdisj b c Hb Hc) as [E|D].
  - subst c. pose proof (cfix b Hb) as F. unfold fixed in *. rewrite K in *. unfold gok in Gb. rewrite !upd_other by lia. exact F.
  - apply fixed_out; [exact Gb| |now apply cfix]. unfold outside, bend, gok in *. lia.
Qed.
Lemma fl_block i a : 0 <= i < 288 -> In a (fl i) -> exists b, In b L /\ bk b = KFree /\ ba b = a /\ idx (bs b) = i.
Proof. intros Hi H. now apply (c_mem _ _ _ C). Qed.
Lemma fl_pos i a : 0 <= i < 288 -> In a (fl i) -> 0 < a.
Proof. intros Hi H. destruct (fl_block i a Hi H) as (b & Hb & _ & <- & _). apply cok in Hb. unfold gok in Hb. lia. Qed.
Lemma fl_far i j a c k k' : 0 <= i < 288 -> 0 <= j < 288 -> In a (fl i) -> In c (fl j) -> a <> c -> 0 <= k < 32 -> 0 <= k' < 32 -> a + k <> c + k'.
Proof.
  intros Hi Hj Ha Hc N Hk Hk'. destruct (fl_block i a Hi Ha) as (b & Hb & _ & Eb & _). destruct (fl_block j c Hj Hc) as (d & Hd & _ & Ed & _).
  destruct (cdisj b d Hb Hd) as [E|D]; [subst; congruence|]. apply cok in Hb. apply cok in Hd. unfold gok, bend in *. lia.
Qed.
Lemma fl_disj i j a : 0 <= i < 288 -> 0 <= j < 288 -> In a (fl i) -> In a (fl j) -> i = j.
Proof.
  intros Hi Hj Ha Hc. destruct (fl_block i a Hi Ha) as (b & Hb & _ & Eb & Ib). destruct (fl_block j a Hj Hc) as (d & Hd & _ & Ed & Id).
  assert (b = d) by (apply cinj; congruence). congruence.
Qed.
Lemma fl_of_free b : In b L -> bk b = KFree -> 0 <= idx (bs b) < 288 -> In (ba b) (fl (idx (bs b))).
Proof. intros Hb K Hi. apply (c_mem _ _ _ C); [exact Hi|]. exists b. auto. Qed.
End WithCore.

Lemma dll_frame m x v : forall l p, (forall a, In a l -> x <> a + 8 /\ x <> a + 16) -> dll m p l -> dll (upd m x v) p l.
Proof.
  induction l as [|a l IH]; intros p H D; cbn [dll] in *; [exact I|]. destruct D as (D1 & D2 & D3). pose proof (H a (or_introl eq_refl)).
  rewrite !upd_other by lia. split; [exact D1|]. split; [exact D2|]. apply IH; [|exact D3]. intros c Hc. apply H. now right.
Qed.

(** ** A store inside a block that is being worked on *)
Definition sameh (s s' : vstate) : Prop := vhdr s' = vhdr s.

Lemma core_store_tmp s L fl x v b : core s L fl -> In b L -> bk b = KTmp -> ba b <= x < bend b -> core (store s x v) L fl.
Proof.
  intros C Hb K Hx. constructor; cbn [store vm vb].
  - intros y Hy. rewrite upd_other; [now apply (c_off _ _ _ C)|]. intros ->. exact (c_dis _ _ _ C b x Hb Hx Hy).
  - exact (c_dis _ _ _ C).
  - exact (c_ok _ _ _ C).
  - exact (c_ord _ _ _ C).
  - apply Forall_forall. intros c Hc. pose proof (cok _ _ _ C c Hc) as Gc. destruct (cdisj _ _ _ C b c Hb Hc) as [E|D].
    + subst c. unfold fixed. now rewrite K.
    + apply fixed_out; [exact Gc| |now apply (cfix _ _ _ C)]. unfold outside, bend in *. lia.
  - intros i Hi. destruct (c_fl _ _ _ C i Hi) as (F1 & F2 & F3). split; [exact F1|]. split; [|exact F3]. change (baddr (store s x v) i) with (baddr s i).
    apply dll_frame; [|exact F2]. intros a Ha. destruct (fl_block _ _ _ C i a Hi Ha) as (c & Hc & Kc & <- & _).
    destruct (cdisj _ _ _ C b c Hb Hc) as [E|D]; [subst; congruence|]. pose proof (cok _ _ _ C c Hc) as Gc. pose proof (cok _ _ _ C b Hb) as Gb.
    unfold gok, bend in *. lia.
  - exact (c_mem _ _ _ C).
Qed.

(** ** A store outside all blocks *)
Lemma core_store_out s L fl x v : core s L fl -> (forall b, In b L -> outside x b) -> ~ foreign x -> core (store s x v) L fl.
Proof.
  intros C O Nf. constructor; cbn [store vm vb].
  - intros y Hy. rewrite upd_other; [now apply (c_off _ _ _ C)|]. intros ->. exact (Nf Hy).
  - exact (c_dis _ _ _ C).
  - exact (c_ok _ _ _ C).
  - exact (c_ord _ _ _ C).
  - apply Forall_forall. intros c Hc. apply fixed_out; [now apply (cok _ _ _ C)|auto|now apply (cfix _ _ _ C)].
  - intros i Hi. destruct (c_fl _ _ _ C i Hi) as (F1 & F2 & F3). split; [exact F1|]. split; [|exact F3]. change (baddr (store s x v) i) with (baddr s i).
    apply dll_frame; [|exact F2]. intros a Ha. destruct (fl_block _ _ _ C i a Hi Ha) as (c & Hc & Kc & <- & _).
    pose proof (cok _ _ _ C c Hc) as Gc. specialize (O c Hc). unfold gok, outside, bend in *. lia.
  - exact (c_mem _ _ _ C).
Qed.

(** ** Other contents outside all blocks *)
Lemma fixed_mem m m' b : gok b -> (forall x, ba b <= x < bend b -> m' x = m x) -> fixed m b -> fixed m' b.
Proof.
  intros (G1 & G2 & G3 & G4 & G5) E F. unfold bend in E. unfold fixed in *. destruct (bk b).
  - rewrite !E by lia. exact F.
  - rewrite !E by lia. exact F.
  - rewrite !E by lia. exact F.
  - rewrite !E by lia. exact F.
  - exact I.
  - destruct F as [F1 F2]. split; [rewrite E by lia; exact F1|]. intros y Hy. unfold bend in Hy. rewrite E by lia. apply F2. exact Hy.
Qed.
Lemma dll_mem m m' : forall l p, (forall a, In a l -> m' (a + 8) = m (a + 8) /\ m' (a + 16) = m (a + 16)) -> dll m p l -> dll m' p l.
Proof.
  induction l as [|a l IH]; intros p H D; cbn [dll] in *; [exact I|]. destruct D as (D1 & D2 & D3). destruct (H a (or_introl eq_refl)) as (E1 & E2).
  rewrite E1, E2. split; [exact D1|]. split; [exact D2|]. apply IH; [|exact D3]. intros c Hc. apply H. now right.
Qed.
Lemma core_mem s L fl m : core s L fl -> (forall b x, In b L -> ba b <= x < bend b -> m x = vm s x) -> (forall x, foreign x -> m x = base x) ->
  core (VS m (vb s) (vhdr s) (vfree s) (vsize s) (vsubs s)) L fl.
Proof.
  intros C E Ef. constructor; cbn [vm vb].
  - exact Ef.
  - exact (c_dis _ _ _ C).
  - exact (c_ok _ _ _ C).
  - exact (c_ord _ _ _ C).
  - apply Forall_forall. intros c Hc. apply (fixed_mem (vm s)); [now apply (cok _ _ _ C)|intros x Hx; now apply (E c)|now apply (cfix _ _ _ C)].
  - intros i Hi. destruct (c_fl _ _ _ C i Hi) as (F1 & F2 & F3). split; [exact F1|]. split; [|exact F3]. unfold baddr in *. cbn [vhdr] in *.
    apply (dll_mem (vm s)); [|exact F2]. intros a Ha. destruct (fl_block _ _ _ C i a Hi Ha) as (c & Hc & Kc & <- & _).
    pose proof (cok _ _ _ C c Hc) as Gc. unfold gok in Gc. split; apply (E c); auto; unfold bend; lia.
  - exact (c_mem _ _ _ C).
Qed.
(** ** Replacing blocks without touching free ones *)
Lemma core_replace s l1 mid mid' l2 fl : core s (l1 ++ mid ++ l2) fl ->
  (forall b, In b mid -> bk b <> KFree) -> (forall b, In b mid' -> bk b <> KFree) ->
  Forall gok mid' -> ForallOrdPairs before mid' -> Forall (fixed (vm s)) mid' ->
  (forall b', In b' mid' -> (exists b, In b mid /\ ba b <= ba b') /\ (exists c, In c mid /\ bend b' <= bend c)) ->
  (forall b' x, In b' mid' -> ba b' <= x < bend b' -> exists b, In b mid /\ ba b <= x < bend b) ->
  core s (l1 ++ mid' ++ l2) fl.
Proof.
  intros C N N' G O F X Y. constructor.
  - exact (c_off _ _ _ C).
  - intros b x Hb Hx. rewrite !in_app_iff in Hb. destruct Hb as [Hb|[Hb|Hb]].
    + apply (c_dis _ _ _ C b x); [rewrite !in_app_iff; auto|exact Hx].
    + destruct (Y b x Hb Hx) as (c & Hc & Hx'). apply (c_dis _ _ _ C c x); [rewrite !in_app_iff; auto|exact Hx'].
    + apply (c_dis _ _ _ C b x); [rewrite !in_app_iff; auto|exact Hx].
  - pose proof (c_ok _ _ _ C) as H. rewrite !Forall_app in *. tauto.
  - pose proof (c_ord _ _ _ C) as H. rewrite !fop_app in *. destruct H as (H1 & (H2 & H3 & H4) & H5).
    split; [exact H1|]. split; [split; [exact O|split; [exact H3|]]|].
    + intros x y Hx Hy. destruct (X x Hx) as [_ (c & Hc & E)]. specialize (H4 c y Hc Hy). unfold before in *. lia.
    + intros x y Hx Hy. apply in_app_or in Hy as [Hy|Hy].
      * destruct (X y Hy) as [(b & Hb & E) _]. specialize (H5 x b Hx (in_or_app _ _ _ (or_introl Hb))). unfold before in *. lia.
      * apply H5; [exact Hx|apply in_or_app; now right].
  - pose proof (c_fix _ _ _ C) as H. rewrite !Forall_app in *. tauto.
  - exact (c_fl _ _ _ C).
  - intros i a Hi. rewrite (c_mem _ _ _ C i a Hi). split; intros (b & Hb & K & E1 & E2); exists b; (split; [|auto]);
      rewrite !in_app_iff in *; destruct Hb as [Hb|[Hb|Hb]]; auto; exfalso; [apply (N b Hb K)|apply (N' b Hb K)].
Qed.

(** Buckets of the victim are not free lists. *)
Lemma core_setb s L fl i v : core s L fl -> ~ 0 <= i < 288 -> core (setb s i v) L fl.
Proof.
  intros C N. constructor; try apply C. intros j Hj. destruct (c_fl _ _ _ C j Hj) as (F1 & F2 & F3). cbn [setb vb vm].
  rewrite upd_other by lia. auto.
Qed.

(** Other words of the state do not matter. *)
Lemma core_ext s s' L fl : core s L fl -> vm s' = vm s -> vb s' = vb s -> vhdr s' = vhdr s -> core s' L fl.
Proof.
  intros C E1 E2 E3. constructor; try apply C.
  - rewrite E1. apply C.
  - rewrite E1. apply C.
  - intros i Hi. unfold baddr. rewrite E1, E2, E3. now apply (c_fl _ _ _ C).
Qed.

(** ** Header of a used block *)
Lemma core_set_used s l1 a n w pf d l2 fl w' pf' : core s (l1 ++ B a n (KUsed w pf d) :: l2) fl -> 0 <= w' -> w' mod 8 = 0 -> n = Z.max 32 w' ->
  core (store s a (w' + flagz pf')) (l1 ++ B a n (KUsed w' pf' d) :: l2) fl.
Proof.
  intros C W1 W2 W3. pose proof (cok _ _ _ C (B a n (KUsed w pf d)) ltac:(apply in_or_app; right; now left)) as G.
  pose proof (cfix _ _ _ C (B a n (KUsed w pf d)) ltac:(apply in_or_app; right; now left)) as F.
  assert (C1 : core s (l1 ++ [B a n KTmp] ++ l2) fl).
  { apply (core_replace s l1 [B a n (KUsed w pf d)] [B a n KTmp] l2 fl C).
    - intros b [<-|[]]. discriminate.
    - intros b [<-|[]]. discriminate.
    - constructor; [|constructor]. unfold gok in *. cbn in *. tauto.
    - constructor; constructor.
    - constructor; [exact I|constructor].
    - intros b [<-|[]]. split; eexists; (split; [left; reflexivity|]); unfold bend; cbn; lia.
    - intros b y [<-|[]] Hxb. eexists. split; [left; reflexivity|]. unfold bend in *. cbn in *. lia. }
  assert (C2 : core (store s a (w' + flagz pf')) (l1 ++ [B a n KTmp] ++ l2) fl).
  { apply (core_store_tmp s _ fl a _ (B a n KTmp) C1); [apply in_or_app; right; now left|reflexivity|]. unfold gok, bend in *. cbn in *. lia. }
  refine (core_replace _ l1 [B a n KTmp] [B a n (KUsed w' pf' d)] l2 fl C2 _ _ _ _ _ _ _).
  - intros b [<-|[]]. discriminate.
  - intros b [<-|[]]. discriminate.
  - constructor; [|constructor]. unfold gok in *. cbn in *. lia.
  - constructor; constructor.
  - constructor; [|constructor]. unfold fixed, bend in *. cbn [bk ba bs store vm] in *. split; [apply upd_same|]. intros x Hx. rewrite upd_other by lia. apply (proj2 F x Hx).
  - intros b [<-|[]]. split; eexists; (split; [left; reflexivity|]); unfold bend; cbn; lia.
  - intros b y [<-|[]] Hxb. eexists. split; [left; reflexivity|]. unfold bend in *. cbn in *. lia.
Qed.

(** A write by the owner into the contents. *)
Lemma core_user s l1 a n w pf d l2 fl x v : core s (l1 ++ B a n (KUsed w pf d) :: l2) fl -> a + 8 <= x < a + n ->
  core (store s x v) (l1 ++ B a n (KUsed w pf (upd d x v)) :: l2) fl.
Proof.
  intros C Hx. pose proof (cok _ _ _ C (B a n (KUsed w pf d)) ltac:(apply in_or_app; right; now left)) as G.
  pose proof (cfix _ _ _ C (B a n (KUsed w pf d)) ltac:(apply in_or_app; right; now left)) as F.
  assert (C1 : core s (l1 ++ [B a n KTmp] ++ l2) fl).
  { apply (core_replace s l1 [B a n (KUsed w pf d)] [B a n KTmp] l2 fl C).
    - intros b [<-|[]]. discriminate.
    - intros b [<-|[]]. discriminate.
    - constructor; [|constructor]. unfold gok in *. cbn in *. tauto.
    - constructor; constructor.
    - constructor; [exact I|constructor].
    - intros b [<-|[]]. split; eexists; (split; [left; reflexivity|]); unfold bend; cbn; lia.
    - intros b y [<-|[]] Hxb. eexists. split; [left; reflexivity|]. unfold bend in *. cbn in *. lia. }
  assert (C2 : core (store s x v) (l1 ++ [B a n KTmp] ++ l2) fl).
  { apply (core_store_tmp s _ fl x _ (B a n KTmp) C1); [apply in_or_app; right; now left|reflexivity|]. unfold gok, bend in *. cbn in *. lia. }
  refine (core_replace _ l1 [B a n KTmp] [B a n (KUsed w pf (upd d x v))] l2 fl C2 _ _ _ _ _ _ _).
  - intros b [<-|[]]. discriminate.
  - intros b [<-|[]]. discriminate.
  - constructor; [|constructor]. unfold gok in *. cbn in *. lia.
  - constructor; constructor.
  - constructor; [|constructor]. unfold fixed, bend in *. cbn [bk ba bs store vm] in *. destruct F as [F1 F2]. split; [rewrite upd_other by lia; exact F1|].
    intros y Hy. unfold upd. destruct (y =? x); [reflexivity|]. apply F2. exact Hy.
  - intros b [<-|[]]. split; eexists; (split; [left; reflexivity|]); unfold bend; cbn; lia.
  - intros b y [<-|[]] Hxb. eexists. split; [left; reflexivity|]. unfold bend in *. cbn in *. lia.
Qed.

(** ** Taking a free block out of its list *)
Definition fset (fl : Z -> list Z) (i : Z) (l : list Z) : Z -> list Z := fun j => if j =? i then l else fl j.
Lemma fset_same fl i l : fset fl i l i = l.
Proof. unfold fset. now rewrite Z.eqb_refl. Qed.
Lemma fset_other fl i j l : j <> i -> fset fl i l j = fl j.
Proof. unfold fset. intros H. now destruct (Z.eqb_spec j i). Qed.

Lemma last_indep (l : list Z) : forall x p q, last (x :: l) p = last (x :: l) q.
Proof. induction l as [|y l IH]; intros x p q; [reflexivity|]. apply (IH y). Qed.
Lemma last_cons (l : list Z) x p : last (x :: l) p = last l x.
Proof. destruct l as [|y l]; [reflexivity|]. apply (last_indep l y). Qed.
Lemma dll_split m : forall l1 p a l2, dll m p (l1 ++ a :: l2) ->
  m (a + 8) = hd 0 l2 /\ m (a + 16) = last l1 p /\ dll m a l2.
Proof.
  induction l1 as [|c l1 IH]; intros p a l2 D; cbn [app dll last] in *; [tauto|].
  destruct D as (_ & _ & D). destruct (IH c a l2 D) as (E1 & E2 & E3). split; [exact E1|]. split; [|exact E3].
  rewrite E2. symmetry. apply last_cons.
Qed.
Lemma last_in (l : list Z) : forall e p, In (last (e :: l) p) (e :: l).
Proof. induction l as [|y l IH]; intros e p; [now left|]. right. apply (IH y). Qed.
(** Pointers after removing [a]. *)
Lemma dll_remove m : forall l1 p a l2, dll m p (l1 ++ a :: l2) -> NoDup (l1 ++ a :: l2) -> (forall x, In x (l1 ++ a :: l2) -> x <> 0) ->
  (forall x y k k', In x (l1 ++ a :: l2) -> In y (l1 ++ a :: l2) -> x <> y -> 0 <= k < 32 -> 0 <= k' < 32 -> x + k <> y + k') ->
  let m1 := match l1 with [] => m | _ => upd m (last l1 p + 8) (hd 0 l2) end in
  let m2 := if hd 0 l2 =? 0 then m1 else upd m1 (hd 0 l2 + 16) (last l1 p) in
  dll m2 p (l1 ++ l2).
Proof.
  induction l1 as [|c l1 IH]; intros p a l2 D N Z0 Far m1 m2.
  - cbn [app last] in *. unfold m2, m1. clear m1 m2. destruct l2 as [|e l2]; [exact I|]. cbn [hd].
    destruct (Z.eqb_spec e 0) as [E|E]; [exfalso; apply (Z0 e); [right; now left|exact E]|].
    cbn [dll] in *. destruct D as (_ & _ & D1 & D2 & D3). rewrite upd_same, upd_other by lia. split; [exact D1|]. split; [reflexivity|].
    apply dll_frame; [|exact D3]. intros x Hx. inversion N as [|? ? _ N2]; subst. inversion N2 as [|? ? N3 _]; subst.
    assert (x <> e) by (intros ->; contradiction).
    pose proof (Far e x 16 8 ltac:(right; now left) ltac:(right; now right) ltac:(congruence) ltac:(lia) ltac:(lia)).
    pose proof (Far e x 16 16 ltac:(right; now left) ltac:(right; now right) ltac:(congruence) ltac:(lia) ltac:(lia)). lia.
  - pose proof (last_cons l1 c p) as El.
    cbn [app dll] in D. destruct D as (D1 & D2 & D3).
    assert (N' : NoDup (l1 ++ a :: l2)) by (inversion N; assumption).
    assert (Nc : ~ In c (l1 ++ a :: l2)) by (inversion N; assumption).
    specialize (IH c a l2 D3 N' (fun x Hx => Z0 x (or_intror Hx)) (fun x y k k' Hx Hy => Far x y k k' (or_intror Hx) (or_intror Hy))).
    cbv zeta in IH. unfold m2, m1. clear m1 m2. rewrite El in *. cbn [app dll].
    set (h2 := hd 0 l2) in *.
    assert (H2in : h2 <> 0 -> In h2 (l1 ++ a :: l2)).
    { unfold h2. destruct l2 as [|e l2]; cbn [hd]; [congruence|]. intros _. apply in_or_app. right. right. now left. }
    destruct l1 as [|e l1].
    + cbn [last app] in *. split.
      * destruct (Z.eqb_spec h2 0); [now rewrite upd_same|]. rewrite upd_other; [apply upd_same|].
        pose proof (Far h2 c 16 8 ltac:(right; auto) ltac:(now left) ltac:(intros ->; auto) ltac:(lia) ltac:(lia)). lia.
      * split.
        -- destruct (Z.eqb_spec h2 0); rewrite ?upd_other; try exact D2; try lia.
           pose proof (Far h2 c 16 16 ltac:(right; auto) ltac:(now left) ltac:(intros ->; auto) ltac:(lia) ltac:(lia)). lia.
        -- assert (U : forall q l, (forall x, In x l -> In x l2) -> dll (if h2 =? 0 then m else upd m (h2 + 16) c) q l ->
             dll (if h2 =? 0 then upd m (c + 8) h2 else upd (upd m (c + 8) h2) (h2 + 16) c) q l).
           { intros q l Hl D. destruct (Z.eqb_spec h2 0).
             - apply dll_frame; [|exact D]. intros x Hx. assert (In x (a :: l2)) by (right; auto).
               pose proof (Far c x 8 8 ltac:(now left) ltac:(right; auto) ltac:(intros ->; auto) ltac:(lia) ltac:(lia)).
               pose proof (Far c x 8 16 ltac:(now left) ltac:(right; auto) ltac:(intros ->; auto) ltac:(lia) ltac:(lia)). lia.
             - revert q D. induction l as [|x l IHl]; intros q D; cbn [dll] in *; [exact I|]. destruct D as (E1 & E2 & E3).
               assert (In x (a :: l2)) as Hx by (right; apply Hl; now left).
               pose proof (Far c x 8 8 ltac:(now left) ltac:(right; auto) ltac:(intros ->; auto) ltac:(lia) ltac:(lia)).
               pose proof (Far c x 8 16 ltac:(now left) ltac:(right; auto) ltac:(intros ->; auto) ltac:(lia) ltac:(lia)).
               split; [|split; [|apply IHl; [intros; apply Hl; now right|exact E3]]].
               + rewrite <- E1. unfold upd. destruct (x + 8 =? h2 + 16); [reflexivity|]. destruct (Z.eqb_spec (x + 8) (c + 8)); [lia|reflexivity].
               + rewrite <- E2. unfold upd. destruct (x + 16 =? h2 + 16); [reflexivity|]. destruct (Z.eqb_spec (x + 16) (c + 8)); [lia|reflexivity]. }
           apply U; [auto|exact IH].
    + cbn [hd app] in D1. set (q := last (e :: l1) c) in *.
      assert (Hq : In q (e :: l1)) by apply last_in.
      assert (Hq' : In q ((e :: l1) ++ a :: l2)) by (apply in_or_app; now left). clearbody q.
      split; [|split].
      * cbn [app hd]. assert (c + 8 <> q + 8) by (apply Far; try lia; [now left|now right|intros ->; auto]).
        destruct (Z.eqb_spec h2 0).
        -- rewrite upd_other by lia. exact D1.
        -- assert (c + 8 <> h2 + 16) by (apply Far; try lia; [now left|right; auto|intros ->; auto]). rewrite !upd_other by lia. exact D1.
      * assert (c + 16 <> q + 8) by (apply Far; try lia; [now left|now right|intros ->; auto]).
        destruct (Z.eqb_spec h2 0).
        -- rewrite upd_other by lia. exact D2.
        -- assert (c + 16 <> h2 + 16) by (apply Far; try lia; [now left|right; auto|intros ->; auto]). rewrite !upd_other by lia. exact D2.
      * exact IH.
Qed.

Lemma fixed_link_gen m b c k v : gok b -> gok c -> b = c \/ bend b <= ba c \/ bend c <= ba b -> bk c = KFree -> k = 8 \/ k = 16 ->
  fixed m b -> fixed (upd m (ba c + k) v) b.
Proof.
  intros Gb Gc D K Hk F. destruct Gb as (G1 & G2 & G3 & G4 & G5). destruct Gc as (J1 & J2 & J3 & J4 & J5). unfold bend in D. destruct D as [E|D].
  - subst c. unfold fixed in *. rewrite K in *. rewrite !upd_other by lia. exact F.
  - unfold fixed in *. destruct (bk b).
    + rewrite !upd_other by lia. exact F.
    + rewrite !upd_other by lia. exact F.
    + rewrite !upd_other by lia. exact F.
    + rewrite !upd_other by lia. exact F.
    + exact I.
    + destruct F as [F1 F2]. split; [rewrite upd_other by lia; exact F1|]. intros y Hy. unfold bend in Hy. rewrite upd_other by lia. apply F2. exact Hy.
Qed.

(** What the free-list steps leave alone. *)
Definition others (s s' : vstate) : Prop :=
  vhdr s' = vhdr s /\ vfree s' = vfree s /\ vsize s' = vsize s /\ vsubs s' = vsubs s /\
  vb s' DVBUCKET = vb s DVBUCKET /\ vb s' DVSIZEBUCKET = vb s DVSIZEBUCKET.
Lemma others_refl s : others s s.
Proof. repeat split. Qed.
Lemma others_trans s t u : others s t -> others t u -> others s u.
Proof. unfold others. intuition congruence. Qed.

Lemma in_mid {A} (l1 : list A) x l2 : In x (l1 ++ x :: l2).
Proof. apply in_or_app. right. now left. Qed.

(** The state after removing block [a] from list [q1 ++ a :: q2] of bucket [i]. *)
Lemma core_unlink s l1 a n l2 fl q1 q2 i s' :
  core s (l1 ++ B a n KFree :: l2) fl -> i = idx n -> 0 <= i < 288 -> fl i = q1 ++ a :: q2 ->
  vm s' = (let m1 := match q1 with [] => vm s | _ => upd (vm s) (last q1 (baddr s i) + 8) (hd 0 q2) end in
           if hd 0 q2 =? 0 then m1 else upd m1 (hd 0 q2 + 16) (last q1 (baddr s i))) ->
  vb s' = (match q1 with [] => upd (vb s) i (hd 0 q2) | _ => vb s end) -> vhdr s' = vhdr s ->
  core s' (l1 ++ B a n KTmp :: l2) (fset fl i (q1 ++ q2)).
Proof.
  intros C Ei Hi Efl Em Eb Eh. set (L := l1 ++ B a n KFree :: l2) in *. set (b := B a n KFree) in *.
  assert (Hb : In b L) by apply in_mid.
  destruct (c_fl _ _ _ C i Hi) as (F1 & F2 & F3). rewrite Efl in F1, F2, F3.
  assert (Far : forall x y k k', In x (q1 ++ a :: q2) -> In y (q1 ++ a :: q2) -> x <> y -> 0 <= k < 32 -> 0 <= k' < 32 -> x + k <> y + k').
  { intros x y k k' Hx Hy N Hk Hk'. rewrite <- Efl in Hx, Hy. now apply (fl_far _ _ _ C i i). }
  assert (Nz : forall x, In x (q1 ++ a :: q2) -> x <> 0).
  { intros x Hx E. rewrite <- Efl in Hx. pose proof (fl_pos _ _ _ C i x Hi Hx). lia. }
  pose proof (dll_remove (vm s) q1 (baddr s i) a q2 F2 F3 Nz Far) as D. cbv zeta in D, Em. rewrite <- Em in D.
  assert (Nda : NoDup (q1 ++ q2) /\ ~ In a (q1 ++ q2)).
  { split; [now apply NoDup_remove_1 in F3|now apply NoDup_remove_2 in F3]. }
  (* words changed are link words of free blocks of list i other than a *)
  assert (P : forall Q : mem -> Prop, Q (vm s) ->
    (forall m c k v, Q m -> In c (q1 ++ q2) -> k = 8 \/ k = 16 -> Q (upd m (c + k) v)) -> Q (vm s')).
  { intros Q Q0 QS. rewrite Em.
    assert (Q1 : Q (match q1 with [] => vm s | _ => upd (vm s) (last q1 (baddr s i) + 8) (hd 0 q2) end)).
    { destruct q1 as [|e q1]; [exact Q0|]. apply QS; [exact Q0| |now left]. apply in_or_app. left. apply last_in. }
    destruct (Z.eqb_spec (hd 0 q2) 0); [exact Q1|]. apply QS; [exact Q1| |now right].
    apply in_or_app. right. destruct q2; [now contradiction n0|now left]. }
  assert (Inq : forall c, In c (q1 ++ q2) -> exists x, In x L /\ bk x = KFree /\ ba x = c /\ idx (bs x) = i).
  { intros c Hc. apply (fl_block _ _ _ C i c Hi). rewrite Efl. rewrite in_app_iff in *. cbn. tauto. }
  constructor.
  - apply (P (fun m => forall x, foreign x -> m x = base x)); [exact (c_off _ _ _ C)|]. intros m c k v Qm Hc Hk x Hx. destruct (Inq c Hc) as (y & Hy & _ & <- & _).
    pose proof (cok _ _ _ C y Hy) as Gy. unfold gok in Gy. rewrite upd_other; [now apply Qm|]. intros ->. apply (c_dis _ _ _ C y (ba y + k) Hy); [unfold bend; lia|exact Hx].
  - intros c x Hc Hx. rewrite in_app_iff in Hc. destruct Hc as [Hc|[<-|Hc]].
    + apply (c_dis _ _ _ C c x); [unfold L; rewrite in_app_iff; auto|exact Hx].
    + apply (c_dis _ _ _ C b x Hb Hx).
    + apply (c_dis _ _ _ C c x); [unfold L; rewrite in_app_iff; right; now right|exact Hx].
  - pose proof (c_ok _ _ _ C) as G. unfold L in G. rewrite Forall_app in *. destruct G as [G1 G2]. split; [exact G1|].
    inversion G2 as [|? ? G3 G4]; subst. constructor; [|exact G4]. unfold gok in *. cbn in *. tauto.
  - pose proof (c_ord _ _ _ C) as G. unfold L in G. rewrite fop_app in *. destruct G as (G1 & G2 & G3). split; [exact G1|]. split.
    + inversion G2 as [|? ? G4 G5]; subst. constructor; [|exact G5]. exact G4.
    + intros x y Hx [<-|Hy]; [apply (G3 x b Hx (or_introl eq_refl))|apply (G3 x y Hx (or_intror Hy))].
  - apply Forall_forall. intros c Hc.
    assert (Hc' : c = B a n KTmp \/ In c L).
    { unfold L. rewrite in_app_iff in *. cbn in *. destruct Hc as [Hc|[Hc|Hc]]; auto. }
    destruct Hc' as [->|Hc']; [exact I|]. apply (P (fun m => fixed m c)).
    + now apply (cfix _ _ _ C).
    + intros m e k v Fm He Hk. destruct (Inq e He) as (x & Hx & Kx & <- & _).
      apply fixed_link_gen; auto; [now apply (cok _ _ _ C)|now apply (cok _ _ _ C)|now apply (cdisj _ _ _ C)].
  - intros j Hj. destruct (Z.eq_dec j i) as [->|Nj].
    + rewrite fset_same. split; [|split].
      * rewrite Eb. destruct q1 as [|e q1]; [now rewrite upd_same|]. rewrite F1. reflexivity.
      * unfold baddr. rewrite Eh. exact D.
      * apply Nda.
    + rewrite fset_other by exact Nj. destruct (c_fl _ _ _ C j Hj) as (J1 & J2 & J3). split; [|split].
      * rewrite Eb. destruct q1; [|exact J1]. rewrite upd_other by exact Nj. exact J1.
      * unfold baddr. rewrite Eh. apply (P (fun m => dll m (vhdr s + 8 * j) (fl j))); [exact J2|].
        intros m e k v Dm He Hk. apply dll_frame; [|exact Dm]. intros x Hx.
        assert (He' : In e (fl i)) by (rewrite Efl; rewrite in_app_iff in *; cbn; tauto).
        assert (e <> x) by (intros ->; apply Nj; apply (fl_disj _ _ _ C j i x Hj Hi Hx He')).
        pose proof (fl_far _ _ _ C i j e x k 8 Hi Hj He' Hx H ltac:(lia) ltac:(lia)).
        pose proof (fl_far _ _ _ C i j e x k 16 Hi Hj He' Hx H ltac:(lia) ltac:(lia)). lia.
      * exact J3.
  - intros j c Hj.
    assert (Eq : (exists x, In x (l1 ++ B a n KTmp :: l2) /\ bk x = KFree /\ ba x = c /\ idx (bs x) = j) <->
                 (exists x, In x L /\ bk x = KFree /\ ba x = c /\ idx (bs x) = j) /\ c <> a).
    { split.
      - intros (x & Hx & K & E1 & E2). rewrite in_app_iff in Hx. cbn in Hx.
        assert (Hx' : In x L /\ x <> b).
        { pose proof (c_ord _ _ _ C) as G. unfold L in G. rewrite fop_app in G. destruct G as (G1 & G2 & G3).
          assert (Gb : gok b) by now apply (cok _ _ _ C). unfold gok in Gb. cbn in Gb.
          destruct Hx as [Hx|[Hx|Hx]].
          - split; [unfold L; apply in_or_app; now left|]. intros ->. specialize (G3 b b Hx (or_introl eq_refl)). unfold before, bend in G3. cbn in G3. lia.
          - subst x. discriminate.
          - split; [unfold L; apply in_or_app; right; now right|]. intros ->. inversion G2 as [|? ? G4 G5]; subst. rewrite Forall_forall in G4. specialize (G4 b Hx).
            unfold before, bend in G4. cbn in G4. lia. }
        destruct Hx' as [Hx' Nb]. split; [exists x; auto|]. intros ->. apply Nb. apply (cinj _ _ _ C x b Hx' Hb). exact E1.
      - intros [(x & Hx & K & E1 & E2) N]. exists x. split; [|auto]. unfold L in Hx. rewrite in_app_iff in *. cbn in *.
        destruct Hx as [Hx|[Hx|Hx]]; auto. subst x. cbn in E1. congruence. }
    rewrite Eq. rewrite <- (c_mem _ _ _ C j c Hj). destruct (Z.eq_dec j i) as [->|Nj].
    + rewrite fset_same, Efl. rewrite !in_app_iff. cbn. split.
      * intros Hc. split; [tauto|]. intros ->. apply (proj2 Nda). apply in_or_app. exact Hc.
      * intros [[H|[H|H]] N]; auto. congruence.
    + rewrite fset_other by exact Nj. split; [|tauto]. intros Hc. split; [exact Hc|]. intros ->. apply Nj.
      assert (In a (fl i)) by (rewrite Efl; apply in_mid). now apply (fl_disj _ _ _ C j i a).
Qed.

Lemma fl_split s l1 a n l2 fl : core s (l1 ++ B a n KFree :: l2) fl -> 0 <= idx n < 288 -> exists q1 q2, fl (idx n) = q1 ++ a :: q2.
Proof.
  intros C Hi. assert (H := fl_of_free _ _ _ C (B a n KFree) (in_mid l1 _ l2) eq_refl Hi). cbn in H. apply in_split in H as (q1 & q2 & H). eauto.
Qed.

Lemma unlink_spec s l1 a n l2 fl : core s (l1 ++ B a n KFree :: l2) fl -> 0 <= idx n < 288 ->
  exists s' fl', unlink_free s a n = Some s' /\ core s' (l1 ++ B a n KTmp :: l2) fl' /\ others s s'.
Proof.
  intros C Hi. destruct (fl_split _ _ _ _ _ _ C Hi) as (q1 & q2 & Efl). destruct (c_fl _ _ _ C _ Hi) as (F1 & F2 & F3).
  rewrite Efl in F1, F2, F3. destruct (dll_split _ _ _ _ _ F2) as (D1 & D2 & _).
  assert (Nz : forall x, In x (fl (idx n)) -> x <> 0).
  { intros x Hx E. pose proof (fl_pos _ _ _ C _ x Hi Hx). lia. }
  unfold unlink_free, fetch. change (wg_freebuckets_index n) with (idx n). set (i := idx n) in *.
  destruct (Z.ltb_spec i 0); [lia|]. rewrite D1, D2.
  destruct q1 as [|e q1].
  - cbn [app hd] in F1. rewrite F1, Z.eqb_refl. cbn [last].
    eexists. exists (fset fl i ([] ++ q2)). split; [reflexivity|]. split.
    + refine (core_unlink s l1 a n l2 fl [] q2 i _ C eq_refl Hi Efl _ _ _).
      * cbv zeta. destruct (hd 0 q2 =? 0); reflexivity.
      * destruct (hd 0 q2 =? 0); reflexivity.
      * destruct (hd 0 q2 =? 0); reflexivity.
    + unfold others. destruct (hd 0 q2 =? 0); cbn [store setb vhdr vfree vsize vsubs vb]; rewrite !upd_other by (unfold DVBUCKET, DVSIZEBUCKET, EXACTBUCKETS_NR, VARBUCKETS_NR; lia); auto 20.
  - cbn [app hd] in F1. assert (N : e <> a).
    { intros ->. inversion F3 as [|? ? N _]; subst. apply N. apply in_mid. }
    rewrite F1. destruct (Z.eqb_spec e a); [congruence|].
    eexists. exists (fset fl i ((e :: q1) ++ q2)). split; [reflexivity|]. split.
    + refine (core_unlink s l1 a n l2 fl (e :: q1) q2 i _ C eq_refl Hi Efl _ _ _).
      * cbv zeta. destruct (hd 0 q2 =? 0); reflexivity.
      * destruct (hd 0 q2 =? 0); reflexivity.
      * destruct (hd 0 q2 =? 0); reflexivity.
    + unfold others. destruct (hd 0 q2 =? 0); cbn; auto 20.
Qed.

(** The first block of a list. *)
Lemma first_block s L fl i : core s L fl -> 0 <= i < 288 -> vb s i <> 0 ->
  exists l1 n l2 q2, L = l1 ++ B (vb s i) n KFree :: l2 /\ idx n = i /\ fl i = vb s i :: q2.
Proof.
  intros C Hi N. destruct (c_fl _ _ _ C i Hi) as (F1 & F2 & F3). destruct (fl i) as [|a q2] eqn:E; cbn [hd] in F1; [congruence|].
  assert (Ha : In a (fl i)) by (rewrite E; now left). destruct (fl_block _ _ _ C i a Hi Ha) as ([a' n k] & Hb & K & Ea & Ei). cbn in *. subst a' k.
  apply in_split in Hb as (l1 & l2 & ->). exists l1, n, l2, q2. rewrite F1. auto.
Qed.
Lemma take_spec s l1 n l2 fl i q2 : core s (l1 ++ B (vb s i) n KFree :: l2) fl -> 0 <= i < 288 -> idx n = i -> fl i = vb s i :: q2 ->
  exists fl', core (take_first s i) (l1 ++ B (vb s i) n KTmp :: l2) fl' /\ others s (take_first s i).
Proof.
  intros C Hi Ei Efl. destruct (c_fl _ _ _ C _ Hi) as (F1 & F2 & F3). rewrite Efl in F2. cbn [dll] in F2. destruct F2 as (D1 & D2 & _).
  exists (fset fl i ([] ++ q2)). split.
  - refine (core_unlink s l1 (vb s i) n l2 fl [] q2 i _ C (eq_sym Ei) Hi Efl _ _ _); unfold take_first, fetch; rewrite D1; cbv zeta; destruct (hd 0 q2 =? 0); reflexivity.
  - unfold others, take_first. destruct (fetch s (vb s i + 8) =? 0); cbn [store setb vhdr vfree vsize vsubs vb];
      rewrite !upd_other by (unfold DVBUCKET, DVSIZEBUCKET, EXACTBUCKETS_NR, VARBUCKETS_NR; lia); auto 20.
Qed.

(** ** Putting a block into its list *)
Lemma push_spec s l1 a n l2 fl : core s (l1 ++ B a n KTmp :: l2) fl -> 0 <= idx n < 288 ->
  exists s' fl', push_free s a n = Some s' /\ core s' (l1 ++ B a n KFree :: l2) fl' /\ others s s'.
Proof.
  intros C Hi. set (i := idx n) in *. set (b := B a n KTmp) in *. set (L := l1 ++ b :: l2) in *.
  assert (Hb : In b L) by apply in_mid. pose proof (cok _ _ _ C b Hb) as (G1 & G2 & G3 & G4 & _). cbn [b ba bs] in G1, G2, G3, G4.
  assert (Nab : forall x, In x L -> x <> b -> bend x <= a \/ a + n <= ba x).
  { intros x Hx N. destruct (cdisj _ _ _ C x b Hx Hb) as [E|[D|D]]; [congruence|left; exact D|right; exact D]. }
  set (s1 := store (store s a (n + 1)) (a + n - 8) (n + 1)).
  assert (C1 : core s1 L fl).
  { apply (core_store_tmp _ L fl _ _ b); [apply (core_store_tmp _ L fl _ _ b)| | |]; auto; unfold bend; cbn; lia. }
  set (h := vb s i). destruct (c_fl _ _ _ C1 i Hi) as (F1 & F2 & F3). change (vb s1 i) with h in F1. change (baddr s1 i) with (baddr s i) in F2.
  assert (Na : forall j, 0 <= j < 288 -> ~ In a (fl j)).
  { intros j Hj Ha. destruct (fl_block _ _ _ C j a Hj Ha) as (x & Hx & K & E & _). assert (x = b) by (apply (cinj _ _ _ C x b Hx Hb); exact E). subst x. discriminate. }
  set (s2 := if h =? 0 then s1 else store s1 (h + 16) a).
  set (s4 := setb (store (store s2 (a + 8) h) (a + 16) (baddr s i)) i a).
  exists s4, (fset fl i (a :: fl i)). split.
  { unfold push_free. change (wg_freebuckets_index n) with i. destruct (Z.ltb_spec i 0); [lia|].
    rewrite mkfree_eq by exact G4. unfold s4, s2. fold s1. change (vb s1 i) with h. cbv zeta. destruct (h =? 0); reflexivity. }
  assert (Eb : vb s4 = upd (vb s) i a) by (unfold s4, s2; destruct (h =? 0); reflexivity).
  assert (Eh : vhdr s4 = vhdr s) by (unfold s4, s2; destruct (h =? 0); reflexivity).
  assert (Farh : forall j x k, 0 <= j < 288 -> In x (fl j) -> 0 <= k < 32 -> x + k < a \/ a + n <= x + k).
  { intros j x k Hj Hx Hk. destruct (fl_block _ _ _ C j x Hj Hx) as (y & Hy & K & E & _). pose proof (cok _ _ _ C y Hy) as Gy.
    assert (Ny : y <> b) by (intros ->; discriminate). pose proof (Nab y Hy Ny). unfold gok, bend in *. lia. }
  assert (Fx : forall x, In x L -> x <> b -> fixed (vm s4) x).
  { intros x Hx Nx. pose proof (cok _ _ _ C x Hx) as Gx. pose proof (Nab x Hx Nx) as Dx. pose proof (cfix _ _ _ C1 x Hx) as Fx.
    assert (F0 : fixed (vm s2) x).
    { unfold s2. destruct (Z.eqb_spec h 0) as [|Nh]; [exact Fx|]. destruct (fl i) as [|e r] eqn:Efl; cbn [hd] in F1; [congruence|].
      assert (He : In h (fl i)) by (rewrite Efl, F1; now left). destruct (fl_block _ _ _ C i h Hi He) as (y & Hy & Ky & Ey & _).
      rewrite <- Ey. cbn [store vm]. apply fixed_link_gen; auto; [now apply (cok _ _ _ C)|now apply (cdisj _ _ _ C)]. }
    unfold s4. cbn [setb store vm]. change (upd (upd (vm s2) (a + 8) h) (a + 16) (baddr s i)) with (upd (vm (store s2 (a + 8) h)) (a + 16) (baddr s i)).
    apply fixed_out; [exact Gx|unfold outside; lia|]. cbn [store vm]. apply fixed_out; [exact Gx|unfold outside; lia|exact F0]. }
  split.
  - constructor.
    + intros x Hx. assert (Nx : ~ a <= x < a + n) by (intros Q; exact (c_dis _ _ _ C b x Hb Q Hx)). unfold s4. cbn [setb store vm]. rewrite !upd_other by lia.
      assert (E1 : vm s1 x = base x) by (now apply (c_off _ _ _ C1)). unfold s2. destruct (Z.eqb_spec h 0) as [|Nh]; [exact E1|]. cbn [store vm]. rewrite upd_other; [exact E1|].
      intros ->. destruct (fl i) as [|e r] eqn:Efl; cbn [hd] in F1; [congruence|]. assert (He : In h (fl i)) by (rewrite Efl, F1; now left).
      destruct (fl_block _ _ _ C i h Hi He) as (y & Hy & _ & Ey & _). pose proof (cok _ _ _ C y Hy) as Gy. unfold gok in Gy. apply (c_dis _ _ _ C y (h + 16) Hy); [unfold bend; lia|exact Hx].
    + intros c x Hc Hx. rewrite in_app_iff in Hc. destruct Hc as [Hc|[<-|Hc]].
      * apply (c_dis _ _ _ C c x); [unfold L; rewrite in_app_iff; auto|exact Hx].
      * apply (c_dis _ _ _ C b x Hb Hx).
      * apply (c_dis _ _ _ C c x); [unfold L; rewrite in_app_iff; right; now right|exact Hx].
    + pose proof (c_ok _ _ _ C) as G. unfold L in G. rewrite Forall_app in *. destruct G as [G5 G6]. split; [exact G5|].
      inversion G6 as [|? ? G7 G8]; subst. constructor; [|exact G8]. unfold gok in *. cbn in *. tauto.
    + pose proof (c_ord _ _ _ C) as G. unfold L in G. rewrite fop_app in *. destruct G as (G5 & G6 & G7). split; [exact G5|]. split.
      * inversion G6 as [|? ? G8 G9]; subst. constructor; [|exact G9]. exact G8.
      * intros x y Hx [<-|Hy]; [apply (G7 x b Hx (or_introl eq_refl))|apply (G7 x y Hx (or_intror Hy))].
    + pose proof (c_ord _ _ _ C) as G. unfold L in G. rewrite fop_app in G. destruct G as (G5 & G6 & G7).
      inversion G6 as [|? ? G8 G9]; subst. rewrite Forall_forall in G8.
      apply Forall_app. split; [|constructor].
      * apply Forall_forall. intros x Hx. apply Fx; [unfold L; apply in_or_app; now left|]. intros ->. specialize (G7 b b Hx (or_introl eq_refl)). unfold before, bend in G7. cbn in G7. lia.
      * unfold fixed. cbn [bk ba bs]. assert (E : forall x, x = a \/ x = a + n - 8 -> vm s4 x = n + 1).
        { intros x Hx. unfold s4, s2. cbn [setb store vm]. rewrite (upd_other _ (a + 16)), (upd_other _ (a + 8)) by lia.
          assert (E1 : vm s1 x = n + 1). { unfold s1. cbn [store vm]. destruct Hx as [->| ->]; [rewrite upd_other by lia; apply upd_same|apply upd_same]. }
          destruct (Z.eqb_spec h 0) as [|Nh]; [exact E1|]. cbn [store vm]. rewrite upd_other; [exact E1|].
          destruct (fl i) as [|e r] eqn:Efl; cbn [hd] in F1; [congruence|]. assert (He : In h (fl i)) by (rewrite Efl, F1; now left).
          pose proof (Farh i h 16 Hi He ltac:(lia)). lia. }
        split; apply E; auto.
      * apply Forall_forall. intros x Hx. apply Fx; [unfold L; apply in_or_app; right; now right|]. intros ->. specialize (G8 b Hx). unfold before, bend in G8. cbn in G8. lia.
    + intros j Hj. rewrite Eb. unfold baddr. rewrite Eh. change (vhdr s + 8 * j) with (baddr s j). destruct (Z.eq_dec j i) as [->|Nj].
      * rewrite fset_same, upd_same. split; [reflexivity|]. split; [|constructor; [apply Na; exact Hi|exact F3]].
        cbn [dll]. rewrite <- F1. unfold s4. cbn [setb store vm].
        split; [rewrite upd_other by lia; apply upd_same|]. split; [apply upd_same|].
        apply dll_frame; [intros x Hx; pose proof (Farh i x 8 Hi Hx ltac:(lia)); pose proof (Farh i x 16 Hi Hx ltac:(lia)); lia|].
        apply dll_frame; [intros x Hx; pose proof (Farh i x 8 Hi Hx ltac:(lia)); pose proof (Farh i x 16 Hi Hx ltac:(lia)); lia|].
        unfold s2. destruct (fl i) as [|e r] eqn:Efl; [exact I|]. cbn [hd] in F1. cbn [dll] in F2. destruct F2 as (D1 & D2 & D3).
        assert (He : In h (fl i)) by (rewrite Efl, F1; now left).
        assert (Hz : 0 < h) by exact (fl_pos _ _ _ C i h Hi He). destruct (Z.eqb_spec h 0); [lia|]. subst e. cbn [store vm dll].
        split; [rewrite upd_other by lia; exact D1|]. split; [apply upd_same|].
        apply dll_frame; [|exact D3]. intros x Hx. assert (Nhx : h <> x) by (intros <-; inversion F3; contradiction).
        assert (Hx' : In x (fl i)) by (rewrite Efl; now right).
        pose proof (fl_far _ _ _ C i i h x 16 8 Hi Hi He Hx' Nhx ltac:(lia) ltac:(lia)).
        pose proof (fl_far _ _ _ C i i h x 16 16 Hi Hi He Hx' Nhx ltac:(lia) ltac:(lia)). lia.
      * rewrite fset_other, upd_other by exact Nj. destruct (c_fl _ _ _ C1 j Hj) as (J1 & J2 & J3). split; [exact J1|]. split; [|exact J3].
        change (baddr s1 j) with (baddr s j) in J2. unfold s4. cbn [setb store vm].
        apply dll_frame; [intros x Hx; pose proof (Farh j x 8 Hj Hx ltac:(lia)); pose proof (Farh j x 16 Hj Hx ltac:(lia)); lia|].
        apply dll_frame; [intros x Hx; pose proof (Farh j x 8 Hj Hx ltac:(lia)); pose proof (Farh j x 16 Hj Hx ltac:(lia)); lia|].
        unfold s2. destruct (Z.eqb_spec h 0) as [|Nh]; [exact J2|]. cbn [store vm]. apply dll_frame; [|exact J2]. intros x Hx.
        destruct (fl i) as [|e r] eqn:Efl; cbn [hd] in F1; [congruence|]. assert (He : In h (fl i)) by (rewrite Efl, F1; now left).
        assert (Nhx : h <> x) by (intros <-; apply Nj; apply (fl_disj _ _ _ C j i h Hj Hi Hx He)).
        pose proof (fl_far _ _ _ C i j h x 16 8 Hi Hj He Hx Nhx ltac:(lia) ltac:(lia)).
        pose proof (fl_far _ _ _ C i j h x 16 16 Hi Hj He Hx Nhx ltac:(lia) ltac:(lia)). lia.
    + intros j c Hj.
      assert (Eq : (exists x, In x (l1 ++ B a n KFree :: l2) /\ bk x = KFree /\ ba x = c /\ idx (bs x) = j) <->
                   (exists x, In x L /\ bk x = KFree /\ ba x = c /\ idx (bs x) = j) \/ (c = a /\ j = i)).
      { unfold L. split.
        - intros (x & Hx & K & E1 & E2). rewrite in_app_iff in Hx. cbn in Hx. destruct Hx as [Hx|[Hx|Hx]].
          + left. exists x. split; [apply in_or_app; now left|auto].
          + subst x. cbn in *. right. split; [congruence|]. unfold i. congruence.
          + left. exists x. split; [apply in_or_app; right; now right|auto].
        - intros [(x & Hx & K & E1 & E2)|[-> ->]].
          + exists x. split; [|auto]. rewrite in_app_iff in *. cbn in *. destruct Hx as [Hx|[Hx|Hx]]; auto. subst x. discriminate.
          + exists (B a n KFree). split; [apply in_mid|auto]. }
      rewrite Eq, <- (c_mem _ _ _ C j c Hj). destruct (Z.eq_dec j i) as [->|Nj].
      * rewrite fset_same. cbn. split; [intros [<-|Hc]; auto|intros [Hc|[-> _]]; auto].
      * rewrite fset_other by exact Nj. split; [auto|]. intros [Hc|[_ Hc]]; [exact Hc|congruence].
  - unfold others. rewrite Eb, !upd_other by (unfold DVBUCKET, DVSIZEBUCKET, EXACTBUCKETS_NR, VARBUCKETS_NR; lia).
    unfold s4, s2. destruct (h =? 0); cbn; auto 20.
Qed.

(** ** Changing the kind of one block, no free list involved *)
Lemma core_kind s l1 a n k k' l2 fl : core s (l1 ++ B a n k :: l2) fl -> k <> KFree -> k' <> KFree ->
  gok (B a n k') -> fixed (vm s) (B a n k') -> core s (l1 ++ B a n k' :: l2) fl.
Proof.
  intros C N N' G F. apply (core_replace s l1 [B a n k] [B a n k'] l2 fl C).
  - intros b [<-|[]]. exact N.
  - intros b [<-|[]]. exact N'.
  - constructor; [exact G|constructor].
  - constructor; constructor.
  - constructor; [exact F|constructor].
  - intros b [<-|[]]. split; eexists; (split; [left; reflexivity|]); unfold bend; cbn; lia.
  - intros b y [<-|[]] Hxb. eexists. split; [left; reflexivity|]. unfold bend in *. cbn in *. lia.
Qed.
Lemma core_forget s l1 a n k l2 fl : core s (l1 ++ B a n k :: l2) fl -> k <> KFree -> core s (l1 ++ B a n KTmp :: l2) fl.
Proof.
  intros C N. apply (core_kind s l1 a n k KTmp l2 fl C N); [discriminate| |exact I].
  pose proof (cok _ _ _ C _ (in_mid l1 _ l2)) as G. unfold gok in *. cbn in *. tauto.
Qed.
Lemma core_merge s l1 a n c m l2 fl : core s (l1 ++ B a n KTmp :: B c m KTmp :: l2) fl -> c = a + n -> core s (l1 ++ B a (n + m) KTmp :: l2) fl.
Proof.
  intros C ->. pose proof (cok _ _ _ C _ (in_mid l1 _ _)) as G. pose proof (cok _ _ _ C (B (a + n) m KTmp) ltac:(apply in_or_app; right; right; now left)) as H.
  apply (core_replace s l1 [B a n KTmp; B (a + n) m KTmp] [B a (n + m) KTmp] l2 fl C).
  - intros b [<-|[<-|[]]]; discriminate.
  - intros b [<-|[]]. discriminate.
  - constructor; [|constructor]. unfold gok in *. cbn in *. lia.
  - constructor; constructor.
  - constructor; [exact I|constructor].
  - intros b [<-|[]]. split; [exists (B a n KTmp); split; [now left|cbn; lia]|exists (B (a + n) m KTmp); split; [right; now left|unfold bend; cbn; lia]].
  - intros b y [<-|[]] Hy. unfold bend in Hy. cbn in Hy. destruct (Z.lt_ge_cases y (a + n)); [exists (B a n KTmp); split; [now left|unfold bend; cbn; lia]|exists (B (a + n) m KTmp); split; [right; now left|unfold bend; cbn; lia]].
Qed.
Lemma core_cut s l1 a n m l2 fl : core s (l1 ++ B a n KTmp :: l2) fl -> 32 <= m -> m mod 8 = 0 -> m + 32 <= n ->
  core s (l1 ++ B a m KTmp :: B (a + m) (n - m) KTmp :: l2) fl.
Proof.
  intros C H1 H2 H3. pose proof (cok _ _ _ C _ (in_mid l1 _ _)) as G.
  apply (core_replace s l1 [B a n KTmp] [B a m KTmp; B (a + m) (n - m) KTmp] l2 fl C).
  - intros b [<-|[]]; discriminate.
  - intros b [<-|[<-|[]]]; discriminate.
  - unfold gok in *. cbn in *. repeat constructor; cbn; lia.
  - constructor; [constructor; [unfold before, bend; cbn; lia|constructor]|constructor; constructor].
  - repeat constructor.
  - intros b [<-|[<-|[]]]; (split; [exists (B a n KTmp); split; [now left|cbn; unfold gok in G; cbn in G; lia]|exists (B a n KTmp); split; [now left|unfold bend; cbn; lia]]).
  - intros b y [<-|[<-|[]]] Hy; exists (B a n KTmp); (split; [now left|]); unfold bend in *; cbn in *; lia.
Qed.
(** A new block behind all others. *)
Lemma core_append s L fl b : core s L fl -> bk b <> KFree -> gok b -> fixed (vm s) b -> (forall x, In x L -> bend x <= ba b) ->
  (forall x, ba b <= x < bend b -> ~ foreign x) -> core s (L ++ [b]) fl.
Proof.
  intros C N G F O Nf. constructor.
  - exact (c_off _ _ _ C).
  - intros c x Hc Hx. apply in_app_or in Hc as [Hc|[<-|[]]]; [now apply (c_dis _ _ _ C c x)|now apply Nf].
  - apply Forall_app. split; [exact (c_ok _ _ _ C)|constructor; [exact G|constructor]].
  - apply fop_app. split; [exact (c_ord _ _ _ C)|]. split; [constructor; constructor|]. intros x y Hx [<-|[]]. exact (O x Hx).
  - apply Forall_app. split; [exact (c_fix _ _ _ C)|constructor; [exact F|constructor]].
  - exact (c_fl _ _ _ C).
  - intros i a Hi. rewrite (c_mem _ _ _ C i a Hi). split; intros (x & Hx & K & E); exists x; (split; [|auto]).
    + apply in_or_app. now left.
    + apply in_app_or in Hx as [Hx|[<-|[]]]; [exact Hx|congruence].
Qed.

(** ** Turning a worked-on block into a used block or the victim *)
Lemma core_mkused s l1 a n w l2 fl : core s (l1 ++ B a n KTmp :: l2) fl -> 0 <= w -> w mod 8 = 0 -> n = Z.max 32 w ->
  core (store s a w) (l1 ++ B a n (KUsed w false (vm s)) :: l2) fl.
Proof.
  intros C W1 W2 W3. pose proof (cok _ _ _ C _ (in_mid l1 _ l2)) as G.
  assert (C1 : core (store s a w) (l1 ++ B a n KTmp :: l2) fl).
  { apply (core_store_tmp s _ fl a _ (B a n KTmp) C); [apply in_mid|reflexivity|]. unfold gok, bend in *. cbn in *. lia. }
  apply (core_kind _ l1 a n KTmp _ l2 fl C1); [discriminate|discriminate| |].
  - unfold gok in *. cbn in *. lia.
  - unfold fixed, bend. cbn [bk ba bs flagz store vm]. rewrite upd_same. split; [lia|]. intros x Hx. apply upd_other. lia.
Qed.
Lemma core_mkdv s l1 a n l2 fl : core s (l1 ++ B a n KTmp :: l2) fl ->
  core (store (store s a (makespecialusedobjectsize n)) (a + 8) SPECIALGINT1DV) (l1 ++ B a n KDv :: l2) fl.
Proof.
  intros C. pose proof (cok _ _ _ C _ (in_mid l1 _ l2)) as G. assert (G' := G). unfold gok in G'. cbn in G'.
  rewrite mkspecial_eq by lia.
  refine (core_kind _ l1 a n KTmp _ l2 fl _ _ _ _ _); [|discriminate|discriminate| |].
  - apply (core_store_tmp _ _ fl _ _ (B a n KTmp)); [|apply in_mid|reflexivity|unfold bend; cbn; lia].
    apply (core_store_tmp _ _ fl _ _ (B a n KTmp)); [exact C|apply in_mid|reflexivity|unfold bend; cbn; lia].
  - exact G.
  - unfold fixed, SPECIALGINT1DV. cbn [bk ba bs store vm]. rewrite upd_same, upd_other, upd_same by lia. auto.
Qed.

End WithRegion.

(** Another choice of foreign words. *)
Lemma core_region (r r' : region) s L fl : @core r s L fl -> (forall x, @foreign r' x -> vm s x = @base r' x) ->
  (forall b x, In b L -> ba b <= x < bend b -> ~ @foreign r' x) -> @core r' s L fl.
Proof. intros [_ _ C1 C2 C3 C4 C5] H1 H2. constructor; assumption. Qed.
