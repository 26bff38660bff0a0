(** Proofs about the hash table of the hash index. *)
From Coq Require Import ZArith List Bool Lia Permutation.
From Verif Require Import Base EncodingModel CompareModel FixpModel HashIdxModel.
Import ListNotations.
Open Scope Z_scope.
#[local] Ltac Zify.zify_post_hook ::= idtac.

Lemma fset_same {A} (f : Z -> A) x v : fset f x v x = v.
Proof. unfold fset. now rewrite Z.eqb_refl. Qed.
Lemma fset_other {A} (f : Z -> A) x v y : y <> x -> fset f x v y = f y.
Proof. unfold fset. intros H. now destruct (Z.eqb_spec y x). Qed.
Lemma bytes_eqb_spec a b : reflect (a = b) (bytes_eqb a b).
Proof. unfold bytes_eqb. destruct (list_eq_dec Z.eq_dec a b); now constructor. Qed.

(** ** Linked lists *)
Section LL.
Context {A : Type}.
Implicit Types (nx : Z -> option (A * Z)) (l : list (Z * A)).
Fixpoint ll nx (c : Z) l : Prop :=
  match l with
  | [] => c = 0
  | (o, a) :: t => c = o /\ 0 < o /\ exists n, nx o = Some (a, n) /\ ll nx n t
  end.
Lemma ll_some nx l : forall c o a, ll nx c l -> In (o, a) l -> 0 < o /\ exists n, nx o = Some (a, n).
Proof.
  induction l as [|(o1 & a1) l IH]; intros c o a; cbn [ll In]; [tauto|].
  intros (-> & P & n & E & R) [Q | Q]; [injection Q as -> ->; eauto|eapply IH; eassumption].
Qed.
Lemma ll_ext nx nx' l : forall c, (forall o, In o (map fst l) -> nx' o = nx o) -> ll nx c l -> ll nx' c l.
Proof.
  induction l as [|(o1 & a1) l IH]; intros c H; cbn [ll]; [tauto|].
  intros (-> & P & n & E & R). split; [reflexivity|]. split; [exact P|]. exists n. split.
  - rewrite H by (left; reflexivity). exact E.
  - apply IH; [|exact R]. intros o Ho. apply H. now right.
Qed.
Lemma ll_fresh nx c l o : ll nx c l -> nx o = None -> ~ In o (map fst l).
Proof.
  intros L N I. apply in_map_iff in I. destruct I as ((o' & a) & E & I). cbn in E. subst o'.
  destruct (ll_some _ _ _ _ _ L I) as (_ & n & Q). congruence.
Qed.
(** Payload of one node changed. *)
Lemma ll_payload nx a' o a l2 : forall l1 c n, ll nx c (l1 ++ (o, a) :: l2) -> NoDup (map fst (l1 ++ (o, a) :: l2)) ->
  nx o = Some (a, n) -> ll (fset nx o (Some (a', n))) c (l1 ++ (o, a') :: l2).
Proof.
  induction l1 as [|(o1 & a1) l1 IH]; intros c n; cbn [app ll map fst].
  - intros (-> & P & m & E & R) D Q. split; [reflexivity|]. split; [exact P|]. exists n. rewrite fset_same. split; [reflexivity|].
    rewrite E in Q. injection Q as ->. apply NoDup_cons_iff in D. destruct D as (D & _).
    eapply ll_ext; [|exact R]. intros x Hx. apply fset_other. intros ->. now apply D.
  - intros (-> & P & m & E & R) D Q. apply NoDup_cons_iff in D. destruct D as (D1 & D2).
    split; [reflexivity|]. split; [exact P|]. exists m. split; [|now apply IH].
    rewrite fset_other; [exact E|]. intros ->. apply D1. rewrite map_app. apply in_or_app. right. left. reflexivity.
Qed.
(** Node taken out of the list: the pointer to it is replaced. *)
Definition unlink nx (prev n : Z) : Z -> option (A * Z) :=
  if prev =? 0 then nx else match nx prev with Some (a, _) => fset nx prev (Some (a, n)) | None => nx end.
Lemma ll_unlink nx o a l2 : forall l1 c n, ll nx c (l1 ++ (o, a) :: l2) -> NoDup (map fst (l1 ++ (o, a) :: l2)) ->
  nx o = Some (a, n) ->
  ll (unlink nx (last (map fst l1) 0) n) (if last (map fst l1) 0 =? 0 then n else c) (l1 ++ l2).
Proof.
  induction l1 as [|(o1 & a1) l1 IH]; intros c n; cbn [app ll].
  - intros (-> & P & m & E & R) D Q. rewrite E in Q. injection Q as ->. cbn. exact R.
  - intros (-> & P & m & E & R) D Q. cbn [map fst] in D. apply NoDup_cons_iff in D. destruct D as (D1 & D2).
    assert (NZ : forall l, (forall x, In x (map fst l) -> 0 < x) -> l <> nil -> last (map fst l) 0 <> 0).
    { clear. intros l H N. assert (In (last (map fst l) 0) (map fst l)); [|specialize (H _ H0); lia].
      destruct l; [congruence|]. cbn [map]. generalize (fst p) at 1 2. induction (map fst l) as [|y t IHt]; intros x; [now left|].
      change (last (x :: y :: t) 0) with (last (y :: t) 0). right. apply IHt. }
    destruct l1 as [|(o2 & a2) l1'].
    + cbn [map fst last app]. cbn [app ll] in R. destruct R as (-> & P2 & n2 & E2 & R). rewrite E2 in Q. injection Q as ->.
      destruct (Z.eqb_spec o1 0) as [Q|_]; [lia|]. unfold unlink. destruct (Z.eqb_spec o1 0) as [Q|_]; [lia|]. rewrite E.
      split; [reflexivity|]. split; [exact P|]. exists n. rewrite fset_same. split; [reflexivity|].
      eapply ll_ext; [|exact R]. intros x Hx. apply fset_other. intros ->. apply D1. cbn [app map fst]. now right.
    + set (l1 := (o2, a2) :: l1') in *. change (map fst ((o1, a1) :: l1)) with (o1 :: map fst l1).
      replace (last (o1 :: map fst l1) 0) with (last (map fst l1) 0) by reflexivity.
      pose proof (IH _ _ R D2 Q) as IHx. set (p := last (map fst l1) 0) in *.
      assert (Np : p <> 0). { apply NZ; [|discriminate]. intros x Hx. apply in_map_iff in Hx. destruct Hx as ((x1 & x2) & <- & Hx). refine (proj1 (ll_some _ _ _ _ _ R (in_or_app _ _ _ (or_introl Hx)))). }
      assert (Ip : In p (map fst l1)).
      { unfold p, l1. cbn [map fst]. clear. generalize o2. induction (map fst l1') as [|y t IHt]; intros x; [now left|].
        change (last (x :: y :: t) 0) with (last (y :: t) 0). right. apply IHt. }
      destruct (Z.eqb_spec p 0) as [Q'|_]; [lia|]. split; [reflexivity|]. split; [exact P|]. exists m. split; [|exact IHx].
      unfold unlink. destruct (p =? 0); [exact E|]. destruct (nx p) as [(ap & np)|]; [|exact E]. rewrite fset_other; [exact E|].
      intros ->. apply D1. rewrite map_app. apply in_or_app. now left.
Qed.
End LL.

(** ** Invariant *)
Definition bnx (h : ihash) (o : Z) : option ((Z * list Z * Z) * Z) :=
  match i_bk h o with Some k => Some ((k_len k, k_data k, k_rec k), k_chain k) | None => None end.
Definition bdata (e : Z * (Z * list Z * Z)) : list Z := snd (fst (snd e)).

Record inv (h : ihash) (B : Z -> list (Z * (Z * list Z * Z))) (C : Z -> list (Z * Z)) (bo co : Z -> Z) : Prop := {
  v_chain : forall s, ll (bnx h) (i_head h s) (B s);
  v_nodup : forall s, NoDup (map fst (B s));
  v_data : forall s, NoDup (map bdata (B s));
  v_short : forall s, (length (B s) <= i_made h)%nat;
  v_entry : forall s o n d r, In (o, (n, d, r)) (B s) -> bo o = s /\ hash_bytes d (i_size h) = s /\ n = Z.of_nat (length d);
  v_cells : forall s o n d r, In (o, (n, d, r)) (B s) -> ll (i_cell h) r (C o) /\ C o <> [] /\ NoDup (map fst (C o)) /\
    (length (C o) <= i_made h)%nat /\ (forall c x, In (c, x) (C o) -> co c = o) }.

(** The records stored for a key, newest first. *)
Definition holds (h : ihash) (B : Z -> list (Z * (Z * list Z * Z))) (C : Z -> list (Z * Z)) (M : list Z -> list Z) : Prop :=
  forall d, (exists o n r, In (o, (n, d, r)) (B (hash_bytes d (i_size h))) /\ M d = map snd (C o)) \/
    (M d = [] /\ ~ In d (map bdata (B (hash_bytes d (i_size h))))).

(** [M] is the content of the table. *)
Definition content (h : ihash) (M : list Z -> list Z) : Prop := exists B C bo co, inv h B C bo co /\ holds h B C M.

Definition mset (M : list Z -> list Z) (d l : list Z) : list Z -> list Z := fun x => if bytes_eqb x d then l else M x.
Lemma mset_same M d l : mset M d l d = l.
Proof. unfold mset. now destruct (bytes_eqb_spec d d). Qed.
Lemma mset_other M d l x : x <> d -> mset M d l x = M x.
Proof. unfold mset. intros. now destruct (bytes_eqb_spec x d). Qed.

Lemma empty_content size : content (wg_create_hash size) (fun _ => []).
Proof.
  exists (fun _ => []), (fun _ => []), (fun _ => 0), (fun _ => 0). split.
  - constructor; cbn; try tauto; try lia; try (constructor).
  - intros d. right. split; [reflexivity|]. cbn. tauto.
Qed.

Lemma find_bucket h data : forall es fuel b prev, ll (bnx h) b es ->
  (forall o n d r, In (o, (n, d, r)) es -> n = Z.of_nat (length d)) -> (length es <= fuel)%nat ->
  (~ In data (map bdata es) /\ exists p, find_idxhash_bucket fuel h data b prev = Some (0, p)) \/
  (exists l1 o r l2, es = l1 ++ (o, (Z.of_nat (length data), data, r)) :: l2 /\ ~ In data (map bdata l1) /\
     find_idxhash_bucket fuel h data b prev = Some (o, last (map fst l1) prev)).
Proof.
  induction es as [|(o & ((n & d) & r)) es IH]; intros fuel b prev L W Hf.
  - left. cbn in L. subst b. split; [cbn; tauto|]. exists prev. destruct fuel; reflexivity.
  - cbn [ll] in L. destruct L as (-> & P & m & E & R). destruct fuel as [|fuel]; [cbn in Hf; lia|]. cbn [length] in Hf.
    cbn [find_idxhash_bucket]. destruct (Z.eqb_spec o 0) as [|_]; [lia|].
    unfold bnx in E. destruct (i_bk h o) as [k|] eqn:Ek; [|discriminate]. 
    assert (k_len k = n /\ k_data k = d /\ k_rec k = r /\ k_chain k = m) as (K1 & K2 & K3 & K4) by (repeat split; congruence).
    assert (n = Z.of_nat (length d)) as Nn by (eapply W; left; reflexivity).
    rewrite K1, K2. destruct (bytes_eqb_spec d data) as [-> | Nd].
    + right. exists [], o, r, es. rewrite Nn, Z.eqb_refl. cbn. split; [reflexivity|]. split; [tauto|reflexivity].
    + rewrite andb_false_r. rewrite K4. destruct (IH fuel m o R) as [(N & p & F) | (l1 & o' & r' & l2 & -> & N & F)].
      * intros; eapply W; right; eassumption.
      * lia.
      * left. split; [|exists p; exact F]. cbn [map]. intros [Q | Q]; [now apply Nd|now apply N].
      * right. exists ((o, (n, d, r)) :: l1), o', r', l2. split; [reflexivity|]. split.
        -- cbn [map]. intros [Q | Q]; [now apply Nd|now apply N].
        -- rewrite F. f_equal. f_equal. cbn [map fst]. destruct (map fst l1) as [|y t] eqn:El; [reflexivity|].
           change (last (o :: y :: t) prev) with (last (y :: t) prev). clear. revert y. induction t as [|z t IHt]; intros y; [reflexivity|].
           change (last (y :: z :: t) o) with (last (z :: t) o). change (last (y :: z :: t) prev) with (last (z :: t) prev). apply IHt.
Qed.
Lemma find_cell_spec h offset : forall cs fuel c prev, ll (i_cell h) c cs -> (length cs <= fuel)%nat ->
  (~ In offset (map snd cs) /\ exists p, find_cell fuel h c prev offset = Some (0, p)) \/
  (exists l1 o l2, cs = l1 ++ (o, offset) :: l2 /\ ~ In offset (map snd l1) /\
     find_cell fuel h c prev offset = Some (o, last (map fst l1) prev)).
Proof.
  induction cs as [|(o & x) cs IH]; intros fuel c prev L Hf.
  - left. cbn in L. subst c. split; [cbn; tauto|]. exists prev. destruct fuel; reflexivity.
  - cbn [ll] in L. destruct L as (-> & P & m & E & R). destruct fuel as [|fuel]; [cbn in Hf; lia|]. cbn [length] in Hf.
    cbn [find_cell]. destruct (Z.eqb_spec o 0) as [|_]; [lia|]. rewrite E. destruct (Z.eqb_spec x offset) as [-> | Nx].
    + right. exists [], o, cs. cbn. split; [reflexivity|]. split; [tauto|reflexivity].
    + destruct (IH fuel m o R) as [(N & p & F) | (l1 & o' & l2 & -> & N & F)].
      * lia.
      * left. split; [|exists p; exact F]. cbn [map snd]. intros [Q | Q]; [now apply Nx|now apply N].
      * right. exists ((o, x) :: l1), o', l2. split; [reflexivity|]. split.
        -- cbn [map snd]. intros [Q | Q]; [now apply Nx|now apply N].
        -- rewrite F. f_equal. f_equal. cbn [map fst]. destruct (map fst l1) as [|y t] eqn:El; [reflexivity|].
           change (last (o :: y :: t) prev) with (last (y :: t) prev). clear. revert y. induction t as [|z t IHt]; intros y; [reflexivity|].
           change (last (y :: z :: t) o) with (last (z :: t) o). change (last (y :: z :: t) prev) with (last (z :: t) prev). apply IHt.
Qed.

Lemma read_cells_spec h : forall cs fuel c, ll (i_cell h) c cs -> (length cs <= fuel)%nat -> read_cells fuel h c = Some (map snd cs).
Proof.
  induction cs as [|(o & x) cs IH]; intros fuel c L Hf.
  - cbn in L. subst c. now destruct fuel.
  - cbn [ll] in L. destruct L as (-> & P & m & E & R). destruct fuel as [|fuel]; [cbn in Hf; lia|]. cbn [length] in Hf.
    cbn [read_cells]. destruct (Z.eqb_spec o 0) as [|_]; [lia|]. rewrite E, (IH fuel m R) by lia. reflexivity.
Qed.

(** Looking up a key reads exactly its records. *)
Lemma find_content h M d : content h M -> exists c, wg_idxhash_find h d = Some c /\ 0 <= c /\ read_cells (i_made h) h c = Some (M d).
Proof.
  intros (B & C & bo & co & V & Ho). unfold wg_idxhash_find. set (s := hash_bytes d (i_size h)).
  destruct (find_bucket h d (B s) (i_made h) (i_head h s) 0 (v_chain _ _ _ _ _ V s)) as [(N & p & F) | (l1 & o & r & l2 & E & N & F)].
  - intros o n d' r I. apply (v_entry _ _ _ _ _ V s o n d' r I).
  - apply (v_short _ _ _ _ _ V).
  - rewrite F. exists 0. split; [reflexivity|]. split; [lia|]. destruct (Ho d) as [(o & n & r & I & _) | (Q & _)].
    + exfalso. apply N. apply (in_map bdata) in I. exact I.
    + rewrite Q. now destruct (i_made h).
  - assert (I : In (o, (Z.of_nat (length d), d, r)) (B s)) by (rewrite E; apply in_or_app; right; now left).
    destruct (ll_some _ _ _ _ _ (v_chain _ _ _ _ _ V s) I) as (P & n & Q). rewrite F. destruct (Z.eqb_spec o 0); [lia|].
    unfold bnx in Q. destruct (i_bk h o) as [k|]; [|discriminate]. assert (k_rec k = r) as -> by congruence. exists r.
    destruct (v_cells _ _ _ _ _ V _ _ _ _ _ I) as (L & Ne & _ & Le & _). split; [reflexivity|]. split.
    { destruct (C o) as [|(c1 & x1) t]; [congruence|]. cbn in L. lia. }
    rewrite (read_cells_spec _ _ _ _ L Le). f_equal. destruct (Ho d) as [(o' & n' & r' & I' & ->) | (_ & Nq)].
    + assert (o' = o); [|now subst].
      fold s in I'. pose proof (v_data _ _ _ _ _ V s) as ND. rewrite E in ND, I'. apply in_app_or in I'.
      rewrite map_app in ND. cbn [map] in ND. destruct I' as [I' | [I' | I']].
      * exfalso. apply N. apply (in_map bdata) in I'. exact I'.
      * congruence.
      * apply NoDup_remove_2 in ND. exfalso. apply ND. apply in_or_app. right. apply (in_map bdata) in I'. exact I'.
    + exfalso. apply Nq. apply (in_map bdata) in I. exact I.
Qed.

Lemma payload_eq h B C bo co s s' o a a' : inv h B C bo co -> In (o, a) (B s) -> In (o, a') (B s') -> a = a'.
Proof.
  intros V I I'. destruct (ll_some _ _ _ _ _ (v_chain _ _ _ _ _ V s) I) as (_ & n & E).
  destruct (ll_some _ _ _ _ _ (v_chain _ _ _ _ _ V s') I') as (_ & n' & E'). congruence.
Qed.
Lemma data_eq h B C bo co s s' o o' n n' d r r' : inv h B C bo co -> In (o, (n, d, r)) (B s) -> In (o', (n', d, r')) (B s') -> o = o' /\ r = r'.
Proof.
  intros V I I'. destruct (v_entry _ _ _ _ _ V _ _ _ _ _ I) as (_ & H1 & _). destruct (v_entry _ _ _ _ _ V _ _ _ _ _ I') as (_ & H2 & _).
  assert (Es : s' = s) by congruence. rewrite Es in I'. pose proof (v_data _ _ _ _ _ V s) as ND. apply in_split in I. destruct I as (l1 & l2 & E).
  rewrite E in ND, I'. rewrite map_app in ND. cbn [map] in ND. apply NoDup_remove_2 in ND. apply in_app_or in I'. destruct I' as [I' | [I' | I']].
  - exfalso. apply ND. apply in_or_app. left. apply (in_map bdata) in I'. exact I'.
  - injection I' as -> _ ->. now split.
  - exfalso. apply ND. apply in_or_app. right. apply (in_map bdata) in I'. exact I'.
Qed.

Section Alloc.
Variables alloc_bucket alloc_cell : ihash -> Z.
Hypothesis bucket_fresh : forall h, alloc_bucket h = 0 \/ (0 < alloc_bucket h /\ i_bk h (alloc_bucket h) = None).
Hypothesis cell_fresh : forall h, alloc_cell h = 0 \/ (0 < alloc_cell h /\ i_cell h (alloc_cell h) = None).

Lemma store_content h M d o h' rc : content h M -> wg_idxhash_store alloc_bucket alloc_cell h d o = Some (h', rc) ->
  (rc = 0 /\ content h' (mset M d (o :: M d))) \/ (rc = -1 /\ h' = h).
Proof.
  intros (B & C & bo & co & V & Ho). unfold wg_idxhash_store. set (s0 := hash_bytes d (i_size h)).
  destruct (find_bucket h d (B s0) (i_made h) (i_head h s0) 0 (v_chain _ _ _ _ _ V s0)) as [(N & p & F) | (l1 & b & r & l2 & E & N & F)].
  { intros o' n d' r I. apply (v_entry _ _ _ _ _ V s0 o' n d' r I). }
  { apply (v_short _ _ _ _ _ V). }
  - (* new bucket *)
    rewrite F. change (0 =? 0) with true. cbn [andb].
    destruct (bucket_fresh h) as [-> | (P & Fr)]; [intros X; right; cbn in X; split; congruence|].
    set (new := alloc_bucket h) in *. destruct (Z.eqb_spec new 0) as [|_]; [lia|]. cbn [i_bk]. rewrite fset_same. cbn [k_len k_data k_rec k_chain].
    set (h1 := IH _ _ _ _ _). destruct (cell_fresh h1) as [-> | (Pc & Fc)]; [discriminate|]. set (c := alloc_cell h1) in *. change (i_cell h1) with (i_cell h) in *.
    destruct (Z.eqb_spec c 0) as [|_]; [lia|]. intros X. injection X as <- <-. left. split; [reflexivity|].
    assert (NB : forall s, ~ In new (map fst (B s))). { intros s. apply (ll_fresh (bnx h) (i_head h s)); [apply V|]. unfold bnx. now rewrite Fr. }
    assert (NC : forall s o' a, In (o', a) (B s) -> ~ In c (map fst (C o'))).
    { intros s o' ((n & d') & r) I. apply (ll_fresh (i_cell h) r); [|exact Fc]. eapply (v_cells _ _ _ _ _ V); eassumption. }
    exists (fset B s0 ((new, (Z.of_nat (length d), d, c)) :: B s0)), (fset C new [(c, o)]), (fset bo new s0), (fset co c new).
    assert (OB : forall y, y <> new -> bnx (IH (i_size h1) (i_head h1) (fset (i_bk h1) new (Some (Bk (Z.of_nat (length d)) d c (i_head h s0)))) (fset (i_cell h) c (Some (o, 0))) (S (i_made h1))) y = bnx h y).
    { intros y Hy. unfold bnx. cbn [i_bk h1]. now rewrite !fset_other by assumption. }
    split.
    + constructor; cbn [i_head i_cell i_made i_size h1].
      * intros s. destruct (Z.eq_dec s s0) as [-> | Ns].
        -- rewrite !fset_same. cbn [ll]. split; [reflexivity|]. split; [exact P|]. exists (i_head h s0). split.
           { unfold bnx. cbn [i_bk]. now rewrite fset_same. }
           eapply ll_ext; [|apply V]. intros y Hy. apply OB. intros ->. exact (NB _ Hy).
        -- rewrite !fset_other by assumption. eapply ll_ext; [|apply V]. intros y Hy. apply OB. intros ->. exact (NB _ Hy).
      * intros s. destruct (Z.eq_dec s s0) as [-> | Ns]; [rewrite fset_same|rewrite fset_other by assumption; apply V].
        cbn [map fst]. constructor; [apply NB|apply V].
      * intros s. destruct (Z.eq_dec s s0) as [-> | Ns]; [rewrite fset_same|rewrite fset_other by assumption; apply V].
        cbn [map]. constructor; [exact N|apply V].
      * intros s. pose proof (v_short _ _ _ _ _ V s); pose proof (v_short _ _ _ _ _ V s0). destruct (Z.eq_dec s s0) as [-> | Ns]; [rewrite fset_same|rewrite fset_other by assumption]; cbn [length]; lia.
      * intros s o' n d' r I. destruct (Z.eq_dec s s0) as [-> | Ns].
        -- rewrite fset_same in I. destruct I as [I | I]; [injection I as <- <- <- <-; rewrite fset_same; now auto|].
           assert (o' <> new). { intros ->. apply (NB s0). apply (in_map fst) in I. exact I. }
           rewrite fset_other by assumption. exact (v_entry _ _ _ _ _ V _ _ _ _ _ I).
        -- rewrite fset_other in I by assumption.
           assert (o' <> new). { intros ->. apply (NB s). apply (in_map fst) in I. exact I. }
           rewrite fset_other by assumption. exact (v_entry _ _ _ _ _ V _ _ _ _ _ I).
      * intros s o' n d' r I.
        assert (Q : (o' = new /\ r = c) \/ (o' <> new /\ In (o', (n, d', r)) (B s))).
        { destruct (Z.eq_dec s s0) as [-> | Ns].
          - rewrite fset_same in I. destruct I as [I | I]; [injection I as <- <- <- <-; now left|]. right. split; [|exact I].
            intros ->. apply (NB s0). apply (in_map fst) in I. exact I.
          - rewrite fset_other in I by assumption. right. split; [|exact I]. intros ->. apply (NB s). apply (in_map fst) in I. exact I. }
        destruct Q as [(-> & ->) | (Q & I')].
        -- rewrite fset_same. cbn [ll]. split; [split; [reflexivity|]; split; [exact Pc|]; exists 0; now rewrite fset_same|].
           split; [discriminate|]. split; [cbn; constructor; [tauto|constructor]|]. split; [cbn [length]; lia|].
           intros c1 x [X | []]. injection X as <- <-. now rewrite fset_same.
        -- rewrite (fset_other C) by assumption. destruct (v_cells _ _ _ _ _ V _ _ _ _ _ I') as (L & Ne & D & Le & Ow).
           pose proof (NC _ _ _ I') as NCo. split; [|split; [exact Ne|split; [exact D|split; [lia|]]]].
           ++ eapply ll_ext; [|exact L]. intros y Hy. apply fset_other. intros ->. now apply NCo.
           ++ intros c1 x I1. rewrite fset_other; [eapply Ow; exact I1|]. intros ->. apply NCo. apply (in_map fst) in I1. exact I1.
    + intros d'. cbn [i_size h1]. destruct (list_eq_dec Z.eq_dec d' d) as [-> | Nd].
      * left. exists new, (Z.of_nat (length d)), c. fold s0. rewrite fset_same. split; [now left|]. rewrite mset_same, fset_same. cbn [map snd]. f_equal.
        destruct (Ho d) as [(o' & n & r & I & _) | (-> & _)]; [|reflexivity]. exfalso. apply N. apply (in_map bdata) in I. exact I.
      * rewrite mset_other by assumption. destruct (Ho d') as [(o' & n & r & I & ->) | (-> & Nq)].
        -- left. exists o', n, r. assert (o' <> new). { intros ->. apply (NB (hash_bytes d' (i_size h))). apply (in_map fst) in I. exact I. }
           rewrite (fset_other C) by assumption. split; [|reflexivity]. unfold fset. destruct (Z.eqb_spec (hash_bytes d' (i_size h)) s0) as [<- | _]; [now right|exact I].
        -- right. split; [reflexivity|]. unfold fset. destruct (Z.eqb_spec (hash_bytes d' (i_size h)) s0) as [<- | _]; [|exact Nq].
           cbn [map]. intros [X | X]; [apply Nd; symmetry; exact X|now apply Nq].
  - (* existing bucket *)
    rewrite F. assert (I0 : In (b, (Z.of_nat (length d), d, r)) (B s0)) by (rewrite E; apply in_or_app; right; now left).
    destruct (ll_some _ _ _ _ _ (v_chain _ _ _ _ _ V s0) I0) as (P & nb & Eb).
    destruct (Z.eqb_spec b 0) as [|_]; [lia|]. cbn [andb]. pose proof Eb as Eb'. unfold bnx in Eb'. destruct (i_bk h b) as [k|] eqn:Ek; [|discriminate].
    assert (k_len k = Z.of_nat (length d) /\ k_data k = d /\ k_rec k = r /\ k_chain k = nb) as (-> & -> & -> & ->) by (repeat split; congruence).
    destruct (cell_fresh h) as [-> | (Pc & Fc)]; [discriminate|]. set (c := alloc_cell h) in *. destruct (Z.eqb_spec c 0) as [|_]; [lia|].
    intros X. injection X as <- <-. left. split; [reflexivity|].
    assert (NC : forall s o' a, In (o', a) (B s) -> ~ In c (map fst (C o'))).
    { intros s o' ((n & d') & r') I. apply (ll_fresh (i_cell h) r'); [|exact Fc]. eapply (v_cells _ _ _ _ _ V); eassumption. }
    exists (fset B s0 (l1 ++ (b, (Z.of_nat (length d), d, c)) :: l2)), (fset C b ((c, o) :: C b)), bo, (fset co c b).
    assert (OB : forall y, bnx (IH (i_size h) (i_head h) (fset (i_bk h) b (Some (Bk (Z.of_nat (length d)) d c nb))) (fset (i_cell h) c (Some (o, r))) (S (i_made h))) y = fset (bnx h) b (Some ((Z.of_nat (length d), d, c), nb)) y).
    { intros y. unfold bnx, fset. cbn [i_bk]. now destruct (Z.eqb_spec y b). }
    assert (OS : forall s, s <> s0 -> ~ In b (map fst (B s))).
    { intros s Ns I. apply in_map_iff in I. destruct I as ((b' & ((n & d') & r')) & X & I). cbn in X. subst b'.
      apply Ns. rewrite <- (proj1 (v_entry _ _ _ _ _ V _ _ _ _ _ I)). exact (proj1 (v_entry _ _ _ _ _ V _ _ _ _ _ I0)). }
    assert (In' : forall s o' n d' r', In (o', (n, d', r')) (fset B s0 (l1 ++ (b, (Z.of_nat (length d), d, c)) :: l2) s) ->
      (s = s0 /\ o' = b /\ n = Z.of_nat (length d) /\ d' = d /\ r' = c) \/ (o' <> b /\ In (o', (n, d', r')) (B s))).
    { intros s o' n d' r' I. destruct (Z.eq_dec s s0) as [-> | Ns].
      - rewrite fset_same in I. pose proof (v_nodup _ _ _ _ _ V s0) as ND. rewrite E, map_app in ND. cbn [map fst] in ND. apply NoDup_remove_2 in ND.
        apply in_app_or in I. destruct I as [I | [I | I]].
        + right. split; [|rewrite E; apply in_or_app; now left]. intros ->. apply ND. apply in_or_app. left. apply (in_map fst) in I. exact I.
        + left. injection I as <- <- <- <-. auto.
        + right. split; [|rewrite E; apply in_or_app; right; now right]. intros ->. apply ND. apply in_or_app. right. apply (in_map fst) in I. exact I.
      - rewrite fset_other in I by assumption. right. split; [|exact I]. intros ->. apply (OS s Ns). apply (in_map fst) in I. exact I. }
    split.
    + constructor; cbn [i_head i_cell i_made i_size].
      * intros s. destruct (Z.eq_dec s s0) as [-> | Ns].
        -- rewrite !fset_same. eapply ll_ext; [intros y Hy; apply OB|]. apply ll_payload with (a := (Z.of_nat (length d), d, r)); [| |exact Eb]; rewrite <- E; apply V.
        -- rewrite !fset_other by assumption. eapply ll_ext; [|apply V]. intros y Hy. rewrite OB. apply fset_other. intros ->. exact (OS _ Ns Hy).
      * intros s. destruct (Z.eq_dec s s0) as [-> | Ns]; [rewrite fset_same|rewrite fset_other by assumption; apply V].
        pose proof (v_nodup _ _ _ _ _ V s0) as ND. rewrite E, map_app in ND. rewrite map_app. exact ND.
      * intros s. destruct (Z.eq_dec s s0) as [-> | Ns]; [rewrite fset_same|rewrite fset_other by assumption; apply V].
        pose proof (v_data _ _ _ _ _ V s0) as ND. rewrite E, map_app in ND. rewrite map_app. exact ND.
      * intros s. pose proof (v_short _ _ _ _ _ V s) as L. destruct (Z.eq_dec s s0) as [-> | Ns]; [rewrite fset_same|rewrite fset_other by assumption; lia].
        rewrite E, app_length in L. rewrite app_length. cbn [length] in *. lia.
      * intros s o' n d' r' I. destruct (In' _ _ _ _ _ I) as [(-> & -> & -> & -> & ->) | (_ & I')]; [exact (v_entry _ _ _ _ _ V _ _ _ _ _ I0)|exact (v_entry _ _ _ _ _ V _ _ _ _ _ I')].
      * intros s o' n d' r' I. destruct (In' _ _ _ _ _ I) as [(-> & -> & -> & -> & ->) | (Q & I')].
        -- rewrite fset_same. destruct (v_cells _ _ _ _ _ V _ _ _ _ _ I0) as (L & Ne & D & Le & Ow). pose proof (NC _ _ _ I0) as NCo.
           split; [|split; [discriminate|split; [cbn [map fst]; now constructor|split; [cbn [length]; lia|]]]].
           ++ cbn [ll]. split; [reflexivity|]. split; [exact Pc|]. exists r. rewrite fset_same. split; [reflexivity|].
              eapply ll_ext; [|exact L]. intros y Hy. apply fset_other. intros ->. now apply NCo.
           ++ intros c1 x [X | I1]; [injection X as <- <-; now rewrite fset_same|].
              rewrite fset_other; [eapply Ow; exact I1|]. intros ->. apply NCo. apply (in_map fst) in I1. exact I1.
        -- rewrite (fset_other C) by assumption. destruct (v_cells _ _ _ _ _ V _ _ _ _ _ I') as (L & Ne & D & Le & Ow).
           pose proof (NC _ _ _ I') as NCo. split; [|split; [exact Ne|split; [exact D|split; [lia|]]]].
           ++ eapply ll_ext; [|exact L]. intros y Hy. apply fset_other. intros ->. now apply NCo.
           ++ intros c1 x I1. rewrite fset_other; [eapply Ow; exact I1|]. intros ->. apply NCo. apply (in_map fst) in I1. exact I1.
    + intros d'. cbn [i_size]. destruct (list_eq_dec Z.eq_dec d' d) as [-> | Nd].
      * left. exists b, (Z.of_nat (length d)), c. fold s0. rewrite fset_same. split; [apply in_or_app; right; now left|]. rewrite mset_same, fset_same. cbn [map snd]. f_equal.
        destruct (Ho d) as [(o' & n & r' & I & ->) | (_ & Nq)]; [now rewrite (proj1 (data_eq _ _ _ _ _ _ _ _ _ _ _ _ _ _ V I I0))|].
        exfalso. apply Nq. apply (in_map bdata) in I0. exact I0.
      * rewrite mset_other by assumption. destruct (Ho d') as [(o' & n & r' & I & ->) | (-> & Nq)].
        -- left. exists o', n, r'. assert (o' <> b). { intros ->. pose proof (payload_eq _ _ _ _ _ _ _ _ _ _ V I I0) as Q. congruence. }
           rewrite (fset_other C) by assumption. split; [|reflexivity]. unfold fset. destruct (Z.eqb_spec (hash_bytes d' (i_size h)) s0) as [Q | _]; [|exact I].
           rewrite Q, E in I. apply in_app_or in I. apply in_or_app. destruct I as [I | [I | I]]; [now left|congruence|right; now right].
        -- right. split; [reflexivity|]. unfold fset. destruct (Z.eqb_spec (hash_bytes d' (i_size h)) s0) as [Q | _]; [|exact Nq].
           rewrite Q, E in Nq. rewrite map_app in *. exact Nq.
Qed.
End Alloc.

(** The list without the first occurrence of a value. *)
Fixpoint remove1 (x : Z) (l : list Z) : list Z :=
  match l with [] => [] | y :: t => if y =? x then t else y :: remove1 x t end.
Lemma remove1_app x l1 l2 : ~ In x l1 -> remove1 x (l1 ++ x :: l2) = l1 ++ l2.
Proof.
  induction l1 as [|y l1 IH]; cbn [app remove1 In]; intros N; [now rewrite Z.eqb_refl|].
  destruct (Z.eqb_spec y x); [tauto|]. f_equal. apply IH. tauto.
Qed.
Lemma last_in l : l <> [] -> In (last l 0) l.
Proof.
  destruct l as [|x l]; [congruence|]. intros _. revert x. induction l as [|y l IH]; intros x; [now left|].
  change (last (x :: y :: l) 0) with (last (y :: l) 0). right. apply IH.
Qed.
Lemma unlink_other {A} (nx : Z -> option (A * Z)) prev n y : (prev <> 0 -> y <> prev) -> unlink nx prev n y = nx y.
Proof.
  unfold unlink. destruct (Z.eqb_spec prev 0) as [|N]; [reflexivity|]. intros H. destruct (nx prev) as [(a & m)|]; [|reflexivity]. apply fset_other. tauto.
Qed.

Lemma remove_content h M d o : content h M ->
  (In o (M d) /\ exists h', wg_idxhash_remove h d o = Some (h', 0) /\ content h' (mset M d (remove1 o (M d)))) \/
  (~ In o (M d) /\ wg_idxhash_remove h d o = Some (h, -1)).
Proof.
  intros (B & C & bo & co & V & Ho). unfold wg_idxhash_remove. set (s0 := hash_bytes d (i_size h)).
  destruct (find_bucket h d (B s0) (i_made h) (i_head h s0) 0 (v_chain _ _ _ _ _ V s0)) as [(N & p & F) | (l1 & b & r & l2 & E & N & F)].
  { intros o' n d' r I. apply (v_entry _ _ _ _ _ V s0 o' n d' r I). }
  { apply (v_short _ _ _ _ _ V). }
  { right. rewrite F. split; [|reflexivity]. destruct (Ho d) as [(o' & n & r & I & _) | (-> & _)]; [|intros []].
    exfalso. apply N. apply (in_map bdata) in I. exact I. }
  rewrite F. assert (I0 : In (b, (Z.of_nat (length d), d, r)) (B s0)) by (rewrite E; apply in_or_app; right; now left).
  destruct (ll_some _ _ _ _ _ (v_chain _ _ _ _ _ V s0) I0) as (P & nb & Eb).
  destruct (Z.eqb_spec b 0) as [|_]; [lia|]. pose proof Eb as Eb'. unfold bnx in Eb'. destruct (i_bk h b) as [k|] eqn:Ek; [|discriminate].
  assert (k_len k = Z.of_nat (length d) /\ k_data k = d /\ k_rec k = r /\ k_chain k = nb) as (-> & -> & -> & ->) by (repeat split; congruence).
  assert (Md : M d = map snd (C b)).
  { destruct (Ho d) as [(o' & n & r' & I & ->) | (_ & Nq)]; [now rewrite (proj1 (data_eq _ _ _ _ _ _ _ _ _ _ _ _ _ _ V I I0))|].
    exfalso. apply Nq. apply (in_map bdata) in I0. exact I0. }
  destruct (v_cells _ _ _ _ _ V _ _ _ _ _ I0) as (L & Ne & D & Le & Ow).
  destruct (find_cell_spec h o (C b) (i_made h) r 0 L Le) as [(Nc & pc & Fc) | (c1 & c & c2 & Ec & Nc & Fc)].
  { right. rewrite Fc. rewrite Md. split; [exact Nc|reflexivity]. }
  left. rewrite Fc. split; [rewrite Md, Ec, map_app; apply in_or_app; right; now left|].
  assert (Ic : In (c, o) (C b)) by (rewrite Ec; apply in_or_app; right; now left).
  destruct (ll_some _ _ _ _ _ L Ic) as (Pc & cdr & Qc). destruct (Z.eqb_spec c 0) as [|_]; [lia|]. rewrite Qc.
  set (prevc := last (map fst c1) 0) in *. set (prevb := last (map fst l1) 0) in *.
  fold (unlink (i_cell h) prevc cdr). set (cells := fset (unlink (i_cell h) prevc cdr) c None).
  set (reclist := if prevc =? 0 then cdr else r).
  rewrite Ec in D. rewrite Ec in L.
  pose proof (ll_unlink (i_cell h) c o c2 c1 r cdr L D Qc) as LC. fold prevc reclist in LC.
  assert (Dc : ~ In c (map fst (c1 ++ c2))). { rewrite map_app in D |- *. cbn [map fst] in D. now apply NoDup_remove_2 in D. }
  assert (LC2 : ll cells reclist (c1 ++ c2)).
  { eapply ll_ext; [|exact LC]. intros y Hy. unfold cells. apply fset_other. intros ->. now apply Dc. }
  assert (Hp : prevc <> 0 -> In prevc (map fst (C b))).
  { intros Np. rewrite Ec, map_app. apply in_or_app. left. apply last_in. intros Q. apply Np. unfold prevc. now rewrite Q. }
  assert (OC : forall s o' a, In (o', a) (B s) -> o' <> b -> forall y, In y (map fst (C o')) -> cells y = i_cell h y).
  { intros s o' ((n & d') & r') I No y Hy. apply in_map_iff in Hy. destruct Hy as ((y' & x) & X & Hy). cbn in X. subst y'.
    destruct (v_cells _ _ _ _ _ V _ _ _ _ _ I) as (_ & _ & _ & _ & Ow'). pose proof (Ow' _ _ Hy) as Q.
    unfold cells. rewrite fset_other, unlink_other; [reflexivity| |].
    - intros Np ->. specialize (Hp Np). apply in_map_iff in Hp. destruct Hp as ((y' & x') & X & Hp). cbn in X. subst y'. rewrite (Ow _ _ Hp) in Q. congruence.
    - intros ->. rewrite (Ow _ _ Ic) in Q. congruence. }
  assert (Mr : remove1 o (M d) = map snd (c1 ++ c2)).
  { rewrite Md, Ec, !map_app. cbn [map snd]. now apply remove1_app. }
  assert (OS : forall s, s <> s0 -> ~ In b (map fst (B s))).
  { intros s Ns I. apply in_map_iff in I. destruct I as ((b' & ((n & d') & r')) & X & I). cbn in X. subst b'.
    apply Ns. rewrite <- (proj1 (v_entry _ _ _ _ _ V _ _ _ _ _ I)). exact (proj1 (v_entry _ _ _ _ _ V _ _ _ _ _ I0)). }
  pose proof (v_nodup _ _ _ _ _ V s0) as ND. rewrite E, map_app in ND. cbn [map fst] in ND.
  pose proof (NoDup_remove_2 _ _ _ ND) as Nb. pose proof (NoDup_remove_1 _ _ _ ND) as ND1.
  pose proof (v_data _ _ _ _ _ V s0) as NDd. rewrite E, map_app in NDd. cbn [map] in NDd.
  change (bdata (b, (Z.of_nat (length d), d, r))) with d in NDd.
  pose proof (NoDup_remove_2 _ _ _ NDd) as Nd0. pose proof (NoDup_remove_1 _ _ _ NDd) as NDd1.
  pose proof (v_short _ _ _ _ _ V s0) as Ls. rewrite E, app_length in Ls. cbn [length] in Ls.
  rewrite Ec, app_length in Le. cbn [length] in Le.
  assert (D' : NoDup (map fst (c1 ++ c2))). { rewrite map_app in D |- *. cbn [map fst] in D. now apply NoDup_remove_1 in D. }
  destruct (Z.eqb_spec reclist 0) as [R0 | R0].
  - (* bucket freed *)
    assert (Cn : c1 ++ c2 = []). { destruct (c1 ++ c2) as [|(q1 & q2) q]; [reflexivity|]. cbn [ll] in LC2. lia. }
    set (bks := if prevb =? 0 then i_bk h else _).
    assert (OB : forall y hd, bnx (IH (i_size h) hd (fset bks b None) cells (i_made h)) y = fset (unlink (bnx h) prevb nb) b None y).
    { intros y hd. unfold bnx. cbn [i_bk]. unfold fset at 1. unfold fset at 1. destruct (Z.eqb_spec y b); [reflexivity|].
      unfold bks, unlink. destruct (prevb =? 0); [reflexivity|]. destruct (i_bk h prevb) as [q|]; [|reflexivity].
      unfold fset. now destruct (Z.eqb_spec y prevb). }
    assert (Hpb : prevb <> 0 -> In prevb (map fst l1)). { intros Np. apply last_in. intros Q. apply Np. unfold prevb. now rewrite Q. }
    eexists. split; [reflexivity|]. exists (fset B s0 (l1 ++ l2)), C, bo, co.
    assert (In' : forall s o' n d' r', In (o', (n, d', r')) (fset B s0 (l1 ++ l2) s) -> o' <> b /\ In (o', (n, d', r')) (B s)).
    { intros s o' n d' r' I. destruct (Z.eq_dec s s0) as [-> | Ns].
      - rewrite fset_same in I. split.
        + intros ->. apply Nb. rewrite <- map_app. apply (in_map fst) in I. exact I.
        + rewrite E. apply in_app_or in I. apply in_or_app. destruct I; [now left|right; now right].
      - rewrite fset_other in I by assumption. split; [|exact I]. intros ->. apply (OS s Ns). apply (in_map fst) in I. exact I. }
    split.
    + constructor; cbn [i_head i_cell i_made i_size].
      * intros s. destruct (Z.eq_dec s s0) as [-> | Ns].
        -- rewrite fset_same. eapply ll_ext; [intros y Hy; apply OB|]. eapply ll_ext with (nx := unlink (bnx h) prevb nb).
           { intros y Hy. apply fset_other. intros ->. apply Nb. rewrite <- map_app. exact Hy. }
           replace ((if prevb =? 0 then fset (i_head h) s0 nb else i_head h) s0) with (if prevb =? 0 then nb else i_head h s0).
           2:{ destruct (prevb =? 0); [now rewrite fset_same|reflexivity]. }
           apply (ll_unlink (bnx h) b (Z.of_nat (length d), d, r) l2 l1); [| |exact Eb]; rewrite <- E; apply V.
        -- rewrite fset_other by assumption. replace ((if prevb =? 0 then fset (i_head h) s0 nb else i_head h) s) with (i_head h s).
           2:{ destruct (prevb =? 0); [now rewrite fset_other|reflexivity]. }
           eapply ll_ext; [|apply V]. intros y Hy. rewrite OB, fset_other, unlink_other; [reflexivity| |intros ->; exact (OS _ Ns Hy)].
           intros Np ->. specialize (Hpb Np). apply Ns. apply in_map_iff in Hpb. destruct Hpb as ((y' & ((n & d') & r')) & X & Hpb). cbn in X. subst y'.
           assert (I1 : In (prevb, (n, d', r')) (B s0)) by (rewrite E; apply in_or_app; now left).
           apply in_map_iff in Hy. destruct Hy as ((y' & ((n2 & d2) & r2)) & X & Hy). cbn in X. subst y'.
           rewrite <- (proj1 (v_entry _ _ _ _ _ V _ _ _ _ _ Hy)). exact (proj1 (v_entry _ _ _ _ _ V _ _ _ _ _ I1)).
      * intros s. destruct (Z.eq_dec s s0) as [-> | Ns]; [rewrite fset_same; now rewrite map_app|rewrite fset_other by assumption; apply V].
      * intros s. destruct (Z.eq_dec s s0) as [-> | Ns]; [rewrite fset_same; now rewrite map_app|rewrite fset_other by assumption; apply V].
      * intros s. destruct (Z.eq_dec s s0) as [-> | Ns]; [rewrite fset_same, app_length; lia|rewrite fset_other by assumption; apply V].
      * intros s o' n d' r' I. destruct (In' _ _ _ _ _ I) as (_ & I'). exact (v_entry _ _ _ _ _ V _ _ _ _ _ I').
      * intros s o' n d' r' I. destruct (In' _ _ _ _ _ I) as (No & I'). destruct (v_cells _ _ _ _ _ V _ _ _ _ _ I') as (L' & Q').
        split; [|exact Q']. eapply ll_ext; [|exact L']. exact (OC _ _ _ I' No).
    + intros d'. cbn [i_size]. destruct (list_eq_dec Z.eq_dec d' d) as [-> | Nd].
      * right. rewrite mset_same, Mr, Cn. split; [reflexivity|]. fold s0. rewrite fset_same, map_app. exact Nd0.
      * rewrite mset_other by assumption. destruct (Ho d') as [(o' & n & r' & I & ->) | (-> & Nq)].
        -- left. exists o', n, r'. split; [|reflexivity]. unfold fset. destruct (Z.eqb_spec (hash_bytes d' (i_size h)) s0) as [Q | _]; [|exact I].
           rewrite Q, E in I. apply in_app_or in I. apply in_or_app. destruct I as [I | [I | I]]; [now left|congruence|now right].
        -- right. split; [reflexivity|]. unfold fset. destruct (Z.eqb_spec (hash_bytes d' (i_size h)) s0) as [Q | _]; [|exact Nq].
           rewrite Q, E in Nq. rewrite map_app in *. cbn [map] in Nq. intros X. apply Nq. apply in_app_or in X. apply in_or_app. destruct X; [now left|right; now right].
  - (* bucket stays *)
    assert (Cn : c1 ++ c2 <> []). { intros Q. rewrite Q in LC2. now apply R0. }
    assert (OB : forall y, bnx (IH (i_size h) (i_head h) (fset (i_bk h) b (Some (Bk (Z.of_nat (length d)) d reclist nb))) cells (i_made h)) y = fset (bnx h) b (Some ((Z.of_nat (length d), d, reclist), nb)) y).
    { intros y. unfold bnx, fset. cbn [i_bk]. now destruct (Z.eqb_spec y b). }
    eexists. split; [reflexivity|]. exists (fset B s0 (l1 ++ (b, (Z.of_nat (length d), d, reclist)) :: l2)), (fset C b (c1 ++ c2)), bo, co.
    assert (In' : forall s o' n d' r', In (o', (n, d', r')) (fset B s0 (l1 ++ (b, (Z.of_nat (length d), d, reclist)) :: l2) s) ->
      (s = s0 /\ o' = b /\ n = Z.of_nat (length d) /\ d' = d /\ r' = reclist) \/ (o' <> b /\ In (o', (n, d', r')) (B s))).
    { intros s o' n d' r' I. destruct (Z.eq_dec s s0) as [-> | Ns].
      - rewrite fset_same in I. apply in_app_or in I. destruct I as [I | [I | I]].
        + right. split; [|rewrite E; apply in_or_app; now left]. intros ->. apply Nb. apply in_or_app. left. apply (in_map fst) in I. exact I.
        + left. assert (b = o' /\ Z.of_nat (length d) = n /\ d = d' /\ reclist = r') as (<- & <- & <- & <-) by (repeat split; congruence). auto.
        + right. split; [|rewrite E; apply in_or_app; right; now right]. intros ->. apply Nb. apply in_or_app. right. apply (in_map fst) in I. exact I.
      - rewrite fset_other in I by assumption. right. split; [|exact I]. intros ->. apply (OS s Ns). apply (in_map fst) in I. exact I. }
    split.
    + constructor; cbn [i_head i_cell i_made i_size].
      * intros s. destruct (Z.eq_dec s s0) as [-> | Ns].
        -- rewrite !fset_same. eapply ll_ext; [intros y Hy; apply OB|]. apply ll_payload with (a := (Z.of_nat (length d), d, r)); [| |exact Eb]; rewrite <- E; apply V.
        -- rewrite !fset_other by assumption. eapply ll_ext; [|apply V]. intros y Hy. rewrite OB. apply fset_other. intros ->. exact (OS _ Ns Hy).
      * intros s. destruct (Z.eq_dec s s0) as [-> | Ns]; [rewrite fset_same|rewrite fset_other by assumption; apply V]. rewrite map_app. exact ND.
      * intros s. destruct (Z.eq_dec s s0) as [-> | Ns]; [rewrite fset_same|rewrite fset_other by assumption; apply V]. rewrite map_app. exact NDd.
      * intros s. destruct (Z.eq_dec s s0) as [-> | Ns]; [rewrite fset_same, app_length; cbn [length]; lia|rewrite fset_other by assumption; apply V].
      * intros s o' n d' r' I. destruct (In' _ _ _ _ _ I) as [(-> & -> & -> & -> & ->) | (_ & I')]; [exact (v_entry _ _ _ _ _ V _ _ _ _ _ I0)|exact (v_entry _ _ _ _ _ V _ _ _ _ _ I')].
      * intros s o' n d' r' I. destruct (In' _ _ _ _ _ I) as [(-> & -> & -> & -> & ->) | (Q & I')].
        -- rewrite fset_same. split; [exact LC2|]. split; [exact Cn|]. split; [exact D'|]. split; [rewrite app_length; lia|].
           intros y x Hy. apply Ow with x. rewrite Ec. apply in_app_or in Hy. apply in_or_app. destruct Hy; [now left|right; now right].
        -- rewrite (fset_other C) by assumption. destruct (v_cells _ _ _ _ _ V _ _ _ _ _ I') as (L' & Q').
           split; [|exact Q']. eapply ll_ext; [|exact L']. exact (OC _ _ _ I' Q).
    + intros d'. cbn [i_size]. destruct (list_eq_dec Z.eq_dec d' d) as [-> | Nd].
      * left. exists b, (Z.of_nat (length d)), reclist. fold s0. rewrite fset_same. split; [apply in_or_app; right; now left|]. rewrite mset_same, fset_same. exact Mr.
      * rewrite mset_other by assumption. destruct (Ho d') as [(o' & n & r' & I & ->) | (-> & Nq)].
        -- left. exists o', n, r'. assert (o' <> b). { intros ->. pose proof (payload_eq _ _ _ _ _ _ _ _ _ _ V I I0) as Q. congruence. }
           rewrite (fset_other C) by assumption. split; [|reflexivity]. unfold fset. destruct (Z.eqb_spec (hash_bytes d' (i_size h)) s0) as [Q | _]; [|exact I].
           rewrite Q, E in I. apply in_app_or in I. apply in_or_app. destruct I as [I | [I | I]]; [now left|congruence|right; now right].
        -- right. split; [reflexivity|]. unfold fset. destruct (Z.eqb_spec (hash_bytes d' (i_size h)) s0) as [Q | _]; [|exact Nq].
           rewrite Q, E in Nq. rewrite map_app in *. exact Nq.
Qed.
