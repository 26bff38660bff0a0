(** C30: the set-membership hash table answers membership correctly. *)
From Coq Require Import ZArith List Lia Bool.
From Verif Require Import Base DhashModel DhashProofs.
Import ListNotations.
Open Scope Z_scope.

(** For every capacity up to the largest table size and every list of non-zero keys with
    no more distinct keys than the capacity: creation and every insertion succeed
    and membership is true for exactly the inserted keys.
    Partial: the code accepts capacities up to 2147483645, see the refutation below. *)
Theorem C30_membership_partial : forall entries ks,
  0 <= entries <= 201326611 ->
  (forall l, NoDup l -> incl l ks -> Z.of_nat (length l) <= entries) ->
  ~ In 0 ks ->
  exists t0, wg_dhash_init entries = Some t0 /\
    let '(t, codes) := addkeys t0 ks in
    Forall (fun c => c = 0) codes /\
    forall k, k <> 0 -> (wg_dhash_haskey t k = true <-> In k ks).
Proof.
  intros e ks He Hl Hz. destruct (dhash_size_ok e ltac:(lia)) as [P R].
  pose proof (dhash_size_cap e ltac:(lia)) as C.
  exists (Dtable (dhash_size e) (fun _ => 0)). split.
  - unfold wg_dhash_init. destruct (Z.eqb_spec (dhash_size e) 0); [lia|reflexivity].
  - pose proof (addkeys_spec (dhash_size e) P R ks _ [] (DI_empty _) Hz) as A.
    cbn [app] in A. destruct (addkeys _ ks) as [t cs]. destruct A as (F & ks1 & I & M).
    { intros l Nl Il. specialize (Hl l Nl Il). lia. }
    split; [exact F|]. intros k Nk. rewrite (haskey_spec _ R t ks1 k I Nk), M. cbn. tauto.
Qed.
Print Assumptions C30_membership_partial.

Example C30_membership_example :
  (forall l, NoDup l -> incl l [16; 24; 16; 405] -> Z.of_nat (length l) <= 3) /\
  match wg_dhash_init 3 with
  | Some t0 => let t := fst (addkeys t0 [16; 24; 16; 405]) in
      (dsize t, wg_dhash_haskey t 16, wg_dhash_haskey t 24, wg_dhash_haskey t 405, wg_dhash_haskey t 32)
      = (389, true, true, true, false)
  | None => False
  end.
Proof.
  split; [|vm_compute; reflexivity]. intros l Nl Il.
  assert (Il' : incl l [16; 24; 405]). { intros x Hx. specialize (Il x Hx). cbn in *. tauto. }
  pose proof (NoDup_incl_length Nl Il') as L. cbn [length] in L. lia.
Qed.

(** Two keys that meet in the same slot are both found again. *)
Example C30_collision_example :
  let a := 1 in let b := 349 in
  (DHASH_H1 (rehash_gint a) 389 =? DHASH_H1 (rehash_gint b) 389) = true /\
  match wg_dhash_init 2 with
  | Some t0 => let t := fst (addkeys t0 [a; b]) in (wg_dhash_haskey t a, wg_dhash_haskey t b) = (true, true)
  | None => False
  end.
Proof. vm_compute. split; reflexivity. Qed.

(** The probe sequence visits every slot: an insertion is refused only when the
    table holds as many different keys as it has slots. *)
Theorem C30_refused_only_when_full : forall entries ks k,
  0 <= entries <= 2147483645 -> ~ In 0 ks -> k <> 0 ->
  forall t0, wg_dhash_init entries = Some t0 ->
  let '(t, codes) := addkeys t0 ks in
  Forall (fun c => c = 0) codes -> snd (wg_dhash_addkey t k) = -1 ->
  exists l, NoDup l /\ incl l ks /\ ~ In k ks /\ dhash_size entries <= Z.of_nat (length l).
Proof.
  intros e ks k He Hz Nk t0 E. destruct (dhash_size_ok e ltac:(lia)) as [P R].
  unfold wg_dhash_init in E. destruct (Z.eqb_spec (dhash_size e) 0); [discriminate|]. injection E as <-.
  assert (G : forall ks t ks0, DI (dhash_size e) t ks0 -> ~ In 0 ks ->
    let '(t', cs) := addkeys t ks in Forall (fun c => c = 0) cs ->
    exists ks1, DI (dhash_size e) t' ks1 /\ forall x, In x ks1 <-> In x ks0 \/ In x ks).
  { clear ks Hz. induction ks as [|a ks IH]; intros t ks0 I Hz; cbn [addkeys].
    - intros _. exists ks0. split; [exact I|]. cbn. tauto.
    - assert (Na : a <> 0) by (intros ->; apply Hz; now left).
      pose proof (addkey_spec _ P R t ks0 a I Na) as A. destruct (wg_dhash_addkey t a) as [t1 c]. destruct A as [A1 A2].
      assert (Hz' : ~ In 0 ks) by (intros Q; apply Hz; now right).
      destruct (in_dec Z.eq_dec a ks0) as [Ha|Ha].
      + destruct (A1 Ha) as [-> ->]. specialize (IH t ks0 I Hz'). destruct (addkeys t ks) as [t2 cs].
        intros F. inversion F; subst. destruct IH as (ks1 & I1 & M); [assumption|]. exists ks1. split; [exact I1|].
        intros x. rewrite M. cbn [In]. split; [tauto|]. intros [Q|[<-|Q]]; auto.
      + destruct (A2 Ha) as [[-> I1]|(-> & _ & _)].
        * specialize (IH t1 (a :: ks0) I1 Hz'). destruct (addkeys t1 ks) as [t2 cs].
          intros F. inversion F; subst. destruct IH as (ks1 & I2 & M); [assumption|]. exists ks1. split; [exact I2|].
          intros x. rewrite M. cbn [In]. tauto.
        * destruct (addkeys t1 ks) as [t2 cs]. intros F. inversion F; subst. discriminate. }
  specialize (G ks _ [] (DI_empty _) Hz). destruct (addkeys _ ks) as [t cs]. intros F Code.
  destruct (G F) as (ks1 & I & M). pose proof (addkey_spec _ P R t ks1 k I Nk) as A.
  destruct (wg_dhash_addkey t k) as [t' c]. cbn [snd] in Code. subst c. destruct A as [A1 A2].
  destruct (in_dec Z.eq_dec k ks1) as [Hk|Hk]; [destruct (A1 Hk); discriminate|].
  destruct (A2 Hk) as [[Q _]|(_ & _ & L)]; [discriminate|].
  exists ks1. split; [apply (di_nd _ _ _ I)|]. split; [|split; [|exact L]].
  - intros x Hx. apply M in Hx. cbn in Hx. tauto.
  - intros Q. apply Hk. apply M. now right.
Qed.
Print Assumptions C30_refused_only_when_full.

(** The hypotheses are reached: a full table of 389 slots refuses one more key. *)
Example C30_full_example :
  match wg_dhash_init 100 with
  | Some t0 => let '(t, codes) := addkeys t0 (map Z.of_nat (seq 1 389)) in
      forallb (fun c => c =? 0) codes = true /\ snd (wg_dhash_addkey t 390) = -1
  | None => False
  end.
Proof. vm_compute. split; reflexivity. Qed.

(** Capacities above 201326611 are accepted but not provided: only the first 20 of
    the 25 primes are used, so a table made for [entries] keys refuses some of them. *)
Theorem C30_capacity_refuted : forall entries ks,
  201326611 < entries <= 2147483645 ->
  NoDup ks -> ~ In 0 ks -> Z.of_nat (length ks) = entries ->
  exists t0, wg_dhash_init entries = Some t0 /\ In (-1) (snd (addkeys t0 ks)).
Proof.
  intros e ks He N Hz L. destruct (dhash_size_ok e ltac:(lia)) as [P R].
  exists (Dtable (dhash_size e) (fun _ => 0)). split.
  - unfold wg_dhash_init. destruct (Z.eqb_spec (dhash_size e) 0); [lia|reflexivity].
  - pose proof (addkeys_full (dhash_size e) P R ks _ [] (DI_empty _) Hz) as A.
    destruct (addkeys _ ks) as [t cs]. apply A; cbn [app length Nat.add]; [exact N|lia|lia].
Qed.
Print Assumptions C30_capacity_refuted.

(** Such lists of keys exist for every capacity. *)
Example C30_capacity_example : forall e, 0 <= e ->
  let ks := map Z.of_nat (seq 1 (Z.to_nat e)) in
  NoDup ks /\ ~ In 0 ks /\ Z.of_nat (length ks) = e.
Proof.
  intros e He. cbv zeta. split; [|split].
  - apply NoDup_map_seq. intros; lia.
  - intros Q. apply in_map_iff in Q. destruct Q as (x & E & Hx). apply in_seq in Hx. lia.
  - rewrite map_length, seq_length. lia.
Qed.

(** Key 0 marks an empty slot and is always reported as present. *)
Theorem C30_zero_key_always_present :
  match wg_dhash_init 10 with Some t0 => wg_dhash_haskey t0 0 = true | None => False end.
Proof. vm_compute. reflexivity. Qed.
Print Assumptions C30_zero_key_always_present.
