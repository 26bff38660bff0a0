(** C31: the extendible hash table is a map. *)
From Coq Require Import ZArith List Lia Bool.
From Verif Require Import Base DhashModel GinthashModel GinthashProofs.
Import ListNotations.
Open Scope Z_scope.
Lemma scramble_eq k : scramble k = rehash_gint k.
Proof. reflexivity. Qed.
Local Opaque rehash_gint scramble.

Lemma gadds_GI l : forall t m,
  GI t m 0 -> NoDup (map fst l) -> (forall k, In k (map fst l) -> ~ In k (map fst m)) ->
  exists t' cs m', gadds t l = Some (t', cs) /\ GI t' m' 0 /\ length cs = length l /\
    incl m m' /\ incl m' (m ++ l) /\
    (forall k v, In ((k, v), 0) (combine l cs) -> In (k, v) m') /\
    (In (-1) cs -> exists es r, (8 <= length es)%nat /\ NoDup (map fst es) /\ incl es (m ++ l) /\
        forall k v, In (k, v) es -> scramble k mod 2 ^ 22 = r) /\
    Forall (fun c => c = 0 \/ c = -1) cs.
Proof.
  induction l as [|[k v] l IH]; intros t m G N F; cbn [gadds].
  - exists t, [], m. rewrite app_nil_r.
    split; [reflexivity|]. split; [exact G|]. split; [reflexivity|]. split; [apply incl_refl|]. split; [apply incl_refl|].
    split; [intros k v []|].
    split; [intros []|constructor].
  - cbn [map fst] in N, F. inversion N as [|? ? Nk Nl]; subst.
    pose proof (addkey_spec t m k v G (F k (or_introl eq_refl))) as A.
    assert (Step : forall t1 m1 c, GI t1 m1 0 -> incl m m1 -> incl m1 ((k, v) :: m) ->
      (c = 0 /\ In (k, v) m1 \/ c = -1 /\ exists es r, (8 <= length es)%nat /\ NoDup (map fst es) /\ incl es (m ++ (k, v) :: l) /\
        forall k v, In (k, v) es -> scramble k mod 2 ^ 22 = r) ->
      exists t' cs m', match gadds t1 l with Some (t2, cs) => Some (t2, c :: cs) | None => None end = Some (t', cs) /\ GI t' m' 0 /\ length cs = length ((k, v) :: l) /\
       incl m m' /\ incl m' (m ++ (k, v) :: l) /\
       (forall k0 v0, In ((k0, v0), 0) (combine ((k, v) :: l) cs) -> In (k0, v0) m') /\
       (In (-1) cs -> exists es r, (8 <= length es)%nat /\ NoDup (map fst es) /\ incl es (m ++ (k, v) :: l) /\
        forall k v, In (k, v) es -> scramble k mod 2 ^ 22 = r) /\
       Forall (fun c => c = 0 \/ c = -1) cs).
    { intros t1 m1 c G1 I1 I2 C.
      assert (I3 : incl (m1 ++ l) (m ++ (k, v) :: l)).
      { intros x Hx. apply in_app_iff in Hx. apply in_or_app. destruct Hx as [Hx|Hx]; [|right; now right].
        destruct (I2 x Hx) as [<-|Q]; [right; now left|now left]. }
      destruct (IH t1 m1 G1 Nl) as (t' & cs & m' & -> & G' & L & J1 & J2 & J3 & J4 & J5).
      { intros x Hx Q. apply in_map_iff in Q. destruct Q as ([x' y] & Ex & Q). cbn [fst] in Ex. subst x'.
        destruct (I2 _ Q) as [E|Q']; [injection E as -> ->; contradiction|].
        apply (F x (or_intror Hx)). apply in_map_iff. exists (x, y). auto. }
      exists t', (c :: cs), m'. split; [reflexivity|]. split; [exact G'|]. split; [cbn [length]; lia|].
      split; [eapply incl_tran; eauto|]. split; [eapply incl_tran; eauto|]. split; [|split].
      - cbn [combine]. intros k0 v0 [E|H]; [|auto]. injection E as -> -> ->. destruct C as [[_ C]|[C _]]; [auto|discriminate].
      - intros [E|H].
        + destruct C as [[C _]|[_ C]]; [lia|exact C].
        + destruct (J4 H) as (es & r & E1 & E2 & E3 & E4). exists es, r. repeat split; auto. eapply incl_tran; eauto.
      - constructor; [destruct C as [[C _]|[C _]]; auto|exact J5]. }
    destruct (wg_ginthash_addkey t k v) as [u t1|t1|]; [| |contradiction].
    + apply (Step t1 ((k, v) :: m) 0 A); [apply incl_tl, incl_refl|apply incl_refl|]. left. split; [reflexivity|now left].
    + destruct A as [(m1 & G1 & I1 & I2) (s & Hs & Hn & Hl & Hb)].
      apply (Step t1 m1 (-1) G1 I1 I2). right. split; [reflexivity|].
      pose proof (gi_slot' _ _ _ s G1 Hs Hn) as S.
      exists (ents (gheap t1 (gdir t1 s))), (s mod 2 ^ 22). split; [exact Hl|]. split; [apply (so_nd _ _ _ S)|]. split.
      * intros [k0 v0] Hx. assert (Q : In (k0, v0) m1) by (apply (gi_map _ _ _ G1); exists s; auto).
        destruct (I2 _ Q) as [<-|Q']; apply in_or_app; [right; now left|now left].
      * intros k0 v0 Hx. pose proof (so_ent _ _ _ S k0 v0 Hx) as E. rewrite Hb in E. exact E.
Qed.

Lemma functional (l : list (Z * Z)) k v v' : NoDup (map fst l) -> In (k, v) l -> In (k, v') l -> v = v'.
Proof.
  induction l as [|[a b] l IH]; cbn [map fst]; intros N H H'; [contradiction|]. inversion N as [|? ? Na Nl]; subst.
  destruct H as [H|H]; destruct H' as [H'|H'].
  - congruence.
  - injection H as -> ->. exfalso. apply Na. apply in_map_iff. exists (k, v'). auto.
  - injection H' as -> ->. exfalso. apply Na. apply in_map_iff. exists (k, v). auto.
  - eauto.
Qed.

(** For every sequence of insertions of distinct keys: no access outside the
    directory and no endless split loop; every key whose insertion reported
    success is found with its value; nothing else than given pairs is found. *)
Theorem C31_map : forall l, NoDup (map fst l) ->
  exists t0 t codes, wg_ginthash_init = Some t0 /\ gadds t0 l = Some (t, codes) /\ length codes = length l /\
    (forall k v, In ((k, v), 0) (combine l codes) -> wg_ginthash_getkey t k = Some v) /\
    (forall k v, wg_ginthash_getkey t k = Some v -> In (k, v) l) /\
    (forall k, ~ In k (map fst l) -> wg_ginthash_getkey t k = None).
Proof.
  intros l N. destruct init_GI as (t0 & E0 & G0).
  destruct (gadds_GI l t0 [] G0 N) as (t & cs & m & E & G & L & _ & I & H & _); [intros k _ []|].
  cbn [app] in I. exists t0, t, cs. split; [exact E0|]. split; [exact E|]. split; [exact L|].
  assert (Back : forall k v, wg_ginthash_getkey t k = Some v -> In (k, v) l).
  { intros k v Q. apply I. eapply getkey_in; eauto. }
  split; [|split; [exact Back|]].
  - intros k v Q. apply H in Q. destruct (getkey_some t m 0 k v G Q) as [v' Ev]. rewrite Ev. f_equal.
    symmetry. apply (functional l k); auto.
  - intros k Nk. destruct (wg_ginthash_getkey t k) eqn:Q; [|reflexivity]. exfalso. apply Nk.
    apply Back in Q. apply in_map_iff. exists (k, z). auto.
Qed.
Print Assumptions C31_map.

(** An insertion can be refused only when eight of the keys agree in the low 22
    bits of their hash; otherwise every key is stored. *)
Theorem C31_complete : forall l, NoDup (map fst l) ->
  (forall es r, NoDup (map fst es) -> incl es l ->
     (forall k v, In (k, v) es -> rehash_gint k mod 2 ^ 22 = r) -> (length es <= 7)%nat) ->
  exists t0 t codes, wg_ginthash_init = Some t0 /\ gadds t0 l = Some (t, codes) /\
    Forall (fun c => c = 0) codes /\
    forall k v, wg_ginthash_getkey t k = Some v <-> In (k, v) l.
Proof.
  intros l N F. destruct (C31_map l N) as (t0 & t & cs & E0 & E & L & H1 & H2 & _).
  destruct init_GI as (t0' & E0' & G0). rewrite E0 in E0'. injection E0' as <-.
  destruct (gadds_GI l t0 [] G0 N) as (t' & cs' & m & E' & G & L' & _ & I & H & Bad & All); [intros k _ []|].
  rewrite E in E'. injection E' as <- <-. cbn [app] in Bad.
  exists t0, t, cs. split; [exact E0|]. split; [exact E|].
  assert (Ok : Forall (fun c => c = 0) cs).
  { apply Forall_forall. intros c Hc. rewrite Forall_forall in All. destruct (All c Hc) as [Q|Q]; [exact Q|exfalso].
    subst c. destruct (Bad Hc) as (es & r & B1 & B2 & B3 & B4). assert (Fl : (length es <= 7)%nat); [|lia].
    apply (F es r B2 B3). intros k v Hk. rewrite <- scramble_eq. exact (B4 k v Hk). }
  split; [exact Ok|]. intros k v. split; [apply H2|]. intros Hin. apply H1. clear - L Ok Hin.
  revert cs L Ok. induction l as [|a l IH]; intros [|c cs] L Ok; cbn [length] in L; try lia; [contradiction|].
  inversion Ok; subst. destruct Hin as [->|Hin]; cbn [combine]; [now left|right]. apply IH; auto.
Qed.
Print Assumptions C31_complete.

(** Several splits and directory doublings: 200 keys, all found. *)
Example C31_example :
  let l := map (fun i => (8 * Z.of_nat i, Z.of_nat i)) (seq 1 200) in
  match wg_ginthash_init with
  | Some t0 => match gadds t0 l with
     | Some (t, codes) => (4 <? glevel t) && (30 <? nextb t) && forallb (fun c => c =? 0) codes
          && forallb (fun e => match wg_ginthash_getkey t (fst e) with Some v => v =? snd e | None => false end) l
          && match wg_ginthash_getkey t 4 with Some _ => false | None => true end
     | None => false end
  | None => false
  end = true.
Proof. vm_compute. reflexivity. Qed.

(** The hypothesis of C31_complete is needed: of nine keys agreeing in the low 22
    bits of the hash the eighth is refused (but stays stored) and the ninth is
    refused and not stored. *)
Example C31_refusal_example :
  let ks := [21672; 3254901008; 2902580896; 1594043072; 3003371016; 3624192000; 2533674928; 688217616; 2164719560] in
  match wg_ginthash_init with
  | Some t0 => match gadds t0 (map (fun k => (k, k + 1)) ks) with
     | Some (t, codes) => (codes, glevel t, wg_ginthash_getkey t 21672, wg_ginthash_getkey t 688217616, wg_ginthash_getkey t 2164719560)
         = ([0; 0; 0; 0; 0; 0; 0; -1; -1], 22, Some 21673, Some 688217617, None)
     | None => False end
  | None => False
  end.
Proof. vm_compute. reflexivity. Qed.

(** Hypotheses of C31_complete met by a small non-trivial list. *)
Example C31_complete_example :
  let l := [(8, 100); (16, 200); (1048576, 300)] in
  NoDup (map fst l) /\
  (forall es r, NoDup (map fst es) -> incl es l ->
     (forall k v, In (k, v) es -> rehash_gint k mod 2 ^ 22 = r) -> (length es <= 7)%nat).
Proof.
  cbv zeta. split; [repeat constructor; cbn; lia|]. intros es r N I _.
  pose proof (NoDup_incl_length (NoDup_map_inv fst es N) I) as L. cbn [length] in L. lia.
Qed.
