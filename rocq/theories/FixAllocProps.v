(** Property C17. *)
From Coq Require Import ZArith List Bool Lia.
From Verif Require Import Base FixAllocModel FixAllocSpec FixAllocProofs.
Import ListNotations.
Open Scope Z_scope.

(** C17: a cell handed out overlaps no live cell, is aligned and lies in the
    used part of the segment. *)
Theorem C17_fresh_cell : forall hdr size objlen s live s' r,
  params_ok hdr size objlen -> freach hdr size objlen (s, live) ->
  wg_alloc_fixlen_object s = (s', r) -> r <> 0 ->
  ~ In r live /\ (forall o, In o live -> ~ overlap r o objlen) /\
  r mod 8 = 0 /\ hdr <= r /\ r + objlen <= fs_free s' /\ fs_free s' < size.
Proof. exact fix_alloc_fresh. Qed.
Print Assumptions C17_fresh_cell.

(** C17: live cells stay pairwise disjoint. *)
Theorem C17_live_disjoint : forall hdr size objlen s live,
  params_ok hdr size objlen -> freach hdr size objlen (s, live) ->
  NoDup live /\
  (forall o1 o2, In o1 live -> In o2 live -> o1 <> o2 -> ~ overlap o1 o2 objlen).
Proof. exact fix_nodup_live. Qed.
Print Assumptions C17_live_disjoint.

(** C17: requests and releases do not touch the contents of other live cells. *)
Theorem C17_contents_kept : forall hdr size objlen s live o a,
  params_ok hdr size objlen -> freach hdr size objlen (s, live) -> In o live -> o <= a < o + objlen ->
  (forall s' r, wg_alloc_fixlen_object s = (s', r) -> fs_mem s' a = fs_mem s a) /\
  (forall o', In o' live -> o <> o' -> fs_mem (wg_free_fixlen_object s o') a = fs_mem s a).
Proof.
  intros hdr size objlen s live o a P R Ho Ha. split.
  - intros s' r E. exact (fix_alloc_keeps _ _ _ _ _ _ _ _ _ P R E Ho Ha).
  - intros o' Ho' Hne. exact (fix_free_keeps _ _ _ _ _ _ _ _ P R Ho' Ho Hne Ha).
Qed.
Print Assumptions C17_contents_kept.

(** C17: while some cell of the area is not live, a request succeeds without
    taking more of the segment. *)
Theorem C17_reuse_before_growth : forall hdr size objlen s live,
  params_ok hdr size objlen -> freach hdr size objlen (s, live) ->
  (exists c, is_cell s c /\ ~ In c live) ->
  exists s' r, wg_alloc_fixlen_object s = (s', r) /\ r <> 0 /\ is_cell s r /\ ~ In r live /\
    fs_free s' = fs_free s /\ fs_subs s' = fs_subs s.
Proof.
  intros hdr size objlen s live P R H. destruct (fix_reuse _ _ _ _ _ P R H) as (r & E & Hr & Hc & Hl).
  eexists _, r. split; [exact E|]. auto.
Qed.
Print Assumptions C17_reuse_before_growth.

(** Cells of 32 bytes: three requests, one release, one request gets the
    released cell again. *)
Definition ex_run : option (list Z) :=
  match init_fix_area (fun _ => 7) 64 100000 32 with
  | None => None
  | Some s0 =>
      let '(s1, a) := wg_alloc_fixlen_object s0 in
      let '(s2, b) := wg_alloc_fixlen_object s1 in
      let '(s3, c) := wg_alloc_fixlen_object s2 in
      let '(s4, d) := wg_alloc_fixlen_object (wg_free_fixlen_object s3 b) in
      Some [a; b; c; d]
  end.
Example C17_ex : params_ok 64 100000 32 /\ ex_run = Some [64; 96; 128; 96] /\
  exists s, freach 64 100000 32 (s, [128; 64]) .
Proof.
  split; [unfold params_ok; repeat split; lia|]. split; [vm_compute; reflexivity|].
  destruct (init_fix_area (fun _ => 7) 64 100000 32) as [s0|] eqn:E0; [|vm_compute in E0; discriminate].
  destruct (wg_alloc_fixlen_object s0) as (s1, a) eqn:E1.
  destruct (wg_alloc_fixlen_object s1) as (s2, b) eqn:E2.
  destruct (wg_alloc_fixlen_object s2) as (s3, c) eqn:E3.
  destruct (wg_alloc_fixlen_object (wg_free_fixlen_object s3 b)) as (s4, d) eqn:E4.
  assert (Hrun : ex_run = Some [a; b; c; d]) by (unfold ex_run; rewrite E0, E1, E2, E3, E4; reflexivity).
  assert (Hv : ex_run = Some [64; 96; 128; 96]) by (vm_compute; reflexivity).
  rewrite Hrun in Hv. injection Hv as -> -> -> ->.
  exists (wg_free_fixlen_object s3 96).
  assert (I0 := FInit 64 100000 32 _ _ E0).
  assert (I1 := FStep _ _ _ _ _ _ I0 (FAlloc _ _ _ _ E1)).
  assert (I2 := FStep _ _ _ _ _ _ I1 (FAlloc _ _ _ _ E2)).
  assert (I3 := FStep _ _ _ _ _ _ I2 (FAlloc _ _ _ _ E3)).
  cbn [Z.eqb Pos.eqb] in I1, I2, I3.
  exact (FStep _ _ _ _ _ _ I3 (FFree s3 [128] 96 [64])).
Qed.

(** C17: the array of subareas is not overrun. *)
Lemma init_sub_subs s n s' : init_db_subarea s n = Some s' -> length (fs_subs s') = S (length (fs_subs s)).
Proof.
  unfold init_db_subarea. destruct (n <? MINIMAL_SUBAREA_SIZE); [discriminate|]. destruct (alloc_db_segmentchunk _ _ _) as (c & f). destruct (c =? 0); [discriminate|].
  intros E. injection E as <-. reflexivity.
Qed.
Lemma make_free_subs s : fs_subs (make_subarea_freelist s) = fs_subs s.
Proof. unfold make_subarea_freelist. destruct (fs_subs s) eqn:E; [exact E|]. reflexivity. Qed.
Lemma extend_try_subs n : forall s z s', extend_try n s z = Some s' -> length (fs_subs s') = S (length (fs_subs s)).
Proof.
  induction n as [|n IH]; intros s z s'; cbn [extend_try]; [discriminate|]. destruct (z >=? MINIMAL_SUBAREA_SIZE); [|discriminate].
  destruct (init_db_subarea s z) eqn:E; [|apply IH]. intros E'. injection E' as <-. exact (init_sub_subs _ _ _ E).
Qed.
Theorem C17_subarea_array hdr size objlen s live : freach hdr size objlen (s, live) -> Z.of_nat (length (fs_subs s)) <= 64.
Proof.
  intros R. remember (s, live) as c eqn:Ec. revert s live Ec. induction R as [m s0 E|c op c' R IH St]; intros s live Ec.
  - injection Ec as <- <-. unfold init_fix_area in E. destruct (init_db_subarea _ _) as [s1|] eqn:E1; [|discriminate]. injection E as <-. rewrite make_free_subs, (init_sub_subs _ _ _ E1). cbn. lia.
  - destruct St as [s0 l0 s1 r E|s0 l1 o l2|s0 l0 a v H|s0 l0 m0 H|s0 l0 req c0 free' H E]; injection Ec as <- <-; specialize (IH _ _ eq_refl); try exact IH.
    unfold wg_alloc_fixlen_object in E. destruct (fs_freelist s0 =? 0); [|injection E as <- _; exact IH].
    destruct (extend_fixedlen_area s0) as [s2|] eqn:E2; [|injection E as <- _; exact IH].
    assert (L : Z.of_nat (length (fs_subs s2)) <= 64).
    { unfold extend_fixedlen_area in E2. destruct (fs_subs s0) as [|u l] eqn:Es; [discriminate|]. rewrite <- Es in *. destruct (Z.geb_spec (Z.of_nat (length (fs_subs s0)) - 1 + 1) SUBAREA_ARRAY_SIZE) as [|Hl]; [discriminate|].
      destruct (extend_try _ _ _) as [s3|] eqn:E3; [|discriminate]. injection E2 as <-. rewrite make_free_subs, (extend_try_subs _ _ _ _ E3). unfold SUBAREA_ARRAY_SIZE in Hl. lia. }
    destruct (fs_freelist s2 =? 0); injection E as <- _; exact L.
Qed.
Print Assumptions C17_subarea_array.
