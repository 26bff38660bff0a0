(** Properties C60 and C61: attaching to databases in shared memory. *)
From Coq Require Import ZArith List Bool Lia Arith.
From Verif Require Import Base ConcLib AttachModel AttachProofs.
Import ListNotations.
Open Scope Z_scope.
#[local] Ltac Zify.zify_post_hook ::= idtac.

(** ** C60 *)
(** Whoever got a handle uses a segment that is completely set up, by a program of the same version, of the
    size asked for, and with a journal if that was asked for. *)
Theorem C60_handle vers es i c g a : nth_error (st_clients (run (start vers) es)) i = Some c -> In (g, a) (c_held c) ->
  exists s, nth_error (segs (st_world (run (start vers) es))) g = Some s /\ s_mark s = MEMSEGMENT_MAGIC_MARK /\ s_parts s = INIT_PARTS /\
    s_ver s = c_ver c /\ a_min a <= s_size s /\ (a_log a = true -> s_log s = true).
Proof.
  intros Ec Ih. destruct (inv_run vers es) as (_ & Cl & _). destruct (Cl i c Ec) as (_ & Hd). rewrite Forall_forall in Hd. destruct (Hd _ Ih) as ((s & Es & M & P & Sz) & L & s2 & E2 & V). cbn [fst snd] in *.
  rewrite Es in E2. injection E2 as <-. exists s. repeat split; auto. intros La. destruct (L La) as (s3 & E3 & Q). rewrite Es in E3. now injection E3 as <-.
Qed.
Print Assumptions C60_handle.
(** It stays so whatever happens later, also when the database is deleted: nobody sets it up again. *)
Lemma ready_forever es : forall s g m, inv s -> ready (st_world s) g m -> exists x y, nth_error (segs (st_world s)) g = Some x /\ nth_error (segs (st_world (run s es))) g = Some y /\ same_data x y.
Proof.
  induction es as [|e es IH]; intros s g m V R.
  - destruct R as (x & E & _). exists x, x. split; [exact E|]. split; [exact E|apply same_refl].
  - pose proof V as (W & Cl & _). pose proof R as (x & E & _). assert (exists y, nth_error (segs (st_world (event_step s e))) g = Some y /\ same_data x y /\ ready (st_world (event_step s e)) g m) as (y & Ey & D & R').
    { destruct e as [j k|j b]; cbn [event_step]; destruct (nth_error (st_clients s) j) as [d|] eqn:Ed; try (exists x; split; [exact E|split; [apply same_refl|exact R]]).
      destruct (cstep b (st_world s) d) as (w', d') eqn:Eb. destruct (step_ok b _ d w' d' W (Cl j d Ed) Eb) as (_ & _ & Kp & _). pose proof (ready_not_owned _ d _ _ (proj1 (Cl j d Ed)) R) as No. cbn [st_world]. pose proof (keeps_ready _ _ _ _ _ Kp No R) as R'. destruct Kp as (_ & K). destruct (K _ x E No) as (y & Ey & [-> | (_ & D)]); [exists x; split; [exact Ey|split; [apply same_refl|exact R']]|exists y; auto]. }
    destruct (IH (event_step s e) g m (inv_step s e V) R') as (y' & z & E1 & E2 & D2). rewrite Ey in E1. injection E1 as <-. exists x, z. split; [exact E|]. split; [exact E2|]. destruct D as (D1 & D3 & D4 & D5 & D6). destruct D2 as (F1 & F3 & F4 & F5 & F6). repeat split; try congruence. auto.
Qed.
Lemma run_app s es es' : run s (es ++ es') = run (run s es) es'.
Proof. apply fold_left_app. Qed.
Theorem C60_kept vers es es' i c g a s s' : nth_error (st_clients (run (start vers) es)) i = Some c -> In (g, a) (c_held c) ->
  nth_error (segs (st_world (run (start vers) es))) g = Some s -> nth_error (segs (st_world (run (start vers) (es ++ es')))) g = Some s' ->
  s_mark s' = s_mark s /\ s_ver s' = s_ver s /\ s_size s' = s_size s /\ s_parts s' = s_parts s.
Proof.
  intros Ec Ih Es Es'. pose proof (inv_run vers es) as V. pose proof V as (_ & Cl & _). destruct (Cl i c Ec) as (_ & Hd). rewrite Forall_forall in Hd. destruct (Hd _ Ih) as (R & _).
  destruct (ready_forever es' _ _ _ V R) as (x & y & E1 & E2 & D). cbn [fst] in *. rewrite Es in E1. injection E1 as <-. rewrite run_app, E2 in Es'. injection Es' as <-. destruct D as (D1 & D2 & D3 & D4 & _). auto.
Qed.
Print Assumptions C60_kept.
(** A segment is set up by one client only, and not while somebody has a handle for it. *)
Theorem C60_once vers es i c g a size : nth_error (st_clients (run (start vers) es)) i = Some c -> c_pc c = Init a g size ->
  forall j d, nth_error (st_clients (run (start vers) es)) j = Some d ->
    (forall a', ~ In (g, a') (c_held d)) /\ (forall a' size', c_pc d = Init a' g size' -> j = i).
Proof.
  intros Ec Pc j d Ed. destruct (inv_run vers es) as (_ & Cl & Un). split.
  - intros a' Ih. destruct (Cl j d Ed) as (_ & Hd). rewrite Forall_forall in Hd. destruct (Hd _ Ih) as (R & _). apply (ready_not_owned _ c _ _ (proj1 (Cl i c Ec)) R). rewrite Pc. reflexivity.
  - intros a' size' Pd. apply (Un j i d c g Ed Ec); [rewrite Pd|rewrite Pc]; reflexivity.
Qed.
Print Assumptions C60_once.

(** A call that is not disturbed. [steps i n]: client [i] goes on, all system calls succeed. *)
Definition steps (i n : nat) : list event := repeat (Step i Yes) n.
Definition moved (w w' : world) (c c' : client) (n : nat) : Prop :=
  forall i cl, nth_error cl i = Some c -> run (State w cl) (steps i n) = State w' (lset i c' cl).
Lemma lset_lset {A} i (x y : A) l : lset i x (lset i y l) = lset i x l.
Proof. revert i. induction l as [|b l IH]; intros [|i]; cbn; auto. now rewrite IH. Qed.
Lemma lset_nth {A} i (x : A) l : nth_error l i = Some x -> lset i x l = l.
Proof. revert i. induction l as [|b l IH]; intros [|i] E; cbn in *; try discriminate; [now injection E as ->|]. now rewrite IH. Qed.
Lemma moved_one w w' c c' : cstep Yes w c = (w', c') -> moved w w' c c' 1.
Proof. intros E i cl Ei. unfold run, steps. cbn [repeat fold_left event_step st_clients st_world]. now rewrite Ei, E. Qed.
Lemma moved_app w w1 w2 c c1 c2 n m : moved w w1 c c1 n -> moved w1 w2 c1 c2 m -> moved w w2 c c2 (n + m).
Proof.
  intros H1 H2 i cl Ei. unfold steps. rewrite repeat_app. fold (steps i n). fold (steps i m). rewrite run_app, (H1 i cl Ei), (H2 i (lset i c1 cl) (nth_lset_same i c1 c cl Ei)). now rewrite lset_lset.
Qed.
Lemma moved_stay w c n : c_pc c = Idle -> moved w w c c n.
Proof.
  intros P i cl Ei. induction n as [|n IH]; [unfold run, steps; cbn; now rewrite lset_nth|]. unfold run, steps. cbn [repeat fold_left event_step st_clients st_world]. rewrite Ei. unfold cstep at 1. rewrite P. rewrite (lset_nth i c cl Ei). rewrite <- (lset_nth i c cl Ei) at 2. exact IH.
Qed.
Ltac one := apply moved_one; unfold cstep; cbn [c_pc goto map_seg return_ give is_yes segs keys a_key]; try reflexivity.
(** Attaching to a database that is set up, large enough and of the same version gives a handle for it and
    changes nothing. *)
Theorem C60_existing w cl i c key minsize size create logging g s : nth_error cl i = Some c -> c_pc c = Idle ->
  keys w (the_key key) = Some g -> nth_error (segs w) g = Some s -> s_mark s = MEMSEGMENT_MAGIC_MARK -> s_ver s = c_ver c -> minsize <= s_size s ->
  (logging = true -> s_log s = true) -> forall n, (7 <= n)%nat ->
  exists c', run (State w cl) (Begin i (Attach key minsize size create logging) :: steps i n) = State w (lset i c' cl) /\
    c_pc c' = Idle /\ c_last c' = Some (Handle g) /\ c_held c' = (g, attach_args key minsize size create logging) :: c_held c.
Proof.
  intros Ei Pi Ek Es M V Sz Lg n Hn. set (a := attach_args key minsize size create logging). assert (Ka : a_key a = the_key key) by reflexivity.
  assert (B : begin c (Attach key minsize size create logging) = goto c (Link a)) by (unfold begin; rewrite Pi; reflexivity).
  set (c1 := map_seg (goto c (Link a)) g (Check a g)). exists (give c1 g a). split; [|split; [|split]; reflexivity].
  unfold run. cbn [fold_left event_step st_clients st_world]. rewrite Ei, B. rewrite <- (lset_lset i (give c1 g a) (goto c (Link a)) cl).
  assert (Mv : moved w w (goto c (Link a)) (give c1 g a) n); [|apply Mv; now apply (nth_lset_same i _ c)].
  replace n with (1 + (1 + (1 + (1 + (1 + (1 + (1 + (n - 7))))))))%nat by lia.
  apply (moved_app w w w _ (goto c (LinkAt a g))). { one. rewrite Ka, Ek. reflexivity. }
  apply (moved_app w w w _ c1). { one. }
  apply (moved_app w w w _ (goto c1 (CheckSize a g))). { one. cbn [c1 map_seg c_pc]. rewrite Es, M. reflexivity. }
  apply (moved_app w w w _ (goto c1 (CheckLog a g))). { one. rewrite Es. unfold a, attach_args. cbn [a_min]. destruct (Z.ltb_spec minsize 0); [reflexivity|]. destruct (Z.ltb_spec (s_size s) minsize); [lia|]. now rewrite andb_false_r. }
  apply (moved_app w w w _ (goto c1 (MemMode a g))). { one. rewrite Es. cbn [a_log]. unfold a, attach_args. cbn [a_log]. destruct logging; [rewrite (Lg eq_refl)|]; reflexivity. }
  apply (moved_app w w w _ (goto c1 (Compat a g))). { one. }
  apply (moved_app w w w _ (give c1 g a)). { one. rewrite Es, M, V. cbn [c1 map_seg goto c_ver]. rewrite !Z.eqb_refl. reflexivity. }
  now apply moved_stay.
Qed.
Print Assumptions C60_existing.
Lemma lset_last {A} (l : list A) x y : lset (length l) x (l ++ [y]) = l ++ [x].
Proof. induction l as [|b l IH]; [reflexivity|]. cbn. now rewrite IH. Qed.
Lemma nth_last {A} (l : list A) x : nth_error (l ++ [x]) (length l) = Some x.
Proof. now rewrite nth_error_app2, Nat.sub_diag. Qed.
(** Where there is no database, one is made with the size and version asked for. *)
Theorem C60_new w cl i c key minsize size logging : nth_error cl i = Some c -> c_pc c = Idle -> keys w (the_key key) = None -> forall n, (23 <= n)%nat ->
  let a := attach_args key minsize size true logging in
  exists c', run (State w cl) (Begin i (Attach key minsize size true logging) :: steps i n) =
      State (World (fun k => if k =? the_key key then Some (length (segs w)) else keys w k)
               (segs w ++ [Seg MEMSEGMENT_MAGIC_MARK (c_ver c) (if a_size a =? 0 then DEFAULT_MEMDBASE_SIZE else a_size a) logging INIT_PARTS])) (lset i c' cl) /\
    c_pc c' = Idle /\ c_last c' = Some (Handle (length (segs w))) /\ c_held c' = (length (segs w), a) :: c_held c.
Proof.
  intros Ei Pi Ek n Hn a. assert (Ka : a_key a = the_key key) by reflexivity. set (g := length (segs w)). fold (first_size a). set (sz := first_size a).
  assert (B : begin c (Attach key minsize size true logging) = goto c (Link a)) by (unfold begin; rewrite Pi; reflexivity).
  set (wk := fun s => World (fun k => if k =? the_key key then Some g else keys w k) (segs w ++ [s])).
  set (c1 := map_seg (goto c (CreateAt a g sz)) g (Init a g sz)). exists (give c1 g a). split; [|split; [|split]; reflexivity].
  unfold run. cbn [fold_left event_step st_clients st_world]. rewrite Ei, B. rewrite <- (lset_lset i (give c1 g a) (goto c (Link a)) cl).
  change (World (fun k => if k =? the_key key then Some g else keys w k) (segs w ++ [Seg MEMSEGMENT_MAGIC_MARK (c_ver c) sz logging INIT_PARTS])) with (wk (Seg MEMSEGMENT_MAGIC_MARK (c_ver c) sz logging INIT_PARTS)).
  assert (Mv : moved w (wk (Seg MEMSEGMENT_MAGIC_MARK (c_ver c) sz logging INIT_PARTS)) (goto c (Link a)) (give c1 g a) n); [|apply Mv; now apply (nth_lset_same i _ c)].
  assert (Set_ : forall s s', set_seg (wk s) g s' = wk s') by (intros s s'; unfold set_seg, wk, g; cbn [keys segs]; now rewrite lset_last).
  assert (Nth : forall s, nth_error (segs (wk s)) g = Some s) by (intros s; apply nth_last).
  assert (Ini : forall s, s_mark s = MEMSEGMENT_MAGIC_INIT -> forall k, (k + s_parts s = INIT_PARTS)%nat -> moved (wk s) (wk (Seg (s_mark s) (s_ver s) (s_size s) (s_log s) INIT_PARTS)) c1 c1 k).
  { intros s Ms k. revert s Ms. induction k as [|k IH]; intros s Ms Hk.
    - intros j l Ej. unfold run, steps. cbn. rewrite (lset_nth j c1 l Ej). destruct s as [sm sv ss sl sp]; cbn [s_parts s_mark s_ver s_size s_log] in *. replace sp with INIT_PARTS by lia. reflexivity.
    - apply (moved_app _ (wk (Seg (s_mark s) (s_ver s) (s_size s) (s_log s) (S (s_parts s)))) _ _ c1 _ 1 k).
      + apply moved_one. unfold cstep. cbn [c1 map_seg c_pc]. rewrite Nth. unfold init_step. rewrite Ms, Z.eqb_refl. destruct (Nat.ltb_spec (s_parts s) INIT_PARTS); [|lia]. cbn [is_yes]. now rewrite Set_.
      + apply (IH (Seg (s_mark s) (s_ver s) (s_size s) (s_log s) (S (s_parts s))) Ms). cbn [s_parts]. lia. }
  replace n with (1 + (1 + (1 + (1 + (16 + (1 + (n - 21)))))))%nat by lia.
  apply (moved_app w w _ _ (goto c (Create a sz))). { one. rewrite Ka, Ek. reflexivity. }
  apply (moved_app w (wk new_seg) _ _ (goto c (CreateAt a g sz))). { one. rewrite Ka, Ek. reflexivity. }
  apply (moved_app _ (wk new_seg) _ _ c1). { one. }
  apply (moved_app _ (wk (Seg MEMSEGMENT_MAGIC_INIT (c_ver c) sz false 0)) _ _ c1). { apply moved_one. unfold cstep. cbn [c1 map_seg c_pc]. rewrite Nth. cbn [init_step new_seg s_mark s_log s_parts]. unfold init_step. cbn [s_mark new_seg s_log s_parts goto map_seg c_ver]. change (0 =? MEMSEGMENT_MAGIC_INIT) with false. cbn match. now rewrite Set_. }
  apply (moved_app _ (wk (Seg MEMSEGMENT_MAGIC_INIT (c_ver c) sz false INIT_PARTS)) _ _ c1). { apply (Ini (Seg MEMSEGMENT_MAGIC_INIT (c_ver c) sz false 0)); reflexivity. }
  assert (La : a_log a = logging) by reflexivity.
  apply (moved_app _ (wk (Seg MEMSEGMENT_MAGIC_MARK (c_ver c) sz false INIT_PARTS)) _ _ (if logging then goto c1 (StartLog a g) else goto c1 (Compat a g))).
  { apply moved_one. unfold cstep. cbn [c1 map_seg c_pc]. rewrite Nth. unfold init_step. cbn [s_mark s_parts s_ver s_size s_log]. rewrite Z.eqb_refl. change (INIT_PARTS <? INIT_PARTS)%nat with false. cbn match. now rewrite Set_, La. }
  destruct logging.
  - replace (n - 21)%nat with (1 + (1 + (n - 23)))%nat by lia.
    apply (moved_app _ (wk (Seg MEMSEGMENT_MAGIC_MARK (c_ver c) sz true INIT_PARTS)) _ _ (goto c1 (Compat a g))). { apply moved_one. unfold cstep. cbn [goto c_pc]. rewrite Nth. cbn [is_yes s_mark s_parts s_ver s_size]. now rewrite Set_. }
    apply (moved_app _ (wk (Seg MEMSEGMENT_MAGIC_MARK (c_ver c) sz true INIT_PARTS)) _ _ (give c1 g a)). { apply moved_one. unfold cstep. cbn [goto c_pc]. rewrite Nth. cbn [s_mark s_ver c1 map_seg goto c_ver]. rewrite !Z.eqb_refl. reflexivity. }
    now apply moved_stay.
  - replace (n - 21)%nat with (1 + (n - 22))%nat by lia.
    apply (moved_app _ (wk (Seg MEMSEGMENT_MAGIC_MARK (c_ver c) sz false INIT_PARTS)) _ _ (give c1 g a)). { apply moved_one. unfold cstep. cbn [goto c_pc]. rewrite Nth. cbn [s_mark s_ver c1 map_seg goto c_ver]. rewrite !Z.eqb_refl. reflexivity. }
    now apply moved_stay.
Qed.
Print Assumptions C60_new.
(** Client 0 makes a database of 500000 bytes while client 1 tries to link to it too early and later; client
    1 gets it the second time. *)
Definition ex_attach (i : nat) : event := Begin i (Attach 0 500000 500000 true false).
Definition ex_run : list event := ex_attach 0 :: steps 0 6 ++ ex_attach 1 :: steps 1 3 ++ steps 0 20 ++ ex_attach 1 :: steps 1 10.
Example C60_ex :
  nth_error (st_clients (run (start [7; 7]) (ex_attach 0 :: steps 0 6 ++ ex_attach 1 :: steps 1 3))) 1 = Some (Client 7 Idle [] [0%nat] (Some Null)) /\
  nth_error (st_clients (run (start [7; 7]) ex_run)) 1 = Some (Client 7 Idle [(0%nat, Args 1000 500000 500000 true false)] [0%nat; 0%nat] (Some (Handle 0))) /\
  segs (st_world (run (start [7; 7]) ex_run)) = [Seg MEMSEGMENT_MAGIC_MARK 7 500000 false 16].
Proof. vm_compute. auto. Qed.
Example C60_once_ex : exists c, nth_error (st_clients (run (start [7; 7]) (ex_attach 0 :: steps 0 6))) 0 = Some c /\ c_pc c = Init (Args 1000 500000 500000 true false) 0 500000.
Proof. vm_compute. eexists. split; reflexivity. Qed.

(** ** C61 *)
(** As long as no database is deleted and no attempt to set one up fails (nobody runs
    free_shared_memory), everybody who attaches with one key uses one database. Missing: failing attempts, see
    below. *)
Definition freeing (p : pc) : Prop := match p with Undo _ | UndoRm _ | Del _ | DelRm _ => True | _ => False end.
Definition bound (w : world) (p : pc) : Prop :=
  match p with
  | LinkAt a g | Check a g | CheckSize a g | CheckLog a g | MemMode a g | StartLog a g | Compat a g => keys w (a_key a) = Some g
  | CreateAt a g _ | Init a g _ => keys w (a_key a) = Some g
  | _ => True
  end.
Definition tied (s : state) : Prop := forall i c, nth_error (st_clients s) i = Some c -> bound (st_world s) (c_pc c) /\ forall g a, In (g, a) (c_held c) -> keys (st_world s) (a_key a) = Some g.
Definition more (w w' : world) : Prop := forall k g, keys w k = Some g -> keys w' k = Some g.
Lemma bound_more w w' p : more w w' -> bound w p -> bound w' p.
Proof. intros M. destruct p; cbn; auto. Qed.
Lemma tied_step x w c w' c' : ~ freeing (c_pc c) -> bound w (c_pc c) -> (forall g a, In (g, a) (c_held c) -> keys w (a_key a) = Some g) -> cstep x w c = (w', c') ->
  more w w' /\ bound w' (c_pc c') /\ (forall g a, In (g, a) (c_held c') -> keys w' (a_key a) = Some g).
Proof.
  intros F Bd H E. assert (Mr : more w w) by (intros k g Q; exact Q). unfold cstep in E.
  assert (Cf : forall a size, bound w (c_pc (create_failed c a size)) /\ c_held (create_failed c a size) = c_held c) by (intros a size; unfold create_failed; destruct (negb (a_min a =? 0) && (a_min a <? size)); split; (exact I || reflexivity)).
  assert (Lf : forall a y, bound w (c_pc (link_failed c a y)) /\ c_held (link_failed c a y) = c_held c) by (intros a y; unfold link_failed; destruct (negb (a_create a) || match y with Denied => true | _ => false end); split; (exact I || reflexivity)).
  destruct (c_pc c) eqn:Pc; try (contradiction F; exact I); cbn [bound] in Bd.
  - injection E as <- <-. rewrite Pc. split; [exact Mr|]. split; [exact I|exact H].
  - destruct (keys w (a_key a)) as [g|] eqn:Ek; [destruct (is_yes x)|]; injection E as <- <-; (split; [exact Mr|]); [split; [exact Ek|exact H]| |]; destruct (Lf a No) as (L1 & L2); rewrite L2; auto.
  - injection E as <- <-. split; [exact Mr|]. destruct (is_yes x); [split; [exact Bd|exact H]|]. destruct (Lf a x) as (L1 & L2). rewrite L2. auto.
  - destruct (nth_error (segs w) g) as [s|]; injection E as <- <-; (split; [exact Mr|]); [destruct (s_mark s =? MEMSEGMENT_MAGIC_MARK); (split; [first [exact Bd|exact I]|exact H])|rewrite Pc; auto].
  - destruct (nth_error (segs w) g) as [s|]; injection E as <- <-; (split; [exact Mr|]); [destruct (negb (a_min a =? 0) && (s_size s <? a_min a)); (split; [first [exact Bd|exact I]|exact H])|rewrite Pc; auto].
  - destruct (nth_error (segs w) g) as [s|]; injection E as <- <-; (split; [exact Mr|]); [destruct (a_log a && negb (s_log s)); (split; [first [exact Bd|exact I]|exact H])|rewrite Pc; auto].
  - injection E as <- <-. split; [exact Mr|]. destruct (is_yes x); (split; [first [exact Bd|exact I]|exact H]).
  - destruct (keys w (a_key a)) as [g|] eqn:Ek; [injection E as <- <-; split; [exact Mr|]; destruct (Cf a size) as (L1 & L2); rewrite L2; auto|]. destruct (is_yes x); injection E as <- <-; [|split; [exact Mr|]; destruct (Cf a size) as (L1 & L2); rewrite L2; auto].
    assert (Mk : more w (World (fun k => if k =? a_key a then Some (length (segs w)) else keys w k) (segs w ++ [new_seg]))). { intros k g Q. cbn [keys]. destruct (Z.eqb_spec k (a_key a)) as [-> | _]; [congruence|exact Q]. }
    split; [exact Mk|]. split; [cbn; now rewrite Z.eqb_refl|]. intros g b Ib. apply Mk, H, Ib.
  - injection E as <- <-. split; [exact Mr|]. destruct (is_yes x); [split; [exact Bd|exact H]|]. destruct (Cf a size) as (L1 & L2). rewrite L2. auto.
  - destruct (nth_error (segs w) g) as [s|]; [|injection E as <- <-; rewrite Pc; auto]. unfold init_step in E.
    destruct (s_mark s =? MEMSEGMENT_MAGIC_INIT); [destruct (s_parts s <? INIT_PARTS)%nat; [destruct (is_yes x)|]|]; injection E as <- <-; (split; [exact Mr|]); (split; [|try exact H]).
    + rewrite Pc. exact Bd.
    + exact I.
    + destruct (a_log a); exact Bd.
    + destruct (a_log a); exact H.
    + rewrite Pc. exact Bd.
  - destruct (nth_error (segs w) g) as [s|]; [|injection E as <- <-; rewrite Pc; auto]. destruct (is_yes x); injection E as <- <-; (split; [exact Mr|]); (split; [first [exact Bd|exact I]|exact H]).
  - destruct (nth_error (segs w) g) as [s|]; [|injection E as <- <-; rewrite Pc; auto]. injection E as <- <-. split; [exact Mr|]. destruct ((s_mark s =? MEMSEGMENT_MAGIC_MARK) && (s_ver s =? c_ver c)); (split; [exact I|]); [|exact H]. cbn [give c_held In]. intros h b [[= <- <-] | Ih]; [exact Bd|now apply H].
Qed.
Lemma in_drop {A} (x : A) : forall n l, In x (drop n l) -> In x l.
Proof. induction n as [|n IH]; intros [|y l]; cbn; auto. intros [-> | H]; auto. Qed.
Lemma tied_event s e : (forall c, In c (st_clients s) -> ~ freeing (c_pc c)) -> tied s -> tied (event_step s e).
Proof.
  intros F T. destruct e as [i k|i x]; cbn [event_step]; destruct (nth_error (st_clients s) i) as [c|] eqn:Ec; auto.
  - intros j d Ed. cbn [st_clients st_world] in *. rewrite (nth_lset i j _ c _ Ec) in Ed. destruct (Nat.eqb i j); [|now apply (T j)]. injection Ed as <-. destruct (T i c Ec) as (Bd & H). unfold begin. destruct (c_pc c) eqn:Pc; try (rewrite Pc; auto). destruct k as [| |n y]; [split; [exact I|exact H]|split; [exact I|exact H]|]. destruct (nth_error (c_held c) n) as [(g & a)|]; [|rewrite Pc; auto]. destruct (is_yes y); (split; [exact I|]); [|exact H]. cbn [c_held]. intros h b Ih. apply H. now apply (in_drop _ n).
  - destruct (cstep x (st_world s) c) as (w', c') eqn:E. destruct (T i c Ec) as (Bd & H). destruct (tied_step x _ c w' c' (F c (nth_error_In _ _ Ec)) Bd H E) as (Mk & Bd' & H'). intros j d Ed. cbn [st_clients st_world] in *. rewrite (nth_lset i j _ c _ Ec) in Ed. destruct (Nat.eqb i j); [injection Ed as <-; auto|]. destruct (T j d Ed) as (Bj & Hj). split; [now apply (bound_more (st_world s))|]. intros g a Ih. now apply Mk, Hj.
Qed.
Theorem C61_one_database_partial vers es :
  (forall es1 es2 c, es = es1 ++ es2 -> In c (st_clients (run (start vers) es1)) -> ~ freeing (c_pc c)) ->
  forall i j c d g h a b, nth_error (st_clients (run (start vers) es)) i = Some c -> nth_error (st_clients (run (start vers) es)) j = Some d ->
    In (g, a) (c_held c) -> In (h, b) (c_held d) -> a_key a = a_key b -> g = h.
Proof.
  intros F. assert (T : tied (run (start vers) es)).
  { assert (forall n, tied (run (start vers) (firstn n es))) as H.
    - induction n as [|n IH].
      + intros i c E. cbn [run fold_left start st_clients firstn] in E. rewrite nth_error_map in E. destruct (nth_error vers i); [|discriminate E]. injection E as <-. split; [exact I|]. intros g a [].
      + destruct (nth_error es n) as [e|] eqn:E.
        * assert (firstn (S n) es = firstn n es ++ [e]) as ->. { clear -E. revert n E. induction es as [|x es IH]; intros [|n] E; try discriminate E; cbn in *; [now injection E as ->|]. now rewrite (IH n E). }
          rewrite run_app. change (run ?s [e]) with (event_step s e). apply tied_event; [|exact IH]. intros c Ic. apply (F (firstn n es) (skipn n es)); [now rewrite firstn_skipn|exact Ic].
        * apply nth_error_None in E. rewrite firstn_all2 in * by lia. exact IH.
    - specialize (H (length es)). now rewrite firstn_all in H. }
  intros i j c d g h a b Ec Ed Ig Ih Ek. destruct (T i c Ec) as (_ & H1). destruct (T j d Ed) as (_ & H2). pose proof (H1 g a Ig) as Q1. pose proof (H2 h b Ih) as Q2. rewrite Ek, Q2 in Q1. now injection Q1 as ->.
Qed.
Print Assumptions C61_one_database_partial.
(** In the run of C60_ex nobody frees a database and both clients have a handle. *)
Example C61_ex : (forall es1 es2 c, ex_run = es1 ++ es2 -> In c (st_clients (run (start [7; 7]) es1)) -> ~ freeing (c_pc c)) /\
  map (fun c => map fst (c_held c)) (st_clients (run (start [7; 7]) ex_run)) = [[0%nat]; [0%nat]].
Proof.
  split; [|vm_compute; reflexivity].
  assert (H : forallb (fun n => forallb (fun c => match c_pc c with Undo _ | UndoRm _ | Del _ | DelRm _ => false | _ => true end) (st_clients (run (start [7; 7]) (firstn n ex_run)))) (seq 0 (S (length ex_run))) = true) by (vm_compute; reflexivity).
  intros es1 es2 c E Ic. assert (es1 = firstn (length es1) ex_run) as E1 by (rewrite E, firstn_app, Nat.sub_diag, firstn_all, app_nil_r; reflexivity). rewrite E1 in Ic. rewrite forallb_forall in H. specialize (H (length es1)). rewrite forallb_forall in H.
  assert (L : In (length es1) (seq 0 (S (length ex_run)))) by (apply in_seq; rewrite E, app_length; lia). specialize (H L c Ic). intros Fr. destruct (c_pc c); try contradiction Fr; discriminate H.
Qed.

(** An attempt to set up a database that fails deletes the database that has the key by now. Client 0 runs out
    of memory for a part; before it frees its segment, client 1 deletes it and client 2 makes a database
    of its own and gets a handle. Client 0 then removes this one, and client 1 gets another with the same
    key. *)
Definition ex_undo : list event := ex_attach 0 :: steps 0 6 ++ Step 0 No :: Begin 1 (Delete 1000) :: steps 1 2 ++ ex_attach 2 :: steps 2 23.
Theorem C61_undo_refuted :
  let s := run (start [7; 7; 7]) ex_undo in let s' := run s (steps 0 2) in let s'' := run s' (ex_attach 1 :: steps 1 23) in
  keys (st_world s) 1000 = Some 1%nat /\ (exists c, nth_error (st_clients s) 2 = Some c /\ map fst (c_held c) = [1%nat]) /\
  (exists c a, nth_error (st_clients s) 0 = Some c /\ c_pc c = Undo a) /\ keys (st_world s') 1000 = None /\
  map (fun c => (map fst (c_held c), c_last c)) (st_clients s'') = [([], Some Null); ([2%nat], Some (Handle 2)); ([1%nat], Some (Handle 1))].
Proof. vm_compute. repeat split; eauto. Qed.
Print Assumptions C61_undo_refuted.
(** A database is open to others before its journal is: client 1 gets a handle; then the journal of client 0 cannot
    be opened and the database is removed while client 1 uses it. Nobody asked to delete it. *)
Theorem C61_journal_refuted :
  let s := run (start [7; 7; 7]) (Begin 0 (Attach 0 500000 500000 true true) :: steps 0 21 ++ ex_attach 1 :: steps 1 7 ++ Step 0 No :: steps 0 2 ++ ex_attach 2 :: steps 2 23) in
  map (fun c => (map fst (c_held c), c_last c)) (st_clients s) = [([], Some Null); ([0%nat], Some (Handle 0)); ([1%nat], Some (Handle 1))] /\
  keys (st_world s) 1000 = Some 1%nat.
Proof. vm_compute. auto. Qed.
Print Assumptions C61_journal_refuted.
(** Failed attempts leave traces: the segment stays mapped (client 1 of C60_ex); and when the new segment cannot
    be mapped it stays without a header, so that nobody can attach until it is deleted. *)
Theorem C61_trace_refuted :
  (exists es c, nth_error (st_clients (run (start [7; 7]) es)) 1 = Some c /\ c_last c = Some Null /\ c_held c = [] /\ c_maps c <> []) /\
  (let s := run (start [7; 7]) (ex_attach 0 :: steps 0 2 ++ [Step 0 No]) in
   map c_pc (st_clients s) = [Idle; Idle] /\ keys (st_world s) 1000 = Some 0%nat /\
   map c_last (st_clients (run s (ex_attach 1 :: steps 1 23))) = [Some Null; Some Null]).
Proof.
  split; [|vm_compute; auto]. exists (ex_attach 0 :: steps 0 6 ++ ex_attach 1 :: steps 1 3). exists (Client 7 Idle [] [0%nat] (Some Null)). split; [exact (proj1 C60_ex)|]. split; [reflexivity|]. split; [reflexivity|discriminate].
Qed.
Print Assumptions C61_trace_refuted.
(** Two clients that ask for a database at the same time: one is refused although no system call fails. *)
Theorem C61_race_refuted :
  map c_last (st_clients (run (start [7; 7]) (ex_attach 0 :: ex_attach 1 :: steps 0 1 ++ steps 1 1 ++ steps 0 23 ++ steps 1 23))) = [Some (Handle 0); Some Null].
Proof. vm_compute. reflexivity. Qed.
Print Assumptions C61_race_refuted.

(** Every number that is not positive, and INT_MAX, names the default database, both for attaching and for
    deleting; any other number names its own. So what was made under one such name is what is found and deleted
    under another one. *)
Theorem C61_default s i key minsize size create logging : key <= 0 \/ key = 2 ^ 31 - 1 ->
  event_step s (Begin i (Attach key minsize size create logging)) = event_step s (Begin i (Attach 1000 minsize size create logging)) /\
  event_step s (Begin i (Delete key)) = event_step s (Begin i (Delete 1000)).
Proof.
  intros H. assert (E : the_key key = the_key 1000).
  { unfold the_key. destruct (Z.leb_spec key 0); [reflexivity|]. destruct H as [H| ->]; [lia|reflexivity]. }
  cbn [event_step]. destruct (nth_error (st_clients s) i) as [c|]; [|split; reflexivity]. unfold begin. destruct (c_pc c); try (split; reflexivity). unfold attach_args. rewrite E. split; reflexivity.
Qed.
Print Assumptions C61_default.
Theorem C61_names s i c key minsize size create logging : nth_error (st_clients s) i = Some c -> c_pc c = Idle -> 0 < key < 2 ^ 31 - 1 ->
  (exists c' a, nth_error (st_clients (event_step s (Begin i (Attach key minsize size create logging)))) i = Some c' /\ c_pc c' = Link a /\ a_key a = key) /\
  (exists c', nth_error (st_clients (event_step s (Begin i (Delete key)))) i = Some c' /\ c_pc c' = Del key).
Proof.
  intros Ec P H. assert (E : the_key key = key).
  { unfold the_key. destruct (Z.leb_spec key 0); [lia|]. destruct (Z.eqb_spec key (- 2 ^ 31)); [lia|]. destruct (Z.eqb_spec key (2 ^ 31 - 1)); [lia|reflexivity]. }
  cbn [event_step]. rewrite Ec. unfold begin. rewrite P. split.
  - exists (goto c (Link (attach_args key minsize size create logging))), (attach_args key minsize size create logging). split; [apply (nth_lset_same i _ c _ Ec)|]. split; [reflexivity|]. exact E.
  - exists (goto c (Del (the_key key))). split; [apply (nth_lset_same i _ c _ Ec)|]. now rewrite E.
Qed.
Print Assumptions C61_names.
(** A database made without a name is deleted under the name -5, and not under the name 7. *)
Example C61_default_ex :
  let made := run (start [7; 7]) (Begin 0 (Attach 0 0 1000000 true false) :: steps 0 23) in
  keys (st_world made) 1000 = Some 0%nat /\
  keys (st_world (run made (Begin 1 (Delete (-5)) :: steps 1 2))) 1000 = None /\
  keys (st_world (run made (Begin 1 (Delete 7) :: steps 1 2))) 1000 = Some 0%nat.
Proof. vm_compute. auto. Qed.
