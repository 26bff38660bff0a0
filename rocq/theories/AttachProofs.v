(** Invariant of attaching to databases. *)
From Coq Require Import ZArith List Bool Lia Arith.
From Verif Require Import Base ConcLib AttachModel.
Import ListNotations.
Open Scope Z_scope.
#[local] Ltac Zify.zify_post_hook ::= idtac.

(** The segments a client is setting up. *)
Definition owns (p : pc) (g : nat) : Prop := match p with CreateAt _ h _ | Init _ h _ => h = g | _ => False end.
(** A segment that is set up, of at least [min] bytes. *)
Definition ready (w : world) (g : nat) (min : Z) : Prop :=
  exists s, nth_error (segs w) g = Some s /\ s_mark s = MEMSEGMENT_MAGIC_MARK /\ s_parts s = INIT_PARTS /\ min <= s_size s.
Definition logged (w : world) (g : nat) (a : args) : Prop := a_log a = true -> exists s, nth_error (segs w) g = Some s /\ s_log s = true.
Definition seg_ok (s : seg) : Prop :=
  (s_mark s = 0 /\ s_parts s = O) \/ (s_mark s = MEMSEGMENT_MAGIC_INIT /\ (s_parts s <= INIT_PARTS)%nat) \/ (s_mark s = MEMSEGMENT_MAGIC_MARK /\ s_parts s = INIT_PARTS).
Definition args_ok (a : args) : Prop := 0 <= a_min a <= a_size a.
Definition pc_ok (w : world) (p : pc) : Prop :=
  match p with
  | Idle | Undo _ | UndoRm _ | Del _ | DelRm _ => True
  | Link a => args_ok a
  | LinkAt a g | Check a g => args_ok a /\ (g < length (segs w))%nat
  | CheckSize a g => args_ok a /\ ready w g 0
  | CheckLog a g => args_ok a /\ ready w g (a_min a)
  | MemMode a g | Compat a g => args_ok a /\ ready w g (a_min a) /\ logged w g a
  | StartLog a g => args_ok a /\ ready w g (a_min a)
  | Create a size => args_ok a /\ a_min a <= size
  | CreateAt a g size => args_ok a /\ a_min a <= size /\ exists s, nth_error (segs w) g = Some s /\ s_mark s = 0
  | Init a g size => args_ok a /\ a_min a <= size /\ exists s, nth_error (segs w) g = Some s /\ (s_mark s = 0 \/ (s_mark s = MEMSEGMENT_MAGIC_INIT /\ s_size s = size))
  end.
Definition held_ok (w : world) (v : Z) (h : nat * args) : Prop :=
  ready w (fst h) (a_min (snd h)) /\ logged w (fst h) (snd h) /\ exists s, nth_error (segs w) (fst h) = Some s /\ s_ver s = v.
Definition client_ok (w : world) (c : client) : Prop := pc_ok w (c_pc c) /\ Forall (held_ok w (c_ver c)) (c_held c).
Definition world_ok (w : world) : Prop :=
  (forall g s, nth_error (segs w) g = Some s -> seg_ok s /\ 0 <= s_size s) /\ (forall k g, keys w k = Some g -> (g < length (segs w))%nat).
Definition inv (s : state) : Prop :=
  world_ok (st_world s) /\ (forall i c, nth_error (st_clients s) i = Some c -> client_ok (st_world s) c) /\
  (forall i j c d g, nth_error (st_clients s) i = Some c -> nth_error (st_clients s) j = Some d -> owns (c_pc c) g -> owns (c_pc d) g -> i = j).

(** What a step leaves as it is: segments that are set up, but for logging. *)
Definition same_data (s s' : seg) : Prop := s_mark s' = s_mark s /\ s_ver s' = s_ver s /\ s_size s' = s_size s /\ s_parts s' = s_parts s /\ (s_log s = true -> s_log s' = true).
Definition keeps (p : pc) (w w' : world) : Prop :=
  (length (segs w) <= length (segs w'))%nat /\
  forall g s, nth_error (segs w) g = Some s -> ~ owns p g -> exists s', nth_error (segs w') g = Some s' /\ (s' = s \/ (s_mark s = MEMSEGMENT_MAGIC_MARK /\ same_data s s')).
Lemma same_refl s : same_data s s. Proof. unfold same_data. auto. Qed.
Lemma keeps_refl p w : keeps p w w. Proof. split; [lia|]. intros g s E _. eauto. Qed.
Lemma keeps_ready p w w' g m : keeps p w w' -> ~ owns p g -> ready w g m -> ready w' g m.
Proof. intros (_ & K) N (s & E & M & P & L). destruct (K g s E N) as (s' & E' & [-> | (_ & H)]); [exists s; auto|]. destruct H as (H1 & _ & H3 & H4 & _). exists s'. repeat split; congruence. Qed.
Lemma keeps_logged p w w' g a : keeps p w w' -> ~ owns p g -> logged w g a -> logged w' g a.
Proof. intros (_ & K) N H L. destruct (H L) as (s & E & Q). destruct (K g s E N) as (s' & E' & [-> | (_ & D)]); [exists s; auto|]. exists s'. split; [exact E'|]. now apply D. Qed.
Lemma ready_not_owned w c g m : pc_ok w (c_pc c) -> ready w g m -> ~ owns (c_pc c) g.
Proof.
  intros H (s & E & M & _) O. destruct (c_pc c); try contradiction; cbn in O; subst; destruct H as (_ & _ & s' & E' & M'); rewrite E in E'; injection E' as <-; rewrite M in M'.
  - discriminate M'.
  - destruct M' as [M' | (M' & _)]; discriminate M'.
Qed.
Lemma keeps_pc p w w' q : keeps p w w' -> (forall g, owns q g -> ~ owns p g) -> (forall g m, ready w g m -> ~ owns p g) -> pc_ok w q -> pc_ok w' q.
Proof.
  intros K N R H. pose proof K as (Ln & Kg). destruct q; cbn [pc_ok] in *; auto.
  - destruct H. split; [auto|lia].
  - destruct H. split; [auto|lia].
  - destruct H as (A & H). split; [auto|]. eapply keeps_ready; eauto.
  - destruct H as (A & H). split; [auto|]. eapply keeps_ready; eauto.
  - destruct H as (A & H & L). split; [auto|]. split; [eapply keeps_ready|eapply keeps_logged]; eauto.
  - destruct H as (A & L & s & E & M). split; [auto|]. split; [auto|]. destruct (Kg g s E (N g eq_refl)) as (s' & E' & [-> | (Q & _)]); [eauto|]. rewrite M in Q. discriminate Q.
  - destruct H as (A & L & s & E & M). split; [auto|]. split; [auto|]. destruct (Kg g s E (N g eq_refl)) as (s' & E' & [-> | (Q & _)]); [eauto|]. rewrite Q in M. destruct M as [M | (M & _)]; discriminate M.
  - destruct H as (A & H). split; [auto|]. eapply keeps_ready; eauto.
  - destruct H as (A & H & L). split; [auto|]. split; [eapply keeps_ready|eapply keeps_logged]; eauto.
Qed.
Lemma keeps_held p w w' v h : keeps p w w' -> (forall g m, ready w g m -> ~ owns p g) -> held_ok w v h -> held_ok w' v h.
Proof.
  intros K R (H & L & s & E & V). pose proof (R _ _ H) as N. split; [eapply keeps_ready; eauto|]. split; [eapply keeps_logged; eauto|]. destruct K as (_ & K). destruct (K _ s E N) as (s' & E' & [-> | (_ & D)]); [eauto|]. exists s'. split; [exact E'|]. destruct D as (_ & D & _). congruence.
Qed.

Lemma set_seg_ok w g s s' : world_ok w -> nth_error (segs w) g = Some s -> seg_ok s' -> 0 <= s_size s' -> world_ok (set_seg w g s').
Proof.
  intros (Sg & Ky) E O Sz. split; cbn [set_seg segs keys].
  - intros h t Eh. rewrite (nth_lset g h s' s (segs w) E) in Eh. destruct (Nat.eqb_spec g h); [injection Eh as <-; auto|]. now apply (Sg h).
  - intros k h Ek. rewrite lset_length. now apply (Ky k).
Qed.
Lemma set_seg_keeps p w g s s' : nth_error (segs w) g = Some s -> (owns p g \/ s' = s \/ (s_mark s = MEMSEGMENT_MAGIC_MARK /\ same_data s s')) -> keeps p w (set_seg w g s').
Proof.
  intros E O. split; cbn [set_seg segs]; [rewrite lset_length; lia|]. intros h t Eh N. rewrite (nth_lset g h s' s (segs w) E). destruct (Nat.eqb_spec g h) as [<- | _]; [|eauto].
  rewrite E in Eh. injection Eh as <-. exists s'. split; [reflexivity|]. destruct O as [O | O]; [contradiction|exact O].
Qed.
Lemma nth_set w g s s' : nth_error (segs w) g = Some s -> nth_error (segs (set_seg w g s')) g = Some s'.
Proof. intros E. cbn [set_seg segs]. now apply (nth_lset_same g s' s). Qed.
Lemma remove_keeps p w g : keeps p w (remove_id w g).
Proof. split; [cbn; lia|]. intros h s E _. cbn [remove_id segs]. eauto. Qed.
Lemma remove_ok w g : world_ok w -> world_ok (remove_id w g).
Proof. intros (Sg & Ky). split; [exact Sg|]. cbn [remove_id keys segs]. intros k h. destruct (keys w k) as [h0|] eqn:E; [|discriminate]. destruct (Nat.eqb h0 g); [discriminate|]. intros [= ->]. now apply (Ky k). Qed.
Lemma first_size_ok a : args_ok a -> a_min a <= first_size a.
Proof. unfold args_ok, first_size. intros H. destruct (Z.eqb_spec (a_size a) 0); [|lia]. assert (a_min a = 0) as -> by lia. unfold DEFAULT_MEMDBASE_SIZE. lia. Qed.

(** One step of a client: its own condition, the segments of others, and what it owns afterwards. *)
Definition step_spec (w : world) (c : client) (w' : world) (c' : client) : Prop :=
  world_ok w' /\ client_ok w' c' /\ keeps (c_pc c) w w' /\ (forall g, owns (c_pc c') g -> owns (c_pc c) g \/ g = length (segs w)) /\ c_ver c' = c_ver c.
Lemma spec_stay w c c' : world_ok w -> client_ok w c -> pc_ok w (c_pc c') -> c_held c' = c_held c -> c_ver c' = c_ver c -> (forall g, owns (c_pc c') g -> owns (c_pc c) g) -> step_spec w c w c'.
Proof. intros W (P & H) P' Hh Hv O. split; [exact W|]. split; [split; [exact P'|now rewrite Hh, Hv]|]. split; [apply keeps_refl|]. split; [auto|exact Hv]. Qed.
Lemma create_failed_ok w c a size : world_ok w -> client_ok w c -> args_ok a -> step_spec w c w (create_failed c a size).
Proof.
  intros W H A. unfold create_failed. destruct (negb (a_min a =? 0) && (a_min a <? size)); (apply spec_stay; [exact W|exact H| |reflexivity|reflexivity|cbn; easy]); [|exact I]. cbn. split; [exact A|lia].
Qed.
Lemma link_failed_ok w c a x : world_ok w -> client_ok w c -> args_ok a -> step_spec w c w (link_failed c a x).
Proof.
  intros W H A. unfold link_failed. destruct (negb (a_create a) || match x with Denied => true | _ => false end); (apply spec_stay; [exact W|exact H| |reflexivity|reflexivity|cbn; easy]); [exact I|]. cbn. split; [exact A|]. now apply first_size_ok.
Qed.
Lemma step_ok x w c w' c' : world_ok w -> client_ok w c -> cstep x w c = (w', c') -> step_spec w c w' c'.
Proof.
  intros W Hc E. pose proof Hc as (P & H). pose proof W as (Sg & Ky). unfold cstep in E.
  assert (Ret : forall r, step_spec w c w (return_ c r)) by (intros r; apply spec_stay; auto; cbn; easy).
  destruct (c_pc c) eqn:Pc; cbn [pc_ok] in P.
  - injection E as <- <-. apply spec_stay; auto. rewrite Pc. exact I.
  - injection E as <- <-. destruct (keys w (a_key a)) as [g|] eqn:Ek; [|now apply link_failed_ok]. destruct (is_yes x); [|now apply link_failed_ok]. apply spec_stay; auto; cbn; try easy. split; [exact P|]. now apply (Ky (a_key a)).
  - destruct P as (A & L). injection E as <- <-. destruct (is_yes x); [|now apply link_failed_ok]. apply spec_stay; auto; cbn; easy.
  - destruct P as (A & L). destruct (nth_error (segs w) g) as [s|] eqn:Es; [|apply nth_error_None in Es; lia]. injection E as <- <-. destruct (Z.eqb_spec (s_mark s) MEMSEGMENT_MAGIC_MARK) as [M | M]; [|apply Ret]. apply spec_stay; auto; cbn; try easy. split; [exact A|]. destruct (Sg g s Es) as (So & Sz). exists s. split; [exact Es|]. split; [exact M|]. split; [|exact Sz].
    destruct So as [(Q & _) | [(Q & _) | (_ & Q)]]; [rewrite M in Q; discriminate Q|rewrite M in Q; discriminate Q|exact Q].
  - destruct P as (A & s & Es & M & Q & Sz). rewrite Es in E. injection E as <- <-. destruct (negb (a_min a =? 0) && (s_size s <? a_min a)) eqn:B; [apply Ret|]. apply spec_stay; auto; cbn; try easy. split; [exact A|]. exists s. repeat split; auto.
    apply andb_false_iff in B. destruct B as [B | B]; [apply negb_false_iff, Z.eqb_eq in B; lia|apply Z.ltb_ge in B; exact B].
  - destruct P as (A & R). pose proof R as (s & Es & _). rewrite Es in E. injection E as <- <-. destruct (a_log a && negb (s_log s)) eqn:B; [apply Ret|]. apply spec_stay; auto; cbn; try easy. split; [exact A|]. split; [exact R|]. intros L. exists s. split; [exact Es|]. rewrite L in B. now apply negb_false_iff in B.
  - injection E as <- <-. destruct (is_yes x); [|apply Ret]. apply spec_stay; auto; cbn; easy.
  - destruct P as (A & Sz). destruct (keys w (a_key a)) eqn:Ek; [injection E as <- <-; now apply create_failed_ok|]. destruct (is_yes x); injection E as <- <-; [|now apply create_failed_ok].
    assert (Kp : keeps (c_pc c) w (World (fun k => if k =? a_key a then Some (length (segs w)) else keys w k) (segs w ++ [new_seg]))).
    { split; cbn [segs]; [rewrite app_length; cbn; lia|]. intros g s Es _. exists s. split; [|auto]. rewrite nth_error_app1; [exact Es|]. apply nth_error_Some. rewrite Es. discriminate. }
    split; [split; cbn [segs keys]|].
    + intros g s Es. destruct (Nat.lt_ge_cases g (length (segs w))); [rewrite nth_error_app1 in Es by lia; now apply (Sg g)|]. rewrite nth_error_app2 in Es by lia. destruct (g - length (segs w))%nat as [|[|]]; [|discriminate Es|discriminate Es]. injection Es as <-. split; [left; split; reflexivity|cbn; lia].
    + intros k g. rewrite app_length. cbn [length]. destruct (k =? a_key a); [intros [= <-]; lia|]. intros Q. apply Ky in Q. lia.
    + split; [split|].
      * cbn [goto c_pc pc_ok]. split; [exact A|]. split; [exact Sz|]. exists new_seg. cbn [segs]. rewrite nth_error_app2, Nat.sub_diag by lia. split; reflexivity.
      * cbn [goto c_held c_ver]. eapply Forall_impl; [|exact H]. intros h. apply keeps_held with (p := c_pc c); [exact Kp|]. rewrite Pc. intros ? ? ? [].
      * split; [exact Kp|]. split; [|reflexivity]. cbn [goto c_pc owns]. intros g0 <-. now right.
  - destruct P as (A & Sz & s & Es & M). injection E as <- <-. destruct (is_yes x); [|now apply create_failed_ok]. apply spec_stay; auto; cbn; try (rewrite Pc; easy). split; [exact A|]. split; [exact Sz|]. exists s. auto.
  - destruct P as (A & Sz & s & Es & M). rewrite Es in E. unfold init_step in E. destruct (Sg g s Es) as (So & S0).
    assert (Fin : forall s' c', keeps (c_pc c) w (set_seg w g s') -> seg_ok s' -> 0 <= s_size s' -> pc_ok (set_seg w g s') (c_pc c') -> c_held c' = c_held c -> c_ver c' = c_ver c -> (forall h, owns (c_pc c') h -> h = g) -> step_spec w c (set_seg w g s') c').
    { intros s' c0 Kp O0 Z0 P0 Hh Hv O1. split; [now apply (set_seg_ok w g s)|]. split; [split; [exact P0|]|].
      - rewrite Hh, Hv. rewrite Forall_forall in H |- *. intros h Ih. specialize (H h Ih). apply keeps_held with (p := c_pc c) (w := w); [exact Kp| |exact H]. intros g0 m R. apply (ready_not_owned w c g0 m (proj1 Hc) R).
      - split; [exact Kp|]. split; [|exact Hv]. intros h Oh. left. rewrite Pc. cbn. symmetry. now apply O1. }
    assert (Kp : forall s', keeps (c_pc c) w (set_seg w g s')) by (intros s'; apply (set_seg_keeps _ w g s s' Es); left; rewrite Pc; reflexivity).
    destruct (Z.eqb_spec (s_mark s) MEMSEGMENT_MAGIC_INIT) as [Mi | Mi].
    + destruct M as [M | (_ & Ms)]; [rewrite M in Mi; discriminate Mi|]. assert (Pl : (s_parts s <= INIT_PARTS)%nat) by (destruct So as [(Q & _) | [(_ & Q) | (Q & _)]]; [rewrite Mi in Q; discriminate Q|exact Q|rewrite Mi in Q; discriminate Q]). destruct (Nat.ltb_spec (s_parts s) INIT_PARTS) as [Lt | Ge].
      * destruct (is_yes x); injection E as <- <-.
        -- apply Fin; [apply Kp| | | | | |].
           ++ right. left. split; [exact Mi|cbn [s_parts]; lia].
           ++ exact S0.
           ++ rewrite Pc. cbn [pc_ok]. split; [exact A|]. split; [exact Sz|]. eexists. split; [apply (nth_set w g s _ Es)|]. right. split; [exact Mi|exact Ms].
           ++ reflexivity.
           ++ reflexivity.
           ++ rewrite Pc. cbn. auto.
        -- apply spec_stay; auto; cbn; easy.
      * injection E as <- <-. assert (s_parts s = INIT_PARTS) by lia.
        assert (Rd : ready (set_seg w g (Seg MEMSEGMENT_MAGIC_MARK (s_ver s) (s_size s) (s_log s) (s_parts s))) g (a_min a)) by (eexists; split; [apply (nth_set w g s _ Es)|]; cbn; repeat split; auto; lia).
        apply Fin; [apply Kp| | | | | |].
        -- right. right. split; [reflexivity|exact H0].
        -- exact S0.
        -- destruct (a_log a) eqn:L; cbn [goto c_pc pc_ok]; (split; [exact A|]).
           ++ exact Rd.
           ++ split; [exact Rd|]. intros Q. rewrite L in Q. discriminate Q.
        -- destruct (a_log a); reflexivity.
        -- destruct (a_log a); reflexivity.
        -- destruct (a_log a); cbn; contradiction.
    + injection E as <- <-. destruct M as [M | (M & _)]; [|contradiction]. apply Fin; [apply Kp| | | | | |].
      * right. left. split; [reflexivity|]. cbn [s_parts]. destruct So as [(_ & ->) | [(Q & _) | (_ & ->)]]; [lia|contradiction|lia].
      * cbn [s_size]. unfold args_ok in A. lia.
      * rewrite Pc. cbn [pc_ok]. split; [exact A|]. split; [exact Sz|]. eexists. split; [apply (nth_set w g s _ Es)|]. right. split; reflexivity.
      * reflexivity.
      * reflexivity.
      * rewrite Pc. cbn. auto.
  - destruct P as (A & s & Es & M & Q & Sz). rewrite Es in E. destruct (is_yes x); injection E as <- <-; [|apply spec_stay; auto; cbn; easy].
    assert (Sd : same_data s (Seg (s_mark s) (s_ver s) (s_size s) true (s_parts s))) by (unfold same_data; cbn; auto).
    assert (Kp : keeps (c_pc c) w (set_seg w g (Seg (s_mark s) (s_ver s) (s_size s) true (s_parts s)))) by (apply (set_seg_keeps _ w g s _ Es); auto).
    split; [apply (set_seg_ok w g s); [exact W|exact Es|right; right; auto|exact (proj2 (Sg g s Es))]|]. split; [split|].
    + cbn [goto c_pc pc_ok]. split; [exact A|]. split; [eexists; split; [apply (nth_set w g s _ Es)|]; auto|]. intros _. eexists. split; [apply (nth_set w g s _ Es)|reflexivity].
    + cbn [goto c_held c_ver]. eapply Forall_impl; [|exact H]. intros h. apply keeps_held with (p := c_pc c); [exact Kp|]. rewrite Pc. intros ? ? ? [].
    + split; [exact Kp|]. split; [cbn; easy|reflexivity].
  - destruct (keys w (a_key a)); injection E as <- <-; [|apply Ret]. destruct (is_yes x); [apply spec_stay; auto; cbn; easy|apply Ret].
  - injection E as <- <-. destruct (is_yes x); [|apply Ret]. split; [now apply remove_ok|]. split; [split; [exact I|exact H]|]. split; [apply remove_keeps|]. split; [cbn; easy|reflexivity].
  - destruct P as (A & R & L). pose proof R as (s & Es & M & _). rewrite Es in E. injection E as <- <-. destruct ((s_mark s =? MEMSEGMENT_MAGIC_MARK) && (s_ver s =? c_ver c)) eqn:B; [|apply Ret]. split; [exact W|]. split; [split; [exact I|]|].
    + cbn [give c_held c_ver]. constructor; [|exact H]. split; [exact R|]. split; [exact L|]. exists s. split; [exact Es|]. apply andb_prop in B. destruct B as (_ & B). now apply Z.eqb_eq in B.
    + split; [apply keeps_refl|]. split; [cbn; easy|reflexivity].
  - destruct (keys w key); injection E as <- <-; [|apply Ret]. destruct (is_yes x); [apply spec_stay; auto; cbn; easy|apply Ret].
  - destruct (is_yes x); injection E as <- <-; [|apply Ret]. split; [now apply remove_ok|]. split; [split; [exact I|exact H]|]. split; [apply remove_keeps|]. split; [cbn; easy|reflexivity].
Qed.

Lemma begin_ok w c k : client_ok w c -> client_ok w (begin c k) /\ (forall g, owns (c_pc (begin c k)) g -> owns (c_pc c) g).
Proof.
  intros (P & H). unfold begin. destruct (c_pc c) eqn:Pc; try (rewrite Pc; split; [split; [now rewrite Pc|exact H]|auto]).
  destruct k as [key minsize size create logging|key|i x].
  - split; [split; [|exact H]|cbn; easy]. cbn [goto c_pc pc_ok]. unfold attach_args, args_ok. cbn [a_min a_size]. destruct (Z.ltb_spec minsize 0); [destruct (Z.ltb_spec size 0)|destruct (Z.ltb_spec size minsize)]; lia.
  - split; [split; [exact I|exact H]|cbn; easy].
  - destruct (nth_error (c_held c) i) as [(g & a)|]; [|split; [split; [now rewrite Pc|exact H]|rewrite Pc; auto]]. destruct (is_yes x); [|split; [split; [exact I|exact H]|cbn; easy]]. split; [split; [exact I|]|cbn; easy]. cbn [c_held c_ver].
    assert (D : forall (l : list (nat * args)) n, Forall (held_ok w (c_ver c)) l -> Forall (held_ok w (c_ver c)) (drop n l)). { induction l as [|h l IH]; intros [|n] F; cbn [drop]; auto; apply Forall_cons_iff in F; destruct F; auto. }
    now apply D.
Qed.
Lemma inv_step s e : inv s -> inv (event_step s e).
Proof.
  intros (W & Cl & Un). destruct e as [i k|i x]; cbn [event_step].
  - destruct (nth_error (st_clients s) i) as [c|] eqn:Ec; [|split; [|split]; auto]. destruct (begin_ok _ c k (Cl i c Ec)) as (Cb & Ob). split; [exact W|]. split; cbn [st_world st_clients].
    + intros j d Ed. rewrite (nth_lset i j _ c _ Ec) in Ed. destruct (Nat.eqb i j); [injection Ed as <-; exact Cb|]. now apply (Cl j).
    + assert (Back : forall j d g, nth_error (lset i (begin c k) (st_clients s)) j = Some d -> owns (c_pc d) g -> exists d', nth_error (st_clients s) j = Some d' /\ owns (c_pc d') g).
      { intros j d g Ed Og. rewrite (nth_lset i j _ c _ Ec) in Ed. destruct (Nat.eqb_spec i j) as [<- | _]; [injection Ed as <-|]; eauto. }
      intros j1 j2 c1 c2 g E1 E2 O1 O2. destruct (Back _ _ _ E1 O1) as (d1 & F1 & P1). destruct (Back _ _ _ E2 O2) as (d2 & F2 & P2). eapply Un; eassumption.
  - destruct (nth_error (st_clients s) i) as [c|] eqn:Ec; [|split; [|split]; auto]. destruct (cstep x (st_world s) c) as (w', c') eqn:E. destruct (step_ok x _ c w' c' W (Cl i c Ec) E) as (W' & C' & Kp & O' & _). split; [exact W'|].
    assert (Own : forall j d, nth_error (st_clients s) j = Some d -> j <> i -> forall g, owns (c_pc d) g -> ~ owns (c_pc c) g) by (intros j d Ed Nj g O1 O2; apply Nj; eapply Un; eassumption).
    split; cbn [st_world st_clients].
    + intros j d Ed. rewrite (nth_lset i j _ c _ Ec) in Ed. destruct (Nat.eqb_spec i j) as [<- | Nj]; [injection Ed as <-; exact C'|]. destruct (Cl j d Ed) as (Pd & Hd). assert (Rd : forall g m, ready (st_world s) g m -> ~ owns (c_pc c) g) by (intros g m R; apply (ready_not_owned _ c g m (proj1 (Cl i c Ec)) R)). split.
      * apply (keeps_pc (c_pc c) (st_world s)); auto. intros g. apply (Own j d Ed). congruence.
      * eapply Forall_impl; [|exact Hd]. intros h. now apply keeps_held with (p := c_pc c).
    + assert (Back : forall j d g, nth_error (lset i c' (st_clients s)) j = Some d -> owns (c_pc d) g -> (exists d', nth_error (st_clients s) j = Some d' /\ owns (c_pc d') g) \/ (j = i /\ g = length (segs (st_world s)))).
      { intros j d g Ed Og. rewrite (nth_lset i j _ c _ Ec) in Ed. destruct (Nat.eqb_spec i j) as [<- | _]; [injection Ed as <-; destruct (O' g Og); eauto|eauto]. }
      assert (Lim : forall j d g, nth_error (st_clients s) j = Some d -> owns (c_pc d) g -> (g < length (segs (st_world s)))%nat).
      { intros j d g Ed Og. destruct (Cl j d Ed) as (Pd & _). destruct (c_pc d); try contradiction; cbn in Og; subst; destruct Pd as (_ & _ & t & Et & _); apply nth_error_Some; rewrite Et; discriminate. }
      intros j1 j2 c1 c2 g E1 E2 O1 O2. destruct (Back _ _ _ E1 O1) as [(d1 & F1 & P1) | (-> & ->)]; destruct (Back _ _ _ E2 O2) as [(d2 & F2 & P2) | (-> & Q)].
      * eapply Un; eassumption.
      * subst g. pose proof (Lim _ _ _ F1 P1). lia.
      * pose proof (Lim _ _ _ F2 P2). lia.
      * reflexivity.
Qed.
Lemma inv_start vers : inv (start vers).
Proof.
  split; [split; cbn; [intros g s E; destruct g; discriminate E|discriminate]|]. split; cbn [start st_clients st_world].
  - intros i c E. rewrite nth_error_map in E. destruct (nth_error vers i); [|discriminate E]. injection E as <-. split; [exact I|constructor].
  - intros i j c d g E _ O. rewrite nth_error_map in E. destruct (nth_error vers i); [|discriminate E]. injection E as <-. contradiction.
Qed.
Lemma inv_run vers es : inv (run (start vers) es).
Proof.
  unfold run. assert (forall s, inv s -> inv (fold_left event_step es s)) as H; [|apply H, inv_start]. induction es as [|e es IH]; intros s H; [exact H|]. apply IH. now apply inv_step.
Qed.
(** A segment in use is not set up again by anybody. *)
Lemma step_keeps s e i c h : inv s -> nth_error (st_clients s) i = Some c -> In h (c_held c) -> exists g, nth_error (segs (st_world s)) (fst h) = Some g /\ exists g', nth_error (segs (st_world (event_step s e))) (fst h) = Some g' /\ same_data g g'.
Proof.
  intros (W & Cl & Un) Ec Ih. destruct (Cl i c Ec) as (_ & Hd). rewrite Forall_forall in Hd. destruct (Hd h Ih) as (R & _). pose proof R as (g & Eg & _). exists g. split; [exact Eg|]. destruct e as [j k|j x]; cbn [event_step].
  - destruct (nth_error (st_clients s) j); exists g; (split; [exact Eg|apply same_refl]).
  - destruct (nth_error (st_clients s) j) as [d|] eqn:Ed; [|exists g; split; [exact Eg|apply same_refl]]. destruct (cstep x (st_world s) d) as (w', d') eqn:E. destruct (step_ok x _ d w' d' W (Cl j d Ed) E) as (_ & _ & (_ & K) & _). cbn [st_world].
    destruct (K _ g Eg (ready_not_owned _ d _ _ (proj1 (Cl j d Ed)) R)) as (g' & E' & [-> | (_ & D)]); [exists g; split; [exact E'|apply same_refl]|exists g'; auto].
Qed.
