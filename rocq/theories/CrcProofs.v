From Coq Require Import ZArith List Bool Lia.
From Verif Require Import Base CrcModel.
Import ListNotations.
Open Scope Z_scope.

Definition isbyte (b : Z) : Prop := 0 <= b < 256.

(** ** Ranges as shifts *)

Lemma range_shift n a : 0 <= n -> - 2 ^ n <= a < 2 ^ n <-> Z.shiftr a n = 0 \/ Z.shiftr a n = -1.
Proof.
  intros Hn. rewrite Z.shiftr_div_pow2 by assumption.
  assert (P : 0 < 2 ^ n) by (apply Z.pow_pos_nonneg; lia).
  pose proof (Z.div_mod a (2 ^ n) ltac:(lia)) as D. pose proof (Z.mod_pos_bound a (2 ^ n) P) as M.
  split.
  - intros H. assert (a / 2 ^ n < 1) by (apply Z.div_lt_upper_bound; lia).
    assert (-1 <= a / 2 ^ n) by (apply Z.div_le_lower_bound; lia). lia.
  - intros [H|H]; rewrite H in D; lia.
Qed.

Lemma lxor_range n a b : 0 <= n -> - 2 ^ n <= a < 2 ^ n -> - 2 ^ n <= b < 2 ^ n ->
  - 2 ^ n <= Z.lxor a b < 2 ^ n.
Proof.
  intros Hn Ha Hb. apply range_shift in Ha, Hb; try assumption. apply range_shift; [assumption|].
  rewrite Z.shiftr_lxor. destruct Ha as [->| ->], Hb as [->| ->]; cbn; auto.
Qed.

Lemma urange_shift n a : 0 <= n -> 0 <= a < 2 ^ n <-> Z.shiftr a n = 0.
Proof.
  intros Hn. rewrite Z.shiftr_div_pow2 by assumption.
  assert (P : 0 < 2 ^ n) by (apply Z.pow_pos_nonneg; lia). split.
  - apply Z.div_small.
  - intros H. pose proof (Z.div_mod a (2 ^ n) ltac:(lia)) as D.
    pose proof (Z.mod_pos_bound a (2 ^ n) P) as M. rewrite H in D. lia.
Qed.

Lemma lxor_urange n a b : 0 <= n -> 0 <= a < 2 ^ n -> 0 <= b < 2 ^ n -> 0 <= Z.lxor a b < 2 ^ n.
Proof.
  intros Hn Ha Hb. apply urange_shift in Ha, Hb; try assumption. apply urange_shift; [assumption|].
  rewrite Z.shiftr_lxor, Ha, Hb. reflexivity.
Qed.

Lemma land_lxor a b c : Z.land a (Z.lxor b c) = Z.lxor (Z.land a b) (Z.land a c).
Proof.
  apply Z.bits_inj'. intros n Hn. rewrite !Z.land_spec, !Z.lxor_spec, !Z.land_spec.
  destruct (Z.testbit a n), (Z.testbit b n), (Z.testbit c n); reflexivity.
Qed.

Lemma land255_range x : 0 <= Z.land 255 x < 256.
Proof. rewrite Z.land_comm. change 255 with (2 ^ 8 - 1). rewrite land_ones_mod by lia. lia. Qed.

(** ** The table *)

Definition bytes256 : list Z := map Z.of_nat (seq 0 256).
Lemma bytes256_in b : isbyte b <-> In b bytes256.
Proof.
  unfold bytes256, isbyte. rewrite in_map_iff. split.
  - intros H. exists (Z.to_nat b). split; [lia|apply in_seq; lia].
  - intros (k & <- & Hk). apply in_seq in Hk. lia.
Qed.

Lemma table_linear a b : isbyte a -> isbyte b ->
  crc_entry (Z.lxor a b) = Z.lxor (crc_entry a) (crc_entry b).
Proof.
  intros Ha Hb. apply bytes256_in in Ha, Hb.
  assert (H : forallb (fun a => forallb (fun b =>
     crc_entry (Z.lxor a b) =? Z.lxor (crc_entry a) (crc_entry b)) bytes256) bytes256 = true)
    by (vm_compute; reflexivity).
  rewrite forallb_forall in H. specialize (H _ Ha). rewrite forallb_forall in H. specialize (H _ Hb).
  apply Z.eqb_eq. exact H.
Qed.

Lemma table_range a : isbyte a -> - 2 ^ 31 <= crc_entry a < 2 ^ 31.
Proof.
  intros Ha. apply bytes256_in in Ha.
  assert (H : forallb (fun a => (- 2 ^ 31 <=? crc_entry a) && (crc_entry a <? 2 ^ 31)) bytes256 = true)
    by (vm_compute; reflexivity).
  rewrite forallb_forall in H. specialize (H _ Ha). rewrite andb_true_iff, Z.leb_le, Z.ltb_lt in H. exact H.
Qed.

(** Only entry 0 has a magnitude below 2^23 or a zero top byte. *)
Lemma table_big a : isbyte a -> - 2 ^ 23 <= crc_entry a < 2 ^ 24 -> a = 0.
Proof.
  intros Ha Hr. apply bytes256_in in Ha.
  assert (H : forallb (fun a => negb ((- 2 ^ 23 <=? crc_entry a) && (crc_entry a <? 2 ^ 24)) || (a =? 0)) bytes256 = true)
    by (vm_compute; reflexivity).
  rewrite forallb_forall in H. specialize (H _ Ha).
  destruct (Z.leb_spec (- 2 ^ 23) (crc_entry a)); [|lia].
  destruct (Z.ltb_spec (crc_entry a) (2 ^ 24)); [|lia]. cbn in H. apply Z.eqb_eq. exact H.
Qed.

(** ** Steps *)

Lemma step_range c b : is32 c -> is32 (crc_step c b).
Proof.
  intros Hc. unfold crc_step, is32 in *. apply lxor_range; [lia|apply table_range; apply land255_range|].
  rewrite Z.shiftr_div_pow2 by lia. lia.
Qed.

Lemma lxor_swap a b c d : Z.lxor (Z.lxor a b) (Z.lxor c d) = Z.lxor (Z.lxor a c) (Z.lxor b d).
Proof.
  apply Z.bits_inj'. intros n _. rewrite !Z.lxor_spec.
  destruct (Z.testbit a n), (Z.testbit b n), (Z.testbit c n), (Z.testbit d n); reflexivity.
Qed.

Lemma step_linear c b c' b' :
  Z.lxor (crc_step c b) (crc_step c' b') = crc_step (Z.lxor c c') (Z.lxor b b').
Proof.
  unfold crc_step.
  rewrite (lxor_swap b b' c c').
  rewrite (land_lxor 255 (Z.lxor b c)), table_linear by apply land255_range. rewrite Z.shiftr_lxor.
  apply lxor_swap.
Qed.

Fixpoint zipx (a b : list Z) : list Z :=
  match a, b with
  | x :: a', y :: b' => Z.lxor x y :: zipx a' b'
  | _, _ => []
  end.

Definition run (c : Z) (bs : list Z) : Z := fold_left crc_step bs c.

Lemma run_app c a b : run c (a ++ b) = run (run c a) b.
Proof. apply fold_left_app. Qed.

Lemma run_range bs : forall c, is32 c -> is32 (run c bs).
Proof. induction bs; intros c H; [exact H|]. apply IHbs. apply step_range. exact H. Qed.

Lemma run_linear a : forall b c c', length a = length b ->
  Z.lxor (run c a) (run c' b) = run (Z.lxor c c') (zipx a b).
Proof.
  induction a as [|x a IH]; intros [|y b] c c' H; try discriminate; [reflexivity|].
  cbn [run fold_left zipx]. change (fold_left crc_step) with (fun l c => run c l). cbn beta.
  rewrite IH by (cbn in H; lia). rewrite step_linear. reflexivity.
Qed.

Definition zeros (e : list Z) : Prop := Forall (fun x => x = 0) e.

Lemma zipx_same a : zeros (zipx a a).
Proof. induction a; constructor; auto. apply Z.lxor_nilpotent. Qed.

Lemma zipx_zero a : forall b, length a = length b -> zeros (zipx a b) -> a = b.
Proof.
  induction a as [|x a IH]; intros [|y b] H Hz; try discriminate; [reflexivity|].
  cbn in Hz. inversion Hz as [|? ? Hx Hr]; subst. apply Z.lxor_eq in Hx. f_equal; [exact Hx|].
  apply IH; [cbn in H; lia|exact Hr].
Qed.

Lemma zipx_app a : forall b a' b', length a = length b -> zipx (a ++ a') (b ++ b') = zipx a b ++ zipx a' b'.
Proof.
  induction a as [|x a IH]; intros [|y b] a' b' H; try discriminate; [reflexivity|].
  cbn. rewrite IH by (cbn in H; lia). reflexivity.
Qed.

Lemma zipx_bytes a : forall b, Forall isbyte a -> Forall isbyte b -> Forall isbyte (zipx a b).
Proof.
  induction a as [|x a IH]; intros [|y b] Ha Hb; cbn; constructor; inversion Ha; inversion Hb; subst; auto.
  apply (lxor_urange 8); lia || assumption.
Qed.

Lemma run_zeros_0 e : zeros e -> run 0 e = 0.
Proof. induction 1 as [|x e -> He IH]; [reflexivity|exact IH]. Qed.

(** A step gives 0 only if the register held just the byte read. *)
Lemma step_zero_gen c b r : is32 c -> isbyte b -> 0 <= r < 2 ^ 16 -> crc_step c b = r ->
  Z.land 255 (Z.lxor b c) = 0 /\ Z.shiftr c 8 = r.
Proof.
  intros Hc Hb Hr H. unfold crc_step in H.
  set (x := Z.land 255 (Z.lxor b c)) in *.
  assert (Hx : isbyte x) by apply land255_range.
  assert (Hs : - 2 ^ 23 <= Z.shiftr c 8 < 2 ^ 23) by (unfold is32 in Hc; rewrite Z.shiftr_div_pow2 by lia; lia).
  assert (E : crc_entry x = Z.lxor r (Z.shiftr c 8)).
  { rewrite <- H, Z.lxor_assoc, Z.lxor_nilpotent, Z.lxor_0_r. reflexivity. }
  assert (R : - 2 ^ 23 <= crc_entry x < 2 ^ 23) by (rewrite E; apply lxor_range; lia).
  assert (x = 0) by (apply table_big; [exact Hx|lia]). split; [assumption|].
  rewrite H0 in H. exact H.
Qed.

Lemma low_byte_eq b c : isbyte b -> Z.land 255 (Z.lxor b c) = 0 -> c mod 256 = b.
Proof.
  intros Hb H. rewrite land_lxor in H. apply Z.lxor_eq in H.
  rewrite !(Z.land_comm 255) in H. change 255 with (2 ^ 8 - 1) in H. rewrite !land_ones_mod in H by lia.
  unfold isbyte in Hb. change (2 ^ 8) with 256 in H. lia.
Qed.

Lemma step_zero c : is32 c -> crc_step c 0 = 0 -> c = 0.
Proof.
  intros Hc H. destruct (step_zero_gen c 0 0) as (A & B); try assumption; try (unfold isbyte; lia).
  apply low_byte_eq in A; [|unfold isbyte; lia]. rewrite Z.shiftr_div_pow2 in B by lia.
  change (2 ^ 8) with 256 in B. lia.
Qed.

Lemma run_zeros_nz e : zeros e -> forall c, is32 c -> run c e = 0 -> c = 0.
Proof.
  induction 1 as [|x e -> He IH]; intros c Hc H; [exact H|].
  cbn in H. apply step_zero; [exact Hc|]. apply IH; [apply step_range; exact Hc|exact H].
Qed.

Lemma run4_zero e0 e1 e2 e3 : isbyte e0 -> isbyte e1 -> isbyte e2 -> isbyte e3 ->
  run 0 [e0; e1; e2; e3] = 0 -> zeros [e0; e1; e2; e3].
Proof.
  intros H0 H1 H2 H3 H. cbn [run fold_left] in H.
  set (s1 := crc_step 0 e0) in *. set (s2 := crc_step s1 e1) in *. set (s3 := crc_step s2 e2) in *.
  assert (R1 : is32 s1) by (apply step_range; unfold is32; lia).
  assert (R2 : is32 s2) by (apply step_range; exact R1).
  assert (R3 : is32 s3) by (apply step_range; exact R2).
  destruct (step_zero_gen s3 e3 0) as (A3 & B3); auto; [lia|].
  apply low_byte_eq in A3; [|exact H3]. rewrite Z.shiftr_div_pow2 in B3 by lia. change (2 ^ 8) with 256 in B3.
  assert (S3 : 0 <= s3 < 256) by lia.
  destruct (step_zero_gen s2 e2 s3) as (A2 & B2); auto; [lia|].
  apply low_byte_eq in A2; [|exact H2]. rewrite Z.shiftr_div_pow2 in B2 by lia. change (2 ^ 8) with 256 in B2.
  assert (S2 : 0 <= s2 < 65536) by lia.
  destruct (step_zero_gen s1 e1 s2) as (A1 & B1); [assumption|assumption|lia|reflexivity|].
  apply low_byte_eq in A1; [|exact H1]. rewrite Z.shiftr_div_pow2 in B1 by lia. change (2 ^ 8) with 256 in B1.
  assert (S1 : 0 <= s1 < 2 ^ 24) by lia.
  assert (E1 : s1 = crc_entry e0).
  { unfold s1, crc_step. change (Z.shiftr 0 8) with 0. rewrite !Z.lxor_0_r. f_equal.
    rewrite Z.land_comm. change 255 with (2 ^ 8 - 1). rewrite land_ones_mod by lia. apply Z.mod_small. exact H0. }
  assert (e0 = 0) by (apply table_big; [exact H0|lia]).
  assert (s1 = 0) by (rewrite E1; subst e0; reflexivity).
  assert (s2 = 0) by lia. assert (s3 = 0) by lia.
  repeat constructor; lia.
Qed.

Lemma run_zero_window e : (length e <= 4)%nat -> Forall isbyte e -> run 0 e = 0 -> zeros e.
Proof.
  intros Hl Hb H.
  assert (Z0 : isbyte 0) by (unfold isbyte; lia).
  assert (P : forall k, run 0 (e ++ repeat 0 k) = 0).
  { intros k. rewrite run_app, H. apply run_zeros_0. induction k; constructor; auto. }
  specialize (P (4 - length e)%nat).
  destruct e as [|a [|b [|c [|d [|? ?]]]]]; cbn [length] in Hl; try lia;
    repeat match goal with H : Forall isbyte (_ :: _) |- _ => inversion H; clear H; subst end;
    cbn [length Nat.sub repeat app] in P; apply run4_zero in P; try assumption.
  - constructor.
  - inversion P; subst. repeat constructor.
  - inversion P as [|? ? ? P1]; inversion P1; subst. repeat constructor.
  - inversion P as [|? ? ? P1]; inversion P1 as [|? ? ? P2]; inversion P2; subst. repeat constructor.
Qed.

(** Two equally long byte strings that differ only inside a window of at most
    four bytes have different checksums. *)
Lemma crc_window p w w' s c : (length w <= 4)%nat -> length w = length w' ->
  Forall isbyte w -> Forall isbyte w' -> is32 c -> w <> w' ->
  update_crc32 (p ++ w ++ s) c <> update_crc32 (p ++ w' ++ s) c.
Proof.
  intros Hl He Hw Hw' Hc Hne H. apply Hne.
  unfold update_crc32 in H. apply (f_equal (fun x => Z.lxor x (-1))) in H.
  rewrite !Z.lxor_assoc, !Z.lxor_nilpotent, !Z.lxor_0_r in H.
  set (c0 := Z.lxor c (-1)) in *.
  fold (run c0 (p ++ w ++ s)) in H. fold (run c0 (p ++ w' ++ s)) in H.
  assert (D : Z.lxor (run c0 (p ++ w ++ s)) (run c0 (p ++ w' ++ s)) = 0) by (rewrite H; apply Z.lxor_nilpotent).
  rewrite run_linear in D by (rewrite !app_length; lia).
  rewrite Z.lxor_nilpotent in D. rewrite !zipx_app in D by (auto; lia).
  rewrite !run_app in D. rewrite (run_zeros_0 _ (zipx_same p)) in D.
  assert (I : is32 0) by (unfold is32; lia).
  apply run_zeros_nz in D; [|apply zipx_same|apply run_range; exact I].
  apply zipx_zero; [exact He|]. apply run_zero_window; [|apply zipx_bytes; assumption|exact D].
  clear -Hl He. revert w' He Hl. generalize 4%nat. induction w as [|x w IH]; intros n [|y w'] He Hl; try discriminate; cbn; [lia|].
  destruct n; cbn in Hl; [lia|]. apply le_n_S. apply IH; cbn in *; lia.
Qed.

(** Checksumming in pieces. *)
Lemma crc_chunks a b c : update_crc32 (a ++ b) c = update_crc32 b (update_crc32 a c).
Proof.
  unfold update_crc32. rewrite (Z.lxor_assoc _ (-1) (-1)), Z.lxor_nilpotent, Z.lxor_0_r, fold_left_app. reflexivity.
Qed.

Lemma crc_range bs c : is32 c -> is32 (update_crc32 bs c).
Proof.
  intros H. unfold update_crc32. assert (N : forall z, is32 z -> is32 (Z.lxor z (-1))).
  { intros z Hz. apply lxor_range; unfold is32 in *; lia. }
  apply N. apply run_range. apply N. exact H.
Qed.
