(** C66: subsumption of clauses (Reasoner/subsume.c). *)
From Coq Require Import ZArith List Bool Lia.
From Verif Require Import Base EncodingModel CompareModel UnistrModel UnifyModel UnifySpec UnifyProofs UnifyTotal MatchProofs ResolveModel ResolveSpec BuildProofs ResolveProofs SubsumeProofs.
Import ListNotations.
Open Scope Z_scope.
#[local] Ltac Zify.zify_post_hook ::= Z.div_mod_to_equations.

(** A clause in memory for subsumption: literals, signs 0 or ATOM_META_NEG, facts without variables. *)
Definition stands (c : cfg) (h : heap) (cl : Z) (ls : list (bool * term)) : Prop :=
  exists lits, clause_lits h cl = Some lits /\ Forall2 (lrep c h) lits ls /\ metas_ok lits /\ (h_rule h cl = false -> Forall (fun q => ground (snd q)) ls).
(** p(X), p(X) | -q(Y), -q(a) | p(b) | p(a), the fact p(a), -q(X) | p(X), p(X) as a fact. *)
Definition sb_rec (a : Z) : option (list Z) :=
  match a with
  | 64 => Some [0; 11; 7] | 128 => Some [0; 19; 23] | 192 => Some [0; 19; 27] | 256 => Some [0; 11; 35] | 320 => Some [0; 11; 27] | 384 => Some [0; 19; 7]
  | 448 => Some [0; 0; 64] | 512 => Some [0; 0; 64; 11; 128] | 576 => Some [0; 11; 192; 0; 256; 0; 320] | 640 => Some [0; 11; 384; 0; 64]
  | _ => None
  end.
Definition sb_heap : heap := Heap sb_rec (fun a => 448 <=? a) 1024 1000000 false.
Definition sb_cfg : cfg := Cfg (Genv (CSt (fun _ => 0) 0) (fun _ => None) true 0 1) true true false (fun _ _ => 0).
Definition sb_free : ust := Ust (fun _ => UNASSIGNED) [].
Definition sc (e : Z) := TC (const_key (CSt (fun _ => 0) 0) e).
Example sb_memory : memory_ok sb_heap.
Proof. split; [reflexivity|]. split; [reflexivity|]. intros a fs. cbn [sb_heap h_rec h_next]. unfold sb_rec. intros H. repeat match type of H with (match ?v with _ => _ end) = _ => destruct v; try discriminate H end; split; easy. Qed.
Ltac rps :=
  lazymatch goal with
  | |- rep _ _ (TV _) => apply rep_var; reflexivity
  | |- rep _ _ (TC _) => apply rep_con; [reflexivity|reflexivity|discriminate]
  | |- rep _ _ (TF _) => eapply rep_rec; [reflexivity|reflexivity|vm_compute; discriminate|]; cbv [args skipn gof sb_cfg c_g g_first Z.to_nat Pos.to_nat Pos.iter_op Nat.add]; rps
  | |- reps _ [] [] => apply reps_nil
  | |- reps _ (_ :: _) (_ :: _) => apply reps_cons; rps
  end.
Ltac stands_tac := eexists; split; [vm_compute; reflexivity|]; split; [repeat (apply Forall2_cons; [split; [reflexivity|cbn [snd]; unfold sc; rps]|]); apply Forall2_nil|]; split; [repeat (apply Forall_cons; [vm_compute; auto|]); apply Forall_nil|].
Example sb_640 : stands sb_cfg sb_heap 640 [(true, TF [sc 19; TV 0]); (false, TF [sc 11; TV 0])].
Proof. stands_tac. discriminate. Qed.
Example sb_576 : stands sb_cfg sb_heap 576 [(true, TF [sc 19; sc 27]); (false, TF [sc 11; sc 35]); (false, TF [sc 11; sc 27])].
Proof. stands_tac. discriminate. Qed.
Example sb_320 : stands sb_cfg sb_heap 320 [(false, TF [sc 11; sc 27])].
Proof. stands_tac. intros _. apply Forall_cons; [|apply Forall_nil]. intros v O. cbn in O. tauto. Qed.

(** An answer of wr_subsume_cl is yes exactly when an instance of the first clause, its literals
    taken at different places, is a part of the second. The variable banks are clear afterwards. *)
Theorem C66_subsume c h n st st' cl1 cl2 l1 l2 b :
  std (c_g c) -> memory_ok h -> clean st -> l1 <> [] -> stands c h cl1 l1 -> stands c h cl2 l2 -> wr_subsume_cl n c h st cl1 cl2 = Some (st', b) ->
  clean st' /\ (b = true <-> exists s js, NoDup js /\ Forall2 (fun q j => nth_error l2 j = Some (fst q, inst s (snd q))) l1 js).
Proof.
  intros Sd M C N (lits1 & E1 & R1 & K1 & G1) (lits2 & E2 & R2 & K2 & _) E. split; [now apply (subsume_clean n c h st cl1 cl2 st' b)|].
  exact (subsume_ok c h (wf_gof c h Sd M) n cl1 cl2 lits1 lits2 l1 l2 st st' b C N E1 E2 R1 R2 K1 K2 G1 E).
Qed.
Print Assumptions C66_subsume.
(** -q(X) | p(X) subsumes -q(a) | p(b) | p(a), p(X) | -q(Y) does as well, the other way round
    there is no subsumption, and the fact p(a) subsumes too. *)
Example C66_subsume_case :
  (exists st, wr_subsume_cl 9 sb_cfg sb_heap sb_free 640 576 = Some (st, true)) /\ (exists st, wr_subsume_cl 9 sb_cfg sb_heap sb_free 512 576 = Some (st, true)) /\
  (exists st, wr_subsume_cl 9 sb_cfg sb_heap sb_free 576 640 = Some (st, false)) /\ (exists st, wr_subsume_cl 9 sb_cfg sb_heap sb_free 320 576 = Some (st, true)).
Proof. repeat split; eexists; vm_compute; reflexivity. Qed.
(** A clause taken from the queue is dropped exactly when one of the active clauses subsumes it. *)
Theorem C66_given c h n st st' active given ls l2 b :
  std (c_g c) -> memory_ok h -> clean st -> Forall2 (stands c h) active ls -> Forall (fun l => l <> []) ls -> stands c h given l2 -> wr_given_cl_subsumed n c h st active given = Some (st', b) ->
  clean st' /\ (b = true <-> Exists (fun l1 => subsumes l1 l2) ls).
Proof.
  intros Sd M C F Ne S2. revert st C. induction F as [|cl l active ls S1 F IH]; intros st C; cbn [wr_given_cl_subsumed].
  - intros E. injection E as <- <-. split; [exact C|]. split; [discriminate|]. intros H. inversion H.
  - destruct (wr_subsume_cl n c h st cl given) as [[st1 b1]|] eqn:E1; [|discriminate]. destruct (C66_subsume c h n st st1 cl given l l2 b1 Sd M C (Forall_inv Ne) S1 S2 E1) as (C1 & Q). destruct b1.
    + intros E. injection E as <- <-. split; [exact C1|]. split; [|reflexivity]. intros _. left. now apply Q.
    + intros E. destruct (IH (Forall_inv_tail Ne) st1 C1 E) as (C2 & Q2). split; [exact C2|]. rewrite Q2. split; [now right|]. intros H. inversion H as [? ? H1|? ? H1]; subst; [|exact H1]. assert (false = true) by now apply Q. discriminate.
Qed.
Print Assumptions C66_given.
Example C66_given_case : (exists st, wr_given_cl_subsumed 9 sb_cfg sb_heap sb_free [576; 640] 576 = Some (st, true)) /\ (exists st, wr_given_cl_subsumed 9 sb_cfg sb_heap sb_free [576; 320] 640 = Some (st, false)).
Proof. repeat split; eexists; vm_compute; reflexivity. Qed.
(** A dropped clause is true wherever the active clauses are. *)
Theorem C66_dropped M l1 l2 : subsumes l1 l2 -> valid M l1 -> valid M l2.
Proof.
  intros (s & js & _ & F) V v. specialize (V (fun x => ev M v (s x))). apply existsb_exists in V. destruct V as (q & I & T). apply existsb_exists.
  clear - F I T. induction F as [|q' j l k H F IH]; [easy|]. destruct I as [->|I]; [|now apply IH]. exists (fst q, inst s (snd q)). split; [now apply (nth_error_In _ j)|]. unfold lit_true in *. cbn [fst snd]. now rewrite ev_inst.
Qed.
Print Assumptions C66_dropped.
Example C66_dropped_case : subsumes [(true, TF [sc 19; TV 0]); (false, TF [sc 11; TV 0])] [(true, TF [sc 19; sc 27]); (false, TF [sc 11; sc 35]); (false, TF [sc 11; sc 27])].
Proof. exists (fun _ => sc 27), [0%nat; 2%nat]. split; [repeat constructor; cbn; lia|]. repeat constructor. Qed.
(** A fact with a variable is not seen to subsume its instances: facts are compared by
    wr_equal_term (Reasoner/subsume.c l.150-168). *)
Theorem C66_fact_variable_refuted :
  exists st, wr_subsume_cl 9 sb_cfg sb_heap sb_free 64 320 = Some (st, false) /\ subsumes [(false, TF [sc 11; TV 0])] [(false, TF [sc 11; sc 27])].
Proof. eexists. split; [vm_compute; reflexivity|]. exists (fun _ => sc 27), [0%nat]. split; [repeat constructor; cbn; lia|]. repeat constructor. Qed.
Print Assumptions C66_fact_variable_refuted.
