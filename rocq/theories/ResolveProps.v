(** C67: the clauses derived by the reasoner (Reasoner/derive.c, rgenloop.c) follow from the
    clauses it was given, and a proof means that these have no model. *)
From Coq Require Import ZArith List Bool Lia.
From Verif Require Import Base EncodingModel CompareModel UnistrModel UnifyModel UnifySpec UnifyProofs UnifyTotal MatchProofs ResolveModel ResolveSpec BuildProofs ResolveProofs.
Import ListNotations.
Open Scope Z_scope.
#[local] Ltac Zify.zify_post_hook ::= Z.div_mod_to_equations.

(** -p(X) | -q(X) | r(X), p(a), q(a), -r(a), with p, q, r, a the numbers 1, 2, 4, 3. *)
Definition ex_rec (a : Z) : option (list Z) :=
  match a with
  | 64 => Some [0; 11; 7] | 128 => Some [0; 19; 7] | 192 => Some [0; 35; 7]
  | 256 => Some [0; 11; 64; 11; 128; 0; 192]
  | 320 => Some [0; 11; 27] | 384 => Some [0; 19; 27] | 448 => Some [0; 35; 27]
  | 512 => Some [0; 11; 448] | _ => None
  end.
Definition ex_rule (a : Z) : bool := (a =? 256) || (a =? 512).
Definition ex_heap : heap := Heap ex_rec ex_rule 1024 1000000 false.
Definition ex_hash (r : Z -> option (list Z)) (a : Z) : Z := match r a with Some fs => nth 1 fs 0 | None => 0 end.
Definition ex_cfg : cfg := Cfg (Genv (CSt (fun _ => 0) 0) (fun _ => None) true 0 1) true true false ex_hash.
Definition cn (e : Z) := TC (const_key (CSt (fun _ => 0) 0) e).
Definition ex_clauses : list (list (bool * term)) :=
  [[(true, TF [cn 11; TV 0]); (true, TF [cn 19; TV 0]); (false, TF [cn 35; TV 0])]; [(false, TF [cn 11; cn 27])]; [(false, TF [cn 19; cn 27])]; [(true, TF [cn 35; cn 27])]].
Example ex_memory : memory_ok ex_heap.
Proof. split; [reflexivity|]. split; [reflexivity|]. intros a fs. cbn [ex_heap h_rec h_next]. unfold ex_rec. intros H. repeat match type of H with (match ?v with _ => _ end) = _ => destruct v; try discriminate H end; split; easy. Qed.
Ltac rp :=
  lazymatch goal with
  | |- rep _ _ (TV _) => apply rep_var; reflexivity
  | |- rep _ _ (TC _) => apply rep_con; [reflexivity|reflexivity|discriminate]
  | |- rep _ _ (TF _) => eapply rep_rec; [reflexivity|reflexivity|vm_compute; discriminate|]; cbv [args skipn gof ex_cfg c_g g_first Z.to_nat Pos.to_nat Pos.iter_op Nat.add]; rp
  | |- reps _ [] [] => apply reps_nil
  | |- reps _ (_ :: _) (_ :: _) => apply reps_cons; rp
  end.
Example ex_crep : Forall2 (crep ex_cfg ex_heap) [256; 320; 384; 512] ex_clauses.
Proof.
  unfold ex_clauses. repeat (apply Forall2_cons; [eexists; split; [vm_compute; reflexivity|]; repeat (apply Forall2_cons; [split; [reflexivity|cbn [snd]; unfold cn; rp]|]); apply Forall2_nil|]). apply Forall2_nil.
Qed.
Example ex_shape : Forall shape ex_clauses.
Proof.
  unfold ex_clauses. repeat (apply Forall_cons; [repeat (apply Forall_cons; [split; [eexists; reflexivity|]; cbn [snd]; intros v O; cbn in O; repeat (destruct O as [O|O]); try contradiction O; subst; lia|]); apply Forall_nil|]). apply Forall_nil.
Qed.

Lemma start_ok c M h cls css : memory_ok h -> Forall2 (crep c h) cls css -> Forall shape css -> Forall (valid M) css -> SI c M (wr_start h cls).
Proof.
  intros W R S V. split; [|now split]. constructor; cbn [wr_start r_h r_queue r_active r_pos r_neg r_proof]; [exact W| |constructor|constructor|constructor|reflexivity]. clear W.
  revert S V. induction R as [|cl ls cls css (lits & E & F) R IH]; intros S V; [constructor|]. constructor; [|apply IH; [exact (Forall_inv_tail S)|exact (Forall_inv_tail V)]].
  exists lits, ls. split; [|exact (Forall_inv V)]. constructor; [exact E|exact F|]. apply shape_lok. exact (Forall_inv S).
Qed.
(** A proof means that no structure makes all the given clauses true. *)
Theorem C67_proof c h cls css n st :
  std (c_g c) -> memory_ok h -> Forall2 (crep c h) cls css -> Forall shape css -> wr_genloop n c (wr_start h cls) = Some (st, 0) -> forall M, ~ Forall (valid M) css.
Proof. intros Sd W R S E M V. now destruct (genloop_ok c Sd M n _ _ _ (start_ok c M h cls css W R S V) E) as (_ & N & _). Qed.
Print Assumptions C67_proof.
Example C67_proof_case : exists st, wr_genloop 40 ex_cfg (wr_start ex_heap [256; 320; 384; 512]) = Some (st, 0).
Proof. eexists. now vm_compute. Qed.
(** Every clause in the queue and in the active list, at whatever point the loop ends, is one
    of atoms with variables of the banks and is true in every structure in which the given
    clauses are. *)
Theorem C67_follow c h cls css n st r M :
  std (c_g c) -> memory_ok h -> Forall2 (crep c h) cls css -> Forall shape css -> wr_genloop n c (wr_start h cls) = Some (st, r) -> Forall (valid M) css ->
  forall cl, In cl (r_queue st ++ r_active st) -> exists ls, crep c (r_h st) cl ls /\ shape ls /\ valid M ls.
Proof.
  intros Sd W R S E V cl I. destruct (genloop_ok c Sd M n _ _ _ (start_ok c M h cls css W R S V) E) as (B & _ & _).
  assert (G : good c M (r_h st) cl). { apply in_app_or in I. destruct I as [I|I]; [pose proof (s_queue _ _ _ B) as F|pose proof (s_active _ _ _ B) as F]; rewrite Forall_forall in F; now apply F. }
  destruct G as (lits & ls & [K1 K2 K3] & Va). exists ls. split; [now exists lits|]. split; [|exact Va]. now apply shape_lok.
Qed.
Print Assumptions C67_follow.
(** Without -r(a): the loop ends with r(a) in the queue. *)
Example C67_follow_case : exists st, wr_genloop 40 ex_cfg (wr_start ex_heap [256; 320; 384]) = Some (st, 1) /\ nth_error (r_queue st) 3 = Some 2304 /\ h_rule (r_h st) 2304 = false /\ h_rec (r_h st) 2304 = Some [0; 35; 27].
Proof. eexists. split; [vm_compute; reflexivity|]. now repeat split. Qed.
(** -p(X) | q(X) and p(Y) give q(Z), which is stored as a rule since it has a variable. *)
Definition ex_heap2 : heap :=
  Heap (fun a => match a with 64 => Some [0; 11; 7] | 128 => Some [0; 19; 7] | 192 => Some [0; 11; 7]
                 | 256 => Some [0; 11; 64; 0; 128] | 320 => Some [0; 0; 192] | _ => None end)
       (fun a => (a =? 256) || (a =? 320)) 1024 1000000 false.
Example C67_rule_case : exists st cl at2 v, wr_genloop 40 ex_cfg (wr_start ex_heap2 [256; 320]) = Some (st, 1) /\ nth_error (r_queue st) 2 = Some cl /\
  h_rule (r_h st) cl = true /\ h_rec (r_h st) cl = Some [0; 0; at2] /\ h_rec (r_h st) at2 = Some [0; 19; v] /\ isvar v = true.
Proof. eexists _, _, _, _. split; [vm_compute; reflexivity|]. repeat split. Qed.
(** The given clauses stay as they are in memory. *)
Theorem C67_frame c h cls css n st r M a :
  std (c_g c) -> memory_ok h -> Forall2 (crep c h) cls css -> Forall shape css -> Forall (valid M) css -> wr_genloop n c (wr_start h cls) = Some (st, r) -> a < h_next h -> h_rec (r_h st) a = h_rec h a /\ h_rule (r_h st) a = h_rule h a.
Proof. intros Sd W R S V E L. destruct (genloop_ok c Sd M n _ _ _ (start_ok c M h cls css W R S V) E) as (_ & _ & _ & X). now apply X. Qed.
Print Assumptions C67_frame.
(** With the usual settings (hyperresolution, negative literals first) the buffer of the queue
    is freed while the clause just derived is in it (Reasoner/derive.c l.203): g->build_buffer
    no longer is the buffer made on l.139. The clause is then picked from the queue and goes
    to the active list. *)
Theorem C67_freed_refuted :
  exists st, wr_genloop 40 ex_cfg (wr_start ex_heap [256; 320; 384]) = Some (st, 1) /\ In QUEUE (r_freed st) /\ length (r_queue st) = 4%nat /\ length (r_active st) = 4%nat.
Proof. eexists. split; [vm_compute; reflexivity|]. split; [now left|]. now split. Qed.
Print Assumptions C67_freed_refuted.
