(** C65: unification (Reasoner/unify.c). C66: equality and matching of terms. *)
From Coq Require Import ZArith List Bool Lia.
From Verif Require Import Base EncodingModel CompareModel UnistrModel UnifyModel UnifySpec UnifyProofs UnifyTotal MatchProofs.
Import ListNotations.
Open Scope Z_scope.
#[local] Ltac Zify.zify_post_hook ::= Z.div_mod_to_equations.

(** Some records: p(X1,f(X2)), f(X2), p(f(c),X3), f(c), p(X1,X1), p(X2,f(X2)), p(c,c). *)
Definition ex_recs (a : Z) : option (list Z) :=
  match a with
  | 64 => Some [0; 11; 23; 128] | 128 => Some [0; 19; 39]
  | 192 => Some [0; 11; 256; 55] | 256 => Some [0; 19; 27]
  | 320 => Some [0; 11; 23; 23] | 384 => Some [0; 11; 39; 128]
  | 448 => Some [0; 11; 27; 27] | _ => None
  end.
Definition ex_env : genv := Genv (CSt (fun _ => 0) 0) ex_recs true 0 1.
Definition ex_free : ust := Ust (fun _ => UNASSIGNED) [].
Example ex_wf : wf ex_env.
Proof. split; [now repeat split|]. intros a fs. cbn [ex_env g_rec]. unfold ex_recs. intros H. repeat match type of H with (match ?v with _ => _ end) = _ => destruct v; try discriminate H end; split; easy. Qed.
Ltac rep_tac :=
  lazymatch goal with
  | |- rep _ _ (TV _) => apply rep_var; reflexivity
  | |- rep _ _ (TC _) => apply rep_con; [reflexivity|reflexivity|discriminate]
  | |- rep _ _ (TF _) => eapply rep_rec; [reflexivity|reflexivity|vm_compute; discriminate|]; cbv [args skipn ex_env g_first Z.to_nat Pos.to_nat Pos.iter_op]; rep_tac
  | |- reps _ [] [] => apply reps_nil
  | |- reps _ (_ :: _) (_ :: _) => apply reps_cons; rep_tac
  end.
Definition c3 (e : Z) := TC (const_key (CSt (fun _ => 0) 0) e).
Example ex_64 : rep ex_env 64 (TF [c3 11; TV 1; TF [c3 19; TV 2]]).
Proof. unfold c3. rep_tac. Qed.
Example ex_192 : rep ex_env 192 (TF [c3 11; TF [c3 19; c3 27]; TV 3]).
Proof. unfold c3. rep_tac. Qed.
Example ex_320 : rep ex_env 320 (TF [c3 11; TV 1; TV 1]).
Proof. unfold c3. rep_tac. Qed.
Example ex_384 : rep ex_env 384 (TF [c3 11; TV 2; TF [c3 19; TV 2]]).
Proof. unfold c3. rep_tac. Qed.
Example ex_448 : rep ex_env 448 (TF [c3 11; c3 27; c3 27]).
Proof. unfold c3. rep_tac. Qed.

(** ** C65 *)
Lemma clear_all st new : u_stk st = new -> (forall v, ~ In v new -> u_vb st v = UNASSIGNED) -> forall v, u_vb (wr_clear_varstack st) v = UNASSIGNED.
Proof.
  unfold wr_clear_varstack. cbn [u_vb]. intros ->. generalize (u_vb st). induction new as [|a l IH]; intros vb H v; cbn [fold_left].
  - apply H. easy.
  - apply IH. intros w N. unfold upd. destruct (Z.eqb_spec w a) as [->|D]; [reflexivity|]. apply H. intros [->|I]; contradiction.
Qed.
(** The bindings made by a successful call, for terms of any size with any constants
    inside, are a most general unifier; a failing call means that there is no unifier;
    the call always ends; clearing the stack takes all bindings back. *)
Theorem C65_unify g st x y tx ty :
  std g -> (forall v, u_vb st v = UNASSIGNED) -> u_stk st = [] -> rep g x tx -> rep g y ty ->
  exists n st' b, (forall m, (n <= m)%nat -> wr_unify_term m g true st x y = Some (st', b)) /\
    (b = true -> exists s, inst s tx = inst s ty /\ (forall th, inst th tx = inst th ty -> forall v, inst th (s v) = th v) /\
       solves g (u_vb st') s /\ (forall v, u_vb st' v = UNASSIGNED -> s v = TV v)) /\
    (b = false -> forall th, inst th tx <> inst th ty) /\
    (forall v, u_vb (wr_clear_varstack st') v = UNASSIGNED).
Proof.
  intros Sd U K Rx Ry. pose proof (inv_empty g (u_vb st) U) as I.
  destruct (within_ex (TF [tx; ty])) as (V & W). apply within_TF in W. pose proof (Forall_inv W) as Wx. pose proof (Forall_inv (Forall_inv_tail W)) as Wy.
  assert (C : closed g V (u_vb st)) by (intros v t N; now contradiction (N (U v))).
  destruct (unify_total g V Sd (free (u_vb st) V) (size (inst TV tx)) st x y tx ty TV (fun _ => O) I Rx Ry C Wx Wy eq_refl eq_refl) as (n & [st' b] & E).
  exists n, st', b. split; [intros m L; now apply (unify_mono g true n m)|].
  pose proof (unify_ok g Sd n st x y st' b tx ty TV (fun _ => O) I Rx Ry E) as [(s & rk & Q) (new & Ks & _ & O & _) _ T F].
  assert (SO : forall th, solves g (u_vb st) th) by (intros th v t N; now contradiction (N (U v))).
  split; [|split].
  - intros B. exists s. split; [now apply (T B s), (i_sol _ _ _ _ Q)|]. split; [|split; [apply (i_sol _ _ _ _ Q)|apply (i_free _ _ _ _ Q)]].
    intros th Eq v. apply (i_mg _ _ _ _ Q). apply (T B th). split; [apply SO|exact Eq].
  - intros B th. now apply (F B th).
  - apply (clear_all st' new); [now rewrite Ks, K, app_nil_r|]. intros v N. now rewrite (O v N).
Qed.
Print Assumptions C65_unify.
(** p(X1,f(X2)) and p(f(c),X3) unify by X1 := f(c), X3 := f(X2). *)
Example C65_unify_case :
  exists st', wr_unify_term 20 ex_env true ex_free 64 192 = Some (st', true) /\ u_vb st' 1 = 256 /\ u_vb st' 3 = 128 /\ u_vb st' 2 = UNASSIGNED /\ u_stk st' = [3; 1].
Proof. eexists. vm_compute. repeat split. Qed.
(** p(X1,X1) and p(X2,f(X2)) do not: the occurs check. *)
Example C65_occurs_case : exists st', wr_unify_term 20 ex_env true ex_free 320 384 = Some (st', false) /\ u_vb (wr_clear_varstack st') 1 = UNASSIGNED.
Proof. eexists. vm_compute. repeat split. Qed.
(** With unify_maxuseterms 1 only p is compared in p(X1,X1) and p(c,c), with 2 the first argument too. *)
Example C65_maxuse_case :
  wr_unify_term 20 (Genv (CSt (fun _ => 0) 0) ex_recs true 1 1) true ex_free 320 448 = Some (ex_free, true) /\
  exists st', wr_unify_term 20 (Genv (CSt (fun _ => 0) 0) ex_recs true 2 1) true ex_free 320 448 = Some (st', true) /\ u_vb st' 1 = 27.
Proof. split; [vm_compute; reflexivity|]. eexists. split; [vm_compute; reflexivity|reflexivity]. Qed.

(** A row of calls without clearing in between is simultaneous unification. *)
Theorem C65_row g n st l ts :
  std g -> (forall v, u_vb st v = UNASSIGNED) -> u_stk st = [] -> Forall2 (fun p q => rep g (fst p) (fst q) /\ rep g (snd p) (snd q)) l ts ->
  forall st' b, fold_pairs (wr_unify_term n g true) st l = Some (st', b) ->
    (b = true -> exists s, Forall (fun q => inst s (fst q) = inst s (snd q)) ts /\
       (forall th, Forall (fun q => inst th (fst q) = inst th (snd q)) ts -> forall v, inst th (s v) = th v)) /\
    (b = false -> forall th, ~ Forall (fun q => inst th (fst q) = inst th (snd q)) ts) /\
    (forall v, u_vb (wr_clear_varstack st') v = UNASSIGNED).
Proof.
  intros Sd U K R. assert (P : forall st th rk, inv g (u_vb st) th rk -> forall st' b, fold_pairs (wr_unify_term n g true) st l = Some (st', b) -> post g st st' b (fun th => Forall (fun q => inst th (fst q) = inst th (snd q)) ts)).
  { clear U K st. induction R as [|[x y] [tx ty] l ts (Rx & Ry) R IH]; intros st th rk I st' b; cbn [fold_pairs fst snd] in *.
    - intros E. injection E as <- <-. apply (post_same g st th rk); [exact I|constructor|discriminate].
    - destruct (wr_unify_term n g true st x y) as [[st1 b1]|] eqn:E1; [|discriminate]. pose proof (unify_ok g Sd n st x y st1 b1 tx ty th rk I Rx Ry E1) as P1. destruct b1.
      + intros E. destruct (p_inv _ _ _ _ _ P1) as (th1 & rk1 & I1). pose proof (post_trans g st st1 st' b _ _ P1 (IH st1 th1 rk1 I1 st' b E)) as P2. apply (post_weak _ _ _ _ _ _ P2). intros th2 _. cbn beta. split; [intros (A & B); now constructor|]. intros A. split; [exact (Forall_inv A)|exact (Forall_inv_tail A)].
      + intros E. injection E as <- <-. destruct P1 as [A1 A2 A3 A4 A5]. constructor; [exact A1|exact A2|exact A3|discriminate|]. intros _ th2 S Q. exact (A5 eq_refl th2 S (Forall_inv Q)). }
  intros st' b E. destruct (P st TV (fun _ => O) (inv_empty g (u_vb st) U) st' b E) as [(s & rk & Q) (new & Ks & _ & O & _) _ T F].
  assert (SO : forall th, solves g (u_vb st) th) by (intros th v t N; now contradiction (N (U v))).
  split; [|split].
  - intros B. exists s. split; [now apply (T B s), (i_sol _ _ _ _ Q)|]. intros th Eq v. apply (i_mg _ _ _ _ Q). apply (T B th). split; [apply SO|exact Eq].
  - intros B th. now apply (F B th).
  - apply (clear_all st' new); [now rewrite Ks, K, app_nil_r|]. intros v N. now rewrite (O v N).
Qed.
Print Assumptions C65_row.
(** After p(X1,f(X2)) = p(f(c),X3) the equation X2 = X3 has no solution (X3 is f(X2)), X2 = c has. *)
Example C65_row_case :
  (exists st', fold_pairs (wr_unify_term 20 ex_env true) ex_free [(64, 192); (39, 55)] = Some (st', false)) /\
  (exists st', fold_pairs (wr_unify_term 20 ex_env true) ex_free [(64, 192); (39, 27)] = Some (st', true) /\ u_vb st' 2 = 27).
Proof. split; eexists; vm_compute; repeat split. Qed.

(** Equal long strings are never equal terms when strings are not taken to be unique
    (uniquestrflag 0), unless their length happens to be 11: Reasoner/unify.c l.478 and
    l.482 compare with 11 in place of l1. *)
Theorem C65_not_unique_refuted : ~ (forall s a b, a <> b -> Z.land a 7 = 4 -> Z.land b 7 = 4 ->
  encoded_type (words s) a = encoded_type (words s) b -> unistr_lang s a (encoded_type (words s) a) = None -> unistr_lang s b (encoded_type (words s) b) = None ->
  wg_decode_unistr_len s a = wg_decode_unistr_len s b ->
  same_bytes (words s) (match wg_decode_unistr a with Some p => p | None => 0 end) (match wg_decode_unistr b with Some p => p | None => 0 end) (Z.to_nat (wg_decode_unistr_len s a)) = true ->
  wr_equal_ptr_primitives s a b false = true).
Proof. intros H. specialize (H (CSt (fun _ => 0) 4096) 132 204). assert (X : wr_equal_ptr_primitives (CSt (fun _ => 0) 4096) 132 204 false = true) by (apply H; try reflexivity; discriminate). discriminate X. Qed.
Print Assumptions C65_not_unique_refuted.

(** ** C66 *)
(** wr_equal_term is equality of the terms. *)
Theorem C66_equal g n x y tx ty b : wf g -> rep g x tx -> rep g y ty -> wr_equal_term n g true x y = Some b -> (b = true <-> tx = ty).
Proof. intros W Rx Ry. now apply wr_equal_term_ok. Qed.
Print Assumptions C66_equal.
Example C66_equal_case : wr_equal_term 9 ex_env true 320 384 = Some false /\ wr_equal_term 9 ex_env true 256 256 = Some true /\ wr_equal_term 9 ex_env true 448 320 = Some false.
Proof. repeat split. Qed.
(** Matching, from bindings that are empty: success means exactly that the second term is an
    instance of the first, and the bindings are the only substitution that does it. *)
Theorem C66_match g n st x y tx ty st' b :
  wf g -> (forall v, u_vb st v = UNASSIGNED) -> u_stk st = [] -> rep g x tx -> rep g y ty -> wr_match_term_aux n g true st x y = Some (st', b) ->
  (b = true <-> exists th, inst th tx = ty) /\
  (b = true -> forall th, binds g (u_vb st') th <-> inst th tx = ty) /\
  (forall v, u_vb (wr_clear_varstack st') v = UNASSIGNED).
Proof.
  intros W U K Rx Ry E. assert (B0 : bound_ok g (u_vb st)) by (intros v N; now contradiction (N (U v))).
  assert (B1 : forall th, binds g (u_vb st) th) by (intros th v t N; now contradiction (N (U v))).
  destruct (match_ok g W n st x y st' b tx ty B0 Rx Ry E) as [MO (new & Ks & O & _) _ T F].
  assert (T' : b = true -> forall th, binds g (u_vb st') th <-> inst th tx = ty) by (intros B th; rewrite (T B th); split; [tauto|auto]).
  split; [|split; [exact T'|]].
  - split.
    + intros B. assert (X : forall l, exists th, forall v, In v l -> u_vb st' v <> UNASSIGNED -> rep g (u_vb st' v) (th v)).
      { induction l as [|a l (th & IH)]; [exists TV; easy|]. destruct (Z.eq_dec (u_vb st' a) UNASSIGNED) as [Ea|Ea].
        - exists th. intros v [<-|J] N; [contradiction|now apply IH].
        - destruct (MO a Ea) as (t & Ra). exists (fun v => if v =? a then t else th v). intros v J N. destruct (Z.eqb_spec v a) as [->|D]; [exact Ra|]. destruct J as [->|J]; [contradiction|now apply IH]. }
      destruct (X new) as (th & Xn). exists th. apply (T' B). intros v t N R. apply (rep_det g (u_vb st' v)); [|exact R]. apply Xn; [|exact N]. destruct (in_dec Z.eq_dec v new) as [J|J]; [exact J|]. contradiction N. now rewrite (O v J).
    + intros (th & Eq). destruct b; [reflexivity|]. now contradiction (F eq_refl th (B1 th)).
  - apply (clear_all st' new); [now rewrite Ks, K, app_nil_r|]. intros v N. now rewrite (O v N).
Qed.
Print Assumptions C66_match.
(** p(c,c) is an instance of p(X1,X1), p(f(c),X3) is not. *)
Example C66_match_case :
  (exists st', wr_match_term_aux 9 ex_env true ex_free 320 448 = Some (st', true) /\ u_vb st' 1 = 27) /\
  (exists st', wr_match_term_aux 9 ex_env true ex_free 320 192 = Some (st', false)).
Proof. split; eexists; vm_compute; repeat split. Qed.
(** wr_equal_term gives an answer when there are no long strings in the second term. *)
Theorem C66_equal_defined g n x y tx ty : wf g -> (size tx <= n)%nat -> rep g x tx -> rep g y ty -> nolong ty -> exists b, wr_equal_term n g true x y = Some b.
Proof.
  intros W L Rx Ry NL. destruct (equal_total g W (S n) x y tx ty ltac:(lia) Rx Ry NL) as (b & E). cbn [WR_EQUAL_TERM] in E. unfold wr_equal_term.
  destruct (x =? y); [now eexists|]. destruct (((Z.land x 7 =? 4) && true) || (Z.land x 7 =? 3) || (Z.land x 7 =? 7)); [now eexists|].
  destruct (negb (isptr x) || negb (isptr y)); [now eexists|]. destruct (negb (Z.land x 3 =? Z.land y 3)); [now eexists|]. destruct (isdatarec x) eqn:Dx; cbn [negb] in *; [|now exists b]. destruct (isdatarec y); cbn [negb]; [|now eexists].
  now exists b.
Qed.
Print Assumptions C66_equal_defined.
Example C66_equal_defined_case : nolong (TF [c3 11; TV 1; TF [c3 19; TV 2]]).
Proof. repeat split; vm_compute; discriminate. Qed.
(** With a long string (low bits 4) as a field there may be none: WR_EQUAL_TERM takes it for
    a record (Reasoner/unify.c l.408-412), as the low two bits are those of a record. Here
    the terms are f(f(c)) and f(s). *)
Definition ex_long : genv := Genv (CSt (fun _ => 0) 0) (fun a => match a with 64 => Some [0; 19; 256] | 128 => Some [0; 19; 132] | 256 => Some [0; 19; 27] | _ => None end) true 0 1.
Theorem C66_equal_defined_refuted : exists g x y tx ty, wf g /\ rep g x tx /\ rep g y ty /\ forall n, wr_equal_term n g true x y = None.
Proof.
  exists ex_long, 64, 128. do 2 eexists. split; [|split; [|split]].
  - split; [now repeat split|]. intros a fs. cbn [ex_long g_rec]. intros H. repeat match type of H with (match ?v with _ => _ end) = _ => destruct v; try discriminate H end; split; easy.
  - eapply rep_rec; [reflexivity|reflexivity|vm_compute; discriminate|]. cbv [args skipn ex_long g_first Z.to_nat Pos.to_nat Pos.iter_op]. apply reps_cons; [apply rep_con; [reflexivity|reflexivity|discriminate]|]. apply reps_cons; [|apply reps_nil].
    eapply rep_rec; [reflexivity|reflexivity|vm_compute; discriminate|]. cbv [args skipn ex_long g_first Z.to_nat Pos.to_nat Pos.iter_op]. apply reps_cons; [apply rep_con; [reflexivity|reflexivity|discriminate]|]. apply reps_cons; [apply rep_con; [reflexivity|reflexivity|discriminate]|apply reps_nil].
  - eapply rep_rec; [reflexivity|reflexivity|vm_compute; discriminate|]. cbv [args skipn ex_long g_first Z.to_nat Pos.to_nat Pos.iter_op]. apply reps_cons; [apply rep_con; [reflexivity|reflexivity|discriminate]|]. apply reps_cons; [apply rep_con; [reflexivity|reflexivity|discriminate]|apply reps_nil].
  - intros [|[|n]]; reflexivity.
Qed.
Print Assumptions C66_equal_defined_refuted.
(** A constant against a record: wr_match_term_aux goes on and reads the constant as a record
    (Reasoner/unify.c l.280-289). Here p(c,c) against p(f(c),X3). *)
Theorem C66_match_defined_refuted : exists g x y tx ty, wf g /\ rep g x tx /\ rep g y ty /\ forall n st, wr_match_term_aux n g true st x y = None.
Proof. exists ex_env, 448, 192. do 2 eexists. split; [exact ex_wf|]. split; [exact ex_448|]. split; [exact ex_192|]. intros [|[|[|n]]] st; reflexivity. Qed.
Print Assumptions C66_match_defined_refuted.
