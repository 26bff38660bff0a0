(** Specification for the terms of the reasoner: first-order terms, substitution and
    what a term in memory stands for. *)
From Coq Require Import ZArith List Bool SpecFloat Lia.
From Verif Require Import Base EncodingModel CompareModel CompareProofs UnistrModel UnifyModel.
Import ListNotations.
Open Scope Z_scope.

(** What a constant stands for: a number, a text, or the value itself (all immediate
    values, long strings, which are unique, and NaN, which is equal to nothing else). *)
Inductive key := KImm (e : Z) | KInt (v : Z) | KDouble (d : Z) | KStr (l : list Z).
(** First-order terms: variables, constants, records with their arguments (the function
    symbol is the first of them). *)
Inductive term := TV (v : Z) | TC (k : key) | TF (l : list term).

(** Substitution. *)
Fixpoint inst (th : Z -> term) (t : term) : term :=
  match t with TV v => th v | TC k => TC k | TF l => TF (map (inst th) l) end.
(** A variable occurs in a term. *)
Fixpoint occurs (v : Z) (t : term) : Prop :=
  match t with TV w => w = v | TC _ => False | TF l => (fix go l := match l with [] => False | t :: r => occurs v t \/ go r end) l end.
Fixpoint size (t : term) : nat :=
  match t with TV _ => 1 | TC _ => 1 | TF l => S ((fix go l := match l with [] => O | t :: r => (size t + go r)%nat end) l) end.

(** The constant an encoded value stands for (Db/dbdata.h l.300-430). *)
Definition const_key (s : cstate) (e : Z) : key :=
  let t := Z.land e 7 in
  if (t =? 1) || (t =? 5) then KInt (words s (decode_fullint_offset e))
  else if t =? 2 then match double_of_bits (wg_decode_double s e) with S754_nan => KImm e | _ => KDouble (dkey (wg_decode_double s e)) end
  else if t =? 6 then KStr (map (fun i => byte (words s) (decode_shortstr_offset e + Z.of_nat i)) (seq 0 (Z.to_nat SHORTSTR_SIZE)))
  else KImm e.
(** The term an encoded value stands for: the fields from unify_firstuseterm on are
    the arguments. *)
Definition args (g : genv) (fs : list Z) : list Z := skipn (Z.to_nat (g_first g)) fs.
Inductive rep (g : genv) : Z -> term -> Prop :=
| rep_var e : isvar e = true -> rep g e (TV (decode_var e))
| rep_con e : isvar e = false -> isdatarec e = false -> e <> UNASSIGNED -> rep g e (TC (const_key (g_db g) e))
| rep_rec e fs ts : isdatarec e = true -> record g e = Some fs -> g_first g <= Z.of_nat (length fs) -> reps g (args g fs) ts -> rep g e (TF ts)
with reps (g : genv) : list Z -> list term -> Prop :=
| reps_nil : reps g [] []
| reps_cons e t es ts : rep g e t -> reps g es ts -> reps g (e :: es) (t :: ts).
Scheme rep_mut := Induction for rep Sort Prop with reps_mut := Induction for reps Sort Prop.

(** The usual settings (Reasoner/glb.c l.105-107). *)
Definition std (g : genv) : Prop := g_samelen g = true /\ g_maxuse g = 0 /\ 0 <= g_first g.
(** A substitution agrees with the variable banks. *)
Definition solves (g : genv) (vb : Z -> Z) (th : Z -> term) : Prop :=
  forall v t, vb v <> UNASSIGNED -> rep g (vb v) t -> th v = inst th t.

(** Basics. *)
Section Ind.
Variable P : term -> Prop.
Hypothesis HV : forall v, P (TV v).
Hypothesis HC : forall k, P (TC k).
Hypothesis HF : forall l, Forall P l -> P (TF l).
Fixpoint term_ind' (t : term) : P t :=
  match t with
  | TV v => HV v
  | TC k => HC k
  | TF l => HF l ((fix go l : Forall P l := match l with [] => Forall_nil P | t :: r => Forall_cons t (term_ind' t) (go r) end) l)
  end.
End Ind.
Lemma occurs_TF v l : occurs v (TF l) <-> Exists (occurs v) l.
Proof.
  cbn [occurs]. induction l as [|t l IH]; [split; [tauto|intros H; inversion H]|]. split.
  - intros [H|H]; [now left|right; now apply IH].
  - intros H. inversion H; subst; [now left|right; now apply IH].
Qed.
Lemma inst_ext th th' t : (forall v, occurs v t -> th v = th' v) -> inst th t = inst th' t.
Proof.
  induction t as [v|k|l IH] using term_ind'; intros H; cbn [inst]; [now apply H|reflexivity|]. f_equal. apply map_ext_in. intros t Ht. rewrite Forall_forall in IH. apply IH; [exact Ht|].
  intros v Hv. apply H. apply occurs_TF, Exists_exists. now exists t.
Qed.
Lemma inst_TV t : inst TV t = t.
Proof.
  induction t as [v|k|l IH] using term_ind'; cbn [inst]; try reflexivity. f_equal. rewrite <- (map_id l) at 2. apply map_ext_in. rewrite Forall_forall in IH. exact IH.
Qed.
Lemma inst_inst a b t : inst a (inst b t) = inst (fun v => inst a (b v)) t.
Proof.
  induction t as [v|k|l IH] using term_ind'; cbn [inst]; try reflexivity. f_equal. rewrite map_map. apply map_ext_in. rewrite Forall_forall in IH. exact IH.
Qed.
Lemma size_TF l : size (TF l) = S (list_sum (map size l)).
Proof. cbn [size]. f_equal. induction l as [|t l IH]; [reflexivity|]. cbn [map list_sum fold_right]. now rewrite IH. Qed.
Lemma size_in t l : In t l -> (size t < size (TF l))%nat.
Proof. rewrite size_TF. induction l as [|u l IH]; [easy|]. intros [->|H]; cbn [map list_sum fold_right]; [lia|]. specialize (IH H). unfold list_sum in IH. lia. Qed.
Lemma occurs_size th v t : occurs v t -> (size (th v) <= size (inst th t))%nat.
Proof.
  induction t as [w|k|l IH] using term_ind'; cbn [inst]; [cbn [occurs]; intros ->; lia|easy|]. intros H. apply occurs_TF, Exists_exists in H. destruct H as (t & Ht & O).
  rewrite Forall_forall in IH. specialize (IH t Ht O). pose proof (size_in (inst th t) (map (inst th) l) (in_map _ _ _ Ht)). lia.
Qed.
Lemma occurs_size_TF th v l : occurs v (TF l) -> (size (th v) < size (inst th (TF l)))%nat.
Proof.
  intros H. apply occurs_TF, Exists_exists in H. destruct H as (t & Ht & O). pose proof (occurs_size th v t O). cbn [inst]. pose proof (size_in (inst th t) (map (inst th) l) (in_map _ _ _ Ht)). lia.
Qed.
Lemma occurs_inst th v t : occurs v (inst th t) <-> exists w, occurs w t /\ occurs v (th w).
Proof.
  induction t as [w|k|l IH] using term_ind'; cbn [inst].
  - split; [intros H; exists w; split; [reflexivity|exact H]|intros (u & -> & H); exact H].
  - split; [easy|]. intros (w & [] & _).
  - rewrite Forall_forall in IH. rewrite occurs_TF, Exists_exists. split.
    + intros (t & Ht & O). apply in_map_iff in Ht. destruct Ht as (u & <- & Hu). apply IH in O; [|exact Hu]. destruct O as (w & O1 & O2). exists w. split; [|exact O2]. apply occurs_TF, Exists_exists. now exists u.
    + intros (w & O1 & O2). apply occurs_TF, Exists_exists in O1. destruct O1 as (u & Hu & O1). exists (inst th u). split; [now apply in_map|]. apply IH; [exact Hu|]. now exists w.
Qed.
Lemma reps_len g es ts : reps g es ts -> length es = length ts.
Proof. induction 1; cbn [length]; congruence. Qed.

(** Kinds of values. *)
Lemma var_form x : isvar x = true -> x = 16 * decode_var x + 7.
Proof. unfold isvar, decode_var. intros H. apply Z.eqb_eq in H. change 15 with (Z.ones 4) in H. rewrite Z.land_ones in H by lia. rewrite Z.shiftr_div_pow2 by lia. change (2 ^ 4) with 16 in *. pose proof (Z.div_mod x 16). lia. Qed.
Lemma var_inj x y : isvar x = true -> isvar y = true -> decode_var x = decode_var y -> x = y.
Proof. intros Hx Hy E. rewrite (var_form x Hx), (var_form y Hy), E. reflexivity. Qed.
Lemma rec_not_var x : isdatarec x = true -> isvar x = false.
Proof.
  unfold isdatarec, isvar. intros H. apply Z.eqb_eq in H. apply Z.eqb_neq. intros E. change 7 with (Z.ones 3) in H. change 15 with (Z.ones 4) in E. rewrite Z.land_ones in H, E by lia. change (2 ^ 3) with 8 in H. change (2 ^ 4) with 16 in E.
  pose proof (Z.div_mod x 16). pose proof (Z.div_mod x 8). lia.
Qed.
Lemma var_not_rec x : isvar x = true -> isdatarec x = false.
Proof. intros H. destruct (isdatarec x) eqn:E; [|reflexivity]. apply rec_not_var in E. congruence. Qed.
Lemma var_assigned x : isvar x = true -> x <> UNASSIGNED.
Proof. intros H ->. discriminate. Qed.
Lemma rep_assigned g e t : rep g e t -> e <> UNASSIGNED.
Proof. intros R. inversion R; subst; [now apply var_assigned|assumption|]. intros ->. discriminate. Qed.
Lemma rep_det g : forall e t, rep g e t -> forall t', rep g e t' -> t = t'.
Proof.
  apply (rep_mut g (fun e t _ => forall t', rep g e t' -> t = t') (fun es ts _ => forall ts', reps g es ts' -> ts = ts')).
  - intros e V t' R. inversion R; subst; try reflexivity; try congruence. apply rec_not_var in H. congruence.
  - intros e V D N t' R. inversion R; subst; congruence.
  - intros e fs ts D Re F Rs IH t' R. inversion R as [e' V|e' V D'|e' fs' ts' D' Re' F' Rs']; subst; [apply rec_not_var in D; congruence|congruence|]. rewrite Re in Re'. injection Re' as <-. f_equal. now apply IH.
  - intros ts' R. inversion R. reflexivity.
  - intros e t es ts R IH Rs IHs ts' R'. inversion R'; subst. f_equal; auto.
Qed.
