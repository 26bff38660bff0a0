(** Specification for the reasoner: clauses as lists of signed terms, structures and truth. *)
From Coq Require Import ZArith List Bool Lia.
From Verif Require Import Base EncodingModel CompareModel UnistrModel UnifyModel UnifySpec ResolveModel.
Import ListNotations.
Open Scope Z_scope.

(** A structure: constants, records and the atoms that hold. *)
Record struc := Struc { dom : Type; s_con : key -> dom; s_app : list dom -> dom; s_holds : dom -> bool }.
(** The value of a term. *)
Fixpoint ev (M : struc) (v : Z -> dom M) (t : term) : dom M :=
  match t with TV x => v x | TC k => s_con M k | TF l => s_app M (map (ev M v) l) end.
(** A literal is a sign ([true]: negative) and an atom; a clause is true when for all values of
    the variables one of its literals is. *)
Definition lit_true (M : struc) (v : Z -> dom M) (q : bool * term) : bool := xorb (fst q) (s_holds M (ev M v (snd q))).
Definition valid (M : struc) (ls : list (bool * term)) : Prop := forall v, existsb (lit_true M v) ls = true.
(** The clause in memory at [cl] stands for the literals [ls]. *)
Definition lrep (c : cfg) (h : heap) (p : Z * Z) (q : bool * term) : Prop := is_neg (fst p) = fst q /\ rep (gof c h) (snd p) (snd q).
Definition crep (c : cfg) (h : heap) (cl : Z) (ls : list (bool * term)) : Prop := exists lits, clause_lits h cl = Some lits /\ Forall2 (lrep c h) lits ls.
(** Atoms are records and the variables are those of the banks 0 to 3. *)
Definition shape (ls : list (bool * term)) : Prop := Forall (fun q => (exists l, snd q = TF l) /\ forall v, occurs v (snd q) -> 0 <= v < 4000) ls.
(** Memory: records at multiples of 8, below the next free place. *)
Definition memory_ok (h : heap) : Prop := 0 < h_next h /\ h_next h mod 8 = 0 /\ forall a fs, h_rec h a = Some fs -> 0 < a < h_next h /\ a mod 8 = 0.

Lemma ev_inst M v s t : ev M v (inst s t) = ev M (fun x => ev M v (s x)) t.
Proof.
  induction t as [x|k|l IH] using term_ind'; cbn [inst ev]; try reflexivity. f_equal. rewrite map_map. apply map_ext_in. rewrite Forall_forall in IH. exact IH.
Qed.
