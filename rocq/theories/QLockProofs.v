(** Invariants of the queue lock. *)
From Coq Require Import ZArith List Lia Bool Arith Permutation Sorted.
From Verif Require Import Base ConcLib QLockModel.
Import ListNotations.
Open Scope Z_scope.

(** ** Linked lists in the cells *)

(** [q] is doubly linked from [pv] to [nx]. *)
Fixpoint dlseg (nd : Z -> node) (pv : Z) (q : list Z) (nx : Z) : Prop :=
  match q with
  | [] => True
  | x :: r => prev (nd x) = pv /\ next (nd x) = hd nx r /\ dlseg nd x r nx
  end.

(** [f] is singly linked through [ncell] from [a] to 0. *)
Fixpoint chain (nd : Z -> node) (a : Z) (f : list Z) : Prop :=
  match f with
  | [] => a = 0
  | x :: r => a = x /\ chain nd (ncell (nd x)) r
  end.

Lemma last_cons {A} (x : A) l d d' : last (x :: l) d = last (x :: l) d'.
Proof. revert x; induction l as [|y l IH]; intros x; [reflexivity|]. exact (IH y). Qed.

Lemma last_cons2 {A} (x : A) l d : last (x :: l) d = last l x.
Proof. destruct l as [|y l]; [reflexivity|]. change (last (x :: y :: l) d) with (last (y :: l) d). apply last_cons. Qed.

Lemma last_in {A} (l : list A) d : l <> [] -> In (last l d) l.
Proof.
  destruct l as [|x l]; [congruence|]. intros _. revert x; induction l as [|y l IH]; intros x.
  - now left.
  - right. exact (IH y).
Qed.

Lemma last_app1 {A} (l : list A) x d : last (l ++ [x]) d = x.
Proof. apply last_last. Qed.

Lemma list_snoc {A} (l : list A) : l = [] \/ exists a x, l = a ++ [x].
Proof. destruct l using rev_ind; [now left|right]. eauto. Qed.

Lemma dlseg_app nd pv a b nx :
  dlseg nd pv (a ++ b) nx <-> dlseg nd pv a (hd nx b) /\ dlseg nd (last a pv) b nx.
Proof.
  revert pv; induction a as [|x a IH]; intros pv.
  - cbn [app dlseg last]. tauto.
  - change ((x :: a) ++ b) with (x :: (a ++ b)). rewrite last_cons2. cbn [dlseg]. rewrite IH.
    assert (E : hd nx (a ++ b) = hd (hd nx b) a) by (destruct a; reflexivity).
    rewrite E. tauto.
Qed.

Lemma dlseg_frame nd nd' pv q nx :
  (forall x, In x q -> prev (nd' x) = prev (nd x) /\ next (nd' x) = next (nd x)) ->
  dlseg nd pv q nx -> dlseg nd' pv q nx.
Proof.
  revert pv; induction q as [|x q IH]; intros pv F; cbn [dlseg]; [auto|].
  intros (A & B & C). destruct (F x (or_introl eq_refl)) as [E1 E2].
  split; [congruence|]. split; [congruence|]. apply IH; [|exact C].
  intros y Hy. apply F. now right.
Qed.

Lemma chain_frame nd nd' a f :
  (forall x, In x f -> ncell (nd' x) = ncell (nd x)) -> chain nd a f -> chain nd' a f.
Proof.
  revert a; induction f as [|x f IH]; intros a F; cbn [chain]; [auto|].
  intros (A & B). split; [exact A|]. rewrite (F x (or_introl eq_refl)). apply IH; [|exact B].
  intros y Hy. apply F. now right.
Qed.

Lemma dlseg_set_next nd pv a x nx nx' :
  ~ In x a -> dlseg nd pv (a ++ [x]) nx -> dlseg (set_next nd x nx') pv (a ++ [x]) nx'.
Proof.
  intros N H. rewrite dlseg_app in H |- *. destruct H as [H1 H2].
  cbn [hd dlseg] in *. split.
  - apply (dlseg_frame nd); [|exact H1]. intros y Hy. unfold set_next, setnode.
    destruct (Z.eqb_spec y x); [subst; tauto|auto].
  - destruct H2 as (A & B & C). unfold set_next, setnode. rewrite Z.eqb_refl. cbn [prev next]. auto.
Qed.

Lemma dlseg_set_prev nd pv x b nx pv' :
  ~ In x b -> dlseg nd pv (x :: b) nx -> dlseg (set_prev nd x pv') pv' (x :: b) nx.
Proof.
  intros N (A & B & C). cbn [dlseg]. unfold set_prev, setnode at 1 2. rewrite Z.eqb_refl. cbn [prev next].
  split; [reflexivity|]. split; [exact B|].
  apply (dlseg_frame nd); [|exact C]. intros y Hy. unfold setnode.
  destruct (Z.eqb_spec y x); [subst; tauto|auto].
Qed.

(** Unlinking cell [l]. *)
Definition unlink (nd : Z -> node) (l : Z) : Z -> node :=
  let pv := prev (nd l) in
  let nd1 := if negb (pv =? 0) then set_next nd pv (next (nd l)) else nd in
  let nx := next (nd1 l) in
  if negb (nx =? 0) then set_prev nd1 nx (prev (nd1 l)) else nd1.

Lemma NoDup_app_inv {A} (a b : list A) :
  NoDup (a ++ b) -> NoDup a /\ NoDup b /\ (forall x, In x a -> ~ In x b).
Proof.
  induction a as [|x a IH]; cbn [app].
  - intros H. split; [constructor|]. split; [exact H|]. intros x [].
  - intros H. inversion_clear H as [|? ? N H']. destruct (IH H') as (A1 & A2 & A3).
    split; [constructor; [intros Q; apply N; apply in_or_app; now left|exact A1]|].
    split; [exact A2|]. intros y [<-|Hy]; [|now apply A3].
    intros Q; apply N; apply in_or_app; now right.
Qed.

Lemma nodup_app {A} (a b : list A) :
  NoDup a -> NoDup b -> (forall x, In x a -> ~ In x b) -> NoDup (a ++ b).
Proof.
  induction a as [|x a IH]; cbn [app]; [auto|]. intros Ha Hb D. inversion_clear Ha as [|? ? N Ha'].
  constructor.
  - intros Q. apply in_app_or in Q. destruct Q as [Q|Q]; [tauto|]. apply (D x); [now left|exact Q].
  - apply IH; auto. intros y Hy. apply D. now right.
Qed.

Lemma set_next_frame nd a v x :
  ncell (set_next nd a v x) = ncell (nd x) /\ class (set_next nd a v x) = class (nd x) /\
  waiting (set_next nd a v x) = waiting (nd x).
Proof. unfold set_next, setnode. destruct (Z.eqb_spec x a) as [->|]; auto. Qed.
Lemma set_prev_frame nd a v x :
  ncell (set_prev nd a v x) = ncell (nd x) /\ class (set_prev nd a v x) = class (nd x) /\
  waiting (set_prev nd a v x) = waiting (nd x).
Proof. unfold set_prev, setnode. destruct (Z.eqb_spec x a) as [->|]; auto. Qed.
Lemma set_waiting_frame nd a v x :
  ncell (set_waiting nd a v x) = ncell (nd x) /\ class (set_waiting nd a v x) = class (nd x) /\
  next (set_waiting nd a v x) = next (nd x) /\ prev (set_waiting nd a v x) = prev (nd x).
Proof. unfold set_waiting, setnode. destruct (Z.eqb_spec x a) as [->|]; auto. Qed.
Lemma set_waiting_w nd a v x :
  waiting (set_waiting nd a v x) = if x =? a then v else waiting (nd x).
Proof. unfold set_waiting, setnode. destruct (Z.eqb_spec x a) as [->|]; auto. Qed.
Lemma set_ncell_frame nd a v x :
  class (set_ncell nd a v x) = class (nd x) /\ waiting (set_ncell nd a v x) = waiting (nd x) /\
  next (set_ncell nd a v x) = next (nd x) /\ prev (set_ncell nd a v x) = prev (nd x).
Proof. unfold set_ncell, setnode. destruct (Z.eqb_spec x a) as [->|]; auto. Qed.
Lemma set_ncell_c nd a v x :
  ncell (set_ncell nd a v x) = if x =? a then v else ncell (nd x).
Proof. unfold set_ncell, setnode. destruct (Z.eqb_spec x a) as [->|]; auto. Qed.

Section Unlink.
Variables (nd : Z -> node) (a b : list Z) (l : Z).
Hypothesis Hnd : NoDup (a ++ l :: b).
Hypothesis Hnz : ~ In 0 (a ++ l :: b).
Hypothesis Hdl : dlseg nd 0 (a ++ l :: b) 0.

Lemma unlink_prev : prev (nd l) = last a 0.
Proof. apply dlseg_app in Hdl. destruct Hdl as [_ [H _]]. exact H. Qed.
Lemma unlink_next : next (nd l) = hd 0 b.
Proof. apply dlseg_app in Hdl. destruct Hdl as [_ [_ [H _]]]. exact H. Qed.

Lemma unlink_in_a : a = [] \/ (last a 0 <> 0 /\ last a 0 <> l /\ In (last a 0) a).
Proof.
  destruct a as [|x a'] eqn:E; [now left|right].
  assert (I : In (last (x :: a') 0) (x :: a')) by (apply last_in; congruence).
  split; [|split]; [| |exact I].
  - intros Q. apply Hnz. apply in_or_app. left. now rewrite <- Q.
  - intros Q. apply NoDup_app_inv in Hnd. destruct Hnd as (_ & _ & D).
    apply (D _ I). left. auto.
Qed.
Lemma unlink_in_b : b = [] \/ (hd 0 b <> 0 /\ hd 0 b <> l /\ In (hd 0 b) b).
Proof.
  destruct b as [|x b'] eqn:E; [now left|right]. cbn [hd].
  split; [|split]; [| |now left].
  - intros ->. apply Hnz. apply in_or_app. right. right. now left.
  - intros ->. apply NoDup_app_inv in Hnd. destruct Hnd as (_ & D & _).
    inversion_clear D as [|? ? N _]. apply N. now left.
Qed.

(** Members of cells other than the links do not change. *)
Lemma unlink_frame x :
  ncell (unlink nd l x) = ncell (nd x) /\ class (unlink nd l x) = class (nd x) /\
  waiting (unlink nd l x) = waiting (nd x).
Proof.
  unfold unlink.
  set (nd1 := if negb (prev (nd l) =? 0) then _ else _).
  assert (E1 : ncell (nd1 x) = ncell (nd x) /\ class (nd1 x) = class (nd x) /\ waiting (nd1 x) = waiting (nd x)).
  { unfold nd1. destruct (negb _); [apply set_next_frame|auto]. }
  clearbody nd1. cbv zeta. destruct (negb _); [|exact E1].
  pose proof (set_prev_frame nd1 (next (nd1 l)) (prev (nd1 l)) x) as E2. intuition congruence.
Qed.

Lemma unlink_nd1 :
  let nd1 := if negb (prev (nd l) =? 0) then set_next nd (prev (nd l)) (next (nd l)) else nd in
  next (nd1 l) = hd 0 b /\ prev (nd1 l) = last a 0.
Proof.
  rewrite unlink_prev, unlink_next. destruct unlink_in_a as [E|(N1 & N2 & _)].
  - assert (L : last a 0 = 0) by (rewrite E; reflexivity). rewrite L. cbn [Z.eqb negb].
    split; [apply unlink_next|]. rewrite <- L. apply unlink_prev.
  - destruct (Z.eqb_spec (last a 0) 0); [congruence|]. cbn [negb]. cbv zeta.
    unfold set_next, setnode. destruct (Z.eqb_spec l (last a 0)); [congruence|].
    split; [apply unlink_next|apply unlink_prev].
Qed.

Lemma unlink_dlseg : dlseg (unlink nd l) 0 (a ++ b) 0.
Proof.
  pose proof unlink_nd1 as U. cbv zeta in U. destruct U as [U1 U2].
  unfold unlink. set (nd1 := if negb (prev (nd l) =? 0) then _ else _) in *. cbv zeta.
  rewrite U1, U2.
  assert (Hb0 : dlseg nd (last (a ++ [l]) 0) b 0 /\ dlseg nd 0 a l).
  { apply dlseg_app in Hdl. cbn [hd dlseg] in Hdl. rewrite last_app1. tauto. }
  rewrite last_app1 in Hb0. destruct Hb0 as [Hb Ha].
  destruct (NoDup_app_inv _ _ Hnd) as (Na & Nb & Nab).
  inversion_clear Nb as [|? ? Nl Nb'].
  assert (S1 : dlseg nd1 0 a (hd 0 b)).
  { unfold nd1. rewrite unlink_prev, unlink_next.
    destruct (list_snoc a) as [E|(a' & x & E)]; [rewrite E; exact I|].
    destruct unlink_in_a as [E0|(N1 & _ & _)]; [rewrite E0; exact I|].
    destruct (Z.eqb_spec (last a 0) 0); [congruence|]. cbn [negb].
    rewrite E at 1. rewrite last_app1. rewrite E in Ha, Na. rewrite E. eapply dlseg_set_next; [|exact Ha].
    intros Q. destruct (NoDup_app_inv _ _ Na) as (_ & _ & D). apply (D x Q). now left. }
  assert (S2 : dlseg nd1 l b 0).
  { apply (dlseg_frame nd); [|exact Hb]. intros y Hy. unfold nd1.
    rewrite unlink_prev. destruct unlink_in_a as [E|(N1 & _ & Ia)]; [rewrite E; cbn; auto|].
    destruct (Z.eqb_spec (last a 0) 0); [congruence|]. cbn [negb]. unfold set_next, setnode.
    destruct (Z.eqb_spec y (last a 0)) as [->|]; [|auto]. exfalso. apply (Nab _ Ia). now right. }
  apply dlseg_app. clearbody nd1. destruct unlink_in_b as [E|(N1 & _ & _)].
  - rewrite E in S1 |- *. cbn [hd] in *. cbn [Z.eqb negb]. split; [exact S1|exact I].
  - clear Hb Nl U1 Hnd Hnz Hdl. destruct b as [|y b']; [cbn in N1; congruence|]. cbn [hd] in *.
    destruct (Z.eqb_spec y 0); [congruence|]. cbn [negb]. split.
    + apply (dlseg_frame nd1); [|exact S1]. intros z Hz. unfold set_prev, setnode.
      destruct (Z.eqb_spec z y) as [->|]; [|auto]. exfalso. apply (Nab _ Hz). right. now left.
    + eapply dlseg_set_prev; [|exact S2]. now inversion_clear Nb'.
Qed.
End Unlink.

(** ** The queue invariant *)

Definition grants (nd : Z -> node) (g r : list Z) : Prop :=
  Forall (fun x => waiting (nd x) = 0) g /\ Forall (fun x => waiting (nd x) = 1) r /\
  ((length g <= 1)%nat \/ Forall (fun x => class (nd x) = LOCKQ_READ) g).

(** [g] granted cells, [r] cells not yet granted, [f] free cells. *)
Record QI (cells : list Z) (s : qst) (g r f : list Z) : Prop := {
  qi_nd : NoDup ((g ++ r) ++ f);
  qi_nz : ~ In 0 ((g ++ r) ++ f);
  qi_perm : Permutation ((g ++ r) ++ f) cells;
  qi_dl : dlseg (nodes s) 0 (g ++ r) 0;
  qi_tail : tail s = last (g ++ r) 0;
  qi_chain : chain (nodes s) (freelist s) f;
  qi_gr : grants (nodes s) g r;
  qi_tk : StronglySorted (fun x y => tk s x < tk s y) (g ++ r);
  qi_now : Forall (fun x => tk s x < now s) (g ++ r) }.

(** Cells owned by a client. *)
Definition kown (k : kont) : list Z :=
  match k with KLock _ => [] | KWUnlock l | KRUnlock l | KTmo l | KCasc l => [l] end.
Definition aown (a : after) : list Z :=
  match a with ARet _ => [] | AChk _ l => [l] | AWake _ => [] | AWakeHold _ l => [l] end.
Definition own (p : pc) : list Z :=
  match p with
  | Idle _ => []
  | QTry k | QSpin k | QBody k => kown k
  | QUnl a => aown a
  | Chk _ l | FWait _ l | Blocked _ l | Hold _ l => [l]
  | Wake _ (Some l) => [l]
  | Wake _ None => []
  end.

Definition cls (w : bool) : Z := if w then LOCKQ_WRITE else LOCKQ_READ.

(** What a client knows about its cell. *)
Definition kok (nd : Z -> node) (k : kont) : Prop :=
  match k with
  | KLock _ | KTmo _ => True
  | KWUnlock l => class (nd l) = LOCKQ_WRITE /\ waiting (nd l) = 0
  | KRUnlock l | KCasc l => class (nd l) = LOCKQ_READ /\ waiting (nd l) = 0
  end.
Definition aok (nd : Z -> node) (a : after) : Prop :=
  match a with
  | ARet _ | AWake _ => True
  | AChk w l => class (nd l) = cls w
  | AWakeHold _ l => class (nd l) = LOCKQ_READ /\ waiting (nd l) = 0
  end.
Definition pok (nd : Z -> node) (p : pc) : Prop :=
  match p with
  | Idle _ => True
  | QTry k | QSpin k | QBody k => kok nd k
  | QUnl a => aok nd a
  | Chk w l | FWait w l | Blocked w l => class (nd l) = cls w
  | Hold w l => class (nd l) = cls w /\ waiting (nd l) = 0
  | Wake _ (Some l) => class (nd l) = LOCKQ_READ /\ waiting (nd l) = 0
  | Wake _ None => True
  end.

(** Futex wake-ups that a client is about to send. *)
Definition apend (a : after) : list Z :=
  match a with AWake x | AWakeHold x _ => if x =? 0 then [] else [x] | _ => [] end.
Definition pend (p : pc) : list Z :=
  match p with QUnl a => apend a | Wake a _ => [a] | _ => [] end.

(** How a protected section changes the cells of other clients. *)
Definition keeps (s s' : qst) (a : after) (x : Z) : Prop :=
  class (nodes s' x) = class (nodes s x) /\
  (waiting (nodes s x) = 0 -> waiting (nodes s' x) = 0) /\
  (waiting (nodes s' x) = 0 -> waiting (nodes s x) = 0 \/ In x (apend a)).

Definition section_ok (cells : list Z) (k : kont) (s : qst) (g r f : list Z) : Prop :=
  let '(s', a) := body k s in
  exists g' r' f', QI cells s' g' r' f' /\
    (forall X, Permutation (kown k ++ X) (g ++ r) -> Permutation (aown a ++ X) (g' ++ r')) /\
    aok (nodes s') a /\
    (forall x, In x (g ++ r) -> ~ In x (kown k) -> keeps s s' a x) /\
    ((forall l, k <> KTmo l) -> g <> [] \/ r = [] -> g' <> [] \/ r' = []).

(** *** Generic removal of a cell *)

Lemma ss_remove {A} (R : A -> A -> Prop) a x b :
  StronglySorted R (a ++ x :: b) -> StronglySorted R (a ++ b).
Proof.
  induction a as [|y a IH]; cbn [app]; intros H; inversion_clear H as [|? ? H1 H2]; [exact H1|].
  constructor; [now apply IH|]. rewrite Forall_app in *. destruct H2 as [H2 H3].
  inversion_clear H3. now split.
Qed.
Lemma forall_remove {A} (P : A -> Prop) a x b : Forall P (a ++ x :: b) -> Forall P (a ++ b).
Proof. rewrite !Forall_app. intros [H1 H2]. inversion_clear H2. now split. Qed.
Lemma last_remove (a b : list Z) l :
  last (a ++ l :: b) 0 = match b with [] => l | _ => last (a ++ b) 0 end.
Proof.
  destruct b as [|y b]; [apply last_app1|].
  induction a as [|x a IH]; cbn [app].
  - rewrite !last_cons2. reflexivity.
  - rewrite !(last_cons2 x). destruct a as [|z a]; cbn [app] in *.
    + rewrite !last_cons2. reflexivity.
    + rewrite (last_cons z _ x 0), IH. apply last_cons.
Qed.

(** The state after unlinking and freeing cell [l] of the queue [a ++ l :: b]. *)
Definition dequeue (s : qst) (l : Z) : qst :=
  let nd1 := if negb (prev (nodes s l) =? 0)
             then set_next (nodes s) (prev (nodes s l)) (next (nodes s l)) else nodes s in
  let nx := next (nd1 l) in
  if negb (nx =? 0) then Qst (tail s) (freelist s) (set_prev nd1 nx (prev (nd1 l))) (tk s) (now s)
  else if tail s =? l then Qst (prev (nd1 l)) (freelist s) nd1 (tk s) (now s)
  else Qst (tail s) (freelist s) nd1 (tk s) (now s).

Section Deq.
Variables (cells : list Z) (s : qst) (f a b : list Z) (l : Z).
Hypothesis Hnd : NoDup ((a ++ l :: b) ++ f).
Hypothesis Hnz : ~ In 0 ((a ++ l :: b) ++ f).
Hypothesis Hdl : dlseg (nodes s) 0 (a ++ l :: b) 0.
Hypothesis Htl : tail s = last (a ++ l :: b) 0.

Lemma deq_nd : NoDup (a ++ l :: b). Proof. now apply NoDup_app_inv in Hnd. Qed.
Lemma deq_nz : ~ In 0 (a ++ l :: b). Proof. intros Q. apply Hnz. apply in_or_app. now left. Qed.

Lemma deq_nodes : nodes (dequeue s l) = unlink (nodes s) l.
Proof.
  unfold dequeue, unlink. cbv zeta. destruct (negb (next _ =? 0)); [reflexivity|].
  destruct (tail s =? l); reflexivity.
Qed.
Lemma deq_rest :
  freelist (dequeue s l) = freelist s /\ tk (dequeue s l) = tk s /\ now (dequeue s l) = now s.
Proof.
  unfold dequeue. cbv zeta. destruct (negb (next _ =? 0)); [auto|].
  destruct (tail s =? l); auto.
Qed.
Lemma deq_tail : tail (dequeue s l) = last (a ++ b) 0.
Proof.
  pose proof (unlink_nd1 (nodes s) a b l deq_nd deq_nz Hdl) as U. cbv zeta in U. destruct U as [U1 U2].
  unfold dequeue. cbv zeta. rewrite U1, U2.
  rewrite last_remove in Htl.
  destruct b as [|y b'].
  - cbn [hd]. cbn [Z.eqb negb]. rewrite Htl, Z.eqb_refl. cbn [tail]. now rewrite app_nil_r.
  - cbn [hd]. destruct (Z.eqb_spec y 0) as [->|].
    { exfalso. apply Hnz. apply in_or_app. left. apply in_or_app. right. right. now left. }
    cbn [negb tail]. exact Htl.
Qed.
Lemma deq_dl : dlseg (nodes (dequeue s l)) 0 (a ++ b) 0.
Proof. rewrite deq_nodes. exact (unlink_dlseg (nodes s) a b l deq_nd deq_nz Hdl). Qed.
Lemma deq_frame x :
  ncell (nodes (dequeue s l) x) = ncell (nodes s x) /\
  class (nodes (dequeue s l) x) = class (nodes s x) /\
  waiting (nodes (dequeue s l) x) = waiting (nodes s x).
Proof. rewrite deq_nodes. apply unlink_frame. Qed.
End Deq.

(** Moving a cell from the queue to the free list. *)
Lemma QI_dequeue cells s g r f a b l g' r' :
  QI cells s g r f -> g ++ r = a ++ l :: b -> g' ++ r' = a ++ b ->
  grants (nodes s) g' r' ->
  QI cells (free_lock (dequeue s l) l) g' r' (l :: f).
Proof.
  intros Q E E' G. destruct Q as [Q1 Q2 Q3 Q4 Q5 Q6 Q7 Q8 Q9]. rewrite E in *.
  pose proof (deq_frame s l) as F.
  pose proof (deq_rest s l) as (R1 & R2 & R3).
  assert (P : Permutation ((a ++ b) ++ l :: f) ((a ++ l :: b) ++ f)).
  { rewrite <- !app_assoc. apply Permutation_app_head. cbn [app]. apply Permutation_sym, Permutation_middle. }
  assert (ND : NoDup ((a ++ b) ++ l :: f)) by (eapply Permutation_NoDup; [apply Permutation_sym, P|exact Q1]).
  destruct (NoDup_app_inv _ _ ND) as (N1 & N2 & N3).
  constructor; rewrite ?E'.
  - exact ND.
  - intros H. apply Q2. eapply Permutation_in; [exact P|exact H].
  - eapply perm_trans; [exact P|exact Q3].
  - cbn [free_lock nodes]. apply (dlseg_frame (nodes (dequeue s l))); [|].
    + intros x _. destruct (set_ncell_frame (nodes (dequeue s l)) l (freelist (dequeue s l)) x) as (_ & _ & A & B).
      split; assumption.
    + eapply deq_dl; eauto.
  - cbn [free_lock tail]. eapply deq_tail; eauto.
  - cbn [free_lock nodes freelist chain]. split; [reflexivity|].
    rewrite set_ncell_c, Z.eqb_refl, R1.
    apply (chain_frame (nodes s)); [|exact Q6].
    intros x Hx. rewrite set_ncell_c. inversion_clear N2 as [|? ? Nl _].
    destruct (Z.eqb_spec x l); [subst; tauto|]. apply F.
  - cbn [free_lock nodes]. destruct G as (G1 & G2 & G3).
    assert (W : forall x, waiting (set_ncell (nodes (dequeue s l)) l (freelist (dequeue s l)) x) = waiting (nodes s x)
                 /\ class (set_ncell (nodes (dequeue s l)) l (freelist (dequeue s l)) x) = class (nodes s x)).
    { intros x. destruct (set_ncell_frame (nodes (dequeue s l)) l (freelist (dequeue s l)) x) as (A & B & _).
      rewrite A, B. split; apply F. }
    split; [|split].
    + eapply Forall_impl; [|exact G1]. intros x Hx. cbv beta. now rewrite (proj1 (W x)).
    + eapply Forall_impl; [|exact G2]. intros x Hx. cbv beta. now rewrite (proj1 (W x)).
    + destruct G3 as [G3|G3]; [now left|right].
      eapply Forall_impl; [|exact G3]. intros x Hx. cbv beta. now rewrite (proj2 (W x)).
  - cbn [free_lock tk]. rewrite R2. eapply ss_remove; exact Q8.
  - cbn [free_lock tk now]. rewrite R2, R3. eapply forall_remove; exact Q9.
Qed.

(** Granting the first waiting cell. *)
Lemma QI_grant cells s g x r f :
  QI cells s g (x :: r) f ->
  g = [] \/ (class (nodes s x) = LOCKQ_READ /\ Forall (fun y => class (nodes s y) = LOCKQ_READ) g) ->
  QI cells (Qst (tail s) (freelist s) (set_waiting (nodes s) x 0) (tk s) (now s)) (g ++ [x]) r f.
Proof.
  intros Q H. destruct Q as [Q1 Q2 Q3 Q4 Q5 Q6 Q7 Q8 Q9].
  assert (E : (g ++ [x]) ++ r = g ++ x :: r) by (rewrite <- app_assoc; reflexivity).
  destruct (NoDup_app_inv _ _ Q1) as (N1 & _ & _).
  destruct (NoDup_app_inv _ _ N1) as (_ & N2 & N3). inversion_clear N2 as [|? ? Nx _].
  constructor; cbn [nodes tail freelist tk now]; rewrite ?E; try assumption.
  - apply (dlseg_frame (nodes s)); [|exact Q4]. intros y _.
    destruct (set_waiting_frame (nodes s) x 0 y) as (_ & _ & A & B). now split.
  - apply (chain_frame (nodes s)); [|exact Q6]. intros y _.
    now destruct (set_waiting_frame (nodes s) x 0 y) as (A & _).
  - destruct Q7 as (G1 & G2 & G3). inversion_clear G2 as [|? ? G2x G2r]. split; [|split].
    + apply Forall_app. split.
      * eapply Forall_impl; [|exact G1]. intros y Hy. cbv beta. rewrite set_waiting_w. now destruct (y =? x).
      * constructor; [|constructor]. rewrite set_waiting_w, Z.eqb_refl. reflexivity.
    + apply Forall_forall. intros y Hy. rewrite set_waiting_w. destruct (Z.eqb_spec y x); [subst; tauto|].
      rewrite Forall_forall in G2r. now apply G2r.
    + destruct H as [->|[Hx Hg]]; [left; cbn; lia|right].
      apply Forall_app. split.
      * eapply Forall_impl; [|exact Hg]. intros y Hy. cbv beta.
        now rewrite (proj1 (proj2 (set_waiting_frame (nodes s) x 0 y))).
      * constructor; [|constructor]. now rewrite (proj1 (proj2 (set_waiting_frame (nodes s) x 0 x))).
Qed.

(** Position of an owned cell that has been granted. *)
Lemma granted_in cells s g r f l :
  QI cells s g r f -> In l (g ++ r) -> waiting (nodes s l) = 0 -> In l g.
Proof.
  intros Q I W. apply in_app_or in I. destruct I as [I|I]; [exact I|].
  destruct (qi_gr _ _ _ _ _ Q) as (_ & G2 & _). rewrite Forall_forall in G2. specialize (G2 l I). lia.
Qed.

Lemma granted_readers cells s g r f l :
  QI cells s g r f -> In l g -> class (nodes s l) = LOCKQ_READ ->
  Forall (fun y => class (nodes s y) = LOCKQ_READ) g.
Proof.
  intros Q I C. destruct (qi_gr _ _ _ _ _ Q) as (_ & _ & [G|G]); [|exact G].
  destruct g as [|x [|y g]]; [destruct I| |cbn in G; lia]; destruct I as [<-|[]].
  constructor; [exact C|constructor].
Qed.

Lemma granted_writer cells s g r f l :
  QI cells s g r f -> In l g -> class (nodes s l) = LOCKQ_WRITE -> g = [l].
Proof.
  intros Q I C. destruct (qi_gr _ _ _ _ _ Q) as (_ & _ & [G|G]).
  - destruct g as [|x [|y g]]; [destruct I| |cbn in G; lia]; destruct I as [<-|[]]. reflexivity.
  - rewrite Forall_forall in G. specialize (G l I). unfold LOCKQ_READ, LOCKQ_WRITE in *. lia.
Qed.

(** *** The protected sections keep the invariant *)

Lemma QI_ext cells s s' g r f :
  (forall x, nodes s' x = nodes s x) -> tail s' = tail s -> freelist s' = freelist s ->
  tk s' = tk s -> now s' = now s -> QI cells s g r f -> QI cells s' g r f.
Proof.
  intros En Et Ef Ek Ew Q. destruct Q as [Q1 Q2 Q3 Q4 Q5 Q6 Q7 Q8 Q9].
  constructor; rewrite ?Et, ?Ef, ?Ek, ?Ew; try assumption.
  - apply (dlseg_frame (nodes s)); [|exact Q4]. intros x _. now rewrite En.
  - apply (chain_frame (nodes s)); [|exact Q6]. intros x _. now rewrite En.
  - destruct Q7 as (G1 & G2 & G3). split; [|split].
    + eapply Forall_impl; [|exact G1]. intros x Hx. cbv beta. now rewrite En.
    + eapply Forall_impl; [|exact G2]. intros x Hx. cbv beta. now rewrite En.
    + destruct G3 as [G3|G3]; [now left|right].
      eapply Forall_impl; [|exact G3]. intros x Hx. cbv beta. now rewrite En.
Qed.

Lemma perm_take {A} (l : A) a b X q :
  q = a ++ l :: b -> Permutation ([l] ++ X) q -> Permutation X (a ++ b).
Proof. intros -> H. eapply Permutation_cons_app_inv. exact H. Qed.

Lemma keeps_dequeue s l a x : keeps s (free_lock (dequeue s l) l) a x.
Proof.
  unfold keeps, free_lock; cbn [nodes].
  destruct (set_ncell_frame (nodes (dequeue s l)) l (freelist (dequeue s l)) x) as (A & B & _).
  destruct (deq_frame s l x) as (_ & C & D). rewrite A, B, C, D. auto.
Qed.

Lemma sec_tmo cells s g r f l :
  QI cells s g r f -> In l (g ++ r) -> section_ok cells (KTmo l) s g r f.
Proof.
  intros Q Hin. unfold section_ok. cbn [body].
  change (body_tmo l s) with (free_lock (dequeue s l) l, ARet 0).
  pose proof (qi_gr _ _ _ _ _ Q) as (G1 & G2 & G3).
  apply in_app_or in Hin. destruct Hin as [Hin|Hin].
  - destruct (in_split _ _ Hin) as (g1 & g2 & ->).
    exists (g1 ++ g2), r, (l :: f).
    assert (E : (g1 ++ l :: g2) ++ r = g1 ++ l :: (g2 ++ r)) by (rewrite <- app_assoc; reflexivity).
    assert (E' : (g1 ++ g2) ++ r = g1 ++ (g2 ++ r)) by (rewrite <- app_assoc; reflexivity).
    split; [|split; [|split; [|split]]].
    + eapply QI_dequeue; [exact Q|exact E|exact E'|].
      split; [eapply forall_remove; exact G1|]. split; [exact G2|].
      destruct G3 as [G3|G3]; [left|right; eapply forall_remove; exact G3].
      rewrite app_length in *. cbn [length] in G3. lia.
    + intros X P. cbn [kown aown] in *. rewrite E'. eapply perm_take; [exact E|exact P].
    + exact I.
    + intros x _ _. apply keeps_dequeue.
    + intros N. exfalso. now apply (N l).
  - destruct (in_split _ _ Hin) as (r1 & r2 & ->).
    exists g, (r1 ++ r2), (l :: f).
    assert (E : g ++ (r1 ++ l :: r2) = (g ++ r1) ++ l :: r2) by (rewrite <- app_assoc; reflexivity).
    assert (E' : g ++ (r1 ++ r2) = (g ++ r1) ++ r2) by (rewrite <- app_assoc; reflexivity).
    split; [|split; [|split; [|split]]].
    + eapply QI_dequeue; [exact Q|exact E|exact E'|].
      split; [exact G1|]. split; [eapply forall_remove; exact G2|exact G3].
    + intros X P. cbn [kown aown] in *. rewrite E'. eapply perm_take; [exact E|exact P].
    + exact I.
    + intros x _ _. apply keeps_dequeue.
    + intros N. exfalso. now apply (N l).
Qed.

(** Granting commutes with freeing another cell. *)
Definition grant (s : qst) (x : Z) : qst :=
  Qst (tail s) (freelist s) (set_waiting (nodes s) x 0) (tk s) (now s).

Lemma grant_free s l x y :
  l <> x -> nodes (free_lock (grant s x) l) y = nodes (grant (free_lock s l) x) y.
Proof.
  intros N. unfold grant, free_lock, set_waiting, set_ncell, setnode; cbn [nodes freelist].
  destruct (Z.eqb_spec y l), (Z.eqb_spec y x), (Z.eqb_spec l x), (Z.eqb_spec x l); subst; cbn; auto; congruence.
Qed.

Lemma keeps_grant s l x y : l <> x -> x <> 0 -> keeps s (free_lock (grant (dequeue s l) x) l) (AWake x) y.
Proof.
  intros N Nx. unfold keeps. rewrite grant_free by exact N.
  pose proof (keeps_dequeue s l (AWake x) y) as (A & B & C).
  unfold grant; cbn [nodes]. set (nd := nodes (free_lock (dequeue s l) l)) in *.
  destruct (set_waiting_frame nd x 0 y) as (_ & E & _). rewrite E, set_waiting_w.
  split; [exact A|]. split.
  - intros H. destruct (y =? x); auto.
  - destruct (Z.eqb_spec y x) as [->|]; [|exact C]. intros _. right. cbn [apend].
    destruct (Z.eqb_spec x 0); [congruence|now left].
Qed.

Lemma QI_deq_grant cells s g r f a l x r2 g' :
  QI cells s g r f -> g ++ r = a ++ l :: x :: r2 -> g' = a ->
  grants (nodes s) g' (x :: r2) ->
  g' = [] \/ (class (nodes s x) = LOCKQ_READ /\ Forall (fun y => class (nodes s y) = LOCKQ_READ) g') ->
  l <> x ->
  QI cells (free_lock (grant (dequeue s l) x) l) (g' ++ [x]) r2 (l :: f).
Proof.
  intros Q E -> G H N.
  assert (Q' : QI cells (free_lock (dequeue s l) l) a (x :: r2) (l :: f)).
  { eapply QI_dequeue; [exact Q|exact E|reflexivity|exact G]. }
  eapply QI_ext; [| | | | |eapply QI_grant; [exact Q'|]].
  - intros y. apply grant_free. exact N.
  - reflexivity.
  - reflexivity.
  - reflexivity.
  - reflexivity.
  - destruct H as [H|[H1 H2]]; [now left|right].
    assert (C : forall y, class (nodes (free_lock (dequeue s l) l) y) = class (nodes s y)).
    { intros y. apply (keeps_dequeue s l (ARet 0) y). }
    split; [now rewrite C|]. eapply Forall_impl; [|exact H2]. intros y Hy. cbv beta. now rewrite C.
Qed.

Lemma sec_runlock cells s g r f l :
  QI cells s g r f -> In l (g ++ r) -> class (nodes s l) = LOCKQ_READ -> waiting (nodes s l) = 0 ->
  section_ok cells (KRUnlock l) s g r f.
Proof.
  intros Q Hin Cl Wl.
  pose proof (granted_in _ _ _ _ _ _ Q Hin Wl) as Hg.
  pose proof (granted_readers _ _ _ _ _ _ Q Hg Cl) as AR.
  pose proof (qi_gr _ _ _ _ _ Q) as (G1 & G2 & _).
  destruct (in_split _ _ Hg) as (g1 & g2 & Eg). subst g.
  assert (E : (g1 ++ l :: g2) ++ r = g1 ++ l :: (g2 ++ r)) by (rewrite <- app_assoc; reflexivity).
  assert (E' : (g1 ++ g2) ++ r = g1 ++ (g2 ++ r)) by (rewrite <- app_assoc; reflexivity).
  pose proof (qi_nd _ _ _ _ _ Q) as ND. pose proof (qi_nz _ _ _ _ _ Q) as NZ.
  pose proof (qi_dl _ _ _ _ _ Q) as DL. rewrite E in ND, NZ, DL.
  assert (ND' : NoDup (g1 ++ l :: (g2 ++ r))) by now apply NoDup_app_inv in ND.
  assert (NZ' : ~ In 0 (g1 ++ l :: (g2 ++ r))) by (intros X; apply NZ; apply in_or_app; now left).
  pose proof (unlink_nd1 (nodes s) g1 (g2 ++ r) l ND' NZ' DL) as U. cbv zeta in U. destruct U as [U1 U2].
  pose proof (forall_remove _ _ _ _ G1) as G1'. pose proof (forall_remove _ _ _ _ AR) as AR'.
  (* the section grants nobody *)
  assert (plain : forall b, body_runlock l s = (free_lock (dequeue s l) l, AWake 0) ->
            b = true -> (g1 ++ g2 <> [] \/ r = []) -> section_ok cells (KRUnlock l) s (g1 ++ l :: g2) r f).
  { intros b HB _ LV. unfold section_ok. cbn [body]. rewrite HB. exists (g1 ++ g2), r, (l :: f).
    split; [|split; [|split; [|split]]].
    - eapply QI_dequeue; [exact Q|exact E|exact E'|]. split; [exact G1'|]. split; [exact G2|]. now right.
    - intros X P. cbn [kown aown] in *. rewrite E'. eapply perm_take; [exact E|exact P].
    - exact I.
    - intros x _ _. apply keeps_dequeue.
    - intros _ _. exact LV. }
  assert (HB : body_runlock l s =
     let nx := hd 0 (g2 ++ r) in
     if negb (nx =? 0) then
       if negb (waiting (nodes s nx) =? 0) && ((last g1 0 =? 0) || (class (nodes s nx) =? LOCKQ_READ))
       then (free_lock (grant (dequeue s l) nx) l, AWake nx)
       else (free_lock (dequeue s l) l, AWake 0)
     else (free_lock (dequeue s l) l, AWake 0)).
  { unfold body_runlock, grant, dequeue. cbv zeta.
    set (nd1 := if negb (prev (nodes s l) =? 0) then set_next (nodes s) (prev (nodes s l)) (next (nodes s l)) else nodes s) in *.
    assert (F1 : forall x, class (nd1 x) = class (nodes s x) /\ waiting (nd1 x) = waiting (nodes s x)).
    { intros x. unfold nd1. destruct (negb _); [|auto]. split; apply set_next_frame. }
    clearbody nd1. rewrite U1, U2. set (nx := hd 0 (g2 ++ r)) in *.
    destruct (Z.eqb_spec nx 0) as [Z0|NZ0]; cbn [negb].
    - destruct (tail s =? l); reflexivity.
    - assert (Nl : nx <> l).
      { destruct (unlink_in_b (nodes s) g1 (g2 ++ r) l ND' NZ' DL) as [B|(_ & B & _)]; [|exact B].
        unfold nx in NZ0. rewrite B in NZ0. cbn in NZ0. congruence. }
      replace (waiting (set_prev nd1 nx (last g1 0) nx)) with (waiting (nodes s nx)).
      2:{ symmetry. destruct (set_prev_frame nd1 nx (last g1 0) nx) as (_ & _ & X). rewrite X. apply F1. }
      replace (class (set_prev nd1 nx (last g1 0) nx)) with (class (nodes s nx)).
      2:{ symmetry. destruct (set_prev_frame nd1 nx (last g1 0) nx) as (_ & X & _). rewrite X. apply F1. }
      replace (prev (set_prev nd1 nx (last g1 0) l)) with (last g1 0).
      2:{ unfold set_prev, setnode. destruct (Z.eqb_spec l nx); [congruence|]. symmetry. exact U2. }
      destruct (negb (waiting (nodes s nx) =? 0) && _); reflexivity. }
  cbv zeta in HB.
  destruct g2 as [|y g2].
  2:{ (* the next cell already has the lock *)
    apply (plain true); [|reflexivity|left; destruct g1; discriminate].
    rewrite HB. cbn [app hd].
    assert (Wy : waiting (nodes s y) = 0).
    { rewrite Forall_app in G1. destruct G1 as [_ G1]. inversion_clear G1 as [|? ? _ G1y].
      now inversion_clear G1y. }
    rewrite Wy. cbn [Z.eqb negb andb]. now destruct (negb (y =? 0)). }
  cbn [app] in *. rewrite app_nil_r in *.
  destruct r as [|x r].
  { apply (plain true); [|reflexivity|now right]. rewrite HB. reflexivity. }
  cbn [hd] in HB.
  assert (Wx : waiting (nodes s x) = 1) by (inversion_clear G2; assumption).
  assert (Nx : x <> 0).
  { intros ->. apply NZ'. apply in_or_app. right. right. now left. }
  assert (Nlx : l <> x).
  { intros ->. apply NoDup_app_inv in ND'. destruct ND' as (_ & D & _). inversion_clear D as [|? ? D' _].
    apply D'. now left. }
  rewrite Wx in HB. destruct (Z.eqb_spec x 0); [congruence|]. cbn [Z.eqb negb andb] in HB.
  destruct ((last g1 0 =? 0) || (class (nodes s x) =? LOCKQ_READ)) eqn:D.
  - unfold section_ok. cbn [body]. rewrite HB. exists (g1 ++ [x]), r, (l :: f).
    split; [|split; [|split; [|split]]].
    + eapply QI_deq_grant; [exact Q|exact E|reflexivity| | |exact Nlx].
      * split; [exact G1'|]. split; [exact G2|now right].
      * apply orb_true_iff in D. destruct D as [D|D]; [left|right].
        -- apply Z.eqb_eq in D. destruct (unlink_in_a (nodes s) g1 (x :: r) l ND' NZ' DL) as [|(A & _)]; [assumption|congruence].
        -- apply Z.eqb_eq in D. now split.
    + intros X P. cbn [kown aown] in *. rewrite <- app_assoc. cbn [app]. eapply perm_take; [exact E|exact P].
    + exact I.
    + intros y _ _. apply keeps_grant; assumption.
    + intros _ _. left. destruct g1; discriminate.
  - apply (plain true); [rewrite HB; reflexivity|reflexivity|].
    left. destruct g1; [|discriminate]. cbn in D. discriminate.
Qed.

Lemma sec_wunlock cells s g r f l :
  QI cells s g r f -> In l (g ++ r) -> class (nodes s l) = LOCKQ_WRITE -> waiting (nodes s l) = 0 ->
  section_ok cells (KWUnlock l) s g r f.
Proof.
  intros Q Hin Cl Wl.
  pose proof (granted_in _ _ _ _ _ _ Q Hin Wl) as Hg.
  pose proof (granted_writer _ _ _ _ _ _ Q Hg Cl) as Eg. subst g.
  pose proof (qi_gr _ _ _ _ _ Q) as (G1 & G2 & _).
  assert (E : [l] ++ r = [] ++ l :: r) by reflexivity.
  pose proof (qi_nd _ _ _ _ _ Q) as ND. pose proof (qi_nz _ _ _ _ _ Q) as NZ.
  pose proof (qi_dl _ _ _ _ _ Q) as DL. rewrite E in ND, NZ, DL.
  assert (ND' : NoDup ([] ++ l :: r)) by now apply NoDup_app_inv in ND.
  assert (NZ' : ~ In 0 ([] ++ l :: r)) by (intros X; apply NZ; apply in_or_app; now left).
  pose proof (unlink_prev (nodes s) [] r l DL) as P0. cbn [last] in P0.
  pose proof (unlink_next (nodes s) [] r l DL) as N0.
  destruct r as [|x r].
  - cbn [hd] in N0. unfold section_ok. cbn [body].
    assert (HB : body_wunlock l s = (free_lock (dequeue s l) l, AWake 0)).
    { unfold body_wunlock, dequeue. cbv zeta. rewrite N0, P0. cbn [Z.eqb negb]. rewrite N0, P0. cbn [Z.eqb negb].
      destruct (tail s =? l); [reflexivity|]. now destruct s. }
    rewrite HB. exists [], [], (l :: f). split; [|split; [|split; [|split]]].
    + eapply QI_dequeue with (a := []) (b := []); [exact Q|reflexivity|reflexivity|].
      split; [constructor|]. split; [constructor|]. left. cbn. lia.
    + intros X P. cbn [kown aown] in *. eapply (perm_take l [] [] X); [|exact P]. reflexivity.
    + exact I.
    + intros y _ _. apply keeps_dequeue.
    + intros _ _. now right.
  - cbn [hd] in N0.
    assert (Nx : x <> 0).
    { intros ->. apply NZ'. right. now left. }
    assert (Nlx : l <> x).
    { intros ->. inversion_clear ND' as [|? ? D' _]. apply D'. now left. }
    assert (EX : forall y, nodes (fst (body_wunlock l s)) y = nodes (free_lock (grant (dequeue s l) x) l) y).
    { intros y. unfold body_wunlock, grant, dequeue. cbv zeta. rewrite N0, P0. cbn [Z.eqb negb].
      rewrite N0, P0. destruct (Z.eqb_spec x 0); [congruence|]. cbn [negb fst free_lock nodes freelist].
      unfold set_ncell, set_prev, set_waiting, setnode.
      destruct (Z.eqb_spec y l), (Z.eqb_spec y x), (Z.eqb_spec l x), (Z.eqb_spec x l), (Z.eqb_spec x x), (Z.eqb_spec l l);
        subst; cbn; auto; congruence. }
    assert (HR : snd (body_wunlock l s) = AWake x /\ tail (fst (body_wunlock l s)) = tail (dequeue s l) /\
       freelist (fst (body_wunlock l s)) = l /\ tk (fst (body_wunlock l s)) = tk s /\
       now (fst (body_wunlock l s)) = now s).
    { unfold body_wunlock, dequeue. cbv zeta. rewrite N0, P0. cbn [Z.eqb negb]. rewrite N0.
      destruct (Z.eqb_spec x 0); [congruence|]. cbn. auto. }
    unfold section_ok. cbn [body]. destruct (body_wunlock l s) as [s' a'] eqn:HB. cbn [fst snd] in *.
    destruct HR as (-> & R1 & R2 & R3 & R4).
    exists ([] ++ [x]), r, (l :: f). split; [|split; [|split; [|split]]].
    + eapply QI_ext; [exact EX| | | | |].
      5: eapply QI_deq_grant with (a := []); [exact Q|reflexivity|reflexivity| |now left|exact Nlx].
      * exact R1.
      * exact R2.
      * destruct (deq_rest s l) as (_ & A & _). cbn. now rewrite A.
      * destruct (deq_rest s l) as (_ & _ & A). cbn. now rewrite A.
      * split; [constructor|]. split; [exact G2|]. left. cbn. lia.
    + intros X P. cbn [kown aown] in *. eapply (perm_take l [] (x :: r) X); [|exact P]. reflexivity.
    + exact I.
    + intros y _ _. pose proof (keeps_grant s l x y Nlx Nx) as K. unfold keeps in *. rewrite EX. exact K.
    + intros _ _. left. discriminate.
Qed.

Lemma sec_casc cells s g r f l :
  QI cells s g r f -> In l (g ++ r) -> class (nodes s l) = LOCKQ_READ -> waiting (nodes s l) = 0 ->
  section_ok cells (KCasc l) s g r f.
Proof.
  intros Q Hin Cl Wl. unfold section_ok. cbn [body]. unfold body_casc.
  set (nx := next (nodes s l)).
  destruct (negb (nx =? 0) && (class (nodes s nx) =? LOCKQ_READ) && negb (waiting (nodes s nx) =? 0)) eqn:D.
  - apply andb_true_iff in D. destruct D as [D D3]. apply andb_true_iff in D. destruct D as [D1 D2].
    apply negb_true_iff, Z.eqb_neq in D1. apply Z.eqb_eq in D2. apply negb_true_iff, Z.eqb_neq in D3.
    pose proof (granted_in _ _ _ _ _ _ Q Hin Wl) as Hg.
    pose proof (granted_readers _ _ _ _ _ _ Q Hg Cl) as AR.
    pose proof (qi_gr _ _ _ _ _ Q) as (G1 & G2 & _).
    destruct (in_split _ _ Hg) as (g1 & g2 & Eg). subst g.
    assert (E : (g1 ++ l :: g2) ++ r = g1 ++ l :: (g2 ++ r)) by (rewrite <- app_assoc; reflexivity).
    pose proof (qi_dl _ _ _ _ _ Q) as DL. rewrite E in DL.
    pose proof (unlink_next (nodes s) g1 (g2 ++ r) l DL) as N0. fold nx in N0.
    destruct g2 as [|y g2].
    2:{ exfalso. cbn in N0. rewrite N0 in D3. apply D3.
        rewrite Forall_app in G1. destruct G1 as [_ G1]. inversion_clear G1 as [|? ? _ G1y]. now inversion_clear G1y. }
    cbn [app] in *. destruct r as [|x r]; [cbn in N0; congruence|]. cbn in N0. rewrite N0 in *.
    exists ((g1 ++ [l]) ++ [x]), r, f.
    assert (Nlx : l <> x).
    { intros ->. inversion_clear G2 as [|? ? A _]. lia. }
    split; [|split; [|split; [|split]]].
    + eapply QI_grant; [exact Q|]. right. now split.
    + intros X P. cbn [kown aown] in *. eapply perm_trans; [exact P|].
      rewrite <- !app_assoc. cbn [app]. apply Permutation_refl.
    + cbn [aok nodes]. destruct (set_waiting_frame (nodes s) x 0 l) as (_ & A & _). rewrite A, set_waiting_w.
      destruct (l =? x); auto.
    + intros y _ _. unfold keeps. cbn [nodes apend].
      destruct (set_waiting_frame (nodes s) x 0 y) as (_ & A & _). rewrite A, set_waiting_w.
      split; [reflexivity|]. destruct (Z.eqb_spec y x) as [->|]; [|tauto].
      split; [auto|]. intros _. right. destruct (Z.eqb_spec x 0); [congruence|now left].
    + intros _ _. left. destruct g1; discriminate.
  - exists g, r, f. split; [exact Q|]. split; [auto|]. split; [cbn; auto|]. split; [|auto].
    intros y _ _. unfold keeps. auto.
Qed.

Lemma QI_enqueue cells s g r x f cl0 wt :
  QI cells s g r (x :: f) ->
  let nd1 := setnode (nodes s) x (Node (ncell (nodes s x)) cl0 (waiting (nodes s x)) 0 (tail s)) in
  let nd2 := if tail s =? 0 then nd1 else set_next nd1 (tail s) x in
  let s' := Qst x (ncell (nodes s x)) (set_waiting nd2 x wt)
              (fun y => if y =? x then now s else tk s y) (now s + 1) in
  (forall g' r', g' ++ r' = (g ++ r) ++ [x] -> grants (nodes s') g' r' -> QI cells s' g' r' f) /\
  (forall y, y <> x -> class (nodes s' y) = class (nodes s y) /\ waiting (nodes s' y) = waiting (nodes s y)) /\
  class (nodes s' x) = cl0 /\ waiting (nodes s' x) = wt /\ (forall y, y <> x -> class (nd2 y) = class (nodes s y) /\ waiting (nd2 y) = waiting (nodes s y)).
Proof.
  intros Q nd1 nd2 s'.
  pose proof Q as [Q1 Q2 Q3 Q4 Q5 Q6 Q7 Q8 Q9].
  destruct (NoDup_app_inv _ _ Q1) as (N1 & N2 & N3). inversion_clear N2 as [|? ? Nxf N2'].
  assert (Nx : ~ In x (g ++ r)) by (intros H; apply (N3 x H); now left).
  assert (Nx0 : x <> 0) by (intros ->; apply Q2; apply in_or_app; right; now left).
  assert (Tx : tail s = x -> False).
  { rewrite Q5. intros H. destruct (g ++ r) eqn:Eq; [cbn in H; congruence|].
    apply Nx. rewrite <- Eq. rewrite <- H, Eq. apply last_in. congruence. }
  assert (F : forall y, y <> x ->
     ncell (nd2 y) = ncell (nodes s y) /\ class (nd2 y) = class (nodes s y) /\
     waiting (nd2 y) = waiting (nodes s y) /\ prev (nd2 y) = prev (nodes s y)).
  { intros y Hy. unfold nd2, nd1. destruct (tail s =? 0).
    - unfold setnode. destruct (Z.eqb_spec y x); [congruence|auto].
    - unfold set_next, setnode.
      destruct (Z.eqb_spec y (tail s)), (Z.eqb_spec y x), (Z.eqb_spec (tail s) x); subst; cbn; auto; congruence. }
  assert (Fx : ncell (nd2 x) = ncell (nodes s x) /\ class (nd2 x) = cl0 /\ prev (nd2 x) = tail s /\ next (nd2 x) = 0).
  { unfold nd2, nd1. destruct (tail s =? 0).
    - unfold setnode. rewrite Z.eqb_refl. auto.
    - unfold set_next, setnode. destruct (Z.eqb_spec x (tail s)); [congruence|].
      rewrite Z.eqb_refl. auto. }
  assert (FN : forall y, y <> x -> y <> tail s -> next (nd2 y) = next (nodes s y)).
  { intros y Hy Ht. unfold nd2, nd1. destruct (tail s =? 0).
    - unfold setnode. destruct (Z.eqb_spec y x); [congruence|auto].
    - unfold set_next, setnode.
      destruct (Z.eqb_spec y (tail s)), (Z.eqb_spec y x); subst; cbn; auto; congruence. }
  assert (FT : tail s <> 0 -> next (nd2 (tail s)) = x).
  { intros Ht. unfold nd2. destruct (Z.eqb_spec (tail s) 0); [congruence|].
    unfold set_next, setnode. rewrite Z.eqb_refl. reflexivity. }
  assert (K : forall y, y <> x -> class (nodes s' y) = class (nodes s y) /\ waiting (nodes s' y) = waiting (nodes s y)).
  { intros y Hy. cbn [s' nodes]. destruct (set_waiting_frame nd2 x wt y) as (_ & A & _). rewrite A, set_waiting_w.
    destruct (Z.eqb_spec y x); [congruence|]. destruct (F y Hy) as (_ & B & C & _). auto. }
  split; [|split; [exact K|]].
  - intros g' r' E G. constructor; cbn [s' nodes tail freelist tk now]; rewrite ?E.
    + rewrite <- app_assoc. exact Q1.
    + rewrite <- app_assoc. exact Q2.
    + rewrite <- app_assoc. exact Q3.
    + apply (dlseg_frame nd2).
      { intros y _. destruct (set_waiting_frame nd2 x wt y) as (_ & _ & A & B). now split. }
      apply dlseg_app. cbn [hd dlseg]. split.
      * destruct (list_snoc (g ++ r)) as [E0|(a & z & Ea)]; [rewrite E0; exact I|].
        rewrite Ea in *. rewrite last_app1 in Q5.
        assert (Nz : z <> 0).
        { intros ->. apply Q2. apply in_or_app. left. apply in_or_app. right. now left. }
        assert (Hz : tail s <> 0) by congruence.
        apply dlseg_app in Q4. destruct Q4 as [A B]. apply dlseg_app. split.
        -- apply (dlseg_frame (nodes s)); [|exact A]. intros y Hy.
           assert (y <> x) by (intros ->; apply Nx; apply in_or_app; now left).
           split; [now apply F|]. apply FN; [assumption|].
           intros ->. apply NoDup_app_inv in N1. destruct N1 as (_ & _ & D). apply (D _ Hy). rewrite Q5. now left.
        -- cbn [dlseg hd] in B |- *. destruct B as (B1 & _ & _).
           assert (z <> x) by (intros ->; apply Nx; apply in_or_app; right; now left).
           split; [rewrite <- B1; now apply F|]. split; [|exact I]. rewrite <- Q5. now apply FT.
      * destruct Fx as (_ & _ & A & B). split; [congruence|]. split; [exact B|exact I].
    + rewrite last_app1. reflexivity.
    + cbn [chain] in Q6. destruct Q6 as [_ C]. apply (chain_frame (nodes s)); [|exact C].
      intros y Hy. assert (y <> x) by (intros ->; tauto).
      destruct (set_waiting_frame nd2 x wt y) as (A & _). rewrite A. now apply F.
    + exact G.
    + clear - Q8 Q9 Nx.
      assert (H : forall q, ~ In x q -> StronglySorted (fun a b => tk s a < tk s b) q ->
         Forall (fun a => tk s a < now s) q ->
         StronglySorted (fun a b => (if a =? x then now s else tk s a) < (if b =? x then now s else tk s b)) (q ++ [x])).
      { induction q as [|y q IH]; intros Nq S Fq; cbn [app].
        - constructor; [constructor|constructor].
        - inversion_clear S as [|? ? S1 S2]. inversion_clear Fq as [|? ? F1 F2].
          assert (y <> x) by (intros ->; apply Nq; now left).
          constructor.
          + apply IH; auto. intros H'. apply Nq. now right.
          + apply Forall_app. split.
            * apply Forall_forall. intros z Hz. assert (z <> x) by (intros ->; apply Nq; now right).
              destruct (Z.eqb_spec y x), (Z.eqb_spec z x); try congruence.
              rewrite Forall_forall in S2. now apply S2.
            * constructor; [|constructor]. rewrite Z.eqb_refl. destruct (Z.eqb_spec y x); [congruence|exact F1]. }
      apply H; assumption.
    + apply Forall_app. split.
      * apply Forall_forall. intros y Hy. assert (y <> x) by (intros ->; tauto).
        destruct (Z.eqb_spec y x); [congruence|]. rewrite Forall_forall in Q9. specialize (Q9 y Hy). lia.
      * constructor; [|constructor]. rewrite Z.eqb_refl. lia.
  - cbn [s' nodes]. destruct (set_waiting_frame nd2 x wt x) as (_ & A & _). rewrite A, set_waiting_w, Z.eqb_refl.
    split; [apply Fx|]. split; [reflexivity|]. intros y Hy. destruct (F y Hy) as (_ & B & C & _). auto.
Qed.

Lemma sec_lock cells s g r f w : QI cells s g r f -> section_ok cells (KLock w) s g r f.
Proof.
  intros Q. unfold section_ok. cbn [body]. unfold body_lock, alloc_lock.
  pose proof (qi_chain _ _ _ _ _ Q) as C.
  destruct f as [|x f]; cbn [chain] in C.
  - rewrite C. cbn [Z.eqb]. exists g, r, []. split; [exact Q|]. split; [auto|]. split; [exact I|].
    split; [|auto]. intros y _ _. unfold keeps. auto.
  - destruct C as [C _]. rewrite C.
    assert (Nx0 : x <> 0) by (intros ->; apply (qi_nz _ _ _ _ _ Q); apply in_or_app; right; now left).
    destruct (Z.eqb_spec x 0); [congruence|]. destruct (Z.eqb_spec x 0); [congruence|].
    cbn [nodes tail freelist tk now].
    match goal with |- context[set_waiting ?n x ?v] => set (nd2 := n); set (wt := v) end.
    pose proof (QI_enqueue cells s g r x f (cls w) wt Q) as H. cbv zeta in H.
    fold (cls w) in nd2. fold nd2 in H.
    destruct H as (H1 & H2 & H3 & H4 & H5).
    set (s' := Qst x _ _ _ _) in *.
    destruct (NoDup_app_inv _ _ (qi_nd _ _ _ _ _ Q)) as (_ & _ & D).
    assert (Nx : ~ In x (g ++ r)) by (intros X; apply (D x X); now left).
    pose proof (qi_gr _ _ _ _ _ Q) as (G1 & G2 & G3).
    pose proof (qi_tail _ _ _ _ _ Q) as T.
    assert (Ng : forall y, In y g -> y <> x) by (intros y Hy ->; apply Nx; apply in_or_app; now left).
    assert (Nr : forall y, In y r -> y <> x) by (intros y Hy ->; apply Nx; apply in_or_app; now right).
    assert (G1' : Forall (fun y => waiting (nodes s' y) = 0) g).
    { rewrite Forall_forall in *. intros y Hy. destruct (H2 y (Ng y Hy)) as [_ A]. rewrite A. now apply G1. }
    assert (G2' : Forall (fun y => waiting (nodes s' y) = 1) r).
    { rewrite Forall_forall in *. intros y Hy. destruct (H2 y (Nr y Hy)) as [_ A]. rewrite A. now apply G2. }
    assert (G3' : forall P : Prop, (length g <= 1)%nat \/ Forall (fun y => class (nodes s y) = LOCKQ_READ) g ->
                  (length g <= 1)%nat \/ Forall (fun y => class (nodes s' y) = LOCKQ_READ) g).
    { intros _ [A|A]; [now left|right]. rewrite Forall_forall in *. intros y Hy.
      destruct (H2 y (Ng y Hy)) as [B _]. rewrite B. now apply A. }
    assert (fin : forall g' r', g' ++ r' = (g ++ r) ++ [x] -> grants (nodes s') g' r' ->
       (g <> [] \/ r = [] -> g' <> [] \/ r' = []) ->
       exists g' r' f', QI cells s' g' r' f' /\
        (forall X, Permutation (kown (KLock w) ++ X) (g ++ r) -> Permutation (aown (AChk w x) ++ X) (g' ++ r')) /\
        aok (nodes s') (AChk w x) /\
        (forall y, In y (g ++ r) -> ~ In y (kown (KLock w)) -> keeps s s' (AChk w x) y) /\
        ((forall l, KLock w <> KTmo l) -> g <> [] \/ r = [] -> g' <> [] \/ r' = [])).
    { intros g' r' E G LV. exists g', r', f. split; [now apply H1|]. split; [|split; [|split]].
      - intros X P. cbn [kown aown app] in *. rewrite E.
        eapply perm_trans; [|apply Permutation_cons_append]. now constructor.
      - exact H3.
      - intros y Hy _. assert (y <> x) by (intros ->; tauto). destruct (H2 y) as [A B]; [assumption|].
        unfold keeps. rewrite A, B. auto.
      - intros _. exact LV. }
    assert (wait1 : wt = 1 -> g ++ r <> [] ->
       exists g' r' f', QI cells s' g' r' f' /\
        (forall X, Permutation (kown (KLock w) ++ X) (g ++ r) -> Permutation (aown (AChk w x) ++ X) (g' ++ r')) /\
        aok (nodes s') (AChk w x) /\
        (forall y, In y (g ++ r) -> ~ In y (kown (KLock w)) -> keeps s s' (AChk w x) y) /\
        ((forall l, KLock w <> KTmo l) -> g <> [] \/ r = [] -> g' <> [] \/ r' = [])).
    { intros W1 NE. apply (fin g (r ++ [x])).
      - now rewrite app_assoc.
      - split; [exact G1'|]. split; [|now apply (G3' True)].
        apply Forall_app. split; [exact G2'|]. constructor; [congruence|constructor].
      - intros [A|A]; [now left|]. left. intros ->. rewrite A in NE. now apply NE. }
    destruct (list_snoc (g ++ r)) as [E0|(a & z & Ea)].
    + (* empty queue *)
      apply app_eq_nil in E0. destruct E0 as [-> ->]. cbn [app last] in T.
      apply (fin [x] []).
      * reflexivity.
      * split; [|split; [constructor|left; cbn; lia]].
        constructor; [|constructor]. rewrite H4. unfold wt. rewrite T. reflexivity.
      * intros _. now right.
    + rewrite Ea, last_app1 in T.
      assert (Hz : In z (g ++ r)) by (rewrite Ea; apply in_or_app; right; now left).
      assert (Nz : z <> 0).
      { intros ->. apply (qi_nz _ _ _ _ _ Q). apply in_or_app. now left. }
      assert (Nzx : z <> x) by (intros ->; tauto).
      assert (NE : g ++ r <> []) by (rewrite Ea; destruct a; discriminate).
      assert (WT : wt = if w then 1 else
         if (class (nodes s z) =? LOCKQ_READ) && (waiting (nodes s z) =? 0) then 0 else 1).
      { change wt with (if tail s =? 0 then 0 else if w then 1 else
          if (class (nd2 (tail s)) =? LOCKQ_READ) && (waiting (nd2 (tail s)) =? 0) then 0 else 1).
        rewrite T. destruct (Z.eqb_spec z 0); [congruence|].
        destruct (H5 z Nzx) as [A B]. now rewrite A, B. }
      destruct w; [now apply wait1|].
      destruct ((class (nodes s z) =? LOCKQ_READ) && (waiting (nodes s z) =? 0)) eqn:DD; [|now apply wait1].
      apply andb_true_iff in DD. destruct DD as [D1 D2]. apply Z.eqb_eq in D1, D2.
      pose proof (granted_in _ _ _ _ _ _ Q Hz D2) as Hzg.
      pose proof (granted_readers _ _ _ _ _ _ Q Hzg D1) as AR.
      assert (R0 : r = []).
      { destruct (list_snoc r) as [|(r1 & y & Er)]; [assumption|exfalso].
        rewrite Er, app_assoc in Ea. apply app_inj_tail in Ea. destruct Ea as [_ ->].
        rewrite Er, Forall_app in G2. destruct G2 as [_ G2]. inversion_clear G2. lia. }
      subst r. apply (fin (g ++ [x]) []).
      * rewrite !app_nil_r. reflexivity.
      * split; [|split; [constructor|right]].
        -- apply Forall_app. split; [exact G1'|]. constructor; [congruence|constructor].
        -- apply Forall_app. split.
           ++ rewrite Forall_forall in *. intros y Hy. destruct (H2 y (Ng y Hy)) as [B _]. rewrite B. now apply AR.
           ++ constructor; [rewrite H3; reflexivity|constructor].
      * intros _. left. destruct g; discriminate.
Qed.

Lemma section_all cells k s g r f :
  QI cells s g r f -> (forall l, In l (kown k) -> In l (g ++ r)) -> kok (nodes s) k ->
  section_ok cells k s g r f.
Proof.
  intros Q I K. destruct k as [w|l|l|l|l]; cbn [kok kown] in *.
  - now apply sec_lock.
  - apply sec_wunlock; try tauto. apply I. now left.
  - apply sec_runlock; try tauto. apply I. now left.
  - apply sec_tmo; try tauto. apply I. now left.
  - apply sec_casc; try tauto. apply I. now left.
Qed.
