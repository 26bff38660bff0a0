(** C78: a request of dserve runs the operation it names, on the database it names. *)
From Coq Require Import ZArith List Bool Lia.
From Coq Require String.
From Verif Require Import DserveModel DserveConfModel DserveOpsModel DserveProofs DserveOpsProofs DserveDispModel.
Import ListNotations.
Import String.StringSyntax.
Open Scope Z_scope.

(** The names of the operations. *)
Inductive named : list Z -> oper -> Prop :=
| nm_count : named (bytes "count") (Search COUNT_CODE)
| nm_search : named (bytes "search") (Search SEARCH_CODE)
| nm_select : named (bytes "select") (Search SEARCH_CODE)
| nm_insert : named (bytes "insert") Insert
| nm_update : named (bytes "update") (Search UPDATE_CODE)
| nm_delete : named (bytes "delete") (Search DELETE_CODE)
| nm_create : named (bytes "create") Create
| nm_drop : named (bytes "drop") Drop.
Lemma op_of_named : forall v o, op_of v = Some o <-> named v o.
Proof.
  intros v o. split.
  - unfold op_of. intros H.
    destruct (streq v (bytes "count")) eqn:E_count; [apply streq_eq in E_count; subst v; injection H as <-; constructor|]; cbn [orb] in H.
    destruct (streq v (bytes "search")) eqn:E_search; [apply streq_eq in E_search; subst v; injection H as <-; constructor|]; cbn [orb] in H.
    destruct (streq v (bytes "select")) eqn:E_select; [apply streq_eq in E_select; subst v; injection H as <-; constructor|]; cbn [orb] in H.
    destruct (streq v (bytes "insert")) eqn:E_insert; [apply streq_eq in E_insert; subst v; injection H as <-; constructor|]; cbn [orb] in H.
    destruct (streq v (bytes "update")) eqn:E_update; [apply streq_eq in E_update; subst v; injection H as <-; constructor|]; cbn [orb] in H.
    destruct (streq v (bytes "delete")) eqn:E_delete; [apply streq_eq in E_delete; subst v; injection H as <-; constructor|]; cbn [orb] in H.
    destruct (streq v (bytes "create")) eqn:E_create; [apply streq_eq in E_create; subst v; injection H as <-; constructor|]; cbn [orb] in H.
    destruct (streq v (bytes "drop")) eqn:E_drop; [apply streq_eq in E_drop; subst v; injection H as <-; constructor|]; cbn [orb] in H.
    discriminate H.
  - intros H. destruct H; reflexivity.
Qed.
(** The first value given for a name that is not empty. *)
Definition filled (s : list Z) : bool := match s with [] => false | _ => true end.
Lemma find_db_given : forall l dflt,
  find_db l dflt = match filter filled (given (bytes "db") l) with [] => DB dflt | v :: _ => match atoi_text v with None => DB_undefined | Some a => if (a =? 0) && negb (streq v (bytes "0")) then DB_bad else DB v end end.
Proof.
  induction l as [|(n, v) l IH]; intros dflt; [reflexivity|]. cbn [find_db]. rewrite given_cons. destruct (streq n (bytes "db")); cbn [andb]; [|apply IH].
  destruct v as [|c v]; cbn [streq negb filter filled]; [apply IH|reflexivity].
Qed.
Lemma find_jsonp_given : forall l, find_jsonp l = hd_error (given (bytes "jsonp") l).
Proof. induction l as [|(n, v) l IH]; [reflexivity|]. cbn [find_jsonp]. rewrite given_cons. destruct (streq n (bytes "jsonp")); [reflexivity|exact IH]. Qed.
Lemma find_op_given : forall l db j, find_op l db j = match given (bytes "op") l with [] => D_no_op | v :: _ => match op_of v with Some o => D_call o db j | None => D_unknown_op end end.
Proof. induction l as [|(n, v) l IH]; intros db j; [reflexivity|]. cbn [find_op]. rewrite given_cons. destruct (streq n (bytes "op")); [reflexivity|apply IH]. Qed.

(** C78: the call made is the one that the first op names; the database is the first non-empty db, the configured one, or 1000; the padding is the first
    jsonp. No other call is made for a request. *)
Theorem C78_call : forall ql l conf o db j, process_query ql (Some l) conf = Some (D_call o db j) ->
  (exists v vs, given (bytes "op") l = v :: vs /\ named v o) /\
  db = hd (match conf with Some s => s | None => bytes "1000" end) (filter filled (given (bytes "db") l)) /\
  j = hd_error (given (bytes "jsonp") l) /\ (0 < ql <= Z.to_nat 2000)%nat.
Proof.
  intros ql l conf o db j H. unfold process_query in H. destruct (Nat.eqb_spec ql 0); [discriminate H|].
  destruct (Nat.ltb_spec (Z.to_nat 2000) ql); [discriminate H|]. destruct l as [|p l]; [discriminate H|]. remember (p :: l) as ps eqn:P. clear P.
  rewrite find_db_given in H. rewrite find_jsonp_given in H.
  assert (K : forall s, Some (find_op ps s (hd_error (given (bytes "jsonp") ps))) = Some (D_call o db j) -> (exists v vs, given (bytes "op") ps = v :: vs /\ named v o) /\ db = s /\ j = hd_error (given (bytes "jsonp") ps)).
  { intros s E. rewrite find_op_given in E. destruct (given (bytes "op") ps) as [|v vs]; [discriminate E|]. destruct (op_of v) as [o'|] eqn:Q; [|discriminate E].
    injection E as <- <- <-. split; [exists v, vs; split; [reflexivity|now apply op_of_named]|]. split; reflexivity. }
  destruct (filter filled (given (bytes "db") ps)) as [|v vs]; cbn [hd].
  - destruct (K _ H) as (A & B & C). split; [exact A|]. split; [exact B|]. split; [exact C|]. split; lia.
  - destruct (atoi_text v) as [a|]; [|discriminate H]. destruct ((a =? 0) && negb (streq v (bytes "0"))); [discriminate H|].
    destruct (K _ H) as (A & B & C). split; [exact A|]. split; [exact B|]. split; [exact C|]. split; lia.
Qed.
Print Assumptions C78_call.
(** C78: a request that names an operation and a database with a number makes the call. *)
Theorem C78_serves : forall ql l conf v vs o, (0 < ql <= Z.to_nat 2000)%nat -> given (bytes "op") l = v :: vs -> named v o ->
  (forall d, hd_error (filter filled (given (bytes "db") l)) = Some d -> d = bytes "0" \/ exists n, number d n) ->
  exists db j, process_query ql (Some l) conf = Some (D_call o db j).
Proof.
  intros ql l conf v vs o L G N D. unfold process_query. destruct (Nat.eqb_spec ql 0); [lia|]. destruct (Nat.ltb_spec (Z.to_nat 2000) ql); [lia|].
  destruct l as [|p l]; [discriminate G|]. remember (p :: l) as ps eqn:P. clear P. rewrite find_db_given, find_jsonp_given.
  assert (K : forall s, exists db j, Some (find_op ps s (hd_error (given (bytes "jsonp") ps))) = Some (D_call o db j)).
  { intros s. rewrite find_op_given, G. apply op_of_named in N. rewrite N. eauto. }
  destruct (filter filled (given (bytes "db") ps)) as [|d ds]; [apply K|]. destruct (D d eq_refl) as [->|(n0 & Nd)]; [cbn [andb]; apply K|].
  pose proof (number_atoi d n0 [] Nd (or_introl eq_refl)) as A. rewrite app_nil_r in A. rewrite A. destruct Nd as (_ & _ & _ & R).
  destruct (Z.eqb_spec n0 0); [lia|]. cbn [andb]. apply K.
Qed.
Print Assumptions C78_serves.
(** C78: without op, with another op, or with a db whose text does not start with a number, nothing is called. *)
Theorem C78_refuses : forall ql l conf r, process_query ql (Some l) conf = Some r ->
  given (bytes "op") l = [] \/ (exists v vs, given (bytes "op") l = v :: vs /\ forall o, ~ named v o) \/
  (exists d, hd_error (filter filled (given (bytes "db") l)) = Some d /\ d <> bytes "0" /\ atoi_text d = Some 0) \/ (Z.to_nat 2000 < ql)%nat \/ ql = 0%nat ->
  match r with D_call _ _ _ => False | _ => True end.
Proof.
  intros ql l conf r H C. destruct r; try exact I. destruct (C78_call ql l conf o db jsonp H) as ((v & vs & G & N) & _ & _ & L).
  destruct C as [C|[(v' & vs' & C & M)|[(d & C & D0 & A)|[C|C]]]]; try lia.
  - rewrite C in G. discriminate G.
  - rewrite C in G. injection G as -> ->. exact (M o N).
  - unfold process_query in H. destruct (Nat.eqb ql 0); [discriminate H|]. destruct (Nat.ltb (Z.to_nat 2000) ql); [discriminate H|]. destruct l as [|p l]; [discriminate H|].
    rewrite find_db_given in H. destruct (filter filled (given (bytes "db") (p :: l))) as [|d' ds]; [discriminate C|]. injection C as ->. rewrite A in H.
    destruct (streq d (bytes "0")) eqn:S1; [apply streq_eq in S1; contradiction|]. discriminate H.
Qed.
Print Assumptions C78_refuses.
Example C78_case : process_query 30 (Some [(bytes "db", []); (bytes "op", bytes "count"); (bytes "db", bytes "7"); (bytes "op", bytes "drop"); (bytes "db", bytes "8")]) (Some (bytes "5")) = Some (D_call (Search COUNT_CODE) (bytes "7") None) /\
  process_query 30 (Some [(bytes "op", bytes "counts")]) None = Some D_unknown_op /\ process_query 30 (Some [(bytes "op", bytes "drop"); (bytes "db", bytes "x")]) None = Some D_baddb /\
  process_query 30 (Some [(bytes "db", bytes "7")]) None = Some D_no_op /\ process_query 30 (Some [(bytes "op", bytes "drop"); (bytes "jsonp", bytes "f")]) None = Some (D_call Drop (bytes "1000") (Some (bytes "f"))) /\ number (bytes "7") 7.
Proof. do 5 (split; [vm_compute; reflexivity|]). split; [discriminate|]. split; [repeat constructor|]. split; [reflexivity|lia]. Qed.
(** Finding: a name of a database that only starts with a number is taken, although the error says that it must be numeric; a number above 2^31 - 1 is
    undefined in atoi. *)
Theorem C78_db_refuted : ~ forall ql l conf o db j, process_query ql (Some l) conf = Some (D_call o db j) -> given (bytes "db") l <> [] -> Forall (fun c => isdigit c = true) db.
Proof.
  intros H. specialize (H 20%nat [(bytes "op", bytes "drop"); (bytes "db", bytes "7;x")] None Drop (bytes "7;x") None). assert (F : Forall (fun c => isdigit c = true) (bytes "7;x")); [apply H; [vm_compute; reflexivity|discriminate]|].
  inversion F as [|? ? _ F1]. inversion F1 as [|? ? X _]. discriminate X.
Qed.
Print Assumptions C78_db_refuted.
Example C78_db_case : process_query 20 (Some [(bytes "op", bytes "count"); (bytes "db", bytes "2147483648")]) None = None. Proof. vm_compute. reflexivity. Qed.
