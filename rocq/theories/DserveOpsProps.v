(** C72: which records a request to dserve handles. C73: authorization and locks of a request. *)
From Coq Require Import ZArith List Bool Lia.
From Coq Require String.
From Verif Require Import DserveModel DserveProofs DserveProps DserveConfModel DserveOpsModel DserveOpsProofs.
Import ListNotations.
Import String.StringSyntax.
Open Scope Z_scope.

(** ** C72 *)
(** A full scan that prints, counts or updates handles the records [from], [from]+1, ... of the database, [count] at most. *)
Theorem C72_scan : forall rec haslen op from count (recs : list rec), op <> DELETE_CODE -> 0 <= from < 18446744073709551616 -> 0 <= count ->
  full_scan rec haslen op from count 0 0 recs = firstn (Z.to_nat count) (skipn (Z.to_nat from) recs).
Proof.
  intros rec haslen op from count recs No Lf Lc. rewrite scan_all; [|exact No|lia| |exact Lc]; rewrite ulong_small by exact Lf; [now rewrite Z.sub_0_r|lia].
Qed.
Print Assumptions C72_scan.
Example C72_scan_case : full_scan nat (fun _ => true) SEARCH_CODE 2 3 0 0 [10; 11; 12; 13; 14; 15; 16]%nat = [12; 13; 14]%nat.
Proof. reflexivity. Qed.

(** The same for the records found by fields, for every operation, if [count] is not 0. *)
Theorem C72_fields : forall rec from count (recs : list rec), 0 <= from < 18446744073709551616 -> 0 < count ->
  field_scan rec from count 0 0 recs = firstn (Z.to_nat count) (skipn (Z.to_nat from) recs).
Proof. intros rec from count recs Lf Lc. rewrite field_all; [|lia| |exact Lc]; rewrite ulong_small by exact Lf; [now rewrite Z.sub_0_r|lia]. Qed.
Print Assumptions C72_fields.
Example C72_fields_case : field_scan nat 1 2 0 0 [10; 11; 12; 13]%nat = [11; 12]%nat.
Proof. reflexivity. Qed.

(** A list of at most 1000 positive decimal numbers below 2^31, with commas between them, is read as these ids. If there are
    fewer than 1000, all of them records with fields, the first [count] of them are handled. *)
Theorem C72_ids : forall m text ids count, listed text ids -> (length ids <= MAXIDS)%nat -> 0 <= count ->
  recids (S (length text)) text [] = Some ids /\
  ((length ids < MAXIDS)%nat -> Forall (live m) ids -> id_scan (S MAXIDS) m count 0 (id_array ids) 0 = Some (firstn (Z.to_nat count) ids)).
Proof.
  intros m text ids count H L Lc. split; [exact (recids_listed text ids H (S (length text)) [] (Nat.lt_succ_diag_r _) L)|]. intros L' F.
  rewrite <- (Z.sub_0_r count) at 2. unfold id_array. apply (id_scan_live m count ids [] (repeat 0 (MAXIDS - length ids)) 0 (S MAXIDS) F); [lia|lia|cbn [length]; lia|].
  cbn [app length Nat.add]. rewrite nth_error_app2 by lia. rewrite Nat.sub_diag. destruct (MAXIDS - length ids)%nat eqn:E; [lia|reflexivity].
Qed.
Print Assumptions C72_ids.
Example C72_ids_case : let m := fun a => if a =? 6128 then Some 40 else if a =? 6200 then Some 32 else Some 0 in
  listed (bytes "6128,6200") [6128; 6200] /\ Forall (live m) [6128; 6200] /\ recids 10 (bytes "6128,6200") [] = Some [6128; 6200].
Proof.
  assert (D : forall s, forallb isdigit s = true -> Forall (fun c => isdigit c = true) s) by (intros s H; apply Forall_forall; now apply forallb_forall).
  split; [|split].
  - apply (li_more (bytes "6128") 6128 (bytes "6200") [6200]); [|apply li_one]; (split; [discriminate|]; split; [now apply D|]; split; [reflexivity|lia]).
  - constructor; [|constructor; [|constructor]]; (split; [lia|]; split; [reflexivity|]); [exists 2|exists 1]; split; reflexivity || lia.
  - vm_compute. reflexivity.
Qed.
(** The array of ids is not filled, and so not left, by any value of fewer than 1998 characters; requests have at most
    2000 with the name of the parameter. *)
Theorem C72_array : forall text ids, (length text < Z.to_nat 1998)%nat -> recids (S (length text)) text [] = Some ids -> (length ids < MAXIDS)%nat.
Proof. intros text ids L E. apply recids_bound in E. destruct E as [E _]. cbn [length] in E. unfold MAXIDS. lia. Qed.
Print Assumptions C72_array.
Example C72_array_case : recids 100 (bytes "7,, -3,x,12 ,+5") [] = Some [7; 12; 5].
Proof. vm_compute. reflexivity. Qed.
(** Parameters: for at most 100 of them and numbers that fit, no array is left, unless there is a parameter fld. *)
Theorem C72_params : forall op junk l, (length l <= MAXPARAMS)%nat -> (forall n v, In (n, v) l -> n <> bytes "fld") ->
  (forall n v, In (n, v) l -> (length v < Z.to_nat 2000)%nat /\ (n = bytes "from" \/ n = bytes "count" -> atoi_text v <> None) /\ (n = bytes "recids" -> recids (S (length v)) v [] <> None)) ->
  search_params (sp_start op junk) l <> None.
Proof. intros op junk l L N H. apply params_safe; [exact N|exact H|exact L..]. Qed.
Print Assumptions C72_params.
Example C72_params_case : search_params (sp_start SEARCH_CODE 77) [(bytes "field", bytes "1"); (bytes "value", bytes "x"); (bytes "from", bytes "3"); (bytes "count", bytes "-1"); (bytes "db", bytes "9")]
  = Some (Sp None [bytes "1"] [bytes "x"] [] [] 3 18446744073709551615 77).
Proof. vm_compute. reflexivity. Qed.

(** The parameters say what is written: fields, values, comparisons and types in their order; for from, count and recids the last one counts;
    other parameters change none of these. Without a count, 100000 records at most are handled, or all for counting. *)
Theorem C72_values : forall op junk l q, search_params (sp_start op junk) l = Some q ->
  p_fields q = given (bytes "field") l /\ p_values q = given (bytes "value") l /\ p_compares q = given (bytes "compare") l /\ p_types q = given (bytes "type") l /\
  (forall s n k, given (bytes "from") l = k ++ [s] -> decimal s n -> n <= 2147483647 -> p_from q = n) /\ (given (bytes "from") l = [] -> p_from q = 0) /\
  (forall s n k, given (bytes "count") l = k ++ [s] -> decimal s n -> n <= 2147483647 -> p_count q = n) /\
  (given (bytes "count") l = [] -> p_count q = match op with COUNT_CODE => 9223372036854775807 | _ => 100000 end) /\
  (forall s ids k, given (bytes "recids") l = k ++ [s] -> listed s ids -> (length ids <= MAXIDS)%nat -> p_ids q = Some ids) /\ (given (bytes "recids") l = [] -> p_ids q = None).
Proof.
  intros op junk l q E. apply params_values in E. destruct E as (E1 & E2 & E3 & E4 & E5 & E6 & E7). cbn [sp_start p_ids p_fields p_values p_compares p_types p_from p_count app] in *.
  assert (A : forall s n, decimal s n -> n <= 2147483647 -> 0 <= n /\ atoi_text s = Some n).
  { intros s n D L. assert (P : 0 <= n) by (clear -D; induction D; lia). split; [exact P|]. pose proof (decimal_digits s n D) as [F V].
    destruct s as [|d s]; [inversion D; destruct s; discriminate|]. rewrite <- (app_nil_r s), app_comm_cons. apply atoi_digits; [exact F| |exact V|lia]. rewrite app_nil_r. now apply take_digits_all. }
  repeat (split; [assumption|]). repeat split.
  - intros s n k G D L. rewrite G, map_app in E5. cbn [map] in E5. rewrite last_last in E5. rewrite (proj2 (A s n D L)) in E5. now injection E5.
  - intros G. rewrite G in E5. now injection E5.
  - intros s n k G D L. rewrite G, map_app in E6. cbn [map] in E6. rewrite last_last in E6. destruct (A s n D L) as [P Q]. rewrite Q in E6. cbn [option_map] in E6. injection E6 as ->. apply ulong_small. lia.
  - intros G. rewrite G in E6. injection E6 as ->. destruct op; reflexivity.
  - intros s ids k G D L. rewrite G, map_app in E7. cbn [map] in E7. rewrite last_last in E7. rewrite E7. exact (recids_listed s ids D (S (length s)) [] (Nat.lt_succ_diag_r _) L).
  - intros G. rewrite G in E7. exact E7.
Qed.
Print Assumptions C72_values.
Example C72_values_case : let l := [(bytes "from", bytes "3"); (bytes "field", bytes "1"); (bytes "from", bytes "25"); (bytes "field", bytes "2")] in
  search_params (sp_start COUNT_CODE 5) l = Some (Sp None [bytes "1"; bytes "2"] [] [] [] 25 9223372036854775807 5) /\
  given (bytes "from") l = [bytes "3"] ++ [bytes "25"] /\ decimal (bytes "25") 25.
Proof. split; [vm_compute; reflexivity|]. split; [reflexivity|]. apply (dec_more [50] 2 5); [apply (dec_digit 2); lia|lia]. Qed.

(** Finding: a full scan that deletes does not look at [from]: it deletes the first [from]+[count] records. *)
Theorem C72_delete_refuted : forall rec (haslen : rec -> bool) from count recs, 0 <= from < 18446744073709551616 -> 0 <= count ->
  full_scan rec haslen DELETE_CODE from count 0 0 recs = filter haslen (firstn (Z.to_nat (from + count)) recs).
Proof.
  intros rec haslen from count recs Lf Lc. rewrite scan_delete_all; [|lia| |exact Lc]; rewrite ulong_small by exact Lf; [now rewrite Z.sub_0_r|lia].
Qed.
Print Assumptions C72_delete_refuted.
Example C72_delete_case : full_scan nat (fun _ => true) DELETE_CODE 2 1 0 0 [10; 11; 12; 13]%nat = [10; 11; 12]%nat /\
  full_scan nat (fun _ => true) SEARCH_CODE 2 1 0 0 [10; 11; 12; 13]%nat = [12]%nat.
Proof. split; reflexivity. Qed.
(** Finding: count=0 with fields handles one record, also when it deletes; a negative [from] handles none. *)
Theorem C72_zero_refuted : ~ forall (from count : Z) (recs : list nat), 0 <= from -> 0 <= count ->
  field_scan nat from count 0 0 recs = firstn (Z.to_nat count) (skipn (Z.to_nat from) recs).
Proof. intros H. specialize (H 0 0 [5%nat]). discriminate H; lia. Qed.
Print Assumptions C72_zero_refuted.
Example C72_zero_case : field_scan nat 0 0 0 0 [5; 6]%nat = [5]%nat /\ full_scan nat (fun _ => true) SEARCH_CODE 0 0 0 0 [5; 6]%nat = [] /\
  full_scan nat (fun _ => true) SEARCH_CODE (-1) 10 0 0 [5; 6]%nat = [].
Proof. repeat split; reflexivity. Qed.
(** Finding: "ids that are no records are passed over" is false. An id is not checked against the segment, so any multiple
    of 8 is taken for a record, and one that ends in binary 100 is followed outside of the segment. *)
Theorem C72_wild_refuted : ~ forall m size text ids, (forall a, 0 <= a < size -> m a <> None) -> recids (S (length text)) text [] = Some ids ->
  id_scan (S MAXIDS) m 100 0 (id_array ids) 0 <> None.
Proof.
  intros H. apply (H (fun a => if (0 <=? a) && (a <? 10000000) then Some 0 else None) 10000000 (bytes "2147483644") [2147483644]).
  - intros a La. destruct (Z.leb_spec 0 a); [|lia]. destruct (Z.ltb_spec a 10000000); [discriminate|lia].
  - vm_compute. reflexivity.
  - vm_compute. reflexivity.
Qed.
Print Assumptions C72_wild_refuted.
(** A word that is no header of a record, here the number 1000 at offset 64, is handled as a record. *)
Example C72_wild_case : id_scan (S MAXIDS) (fun a => if a =? 64 then Some 1000 else Some 0) 100 0 (id_array [64]) 0 = Some [64].
Proof. vm_compute. reflexivity. Qed.
(** Finding: a parameter fld is stored at an index that was never initialised - and before authorization. *)
Theorem C72_fld_refuted : ~ forall op junk l, (length l <= MAXPARAMS)%nat -> search_params (sp_start op junk) l <> None.
Proof. intros H. apply (H SEARCH_CODE 1000000 [(bytes "fld", bytes "1")]); [unfold MAXPARAMS; cbn; lia|vm_compute; reflexivity]. Qed.
Print Assumptions C72_fld_refuted.
Example C72_fld_case : search_params (sp_start SEARCH_CODE 0) [(bytes "fld", bytes "1")] = Some (Sp None [] [] [] [] 0 100000 1).
Proof. vm_compute. reflexivity. Qed.

(** ** C73 *)
Definition all_ok : world := W true (fun _ => true) true true true true true false true true (fun _ => true) true true true true true true.
(** Nothing of a database is touched before an authorization for a level that allows it, and authorizations are those given. *)
Theorem C73_auth : forall w t, (exists op recs, t = search w op recs) \/ t = insert w \/ t = create w \/ t = drop w ->
  forall t1 e t2, t = t1 ++ e :: t2 -> touches e = true -> exists l, In (E_auth l) t1 /\ enough l e = true /\ w_auth w l = true.
Proof.
  intros w t Ht t1 e t2 E T.
  assert (C : chk [] t = true) by (destruct Ht as [(op & recs & ->)|[->|[->| ->]]]; [apply search_chk|apply insert_chk|apply create_chk|apply drop_chk]).
  assert (A : forall l, In (E_auth l) t -> w_auth w l = true).
  { intros l. destruct Ht as [(op & recs & ->)|[->|[->| ->]]]; [apply search_auth|apply insert_auth|apply create_auth|apply drop_auth]. }
  rewrite E in C. destruct (chk_sound t1 [] e t2 C T) as (l & [[]|I] & En). exists l. split; [exact I|]. split; [exact En|]. apply A. rewrite E. apply in_or_app. now left.
Qed.
Print Assumptions C73_auth.
Example C73_auth_case : search all_ok DELETE_CODE [3; 4]%nat =
  [E_auth WRITE_LEVEL; E_attach; E_alloc; E_lock READ_LOCK; E_write 3; E_write 4; E_unlock READ_LOCK; E_detach; E_done].
Proof. reflexivity. Qed.
(** Records are read and written only between lock and unlock; a search that is done has handled exactly its records. *)
Theorem C73_locked : forall w op recs,
  (forall t1 e t2, search w op recs = t1 ++ e :: t2 -> on_record e = true -> (number_of is_unlock t1 < number_of is_lock t1)%nat) /\
  (In E_done (search w op recs) -> filter on_record (search w op recs) = map (handled op) recs).
Proof.
  intros w op recs. split; [|apply search_done]. intros t1 e t2 E O. pose proof (search_depth w op recs) as D. rewrite E in D. exact (depth_sound t1 0 e t2 D O).
Qed.
Print Assumptions C73_locked.
Example C73_locked_case : filter on_record (search all_ok SEARCH_CODE [3; 4]%nat) = [E_read 3; E_read 4].
Proof. reflexivity. Qed.
(** Whatever fails on the way, locks are given back (unless the server stops because giving back failed), in searches, creations, and
    insertions into a database that was there; a search detaches its database unless it sees a shutdown or lacks memory for the answer. *)
Theorem C73_release : forall w op recs,
  (~ In E_terminate (search w op recs) -> number_of is_lock (search w op recs) = number_of is_unlock (search w op recs)) /\
  number_of is_lock (create w) = number_of is_unlock (create w) /\
  (w_attach w = true -> ~ In E_terminate (insert w) -> number_of is_lock (insert w) = number_of is_unlock (insert w)) /\
  (w_shutdown w = false -> w_alloc w = true -> ~ In E_terminate (search w op recs) -> number_of is_attach (search w op recs) = number_of is_detach (search w op recs)).
Proof. intros w op recs. split; [apply search_release|]. split; [apply create_release|]. split; [apply insert_release|apply search_detach]. Qed.
Print Assumptions C73_release.
Example C73_release_case : search (W true (fun _ => true) true true true true true false true true (fun r => negb (Nat.eqb r 4)) true true true true true true) SEARCH_CODE [3; 4; 5]%nat =
  [E_auth READ_LEVEL; E_attach; E_alloc; E_lock READ_LOCK; E_read 3; E_read 4; E_unlock READ_LOCK; E_detach; E_free; E_error].
Proof. reflexivity. Qed.
(** A creation detaches what it created. A database is dropped only under the write lock, with nothing attached. *)
Theorem C73_create_drop : forall w, number_of is_attach (create w) = number_of is_detach (create w) /\
  (forall t1 t2, drop w = t1 ++ E_drop :: t2 -> In (E_lock WRITE_LOCK) t1 /\ ~ In (E_unlock WRITE_LOCK) t1 /\ number_of is_attach t1 = number_of is_detach t1) /\
  (In E_done (drop w) -> In E_drop (drop w)) /\ (In E_done (create w) -> In E_create (create w)).
Proof.
  intros w. split; [unfold create, err_clear_detach_halt; cases; reflexivity|]. split.
  - intros t1 t2 E. assert (X : exists a b, drop w = a ++ b /\ ~ In E_drop a /\ (b = [] \/ exists b', b = E_drop :: b' /\ ~ In E_drop b' /\ a = [E_auth ADMIN_LEVEL; E_alloc; E_attach; E_lock WRITE_LOCK; E_detach])).
    { unfold drop, err_clear_detach_halt. cases; cbn [app];
      try (eexists; exists []; split; [symmetry; apply app_nil_r|]; split; [cbn [In]; intuition discriminate|left; reflexivity]);
      (eexists [E_auth ADMIN_LEVEL; E_alloc; E_attach; E_lock WRITE_LOCK; E_detach]; eexists; split; [cbn [app]; reflexivity|]; split; [cbn [In]; intuition discriminate|];
       right; eexists; split; [reflexivity|]; split; [cbn [In]; intuition discriminate|reflexivity]). }
    destruct X as (a & b & Ed & Na & [->|(b' & -> & Nb & ->)]).
    + exfalso. apply Na. rewrite app_nil_r in Ed. rewrite <- Ed, E. apply in_or_app. right. left. reflexivity.
    + assert (t1 = [E_auth ADMIN_LEVEL; E_alloc; E_attach; E_lock WRITE_LOCK; E_detach]) as ->; [|cbn; intuition discriminate].
      rewrite Ed in E. clear Ed. cbn [app] in E.
      do 5 (destruct t1 as [|? t1]; [discriminate E|]; cbn [app] in E; injection E as <- E).
      destruct t1 as [|x t1]; [reflexivity|]. cbn [app] in E. injection E as _ E. exfalso. apply Nb. rewrite E. apply in_or_app. right. left. reflexivity.
  - split; [unfold drop|unfold create]; unfold err_clear_detach_halt; cases; cbn [In app]; intuition discriminate.
Qed.
Print Assumptions C73_create_drop.
Example C73_create_drop_case : drop all_ok = [E_auth ADMIN_LEVEL; E_alloc; E_attach; E_lock WRITE_LOCK; E_detach; E_drop; E_done] /\
  create all_ok = [E_auth ADMIN_LEVEL; E_alloc; E_create; E_attach; E_detach; E_done].
Proof. split; reflexivity. Qed.
(** Finding: update and delete take the read lock only. Every request of these kinds that reaches a record shows it. *)
Theorem C73_readlock_refuted : forall w op recs t1 r t2, search w op recs = t1 ++ E_write r :: t2 -> In (E_lock READ_LOCK) t1 /\ ~ In (E_lock WRITE_LOCK) t1.
Proof.
  intros w op recs t1 r t2 E.
  assert (Nw : ~ In (E_lock WRITE_LOCK) (search w op recs)).
  { unfold search. assert (N : ~ In (E_lock WRITE_LOCK) (fst (work w op recs))).
    { clear. induction recs as [|x recs IH]; [intros []|]. cbn [work].
      destruct op; try (destruct (w_work w x); [|intros [H|[]]; discriminate H]); destruct (work w _ recs); cbn [fst] in *; intros [H|H]; try discriminate H; contradiction. }
    destruct (work w op recs) as [t ok]. cbn [fst] in N. unfold err_clear_detach_halt.
    cases; cbn [In app]; rewrite ?in_app_iff; cbn [In]; intuition discriminate. }
  assert (N1 : ~ In (E_lock WRITE_LOCK) t1) by (intros I; apply Nw; rewrite E; apply in_or_app; now left).
  split; [|exact N1].
  pose proof (search_depth w op recs) as D. rewrite E in D. pose proof (depth_sound t1 0 (E_write r) t2 D eq_refl) as L.
  assert (X : (0 < number_of is_lock t1)%nat) by lia. clear -X N1. induction t1 as [|e t1 IH]; [cbn in X; lia|].
  destruct (is_lock e) eqn:Le; [destruct e as [| | | | |k| | | | | | | | |]; try discriminate Le; destruct k; [left; reflexivity|exfalso; apply N1; left; reflexivity]|].
  right. apply IH; [intros I; apply N1; right; exact I|]. unfold number_of in *. cbn [filter] in X. rewrite Le in X. exact X.
Qed.
Print Assumptions C73_readlock_refuted.
Example C73_readlock_case : In (E_write 3) (search all_ok UPDATE_CODE [3]%nat) /\ ~ In (E_lock WRITE_LOCK) (search all_ok UPDATE_CODE [3]%nat).
Proof. vm_compute. split; [tauto|]. intuition discriminate. Qed.
(** Finding: "locks are given back" is false for an insertion that creates its database (db is not noted for the error path) and for a
    drop whose removal fails: the write lock stays in the shared segment. *)
Theorem C73_keep_refuted : ~ forall w, ~ In E_terminate (insert w) -> number_of is_lock (insert w) = number_of is_unlock (insert w).
Proof.
  intros H. specialize (H (W true (fun _ => true) true false true true true false true true (fun _ => true) false true true true true true)).
  vm_compute in H. discriminate H. intuition discriminate.
Qed.
Print Assumptions C73_keep_refuted.
Example C73_keep_case : insert (W true (fun _ => true) true false true true true false true true (fun _ => true) false true true true true true) =
  [E_auth WRITE_LEVEL; E_auth ADMIN_LEVEL; E_create; E_attach; E_alloc; E_lock WRITE_LOCK; E_free; E_error].
Proof. reflexivity. Qed.
Theorem C73_drop_refuted : ~ forall w, In E_error (drop w) -> number_of is_lock (drop w) = number_of is_unlock (drop w).
Proof.
  intros H. specialize (H (W true (fun _ => true) true true true true true false true true (fun _ => true) true true true true true false)).
  vm_compute in H. discriminate H. tauto.
Qed.
Print Assumptions C73_drop_refuted.
Example C73_drop_case : drop (W true (fun _ => true) true true true true true false true true (fun _ => true) true true true true true false) =
  [E_auth ADMIN_LEVEL; E_alloc; E_attach; E_lock WRITE_LOCK; E_detach; E_error].
Proof. reflexivity. Qed.
(** Finding: a request that sees a shutdown, or has no memory for the answer, leaves its database attached. *)
Theorem C73_attached_refuted : ~ forall w op recs, number_of is_attach (search w op recs) = number_of is_detach (search w op recs).
Proof.
  intros H. specialize (H (W true (fun _ => true) true true true true true true true true (fun _ => true) true true true true true true) SEARCH_CODE []).
  vm_compute in H. discriminate H.
Qed.
Print Assumptions C73_attached_refuted.
Example C73_attached_case : search (W true (fun _ => true) true true true true true true true true (fun _ => true) true true true true true true) SEARCH_CODE [] =
  [E_auth READ_LEVEL; E_attach; E_alloc; E_null].
Proof. reflexivity. Qed.
(** Finding: insert never writes a record, also when it answers that it did. *)
Theorem C73_insert_refuted : forall w r, ~ In (E_write r) (insert w).
Proof. intros w r. unfold insert, err_clear_detach_halt. cases; cbn [In app]; intuition discriminate. Qed.
Print Assumptions C73_insert_refuted.
Example C73_insert_case : insert all_ok = [E_auth WRITE_LEVEL; E_attach; E_alloc; E_lock WRITE_LOCK; E_unlock WRITE_LOCK; E_detach; E_done].
Proof. reflexivity. Qed.
