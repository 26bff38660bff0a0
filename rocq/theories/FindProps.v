(** C48: iterated search with a single condition. *)
From Coq Require Import ZArith List Bool Lia Permutation.
From Verif Require Import Base EncodingModel CompareModel CompareProofs CompareProps TtreeModel TtreeOrd TtreeAdd TtreeReach TtreeProps RangeModel RangeProofs QueryModel QueryProofs QueryProps FindModel.
Import ListNotations.
Open Scope Z_scope.
#[local] Ltac Zify.zify_post_hook ::= idtac.

(** The row after [last] in the walk over [l] that starts with [prev]. *)
Fixpoint next_after (prev last : Z) (l : list Z) : Z :=
  match l with
  | [] => 0
  | x :: r => if prev =? last then x else next_after x last r
  end.
Lemma next_first l last prev : prev = last -> next_after prev last l = hd 0 l.
Proof. intros ->. destruct l; cbn; [reflexivity|]. now rewrite Z.eqb_refl. Qed.
Lemma next_after_mid a l2 : forall l1 prev, ~ In a l1 -> prev <> a -> next_after prev a (l1 ++ a :: l2) = hd 0 l2.
Proof.
  induction l1 as [|x l1 IH]; intros prev Hn Hp; cbn [app next_after]; destruct (Z.eqb_spec prev a); try contradiction.
  - now apply next_first.
  - apply IH; [intros H; apply Hn; now right|]. intros ->. apply Hn. now left.
Qed.
Lemma find_loop_fetch s last : forall n q prev rows, fetch_all n (fun _ => true) s q = Some rows -> find_loop n s q prev last = Some (next_after prev last rows).
Proof.
  induction n as [|n IH]; intros q prev rows; cbn [fetch_all fetch_ttree find_loop].
  - destruct (q_off q =? 0); [|discriminate]. intros E. now injection E as <-.
  - destruct (q_off q =? 0); [intros E; now injection E as <-|]. destruct (fetch_all n _ s (advance s q)) as [l|] eqn:E; [|discriminate].
    intros E'. injection E' as <-. cbn [next_after]. destruct (prev =? last); [reflexivity|]. now apply IH.
Qed.
Lemma fetch_scan_hd db args : forall l, (match fetch_scan db l args with (Some r, _) => Some r | (None, _) => Some 0 end) = Some (hd 0 (filter (fun r => check_arglist db r args) l)).
Proof. induction l as [|x l IH]; cbn [fetch_scan filter]; [reflexivity|]. destruct (check_arglist db x args); [reflexivity|exact IH]. Qed.
Lemma after_mid a l2 : forall l1, ~ In a l1 -> after a (l1 ++ a :: l2) = l2.
Proof.
  induction l1 as [|x l1 IH]; intros Hn; cbn [app after]; [now rewrite Z.eqb_refl|]. destruct (Z.eqb_spec x a) as [->|]; [elim Hn; now left|]. apply IH. intros H. apply Hn. now right.
Qed.
(** Splitting a filtered list. *)
Lemma filter_split {A} (f : A -> bool) l : forall l1 a l2, filter f l = l1 ++ a :: l2 -> exists k1 k2, l = k1 ++ a :: k2 /\ l1 = filter f k1 /\ l2 = filter f k2.
Proof.
  induction l as [|x l IH]; intros l1 a l2; cbn [filter]; [destruct l1; discriminate|]. destruct (f x) eqn:Ef.
  - destruct l1 as [|y l1]; cbn [app]; intros E; injection E as -> E.
    + exists [], l. auto.
    + destruct (IH _ _ _ E) as (k1 & k2 & -> & -> & ->). exists (y :: k1), k2. cbn [app filter]. rewrite Ef. auto.
  - intros E. destruct (IH _ _ _ E) as (k1 & k2 & -> & -> & ->). exists (x :: k1), k2. cbn [app filter]. rewrite Ef. auto.
Qed.

(** C48: started with NULL and continued with the last result, wg_find_record
    goes through the records that have the column and satisfy the condition, each
    once, and then returns NULL. *)
Theorem C48_find_record lim db ok col cond data n : consistent_below lim db ok -> NoDup (d_recs db) -> 0 <= col -> ok data ->
  In cond [WG_COND_EQUAL; WG_COND_NOT_EQUAL; WG_COND_LESSTHAN; WG_COND_GREATER; WG_COND_LTEQUAL; WG_COND_GTEQUAL] -> (length (d_recs db) < n)%nat ->
  exists rows sel, Permutation rows (filter sel (d_recs db)) /\ (forall r, In r (d_recs db) -> sel r = true <-> satisfies (d_cs db) r (QA col cond data)) /\
  wg_find_record db n col cond data 0 = Some (hd 0 rows) /\
  forall l1 a l2, rows = l1 ++ a :: l2 -> wg_find_record db n col cond data a = Some (hd 0 l2).
Proof.
  intros C ND Hcol Hd Hcond Hn. destruct C as [C1 C2 C3 C4 C5]. pose proof (C21_compare_is_keyorder _ _ C1) as KO.
  set (args := [QA col cond data]). set (sel := fun r => check_arglist db r args).
  assert (Sp : forall r, In r (d_recs db) -> sel r = true <-> satisfies (d_cs db) r (QA col cond data)).
  { intros r Hr. destruct (C2 r Hr) as (_ & L & _). unfold sel. rewrite (check_satisfies db ok r args KO L). unfold args. split; [intros H; now apply Forall_inv in H|auto]. }
  assert (Nz : forall r, In r (d_recs db) -> r <> 0) by (intros r Hr; apply C2, Hr).
  unfold wg_find_record. destruct (if cond =? WG_COND_NOT_EQUAL then None else find_index db col) as [ix|] eqn:Ei.
  - destruct (Z.eqb_spec cond WG_COND_NOT_EQUAL) as [|Hne]; [discriminate|]. unfold find_index in Ei. destruct (MAX_INDEXED_FIELDNR <? col); [discriminate|].
    apply find_some in Ei. destruct Ei as (Hix & E). apply andb_true_iff in E. destruct E as (Ety & Etm). apply Z.eqb_eq in Ety. destruct (ix_tmpl ix) as [t|] eqn:Et; [discriminate|].
    destruct (C5 col ix Hix Ety) as (key & g & f & R & Hk & Pg & Hf). rewrite Et in Hf. destruct (TR_treach0 _ _ _ _ _ R) as (T & HT & HG).
    set (key' := fun r => wg_get_field (d_cs db) r col).
    assert (Ing : forall x, In x (cont (ix_tree ix) T) -> In x (d_recs db) /\ f x = true).
    { intros x Hx. apply (Permutation_in x HG), (Permutation_in x Pg), filter_In in Hx. exact Hx. }
    assert (Dk : forall x, In x (cont (ix_tree ix) T) -> ok (key' x)).
    { intros x Hx. destruct (Ing x Hx) as (I1 & I2). apply (Hf x I1) in I2. destruct (C2 x I1) as (_ & _ & D). apply D. lia. }
    assert (HT' : TI (WG_COMPARE (d_cs db)) ok key' (ix_tree ix) T).
    { apply (TI_view (WG_COMPARE (d_cs db)) ok (ix_tree ix) key (WG_COMPARE (d_cs db)) ok key' T); [|auto|exact HT]. intros x Hx. assert (Ek : key' x = key x) by (symmetry; apply Hk, (Permutation_in x HG Hx)).
      split; [exact Ek|]. rewrite <- Ek. auto. }
    assert (Len : (length (cont (ix_tree ix) T) <= length (d_recs db))%nat).
    { rewrite (Permutation_length HG), (Permutation_length Pg). clear. induction (d_recs db) as [|x k IH]; cbn [filter length]; [lia|]. destruct (f x); cbn [length]; lia. }
    pose proof (dom_ill _ _ KO data Hd) as Hil. apply Z.eqb_neq in Hil.
    assert (Ecc : WG_COMPARE (d_cs db) data data = WG_EQUAL) by (apply (ko_refl _ _ KO); exact Hd).
    assert (B : exists sb eb si ei, cond_bounds cond data = Some (sb, eb, si, ei) /\ (sb = WG_ILLEGAL \/ ok sb) /\ (eb = WG_ILLEGAL \/ ok eb) /\
       (~ (WG_COMPARE (d_cs db) sb eb = WG_EQUAL /\ si = false /\ ei = false) \/ sb = WG_ILLEGAL \/ eb = WG_ILLEGAL) /\
       negb (sb =? WG_ILLEGAL) && negb (eb =? WG_ILLEGAL) && (WG_COMPARE (d_cs db) sb eb =? WG_GREATER) = false /\
       forall x, In x (cont (ix_tree ix) T) -> lo_b (WG_COMPARE (d_cs db)) key' sb si x && hi_b (WG_COMPARE (d_cs db)) key' eb ei x = sel x).
    { assert (Sel : forall x, In x (cont (ix_tree ix) T) -> sel x = check_cond db (key' x) (QA col cond data)).
      { intros x Hx. destruct (Ing x Hx) as (I1 & I2). apply (Hf x I1) in I2. destruct (C2 x I1) as (_ & L & _). unfold sel, args. cbn [check_arglist a_col]. unfold wrap32. rewrite Z.mod_small by lia.
        replace (wg_get_record_len (d_cs db) x + 2 ^ 31 - 2 ^ 31) with (wg_get_record_len (d_cs db) x) by lia. destruct (Z.ltb_spec col (wg_get_record_len (d_cs db) x)); [|lia]. fold (key' x). destruct (check_cond _ _ _); reflexivity. }
      assert (Bf : forall si ei x, lo_b (WG_COMPARE (d_cs db)) key' WG_ILLEGAL si x = true /\ hi_b (WG_COMPARE (d_cs db)) key' WG_ILLEGAL ei x = true) by (intros; split; reflexivity).
      assert (Bd : forall si ei x, lo_b (WG_COMPARE (d_cs db)) key' data si x = (if si then negb (WG_COMPARE (d_cs db) (key' x) data =? WG_LESSTHAN) else WG_COMPARE (d_cs db) (key' x) data =? WG_GREATER) /\
         hi_b (WG_COMPARE (d_cs db)) key' data ei x = (if ei then negb (WG_COMPARE (d_cs db) (key' x) data =? WG_GREATER) else WG_COMPARE (d_cs db) (key' x) data =? WG_LESSTHAN)).
      { intros. unfold lo_b, hi_b. rewrite Hil. split; reflexivity. }
      cbn [In] in Hcond. unfold cond_bounds. destruct Hcond as [<-|[<-|[<-|[<-|[<-|[<-|[]]]]]]]; try (now elim Hne); cbn [Z.eqb Pos.eqb WG_COND_EQUAL WG_COND_LESSTHAN WG_COND_GREATER WG_COND_LTEQUAL WG_COND_GTEQUAL];
      eexists _, _, _, _; (split; [reflexivity|]); (split; [auto|]); (split; [auto|]); (split; [auto; left; intros (_ & H & _); discriminate H|]); rewrite ?Hil, ?Ecc; (split; [reflexivity|]);
      intros x Hx; rewrite (Sel x Hx); rewrite ?(proj1 (Bf _ true x)), ?(proj2 (Bf true _ x)), ?(proj1 (Bd _ true x)), ?(proj2 (Bd true _ x)); unfold check_cond; cbn [a_cond a_val]; 
      destruct (ko_tri _ _ KO (key' x) data) as [E|[E|E]]; rewrite E; reflexivity. }
    destruct B as (sb & eb & si & ei & Eb & B1 & B2 & B3 & B4 & B5). rewrite Eb.
    destruct (range_ok (WG_COMPARE (d_cs db)) ok KO key' (ix_tree ix) T sb eb si ei n HT' B1 B2 B3) as (q & Eq & Fq).
    { pose proof (TI_len _ _ _ _ _ HT). lia. }
    unfold range_query in Eq. rewrite B4 in Eq. fold key'. rewrite Eq. specialize (Fq (fun _ => true) n ltac:(lia)). set (rows := filter _ _) in Fq.
    assert (Er : rows = filter sel (cont (ix_tree ix) T)). { unfold rows. rewrite filter_filter. apply filter_eq. intros x Hx. rewrite andb_true_r. auto. }
    clearbody rows. subst rows.
    assert (P : Permutation (filter sel (cont (ix_tree ix) T)) (filter sel (d_recs db))).
    { rewrite (filter_perm _ _ _ HG), (filter_perm _ _ _ Pg), filter_filter. replace (filter (fun x => f x && sel x) (d_recs db)) with (filter sel (d_recs db)); [reflexivity|].
      apply filter_eq. intros x Hx. destruct (sel x) eqn:Es; [|now rewrite andb_false_r]. rewrite andb_true_r. symmetry. apply (Hf x Hx). apply (Sp x Hx) in Es. destruct Es as (Es & _). auto. }
    exists (filter sel (cont (ix_tree ix) T)), sel. split; [exact P|]. split; [exact Sp|]. rewrite (find_loop_fetch _ 0 _ _ _ _ Fq). split; [now rewrite next_first|].
    intros l1 a l2 E. rewrite (find_loop_fetch _ a _ _ _ _ Fq), E. rewrite E in P.
    assert (N : NoDup (l1 ++ a :: l2)). { apply (Permutation_NoDup (Permutation_sym P)). now apply NoDup_filter. }
    f_equal. apply next_after_mid; [apply NoDup_remove_2 in N; intros H; apply N, in_or_app; now left|].
    intros E0. apply (Nz 0); [|reflexivity]. rewrite E0. apply (filter_In sel), (Permutation_in a P), in_or_app. right. now left.
  - exists (filter sel (d_recs db)), sel. split; [reflexivity|]. split; [exact Sp|]. rewrite Z.eqb_refl, fetch_scan_hd. split; [reflexivity|]. intros l1 a l2 E. apply filter_split in E.
    destruct E as (k1 & k2 & Er & -> & ->). rewrite fetch_scan_hd. destruct (Z.eqb_spec a 0) as [->|Ha]; [elim (Nz 0); [|reflexivity]; rewrite Er; apply in_or_app; right; now left|].
    rewrite Er in ND |- *. rewrite after_mid; [reflexivity|]. apply NoDup_remove_2 in ND. intros H. apply ND, in_or_app. now left.
Qed.
Print Assumptions C48_find_record.

(** Twenty records, an index on column 0: the rows with 9 < x (column 0), in the
    order of the index, and without index in the order of the records. *)
Definition ex_find (db : qdb) (cond : Z) (lasts : list Z) : list (option Z) := map (wg_find_record db 30 0 cond (encode_smallint 9)) lasts.
Example C48_hyp : consistent (ex_c25 ex_L) smallints /\ NoDup (d_recs (ex_c25 ex_L)) /\ smallints (encode_smallint 9) /\
  ex_find (ex_c25 ex_L) WG_COND_GREATER [0; 128; 960; 640; 320; 1152] = [Some 128; Some 960; Some 640; Some 320; Some 1152; Some 0] /\
  ex_find (ex_c25 []) WG_COND_GREATER [0; 1152; 960; 640; 320; 128] = [Some 1152; Some 960; Some 640; Some 320; Some 128; Some 0].
Proof.
  split; [apply C25_hyp|]. split; [|split; [apply ex_smallint; lia|split; vm_compute; reflexivity]].
  cbn. repeat constructor; cbn; intuition discriminate.
Qed.
(** The two ways treat an unknown condition differently: with an index nothing is
    found, without one every record that has the column. *)
Theorem C48_unknown_condition_refuted : exists L, consistent (ex_c25 L) smallints /\ consistent (ex_c25 []) smallints /\
  wg_find_record (ex_c25 L) 30 0 64 (encode_smallint 9) 0 = Some 0 /\ wg_find_record (ex_c25 []) 30 0 64 (encode_smallint 9) 0 = Some 1280.
Proof.
  exists ex_L. split; [apply C25_hyp|]. split; [|split; vm_compute; reflexivity].
  apply (ex_consistent (2 ^ 31) ex_f0 ex_f1 20 []); [lia|exact ex_f_ok|constructor|constructor].
Qed.
Print Assumptions C48_unknown_condition_refuted.
