(** C26: T-tree indexes follow every change of the data. *)
From Coq Require Import ZArith List Bool Lia Permutation Sorting.Sorted.
From Verif Require Import Base EncodingModel EncodingProofs CompareModel CompareProofs CompareProps TtreeModel TtreeOrd TtreeReach TtreeProps
  RecordModel RecordProofs RecordProps IndexMaintModel IndexMaintProofs.
Import ListNotations.
Open Scope Z_scope.
#[local] Ltac Zify.zify_post_hook ::= idtac.

Section Reach.
Context {V : Type} (cmp : rmap -> V -> Z -> Z -> Z) (dom : rmap -> V -> Z -> Prop) (v_ref v_free : V -> Z -> V).

(** All histories from the empty database. [raw o = Some cs] for a record [o] made by
    wg_create_raw_record of which only the columns [cs] have been written; [None] for
    every other record.
    - Values given by the caller are comparable ([dom]) and name existing records.
    - Storing and freeing values does not change how the values in use compare ([keeps]).
    - Records being changed have no referring record.
    - Steps that return the fatal code -3 end the history; so do a record creation or the
      filling of an index that ran out of memory.
    - While there are unfinished raw records, there is no index with a match record and no
      index is made. *)
Inductive ireach : @rdb (list idx) V -> (Z -> option (list Z)) -> Prop :=
| ir_init v raw : ireach (RDB (fun _ => None) [] v) raw
| ir_create d raw fuel alloc len o d' x : ireach d raw -> is_record_ref o = true -> d_rec d o = None -> good_alloc alloc ->
    wg_create_record (wg_index_add_rec cmp fuel alloc) d len o = Some (d', x) -> x <> 0 ->
    ireach d' (fresh raw o None)
| ir_raw d raw len o d' x : ireach d raw -> is_record_ref o = true -> d_rec d o = None -> (forall y, In y (d_ix d) -> x_tmpl y = None) ->
    wg_create_raw_record d len o = (d', x) -> ireach d' (if x =? 0 then raw else fresh raw o (Some []))
| ir_set d raw fuel alloc junk o r i data cell d' c : ireach d raw -> d_rec d o = Some r -> r_back r = [] -> good_alloc alloc ->
    good_data d data ->
    wg_set_field ix_any ix_tab (wg_index_add_field cmp fuel alloc) (wg_index_del_field cmp fuel junk) v_ref v_free d o i data cell = Some (d', c) ->
    c <> -3 -> keeps cmp dom (d_rec d') (d_ix d) (d_val d) (d_val d') -> dom (d_rec d') (d_val d') data ->
    ireach d' (if c =? 0 then if field r i =? data then raw else mark raw o i else raw)
| ir_new d raw fuel alloc o r cs i data cell d' c : ireach d raw -> d_rec d o = Some r -> r_back r = [] -> good_alloc alloc ->
    good_data d data -> data <> o -> raw o = Some cs -> ~ In i cs ->
    wg_set_new_field ix_any ix_tab (wg_index_add_field cmp fuel alloc) v_ref d o i data cell = Some (d', c) ->
    c <> -3 -> keeps cmp dom (d_rec d') (d_ix d) (d_val d) (d_val d') -> dom (d_rec d') (d_val d') data ->
    ireach d' (if c =? 0 then mark raw o i else raw)
| ir_meta d raw o r meta : ireach d raw -> d_rec d o = Some r -> r_back r = [] -> raw o = Some [] ->
    ireach (RDB (rput (d_rec d) o (Some (Rec meta (r_fields r) (r_back r)))) (d_ix d) (d_val d)) raw
| ir_done d raw o r cs : ireach d raw -> d_rec d o = Some r -> raw o = Some cs -> (forall c, 0 <= c < reclen r -> In c cs) ->
    ireach d (fresh raw o None)
| ir_delete d raw fuel junk o d' c : ireach d raw ->
    wg_delete_record (wg_index_del_rec cmp fuel junk) v_free d o true = Some (d', c) -> c <> -3 ->
    keeps cmp dom (d_rec d') (d_ix d) (d_val d) (d_val d') -> ireach d' raw
| ir_index d raw fuel alloc l1 l2 col tmpl t0 root scan x : ireach d raw -> d_ix d = l1 ++ l2 ->
    (forall o, d_rec d o <> None -> raw o = None) -> good_alloc alloc -> 0 < root < 2 ^ 63 ->
    NoDup scan -> (forall o, In o scan <-> exists r, d_rec d o = Some r /\ is_special_record r = false) ->
    0 <= col <= MAX_INDEXED_FIELDNR -> fixes (IX col tmpl t0) col = false ->
    (forall t, tmpl = Some t -> Z.of_nat (length t) <= MAX_INDEXED_FIELDNR + 1 /\
       forall e, In e t -> fixed_value e = true -> is_record_ref e = false /\ dom (d_rec d) (d_val d) e) ->
    create_ttree_index cmp fuel alloc (d_rec d) (d_val d) col tmpl t0 root scan = Some (x, true) ->
    ireach (RDB (d_rec d) (l1 ++ x :: l2) (d_val d)) raw
| ir_drop d raw l1 l2 x : ireach d raw -> d_ix d = l1 ++ x :: l2 -> ireach (RDB (d_rec d) (l1 ++ l2) (d_val d)) raw
| ir_value d raw v' : ireach d raw -> keeps cmp dom (d_rec d) (d_ix d) (d_val d) v' -> ireach (RDB (d_rec d) (d_ix d) v') raw.

(** The comparison is a total preorder on comparable values, NULL is comparable, and a
    comparison only looks at the records reached from the two values. *)
Hypothesis H_order : forall m v, keyorder (cmp m v) (dom m v).
Hypothesis H_zero : forall m v, dom m v 0.
Hypothesis H_frame : forall m m' v (P : Z -> Prop),
  (forall x, P x -> is_record_ref x = true -> data_of m' x = data_of m x /\ forall r f, m x = Some r -> In f (r_fields r) -> P f) ->
  forall x y, P x -> P y -> cmp m' v x y = cmp m v x y /\ (dom m v x -> dom m' v x).

Lemma ireach_Inv d raw : ireach d raw -> Inv cmp dom (d_rec d) (d_val d) (d_ix d) raw.
Proof.
  induction 1 as [v raw|d raw fuel alloc len o d' x H IH Ho E A Es Nx|d raw len o d' x H IH Ho E Nt Es
    |d raw fuel alloc junk o r i data cell d' c H IH E Eb A G Es Nc K Dd|d raw fuel alloc o r cs i data cell d' c H IH E Eb A G No Ec Ni Es Nc K Dd
    |d raw o r meta H IH E Eb Er|d raw o r cs H IH E Er Hc|d raw fuel junk o d' c H IH Es Nc K
    |d raw fuel alloc l1 l2 col tmpl t0 root scan x H IH El Hraw A Hroot ND Hs Hc Hf Ht Ef|d raw l1 l2 x H IH El|d raw v' H IH K];
    try (destruct d as [m l v]; cbn [d_rec d_ix d_val] in *).
  - split; cbn [d_rec d_ix d_val].
    + split; [congruence|]. intros c p _. reflexivity.
    + intros x (p & r & E & _). discriminate.
    + constructor.
    + constructor.
    + intros (x & [] & _).
  - eapply create_Inv; eassumption.
  - eapply raw_record_Inv; eassumption.
  - eapply set_field_Inv; eassumption.
  - eapply set_new_field_Inv; eassumption.
  - eapply meta_Inv; eassumption.
  - eapply promote_Inv; eassumption.
  - eapply delete_Inv; eassumption.
  - subst l. eapply index_Inv; eassumption.
  - subst l. eapply drop_Inv; eassumption.
  - eapply value_Inv; eassumption.
Qed.

Lemma match_fields_iff m v : forall t fs, (length t <= length fs)%nat ->
  match_fields cmp m v t fs = true <-> forall j e, nth_error t j = Some e -> fixed_value e = true -> cmp m v e (nth j fs 0) = WG_EQUAL.
Proof.
  induction t as [|a t IH]; intros fs L; cbn [match_fields].
  - split; [|reflexivity]. intros _ j e E. destruct j; discriminate.
  - destruct fs as [|f fs]; cbn [length] in L; [lia|]. rewrite andb_true_iff, orb_true_iff, negb_true_iff, Z.eqb_eq, IH by lia. split.
    + intros (H1 & H2) [|j] e E Fe; cbn [nth_error nth] in *; [|now apply H2]. injection E as ->. destruct H1 as [H1 | H1]; [congruence|assumption].
    + intros H. split; [|intros j e E; apply (H (S j) e E)]. destruct (fixed_value a) eqn:Fa; [right|now left]. now apply (H O a).
Qed.

(** What an index is for: row [o] belongs into index [x]. *)
Definition belongs (d : @rdb (list idx) V) (x : idx) (o : Z) : Prop :=
  exists r, d_rec d o = Some r /\ is_special_record r = false /\ x_col x < reclen r /\
    forall t, x_tmpl x = Some t -> Z.of_nat (length t) <= reclen r /\
      forall j e, nth_error t j = Some e -> fixed_value e = true -> cmp (d_rec d) (d_val d) e (nth j (r_fields r) 0) = WG_EQUAL.

(** In every state of a history every index holds, in the order of the current values and
    each once, exactly the records that belong into it and whose column has been written.
    Full statement: the same for every history; missing are changes of records that other
    records refer to (false in general: [C26_two_fields_refuted]), raw records along with
    match records or new indexes (false: [C26_template_order_refuted],
    [C26_new_index_refuted]) and hash indexes. *)
Theorem C26_indexes_follow_partial d raw x : ireach d raw -> In x (d_ix d) ->
  exists W, (forall n, (length W < n)%nat -> walk_chain n (x_tree x) (tminn (x_tree x)) = Some W) /\ NoDup W /\
  StronglySorted (fun a b => cmp (d_rec d) (d_val d) (key (d_rec d) (x_col x) a) (key (d_rec d) (x_col x) b) <> WG_GREATER) W /\
  forall o, In o W <-> belongs d x o /\ (raw o = None \/ exists cs, raw o = Some cs /\ In (x_col x) cs).
Proof.
  intros H Hx. destruct (ireach_Inv d raw H) as [R Dm Shp Rws Rw]. rewrite Forall_forall in Rws, Shp. destruct (Rws x Hx) as (G & HG & ND & HE).
  destruct (C21_index_contents _ _ (H_order _ _) _ _ _ HG) as (W & P & Srt & EW).
  exists W. split; [|split; [|split; [exact Srt|]]].
  - intros n Hn. apply EW. rewrite <- (Permutation_length P). exact Hn.
  - apply (Permutation_NoDup (Permutation_sym P) ND).
  - intros o. assert (In o W <-> In o G) as -> by (split; apply Permutation_in; [exact P|apply Permutation_sym, P]).
    rewrite HE. unfold expected, belongs, written, MATCH_TEMPLATE. split.
    + intros (r & Er & Sp & L & M & Wr). split.
      * exists r. split; [assumption|]. split; [assumption|]. split; [assumption|]. intros t Et. rewrite Et in M.
        destruct (Z.ltb_spec (reclen r) (Z.of_nat (length t))); [discriminate|]. split; [assumption|].
        apply match_fields_iff; [unfold reclen in *; lia|assumption].
      * destruct (raw o) as [cs|]; [right; eauto|now left].
    + intros ((r & Er & Sp & L & M) & Wr). exists r. repeat split; auto.
      * destruct (x_tmpl x) as [t|]; [|reflexivity]. destruct (M t eq_refl) as (Lt & Mt). destruct (Z.ltb_spec (reclen r) (Z.of_nat (length t))); [lia|].
        apply match_fields_iff; [unfold reclen in *; lia|assumption].
      * destruct Wr as [-> | (cs & -> & Hc)]; [exact I|assumption].
Qed.
End Reach.
Print Assumptions C26_indexes_follow_partial.

(** ** The comparison of the code on all values but records. *)
Definition plain (v : cstate) (x : Z) : Prop := exists t, storable v t x /\ t <> WG_RECORDTYPE.
Lemma plain_comparable v : comparable v (plain v).
Proof.
  split.
  - intros e (t & St & _). eauto.
  - intros e i (t & St & Nt) Ty _. rewrite (storable_type v t e St) in Ty. contradiction.
Qed.
Lemma plain_zero v : plain v 0.
Proof. exists WG_NULLTYPE. split; [|discriminate]. constructor; try discriminate. apply PNull. Qed.
Theorem C26_plain_values_partial v_ref v_free d raw x :
  ireach (fun _ => WG_COMPARE) (fun _ => plain) v_ref v_free d raw -> In x (d_ix d) ->
  exists W, (forall n, (length W < n)%nat -> walk_chain n (x_tree x) (tminn (x_tree x)) = Some W) /\ NoDup W /\
  StronglySorted (fun a b => WG_COMPARE (d_val d) (key (d_rec d) (x_col x) a) (key (d_rec d) (x_col x) b) <> WG_GREATER) W /\
  forall o, In o W <-> belongs (fun _ => WG_COMPARE) d x o /\ (raw o = None \/ exists cs, raw o = Some cs /\ In (x_col x) cs).
Proof.
  intros H Hx. apply (C26_indexes_follow_partial (fun _ => WG_COMPARE) (fun _ => plain) v_ref v_free) with (raw := raw); auto.
  - intros _ v. apply C21_compare_is_keyorder, plain_comparable.
  - intros _ v. apply plain_zero.
Qed.
Print Assumptions C26_plain_values_partial.

(** ** Concrete runs: small ints and NULL. *)
Definition ex_alloc (s : tt) : Z :=
  match chain_nodes 60 s (tminn s) with
  | None => 0
  | Some L => let a := 1 + fold_right Z.max 0 L in if a <? 2 ^ 63 then a else 0
  end.
Lemma fold_max L : 0 <= fold_right Z.max 0 L /\ forall x, In x L -> x <= fold_right Z.max 0 L.
Proof.
  induction L as [|y L (H0 & IH)]; cbn [fold_right In]; [split; [lia|tauto]|]. split; [lia|]. intros x [-> | Hx]; [lia|]. specialize (IH x Hx). lia.
Qed.
Lemma ex_alloc_good : good_alloc ex_alloc.
Proof.
  intros s. unfold ex_alloc. destruct (chain_nodes 60 s (tminn s)) as [L|] eqn:E; [|now left]. cbv zeta.
  destruct (fold_max L) as (M0 & M). destruct (Z.ltb_spec (1 + fold_right Z.max 0 L) (2 ^ 63)); [right|now left]. split; [lia|].
  intros (N0 & n & Hn). pose proof (chain_nodes_in s 60 (tminn s) L E n _ N0 Hn) as Hi. specialize (M _ Hi). lia.
Qed.

Definition ex_cmp (_ : rmap) (_ : unit) := WG_COMPARE ex_cs.
Definition ex_vals (_ : rmap) (_ : unit) (x : Z) : Prop := plain ex_cs x.
Definition ex_valb (x : Z) : bool :=
  (x =? 0) || existsb (fun i => (encode_smallint (Z.of_nat i) =? x) && fits_smallint (Z.of_nat i)) (seq 0 100).
Lemma ex_valb_ok m v x : ex_valb x = true -> ex_vals m v x.
Proof.
  unfold ex_valb, ex_vals. intros H. apply orb_true_iff in H as [H | H].
  - apply Z.eqb_eq in H. subst x. apply plain_zero.
  - apply existsb_exists in H. destruct H as (i & Hi & E). apply in_seq in Hi. apply andb_true_iff in E as (E & F). apply Z.eqb_eq in E. subst x.
    exists WG_INTTYPE. split; [|discriminate]. constructor; try discriminate. apply PSmall; [unfold is64; lia|assumption].
Qed.
Definition ex_nop (v : unit) (_ : Z) : unit := v.
Lemma ex_keeps m l v v' : keeps ex_cmp ex_vals m l v v'.
Proof. intros x y _ _. split; [reflexivity|auto]. Qed.
Notation ex_ir := (ireach ex_cmp ex_vals ex_nop ex_nop).

(** Operations; [live] are the records, tracked for the scan when an index is made. *)
Inductive mop := Mk (len o : Z) | Put (o i data : Z) | Rm (o : Z) | Ix (col : Z) (tmpl : option (list Z)) (root : Z)
  | Raw (len o : Z) | New (o i data : Z) | Done (o : Z).
Record mst := MS { m_d : @rdb (list idx) unit; m_raw : Z -> option (list Z); m_live : option (list Z) }.
Definition ex_fuel : nat := 60%nat.
Definition ex_tree : tt := TT (fun _ => 0) (fun _ => 0) (fun _ => 0) (fun _ => 0) (fun _ => 0) (fun _ => 0) (fun _ _ => 0) (fun _ => 0) (fun _ => 0) (fun _ => 0) (fun _ => 0) 0 0 0.
Definition ex_put (d : @rdb (list idx) unit) (o i data : Z) :=
  wg_set_field ix_any ix_tab (wg_index_add_field ex_cmp ex_fuel ex_alloc) (wg_index_del_field ex_cmp ex_fuel 0) ex_nop ex_nop d o i data true.
Definition ex_new (d : @rdb (list idx) unit) (o i data : Z) :=
  wg_set_new_field ix_any ix_tab (wg_index_add_field ex_cmp ex_fuel ex_alloc) ex_nop d o i data true.
Definition tmpl_ok (col : Z) (tmpl : option (list Z)) : bool :=
  (0 <=? col) && (col <=? MAX_INDEXED_FIELDNR) && negb (fixes (IX col tmpl ex_tree) col) &&
  match tmpl with
  | None => true
  | Some t => (Z.of_nat (length t) <=? MAX_INDEXED_FIELDNR + 1) && forallb (fun e => negb (fixed_value e) || (negb (is_record_ref e) && ex_valb e)) t
  end.
Definition mstep (s : mst) (a : mop) : option mst :=
  let d := m_d s in
  match a with
  | Mk len o =>
      match d_rec d o, wg_create_record (wg_index_add_rec ex_cmp ex_fuel ex_alloc) d len o with
      | None, Some (d', x) => if is_record_ref o && negb (x =? 0) then Some (MS d' (fresh (m_raw s) o None) (option_map (cons o) (m_live s))) else None
      | _, _ => None
      end
  | Put o i data =>
      match d_rec d o, ex_put d o i data with
      | Some (Rec _ _ [] as r), Some (d', c) =>
          if ex_valb data && (c =? 0) then Some (MS d' (if field r i =? data then m_raw s else mark (m_raw s) o i) (m_live s)) else None
      | _, _ => None
      end
  | Rm o =>
      match wg_delete_record (wg_index_del_rec ex_cmp ex_fuel 0) ex_nop d o true with
      | Some (d', c) => if c =? 0 then Some (MS d' (m_raw s) (option_map (remove_one o) (m_live s))) else None
      | None => None
      end
  | Ix col tmpl root =>
      match m_live s with
      | Some live =>
          match create_ttree_index ex_cmp ex_fuel ex_alloc (d_rec d) Datatypes.tt col tmpl ex_tree root live with
          | Some (x, true) => if (0 <? root) && (root <? 2 ^ 63) && tmpl_ok col tmpl && forallb (fun o => match m_raw s o with None => true | _ => false end) live
                              then Some (MS (RDB (d_rec d) (x :: d_ix d) (d_val d)) (m_raw s) (m_live s)) else None
          | _ => None
          end
      | None => None
      end
  | Raw len o =>
      match d_rec d o, wg_create_raw_record d len o with
      | None, (d', x) => if is_record_ref o && forallb (fun y => match x_tmpl y with None => true | _ => false end) (d_ix d)
                         then Some (MS d' (if x =? 0 then m_raw s else fresh (m_raw s) o (Some [])) None) else None
      | _, _ => None
      end
  | New o i data =>
      match d_rec d o, m_raw s o, ex_new d o i data with
      | Some (Rec _ _ []), Some cs, Some (d', c) =>
          if ex_valb data && negb (data =? o) && (c =? 0) && negb (existsb (Z.eqb i) cs) then Some (MS d' (mark (m_raw s) o i) None) else None
      | _, _, _ => None
      end
  | Done o =>
      match d_rec d o, m_raw s o with
      | Some r, Some cs => if forallb (fun c => existsb (Z.eqb (Z.of_nat c)) cs) (seq 0 (length (r_fields r))) then Some (MS d (fresh (m_raw s) o None) None) else None
      | _, _ => None
      end
  end.
Fixpoint mrun (s : mst) (l : list mop) : option mst :=
  match l with [] => Some s | a :: l => match mstep s a with Some s' => mrun s' l | None => None end end.
Definition ms0 : mst := MS (RDB (fun _ => None) [] Datatypes.tt) (fun _ => None) (Some []).

Definition live_ok (s : mst) : Prop :=
  match m_live s with
  | None => True
  | Some L => NoDup L /\ (forall o, In o L <-> d_rec (m_d s) o <> None) /\ forall o r, d_rec (m_d s) o = Some r -> is_special_record r = false
  end.
Lemma ex_val_ref data : ex_valb data = true -> is_record_ref data = false.
Proof.
  intros H. unfold ex_valb in H. apply orb_true_iff in H as [H | H]; [apply Z.eqb_eq in H; now subst|].
  apply existsb_exists in H. destruct H as (i & Hi & E). apply andb_true_iff in E as (E & _). apply Z.eqb_eq in E. subst data.
  assert (F : forallb (fun i => negb (is_record_ref (encode_smallint (Z.of_nat i)))) (seq 0 100) = true) by (vm_compute; reflexivity).
  rewrite forallb_forall in F. specialize (F i Hi). now apply negb_true_iff in F.
Qed.
Lemma special_data (m m' : rmap) : (forall p, option_map fst (data_of m' p) = option_map fst (data_of m p)) ->
  (forall o r, m o = Some r -> is_special_record r = false) -> forall o r, m' o = Some r -> is_special_record r = false.
Proof.
  intros D H o r E. specialize (D o). unfold data_of in D. rewrite E in D. destruct (m o) as [q|] eqn:Eq; [|discriminate]. injection D as D.
  specialize (H o q Eq). unfold is_special_record in *. now rewrite D.
Qed.
Lemma live_data_eq (m m' : rmap) : (forall p, option_map fst (data_of m' p) = option_map fst (data_of m p)) -> forall o, m' o <> None <-> m o <> None.
Proof. intros D o. specialize (D o). unfold data_of in D. destruct (m o), (m' o); try discriminate; intuition congruence. Qed.

Lemma mstep_ok s a s' : ex_ir (m_d s) (m_raw s) -> live_ok s -> mstep s a = Some s' -> ex_ir (m_d s') (m_raw s') /\ live_ok s'.
Proof.
  intros H L E. assert (RI0 : RI (d_rec (m_d s))).
  { pose proof (ireach_Inv ex_cmp ex_vals ex_nop ex_nop (fun _ _ => C21_compare_is_keyorder _ _ (plain_comparable _)) (fun _ _ => plain_zero _)) as HI.
    destruct (HI (fun _ _ _ _ _ _ _ _ _ => conj eq_refl (fun h => h)) _ _ H). assumption. }
  destruct s as [d raw live]. cbn [m_d m_raw m_live] in *. unfold live_ok in *. cbn [m_live m_d] in L.
  destruct a as [len o|o i data|o|col tmpl root|len o|o i data|o]; cbn [mstep m_d m_raw m_live] in E.
  - destruct (d_rec d o) eqn:Eo; [discriminate|]. destruct (wg_create_record _ d len o) as [[d' x]|] eqn:Ec; [|discriminate].
    destruct (is_record_ref o) eqn:Ho; [|discriminate]. destruct (Z.eqb_spec x 0) as [? | Nx]; [discriminate|]. injection E as <-. cbn [m_d m_raw m_live negb andb].
    split; [exact (ir_create _ _ _ _ d raw ex_fuel ex_alloc len o d' x H Ho Eo ex_alloc_good Ec Nx)|].
    destruct live as [L0|]; [|exact I]. cbn [option_map]. destruct L as (ND & HL & Sp).
    assert (Ed : d_rec d' = rput (d_rec d) o (Some (Rec 0 (repeat 0 (Z.to_nat len)) []))).
    { unfold wg_create_record, wg_create_raw_record in Ec. destruct (len <? 0); [cbn in Ec; congruence|].
      destruct (o =? 0) eqn:Ez; [cbn in Ec; congruence|]. rewrite Ez in Ec. destruct (wg_index_add_rec _ _ _ _ _ _ _) as [[ix c]|]; [|discriminate]. injection Ec as <- _. reflexivity. }
    rewrite Ed. split; [constructor; [|assumption]; rewrite HL; congruence|]. split.
    + intros p. cbn [In]. rewrite HL. destruct (Z.eq_dec p o) as [-> | Np]; [rewrite rput_same; intuition discriminate|]. rewrite rput_other by assumption. intuition congruence.
    + intros p q. destruct (Z.eq_dec p o) as [-> | Np]; [rewrite rput_same; intros Q; injection Q as <-; reflexivity|]. rewrite rput_other by assumption. apply Sp.
  - destruct (d_rec d o) as [[me fs [|? ?]]|] eqn:Eo; try discriminate. destruct (ex_put d o i data) as [[d' c]|] eqn:Ec; [|discriminate].
    destruct (ex_valb data) eqn:Ev; [|discriminate]. destruct (Z.eqb_spec c 0) as [-> | ?]; [|discriminate]. injection E as <-. cbn [m_d m_raw m_live andb].
    assert (G : good_data d data) by (intros Q; rewrite (ex_val_ref data Ev) in Q; discriminate).
    split.
    { exact (ir_set ex_cmp ex_vals ex_nop ex_nop d raw ex_fuel ex_alloc 0 o _ i data true d' 0 H Eo eq_refl ex_alloc_good G Ec ltac:(discriminate) (ex_keeps _ _ _ _) (ex_valb_ok _ _ _ Ev)). }
    destruct live as [L0|]; [|exact I]. destruct L as (ND & HL & Sp).
    destruct (set_field_RI _ _ _ _ _ _ d o i data true d' 0 RI0 G Ec ltac:(discriminate)) as (_ & Hd). destruct (Hd eq_refl) as (r & Er & D).
    assert (D1 : forall p, option_map fst (data_of (d_rec d') p) = option_map fst (data_of (d_rec d) p)).
    { intros p. rewrite D. destruct (Z.eqb_spec p o) as [-> | _]; [|reflexivity]. unfold data_of. rewrite Er. reflexivity. }
    split; [assumption|]. split; [intros p; rewrite HL; symmetry; now apply live_data_eq|]. now apply (special_data (d_rec d)).
  - destruct (wg_delete_record _ _ d o true) as [[d' c]|] eqn:Ec; [|discriminate]. destruct (Z.eqb_spec c 0) as [-> | ?]; [|discriminate]. injection E as <-. cbn [m_d m_raw m_live].
    split; [exact (ir_delete ex_cmp ex_vals ex_nop ex_nop d raw ex_fuel 0 o d' 0 H Ec ltac:(discriminate) (ex_keeps _ _ _ _))|].
    destruct live as [L0|]; [|exact I]. cbn [option_map]. destruct L as (ND & HL & Sp).
    unfold wg_delete_record in Ec. destruct (d_rec d o) as [r|] eqn:Eo; [|discriminate]. destruct (r_back r) eqn:Eb; [|discriminate].
    destruct (if is_special_record r then _ else _) as [[ix c1]|]; [|discriminate]. destruct (c1 <? -1); [discriminate|].
    destruct (delete_ok ex_nop (d_rec d) (d_val d) o r RI0 Eo Eb) as (m' & v' & E' & D' & R'). rewrite E' in Ec. cbn [Z.eqb negb] in Ec. injection Ec as <-. cbn [d_rec].
    split; [now apply remove_one_nodup|]. split.
    + intros p. rewrite in_remove_one by assumption. rewrite HL. destruct (Z.eq_dec p o) as [-> | Np]; [rewrite rput_same; tauto|].
      rewrite rput_other by assumption. rewrite (live_data_eq m' (d_rec d)); [tauto|]. intros q. now rewrite D'.
    + intros p q. destruct (Z.eq_dec p o) as [-> | Np]; [rewrite rput_same; discriminate|]. rewrite rput_other by assumption.
      apply (special_data (d_rec d) m'); [|assumption]. intros z. now rewrite D'.
  - destruct live as [L0|]; [|discriminate]. destruct (create_ttree_index _ _ _ _ _ _ _ _ _ _) as [[x []]|] eqn:Ec; try discriminate.
    match type of E with (if ?b then _ else _) = _ => destruct b eqn:Eb; [|discriminate] end. injection E as <-. cbn [m_d m_raw m_live d_rec].
    split; [|exact L]. destruct L as (ND & HL & Sp). rewrite !andb_true_iff, Z.ltb_lt, Z.ltb_lt in Eb. destruct Eb as (((R1 & R2) & T) & Fr).
    unfold tmpl_ok in T. rewrite !andb_true_iff, !Z.leb_le, negb_true_iff in T. destruct T as (((C1 & C2) & F1) & Tm).
    assert (Ev : d_val d = Datatypes.tt) by (now destruct (d_val d)). destruct d as [m l v]. cbn [d_rec d_ix d_val] in *. subst v.
    eapply (ir_index ex_cmp ex_vals ex_nop ex_nop (RDB m l Datatypes.tt) raw ex_fuel ex_alloc [] l col tmpl ex_tree root L0 x H eq_refl); cbn [d_rec d_val]; auto using ex_alloc_good.
    + intros o Ho. apply HL in Ho. rewrite forallb_forall in Fr. specialize (Fr o Ho). destruct (raw o); [discriminate|reflexivity].
    + intros o. rewrite HL. split; [|intros (r & -> & _); discriminate]. destruct (m o) as [r|] eqn:Er; [|congruence]. intros _. exists r. split; [reflexivity|]. now apply (Sp o).
    + intros t ->. apply andb_true_iff in Tm as (T1 & T2). split; [now apply Z.leb_le|]. rewrite forallb_forall in T2. intros e He Fe.
      specialize (T2 e He). rewrite Fe in T2. cbn [negb orb] in T2. apply andb_true_iff in T2 as (N & Ve). split; [now apply negb_true_iff|]. now apply ex_valb_ok.
  - destruct (d_rec d o) eqn:Eo; [discriminate|]. destruct (wg_create_raw_record d len o) as [d' x] eqn:Ec.
    match type of E with (if ?b then _ else _) = _ => destruct b eqn:Eb; [|discriminate] end. apply andb_true_iff in Eb as (Ho & Nt). injection E as <-. cbn [m_d m_raw m_live].
    split; [|exact I]. apply (ir_raw ex_cmp ex_vals ex_nop ex_nop d raw len o d' x H Ho Eo); [|assumption].
    intros y Hy. rewrite forallb_forall in Nt. specialize (Nt y Hy). now destruct (x_tmpl y).
  - destruct (d_rec d o) as [[me fs [|? ?]]|] eqn:Eo; try discriminate. destruct (raw o) as [cs|] eqn:Er; [|discriminate]. destruct (ex_new d o i data) as [[d' c]|] eqn:Ec; [|discriminate].
    match type of E with (if ?b then _ else _) = _ => destruct b eqn:Eb; [|discriminate] end. rewrite !andb_true_iff, !negb_true_iff in Eb. destruct Eb as (((Ev & No) & C0) & Nc).
    apply Z.eqb_eq in C0. subst c. apply Z.eqb_neq in No. injection E as <-. cbn [m_d m_raw m_live]. split; [|exact I].
    assert (G : good_data d data) by (intros Q; rewrite (ex_val_ref data Ev) in Q; discriminate).
    assert (Ni : ~ In i cs) by (rewrite <- existsb_in, Nc; discriminate).
    exact (ir_new ex_cmp ex_vals ex_nop ex_nop d raw ex_fuel ex_alloc o _ cs i data true d' 0 H Eo eq_refl ex_alloc_good G No Er Ni Ec ltac:(discriminate) (ex_keeps _ _ _ _) (ex_valb_ok _ _ _ Ev)).
  - destruct (d_rec d o) as [r|] eqn:Eo; [|discriminate]. destruct (raw o) as [cs|] eqn:Er; [|discriminate].
    match type of E with (if ?b then _ else _) = _ => destruct b eqn:Eb; [|discriminate] end. injection E as <-. cbn [m_d m_raw m_live]. split; [|exact I].
    apply (ir_done ex_cmp ex_vals ex_nop ex_nop d raw o r cs H Eo Er). intros c Hc. unfold reclen in Hc. rewrite forallb_forall in Eb.
    specialize (Eb (Z.to_nat c)). rewrite Z2Nat.id in Eb by lia. apply existsb_in. apply Eb. apply in_seq. lia.
Qed.
Lemma mrun_ok l : forall s s', ex_ir (m_d s) (m_raw s) -> live_ok s -> mrun s l = Some s' -> ex_ir (m_d s') (m_raw s') /\ live_ok s'.
Proof.
  induction l as [|a l IH]; intros s s' H L E; cbn [mrun] in E; [injection E as <-; auto|].
  destruct (mstep s a) as [s1|] eqn:E1; [|discriminate]. destruct (mstep_ok s a s1 H L E1) as (H1 & L1). eauto.
Qed.
Definition index_rows (s : mst) : list (option (list Z)) := map (fun x => walk_chain 50 (x_tree x) (tminn (x_tree x))) (d_ix (m_d s)).

(** An index on column 0, then one on column 1 for the records whose column 0 is 7; changes
    move rows out of the second index and back in, deletions take rows out of both. *)
Definition si (i : Z) : Z := encode_smallint i.
Definition ex_history : list mop :=
  [Ix 0 None 1; Mk 2 64; Mk 3 128; Mk 1 192; Put 64 0 (si 7); Put 64 1 (si 5); Put 128 0 (si 3); Put 128 1 (si 9);
   Ix 1 (Some [si 7]) 1; Mk 2 256; Put 256 0 (si 7); Put 256 1 (si 2); Put 128 0 (si 7); Put 64 0 (si 8); Put 64 0 (si 7); Put 256 0 (si 1); Mk 4 320; Put 320 0 (si 7); Rm 128].
Lemma ex_history_ok l (f : mst -> bool) : match mrun ms0 l with Some s => f s | None => false end = true ->
  exists s, mrun ms0 l = Some s /\ ex_ir (m_d s) (m_raw s) /\ f s = true.
Proof.
  destruct (mrun ms0 l) as [s|] eqn:E; [|discriminate]. intros H. exists s. split; [reflexivity|]. split; [|exact H].
  apply (mrun_ok l ms0 s); [|repeat split; try constructor; cbn; congruence || tauto|exact E]. apply ir_init.
Qed.
Definition rows_are (l : list (list Z)) (s : mst) : bool :=
  if list_eq_dec (fun a b : option (list Z) => ltac:(decide equality; apply (list_eq_dec Z.eq_dec))) (index_rows s) (map Some l) then true else false.
Lemma rows_are_ok l s : rows_are l s = true -> index_rows s = map Some l.
Proof. unfold rows_are. destruct (list_eq_dec _ _ _); [auto|discriminate]. Qed.
Example C26_hyp : exists s, mrun ms0 ex_history = Some s /\ ex_ir (m_d s) (m_raw s) /\
  index_rows s = [Some [320; 64]; Some [192; 256; 320; 64]].
Proof.
  destruct (ex_history_ok ex_history (rows_are [[320; 64]; [192; 256; 320; 64]])) as (s & E & R & B); [vm_compute; reflexivity|].
  exists s. split; [exact E|]. split; [exact R|]. exact (rows_are_ok _ _ B).
Qed.
(** With raw records: record 64 is only in the index of the column written. *)
Example C26_raw_hyp : exists s, mrun ms0 [Ix 0 None 1; Ix 1 None 1; Raw 2 64; Mk 2 128; New 64 1 (si 4); Put 128 0 (si 3)] = Some s /\
  ex_ir (m_d s) (m_raw s) /\ index_rows s = [Some [128; 64]; Some [128]].
Proof.
  destruct (ex_history_ok [Ix 0 None 1; Ix 1 None 1; Raw 2 64; Mk 2 128; New 64 1 (si 4); Put 128 0 (si 3)] (rows_are [[128; 64]; [128]])) as (s & E & R & B); [vm_compute; reflexivity|].
  exists s. split; [exact E|]. split; [exact R|]. exact (rows_are_ok _ _ B).
Qed.

(** ** Where indexes do not follow *)
(** Comparison as in the code for small ints and records of one field. *)
Definition ex_rcmp (m : rmap) (_ : unit) (a b : Z) : Z :=
  let f x := match m x with Some r => field r 0 | None => 0 end in
  if is_record_ref a && is_record_ref b then WG_COMPARE ex_cs (f a) (f b) else WG_COMPARE ex_cs a b.
Definition calls := option (@rdb (list idx) unit * Z).
Definition c_none : calls := Some (RDB (fun _ => None) [] Datatypes.tt, 0).
Definition c_on (c : calls) (f : @rdb (list idx) unit -> calls) : calls := match c with Some (d, _) => f d | None => None end.
Definition c_put o i data (c : calls) := c_on c (fun d =>
  wg_set_field ix_any ix_tab (wg_index_add_field ex_rcmp ex_fuel ex_alloc) (wg_index_del_field ex_rcmp ex_fuel 0) ex_nop ex_nop d o i data true).
Definition c_mk len o (c : calls) := c_on c (fun d => wg_create_record (wg_index_add_rec ex_rcmp ex_fuel ex_alloc) d len o).
Definition c_raw len o (c : calls) := c_on c (fun d => Some (wg_create_raw_record d len o)).
Definition c_new o i data (c : calls) := c_on c (fun d => wg_set_new_field ix_any ix_tab (wg_index_add_field ex_rcmp ex_fuel ex_alloc) ex_nop d o i data true).
Definition c_rm o (c : calls) := c_on c (fun d => wg_delete_record (wg_index_del_rec ex_rcmp ex_fuel 0) ex_nop d o true).
Definition c_ix col tmpl scan (c : calls) := c_on c (fun d =>
  match create_ttree_index ex_rcmp ex_fuel ex_alloc (d_rec d) Datatypes.tt col tmpl ex_tree 1 scan with
  | Some (x, b) => Some (RDB (d_rec d) (x :: d_ix d) (d_val d), if b then 0 else 1) | None => None end).
Definition c_rows (c : calls) : option (Z * list (option (list Z))) :=
  match c with Some (d, e) => Some (e, map (fun x => walk_chain 50 (x_tree x) (tminn (x_tree x))) (d_ix d)) | None => None end.
Definition c_do (l : list (calls -> calls)) : calls := fold_left (fun c f => f c) l c_none.

(** Record 64 refers to record 128 from both fields; assigning a field of 128 takes row 64
    out once and puts it back twice. *)
Theorem C26_two_fields_refuted :
  c_rows (c_do [c_ix 0 None []; c_mk 2 64; c_mk 1 128; c_put 64 0 128; c_put 64 1 128; c_put 128 0 (si 5)]) = Some (0, [Some [64; 64; 128]]).
Proof. vm_compute. reflexivity. Qed.
(** wg_set_new_field storing a reference to the record itself indexes it eight times. *)
Theorem C26_self_reference_refuted :
  c_rows (c_do [c_ix 0 None []; c_raw 1 64; c_new 64 0 64]) = Some (0, [Some [64; 64; 64; 64; 64; 64; 64; 64]]).
Proof. vm_compute. reflexivity. Qed.
(** wg_set_new_field on a record that another refers to indexes the other once more. *)
Theorem C26_new_field_parent_refuted :
  c_rows (c_do [c_ix 0 None []; c_raw 1 128; c_mk 1 64; c_put 64 0 128; c_new 128 0 (si 4)]) = Some (0, [Some [64; 64; 128]]).
Proof. vm_compute. reflexivity. Qed.
(** An index made while a raw record is not filled in: the record gets in twice. *)
Theorem C26_new_index_refuted : c_rows (c_do [c_raw 1 64; c_ix 0 None [64]; c_new 64 0 (si 3)]) = Some (0, [Some [64; 64]]).
Proof. vm_compute. reflexivity. Qed.
(** A match record for column 0, index on column 1: filling in column 0 first. *)
Theorem C26_template_order_refuted :
  c_rows (c_do [c_ix 1 (Some [si 7]) []; c_raw 2 64; c_new 64 0 (si 7); c_new 64 1 (si 3)]) = Some (0, [Some [64; 64]]).
Proof. vm_compute. reflexivity. Qed.
(** A raw record whose indexed column was never written can be neither deleted nor assigned
    once there are other NULL rows: error -3. *)
Theorem C26_raw_record_stuck_refuted :
  c_rows (c_do [c_ix 0 None []; c_mk 1 64; c_mk 1 128; c_raw 1 192; c_rm 192]) = Some (-3, [Some [128; 64]]) /\
  c_rows (c_do [c_ix 0 None []; c_mk 1 64; c_mk 1 128; c_raw 1 192; c_put 192 0 (si 4)]) = Some (-3, [Some [128; 64]]).
Proof. split; vm_compute; reflexivity. Qed.
