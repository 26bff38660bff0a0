(** Histories of a T-tree index and their invariant. *)
From Coq Require Import ZArith List Bool Lia Permutation Sorted.
From Verif Require Import Base EncodingModel CompareModel TtreeModel TtreeShape TtreeArr TtreeRotate TtreeFix TtreeOrd TtreeAdd TtreeDel.
Import ListNotations.
Open Scope Z_scope.
#[local] Ltac Zify.zify_post_hook ::= idtac.

(** ** Reading an index *)
(** The rows in the slots of a node (struct wg_tnode, Db/dbindex.h l.87-101). *)
Definition node_rows (s : tt) (a : Z) : list Z := map (fun i => harr s a (Z.of_nat i)) (seq 0 (Z.to_nat (hn s a))).
(** Walk over the chain of nodes from TTREE_MIN_NODE by TNODE_SUCCESSOR
    (Db/dballoc.h l.361-367, Db/dbindex.h l.46-48), as wg_fetch does
    (Db/dbquery.c l.1016-1080). *)
Fixpoint walk_chain (n : nat) (s : tt) (a : Z) : option (list Z) :=
  if a =? 0 then Some [] else
  match n with
  | O => None
  | S n' => match walk_chain n' s (hsucc s a) with None => None | Some l => Some (node_rows s a ++ l) end
  end.
(** Walk by the child links (struct wg_tnode, Db/dbindex.h l.87-101). *)
Fixpoint walk_tree (n : nat) (s : tt) (a : Z) : option (list Z) :=
  if a =? 0 then Some [] else
  match n with
  | O => None
  | S n' => match walk_tree n' s (hleft s a), walk_tree n' s (hright s a) with
            | Some l, Some r => Some (l ++ node_rows s a ++ r) | _, _ => None end
  end.
(** The n-th node of the chain (Db/dbindex.h l.46-48). *)
Fixpoint nth_node (n : nat) (s : tt) (a : Z) : Z :=
  match n with O => a | S n' => if a =? 0 then 0 else nth_node n' s (hsucc s a) end.
Definition in_index (s : tt) (a : Z) : Prop := a <> 0 /\ exists n, nth_node n s (tminn s) = a.

(** One occurrence less. *)
Fixpoint remove_one (x : Z) (l : list Z) : list Z :=
  match l with [] => [] | y :: l' => if y =? x then l' else y :: remove_one x l' end.

(** ** Histories
    Index creation (Db/dbindex.c l.1371-1425), insertion and removal of rows
    (l.428-1030) and any other change of the database that leaves the columns of
    the indexed rows and their order as they are: wg_set_field removes the row
    first (Db/dbdata.c l.613-800), and new or freed strings and numbers may
    change what other encoded values mean, hence the comparison. The last
    argument lists the rows that were inserted and not removed; it is [None]
    once an insertion ran out of memory. A new node comes from
    wg_alloc_fixlen_object (Db/dballoc.c l.725): not one of the index. *)
Inductive treach : (Z -> Z -> Z) -> (Z -> Prop) -> tt -> (Z -> Z) -> option (list Z) -> Prop :=
| tr_init cmp dom s key node : keyorder cmp dom -> 0 < node < 2 ^ 63 -> treach cmp dom (ttree_init s node) key (Some [])
| tr_add cmp dom s key G rec nd fuel s' rc : treach cmp dom s key G -> dom (key rec) ->
    nd = 0 \/ 0 < nd < 2 ^ 63 /\ ~ in_index s nd ->
    ttree_add_row cmp key fuel s rec nd = Some (s', rc) ->
    treach cmp dom s' key (if rc =? 0 then option_map (cons rec) G else None)
| tr_remove cmp dom s key G rec junk fuel s' rc : treach cmp dom s key G -> dom (key rec) ->
    ttree_remove_row cmp key fuel s rec junk = Some (s', rc) ->
    treach cmp dom s' key (if rc =? 0 then option_map (remove_one rec) G else G)
| tr_other cmp dom cmp' (dom' : Z -> Prop) s key (key' : Z -> Z) G n W : treach cmp dom s key G ->
    walk_chain n s (tminn s) = Some W -> keyorder cmp' dom' ->
    (forall x, In x W -> key' x = key x /\ dom' (key x)) ->
    (forall x y, In x W -> In y W -> cmp' (key x) (key y) = cmp (key x) (key y)) ->
    treach cmp' dom' s key' G.

(** ** More fuel gives the same answer *)
Section Fuel.
Variables (cmp : Z -> Z -> Z) (key : Z -> Z).
Lemma rightmost_mono s k : forall n m a rb r, (n <= m)%nat -> wg_search_ttree_rightmost cmp n s a k rb = Some r -> wg_search_ttree_rightmost cmp m s a k rb = Some r.
Proof.
  induction n as [|n IH]; intros m a rb r L; [discriminate|]. destruct m as [|m]; [lia|]. cbn [wg_search_ttree_rightmost].
  destruct (cmp k (hmin s a) =? WG_LESSTHAN).
  - destruct (negb (hleft s a =? 0)); [apply IH; lia|auto].
  - destruct (negb (hright s a =? 0)); [apply IH; lia|auto].
Qed.
Lemma leftmost_mono s k : forall n m a lb r, (n <= m)%nat -> wg_search_ttree_leftmost cmp n s a k lb = Some r -> wg_search_ttree_leftmost cmp m s a k lb = Some r.
Proof.
  induction n as [|n IH]; intros m a lb r L; [discriminate|]. destruct m as [|m]; [lia|]. cbn [wg_search_ttree_leftmost].
  destruct (cmp k (hmax s a) =? WG_GREATER).
  - destruct (negb (hright s a =? 0)); [apply IH; lia|auto].
  - destruct (negb (hleft s a =? 0)); [apply IH; lia|auto].
Qed.
Lemma add_fix_mono : forall n m s c r, (n <= m)%nat -> add_fix key n s c = Some r -> add_fix key m s c = Some r.
Proof.
  induction n as [|n IH]; intros m s c r L; [discriminate|]. destruct m as [|m]; [lia|]. cbn [add_fix]. cbv zeta.
  destruct (hpar s c =? 0); [auto|].
  match goal with |- context [if hleft s (hpar s c) =? c then ?x else ?y] => generalize (if hleft s (hpar s c) =? c then x else y) end. intros s1.
  destruct (hlh s1 (hpar s c) - hrh s1 (hpar s c) =? 0); [auto|].
  destruct ((1 <? hlh s1 (hpar s c) - hrh s1 (hpar s c)) || (hlh s1 (hpar s c) - hrh s1 (hpar s c) <? -1)); [auto|]. apply IH. lia.
Qed.
Lemma remove_fix_mono : forall n m s p r, (n <= m)%nat -> remove_fix key n s p = Some r -> remove_fix key m s p = Some r.
Proof.
  induction n as [|n IH]; intros m s p r L; [discriminate|]. destruct m as [|m]; [lia|]. cbn [remove_fix]. cbv zeta.
  match goal with |- context [if ?c then db_rotate_ttree key s p ?o else ?y] => generalize (if c then db_rotate_ttree key s p o else y) end. intros s1.
  destruct (hpar s1 p =? 0); [auto|]. apply IH. lia.
Qed.
Lemma find_row_mono s k rec : forall n m a r, (n <= m)%nat -> find_row cmp n s a k rec = Some r -> find_row cmp m s a k rec = Some r.
Proof.
  induction n as [|n IH]; intros m a r L; [discriminate|]. destruct m as [|m]; [lia|]. cbn [find_row]. cbv zeta.
  destruct (negb (find_slot (Z.to_nat (hn s a)) s a rec 0 =? -1)); [auto|].
  destruct (hsucc s a =? 0); [auto|]. destruct (cmp (hmin s (hsucc s a)) k =? WG_GREATER); [auto|]. apply IH. lia.
Qed.
Lemma add_row_mono n m s rec nd r : (n <= m)%nat -> ttree_add_row cmp key n s rec nd = Some r -> ttree_add_row cmp key m s rec nd = Some r.
Proof.
  intros L. unfold ttree_add_row. destruct (troot s =? 0); [auto|]. cbv zeta.
  destruct (wg_search_ttree_rightmost cmp n s (troot s) (key rec) 0) as [(b & bt)|] eqn:E; [|discriminate].
  rewrite (rightmost_mono _ _ _ _ _ _ _ L E).
  match goal with |- match ?x with _ => _ end = _ -> _ => destruct x as ((s1 & no) & rc) end.
  destruct (negb (rc =? 0)); [auto|]. destruct (no =? 0); [auto|].
  destruct (add_fix key n s1 no) as [s2|] eqn:E2; [|discriminate]. now rewrite (add_fix_mono _ _ _ _ _ L E2).
Qed.
Lemma remove_row_mono n m s rec j r : (n <= m)%nat -> ttree_remove_row cmp key n s rec j = Some r -> ttree_remove_row cmp key m s rec j = Some r.
Proof.
  intros L. unfold ttree_remove_row. destruct (troot s =? 0); [auto|]. cbv zeta.
  destruct (wg_search_ttree_leftmost cmp n s (troot s) (key rec) 0) as [(b & bt)|] eqn:E; [|discriminate].
  rewrite (leftmost_mono _ _ _ _ _ _ _ L E). destruct bt; auto.
  destruct (find_row cmp n s b (key rec) rec) as [(a & i)|] eqn:E1; [|discriminate]. rewrite (find_row_mono _ _ _ _ _ _ _ L E1).
  destruct (i =? -1); [auto|]. destruct (borrow key (take_slot key s a i) a) as (s2 & x). destruct (drop_leaf s2 x j) as (s3 & p).
  destruct (merge_half s3 x p j) as [(s4 & p4)|]; [|auto]. destruct (p4 =? 0); [auto|].
  destruct (remove_fix key n s4 p4) as [s5|] eqn:E2; [|discriminate]. now rewrite (remove_fix_mono _ _ _ _ _ L E2).
Qed.
End Fuel.

(** ** Walks *)
Lemma walk_chain_ok s L : ~ In 0 L -> forall p, chn s p L 0 -> forall n, (length L <= n)%nat -> walk_chain n s (hd 0 L) = Some (flat_map (rows s) L).
Proof.
  induction L as [|a L IH]; intros Z0 p C n Hn; cbn [hd flat_map]; [destruct n; reflexivity|]. cbn [chn length] in *. destruct C as (_ & C2 & C3).
  destruct n as [|n]; [lia|]. cbn [walk_chain]. destruct (Z.eqb_spec a 0) as [->|Ha]; [exfalso; apply Z0; now left|].
  rewrite C2, (IH ltac:(intros Hi; apply Z0; now right) a C3) by lia. reflexivity.
Qed.
Lemma walk_chain_mono s : forall n m a r, (n <= m)%nat -> walk_chain n s a = Some r -> walk_chain m s a = Some r.
Proof.
  induction n as [|n IH]; intros m a r L; cbn [walk_chain].
  - destruct (Z.eqb_spec a 0) as [->|]; [|discriminate]. now destruct m.
  - destruct m as [|m]; [lia|]. cbn [walk_chain]. destruct (a =? 0); [auto|].
    destruct (walk_chain n s (hsucc s a)) as [l|] eqn:E; [|discriminate]. now rewrite (IH m _ _ ltac:(lia) E).
Qed.
Lemma walk_tree_ok s t : forall p, st s p t -> forall n, (Z.to_nat (ht t) <= n)%nat -> walk_tree n s (addr t) = Some (flat_map (rows s) (ino t)).
Proof.
  induction t as [|l IHl a r IHr]; intros p H n Hn; cbn [addr ino flat_map]; [destruct n; reflexivity|]. cbn [st ht] in *.
  destruct H as (A0 & _ & A2 & A3 & _ & _ & Hl & Hr). pose proof (ht_nonneg l). pose proof (ht_nonneg r). destruct n as [|n]; [lia|]. cbn [walk_tree].
  destruct (Z.eqb_spec a 0); [contradiction|]. rewrite A2, A3, (IHl a Hl), (IHr a Hr) by lia. rewrite flat_map_app. reflexivity.
Qed.
Lemma nth_node_in s L : ~ In 0 L -> forall p, chn s p L 0 -> forall n a, a <> 0 -> nth_node n s (hd 0 L) = a -> In a L.
Proof.
  induction L as [|b L IH]; intros Z0 p C n a Ha E; cbn [hd] in E.
  - exfalso. destruct n; cbn [nth_node] in E; rewrite ?Z.eqb_refl in E; congruence.
  - cbn [chn] in C. destruct C as (_ & C2 & C3). destruct n as [|n]; cbn [nth_node] in E; [left; exact E|].
    destruct (Z.eqb_spec b 0) as [->|Hb]; [exfalso; apply Z0; now left|]. right. rewrite C2 in E. apply (IH ltac:(intros Hi; apply Z0; now right) b C3 n a Ha E).
Qed.
Lemma in_nth_node s L : ~ In 0 L -> forall p, chn s p L 0 -> forall a, In a L -> exists n, nth_node n s (hd 0 L) = a.
Proof.
  induction L as [|b L IH]; intros Z0 p C a Hi; [easy|]. cbn [chn hd] in *. destruct C as (_ & C2 & C3). destruct Hi as [->|Hi]; [now exists O|].
  destruct (IH ltac:(intros Hj; apply Z0; now right) b C3 a Hi) as (n & E). exists (S n). cbn [nth_node].
  destruct (Z.eqb_spec b 0) as [->|Hb]; [exfalso; apply Z0; now left|]. now rewrite C2.
Qed.
Lemma remove_one_perm x l l' : Permutation (x :: l') l -> Permutation l' (remove_one x l).
Proof.
  revert l'. induction l as [|y l IH]; intros l' P; [now apply Permutation_sym, Permutation_nil in P|]. cbn [remove_one].
  destruct (Z.eqb_spec y x) as [->|Hy]; [now apply Permutation_cons_inv in P|].
  assert (Hi : In y l'). { assert (In y (x :: l')) as [->|]; [apply (Permutation_in y (Permutation_sym P)); now left|now elim Hy|assumption]. }
  apply in_split in Hi. destruct Hi as (l1 & l2 & ->). rewrite <- Permutation_middle in *. apply perm_skip, IH.
  apply (Permutation_cons_inv (a := y)). etransitivity; [|exact P]. apply perm_swap.
Qed.

(** ** Invariant *)
Section Inv.
Variables (cmp : Z -> Z -> Z) (dom : Z -> Prop).
Definition TR (s : tt) (key : Z -> Z) (G : option (list Z)) (T : tree) : Prop :=
  TI cmp dom key s T /\ match G with Some g => Permutation (cont s T) g | None => True end.
Lemma TI_view s key (cmp' : Z -> Z -> Z) (dom' : Z -> Prop) key' T : (forall x, In x (cont s T) -> key' x = key x /\ dom' (key x)) ->
  (forall x y, In x (cont s T) -> In y (cont s T) -> cmp' (key x) (key y) = cmp (key x) (key y)) -> TI cmp dom key s T -> TI cmp' dom' key' s T.
Proof.
  intros E Ec (H & [V|N]); (split; [exact H|]); [left|now right]. unfold cont in *. destruct V as (V1 & V2 & V3).
  assert (F : forall a, In a (ino T) -> forall x, In x (rows s a) -> key' x = key x) by (intros a Ha x Hx; apply E, in_flat_map; eauto).
  split; [|split].
  - rewrite Forall_forall in *. intros a Ha. destruct (V1 a Ha) as (N & E1 & E2). split; [exact N|].
    rewrite (F a Ha) by now apply row_first. rewrite (F a Ha) by now apply row_last. auto.
  - clear V1 V3 F. induction V2 as [|x l V2 IH Hx]; [constructor|]. constructor; [apply IH; intros; [apply E|apply Ec]; now right|].
    rewrite Forall_forall in *. intros y Hy. unfold rle, le. rewrite (proj1 (E x (or_introl eq_refl))), (proj1 (E y (or_intror Hy))).
    rewrite Ec; [now apply Hx|now left|now right].
  - rewrite Forall_forall in *. intros x Hx. destruct (E x Hx) as (-> & ?). assumption.
Qed.
Lemma TI_len s key T : TI cmp dom key s T -> (length (ino T) <= length (cont s T) + 1)%nat.
Proof.
  intros (H & [(V1 & _)|(a & -> & _)]); [|cbn; lia]. unfold cont. clear H. induction (ino T) as [|a L IH]; [cbn; lia|].
  inversion V1 as [|? ? (N & _) V]; subst. cbn [length flat_map]. rewrite app_length. specialize (IH V).
  assert (length (rows s a) = Z.to_nat (hn s a)) by (unfold rows, rowsf; now rewrite map_length, seq_length). lia.
Qed.
Lemma fresh_in s T nd : SH s T -> nd <> 0 -> ~ in_index s nd -> ~ In nd (ino T).
Proof.
  intros H Hn Hf Hi. apply Hf. split; [exact Hn|]. destruct (sh_chain _ _ H) as (C1 & _ & C3). rewrite C1. apply (in_nth_node s (ino T) (SH_zero _ _ H) 0 C3 nd Hi).
Qed.
Lemma init_TI s key node : 0 < node < 2 ^ 63 -> TI cmp dom key (ttree_init s node) (Nd Lf node Lf).
Proof.
  intros Hn. assert (node <> 0) by lia. unfold ttree_init. split.
  - constructor.
    + cbn [st addr ht]. prj. rewrite !upd_same. repeat split; auto.
    + discriminate.
    + reflexivity.
    + cbn. lia.
    + cbn [ino app]. constructor; [easy|constructor].
    + cbn [ino app]. constructor; [exact Hn|constructor].
    + unfold chain. cbn [ino app hd last chn]. prj. rewrite !upd_same. repeat split.
  - right. exists node. prj. rewrite !upd_same. repeat split.
Qed.
End Inv.
Lemma treach_ko cmp dom s key G : treach cmp dom s key G -> keyorder cmp dom.
Proof. induction 1; auto. Qed.
Lemma TR_treach0 cmp dom s key G : treach cmp dom s key G -> exists T, TR cmp dom s key G T.
Proof.
  induction 1 as [cmp dom s key node KO Hn|cmp dom s key G rec nd fuel s' rc Rh (T & HT & HG) D Hnd E|cmp dom s key G rec junk fuel s' rc Rh (T & HT & HG) D E|cmp dom cmp' dom' s key key' G n W _ (T & HT & HG) EW KO Hk Hc].
  - exists (Nd Lf node Lf). split; [now apply init_TI|]. unfold cont, ttree_init. cbn [ino app flat_map]. rewrite app_nil_r. unfold rows. prj. rewrite upd_same. constructor.
  - pose proof (treach_ko _ _ _ _ _ Rh) as KO. pose proof HT as (HS & _). set (m := Nat.max fuel (length (ino T) + 2)).
    assert (Hnd' : nd = 0 \/ okaddr nd /\ ~ In nd (ino T)).
    { destruct Hnd as [->|(N1 & N2)]; [now left|right]. split; [exact N1|]. apply (fresh_in s); auto; lia. }
    destruct (add_ok cmp dom KO key s T rec nd m HT D Hnd' ltac:(unfold m; lia)) as (s1 & rc1 & E1 & R).
    apply (add_row_mono cmp key fuel m) in E; [|unfold m; lia]. rewrite E in E1. injection E1 as <- <-.
    destruct R as [(-> & T' & Ad)|(-> & _ & Lo)].
    + exists T'. destruct Ad as (A1 & _ & pre & post & E1 & E2). split; [exact A1|]. rewrite Z.eqb_refl. destruct G as [g|]; [|exact I]. cbn [option_map].
      rewrite E2, <- Permutation_middle. apply perm_skip. now rewrite <- E1.
    + exists T. destruct Lo as (A1 & _). split; [exact A1|]. exact I.
  - pose proof (treach_ko _ _ _ _ _ Rh) as KO. set (m := Nat.max fuel (2 * length (ino T) + 2)).
    destruct (remove_ok cmp dom KO key s T rec junk m HT D ltac:(unfold m; lia)) as (s1 & rc1 & E1 & R).
    apply (remove_row_mono cmp key fuel m) in E; [|unfold m; lia]. rewrite E in E1. injection E1 as <- <-.
    destruct R as [(Hi & -> & T' & R1 & _ & pre & post & E1 & E2)|(Hi & Hrc & ->)].
    + exists T'. split; [exact R1|]. rewrite Z.eqb_refl. destruct G as [g|]; [|exact I]. cbn [option_map]. rewrite E2. apply remove_one_perm.
      rewrite Permutation_middle, <- E1. exact HG.
    + exists T. destruct Hrc as [-> | ->]; (split; [exact HT|exact HG]).
  - exists T. split; [|exact HG]. pose proof HT as (HS & _). destruct (sh_chain _ _ HS) as (C1 & _ & C3).
    pose proof (walk_chain_ok s (ino T) (SH_zero _ _ HS) 0 C3 (Nat.max n (length (ino T))) ltac:(lia)) as EW'. rewrite <- C1 in EW'.
    rewrite (walk_chain_mono s n (Nat.max n (length (ino T))) _ _ ltac:(lia) EW) in EW'. injection EW' as ->.
    apply (TI_view cmp dom s key); auto.
Qed.
Lemma TR_treach cmp dom (KO : keyorder cmp dom) s key G : treach cmp dom s key G -> exists T, TR cmp dom s key G T.
Proof. apply TR_treach0. Qed.
(** A column of a row that is not in the index. *)
Lemma tr_key cmp dom s key G rec v n W : treach cmp dom s key G -> walk_chain n s (tminn s) = Some W -> ~ In rec W ->
  treach cmp dom s (fun x => if x =? rec then v else key x) G.
Proof.
  intros R EW HW. destruct (TR_treach0 _ _ _ _ _ R) as (T & HT & _). pose proof HT as (HS & HV). destruct (sh_chain _ _ HS) as (C1 & _ & C3).
  pose proof (walk_chain_ok s (ino T) (SH_zero _ _ HS) 0 C3 (Nat.max n (length (ino T))) ltac:(lia)) as EW'. rewrite <- C1 in EW'.
  rewrite (walk_chain_mono s n (Nat.max n (length (ino T))) _ _ ltac:(lia) EW) in EW'. injection EW' as ->.
  eapply tr_other; [exact R|exact EW|exact (treach_ko _ _ _ _ _ R)| |auto]. intros x Hx. split; [destruct (Z.eqb_spec x rec) as [->|]; [contradiction|reflexivity]|].
  destruct HV as [(_ & _ & V3)|(a & -> & N)]; [rewrite Forall_forall in V3; now apply V3|]. exfalso. revert Hx. cbn [ino app flat_map]. rewrite app_nil_r. unfold rows, rowsf.
  replace (hn s a) with 0 by intuition. intros [].
Qed.
