(** C21, C22, C23: the T-tree index. *)
From Coq Require Import ZArith List Bool Lia Permutation Sorted.
From Verif Require Import Base EncodingModel EncodingProofs CompareModel CompareProofs CompareProps TtreeModel TtreeShape TtreeArr TtreeRotate TtreeFix TtreeOrd TtreeAdd TtreeDel TtreeReach TtreePos.
Import ListNotations.
Open Scope Z_scope.
#[local] Ltac Zify.zify_post_hook ::= idtac.

(** The comparison of the database is a key order on any set of comparable
    values. *)
Theorem C21_compare_is_keyorder cs ok : comparable cs ok -> keyorder (WG_COMPARE cs) ok.
Proof.
  intros H. destruct (C06_compare_preorder cs ok WG_COMPARE_REC_DEPTH H) as (P1 & P2 & P3 & P4 & P5).
  constructor; auto. intros a Ha. destruct H as (H1 & _). destruct (H1 a Ha) as (t & St).
  assert (Ty : encoded_type (words cs) a = t /\ 1 <= t <= 14).
  { split; [now apply storable_type|]. now apply (produced_ty (words cs) t a), St. }
  destruct Ty as (Ty & Rt). assert (E255 : encoded_type (words cs) WG_ILLEGAL = -1) by reflexivity.
  unfold WG_COMPARE, WG_COMPARE_at. destruct (Z.eqb_spec a WG_ILLEGAL) as [->|_]; [lia|].
  destruct (Nat.eq_dec WG_COMPARE_REC_DEPTH 7) as [E|E]; [|now elim E]. rewrite E. cbn [wg_compare]. cbv zeta. rewrite Ty, E255.
  destruct (Z.eqb_spec (-1) t); [lia|]. unfold gt_or_less, WG_EQUAL. destruct (Z.ltb_spec (-1) t); [discriminate|lia].
Qed.
Print Assumptions C21_compare_is_keyorder.

(** Encoded small ints. *)
Definition smallints (e : Z) : Prop := exists i, 0 <= i < 1000 /\ e = encode_smallint i.
Lemma smallints_comparable cs : comparable cs smallints.
Proof.
  split.
  - intros e (i & Hi & ->). exists WG_INTTYPE. constructor; try discriminate. apply PSmall; [unfold is64; lia|].
    unfold fits_smallint. change (Z.shiftr (shl64 i 3) 3 =? i) with (decode_smallint (shl64 i 3) =? i). 
    unfold decode_smallint, shl64. rewrite Z.shiftl_mul_pow2 by lia. unfold wrap64. rewrite Z.shiftr_div_pow2 by lia.
    change (2 ^ 3) with 8. rewrite Z.mod_small by lia. replace (i * 8 + 2 ^ 63 - 2 ^ 63) with (i * 8) by lia. rewrite Z.div_mul by lia. apply Z.eqb_refl.
  - intros e j (i & Hi & ->) Ty. exfalso. rewrite (storable_type cs WG_INTTYPE) in Ty; [discriminate|]. constructor; try discriminate. apply PSmall; [unfold is64; lia|].
    unfold fits_smallint. change (Z.shiftr (shl64 i 3) 3 =? i) with (decode_smallint (shl64 i 3) =? i). 
    unfold decode_smallint, shl64. rewrite Z.shiftl_mul_pow2 by lia. unfold wrap64. rewrite Z.shiftr_div_pow2 by lia.
    change (2 ^ 3) with 8. rewrite Z.mod_small by lia. replace (i * 8 + 2 ^ 63 - 2 ^ 63) with (i * 8) by lia. rewrite Z.div_mul by lia. apply Z.eqb_refl.
Qed.
Example C21_keyorder_ex cs : keyorder (WG_COMPARE cs) smallints /\ smallints (encode_smallint 7).
Proof. split; [apply C21_compare_is_keyorder, smallints_comparable|]. exists 7. split; [lia|reflexivity]. Qed.

(** ** Concrete runs *)
(** Nodes of the chain (Db/dbindex.h l.46-48). *)
Fixpoint chain_nodes (n : nat) (s : tt) (a : Z) : option (list Z) :=
  if a =? 0 then Some [] else
  match n with
  | O => None
  | S n' => match chain_nodes n' s (hsucc s a) with None => None | Some l => Some (a :: l) end
  end.
Lemma chain_nodes_ok s L : ~ In 0 L -> forall p, chn s p L 0 -> forall n, (length L <= n)%nat -> chain_nodes n s (hd 0 L) = Some L.
Proof.
  induction L as [|a L IH]; intros Z0 p C n Hn; cbn [hd]; [destruct n; reflexivity|]. cbn [chn length] in *. destruct C as (_ & C2 & C3).
  destruct n as [|n]; [lia|]. cbn [chain_nodes]. destruct (Z.eqb_spec a 0) as [->|Ha]; [exfalso; apply Z0; now left|].
  rewrite C2. rewrite (IH ltac:(intros Hi; apply Z0; now right) a C3 n) by lia. reflexivity.
Qed.
Lemma chain_nodes_in s : forall n a L, chain_nodes n s a = Some L -> forall m b, b <> 0 -> nth_node m s a = b -> In b L.
Proof.
  induction n as [|n IH]; intros a L E m b Hb Hm; cbn [chain_nodes] in E; destruct (Z.eqb_spec a 0) as [->|Ha].
  - exfalso. destruct m; cbn [nth_node] in Hm; rewrite ?Z.eqb_refl in Hm; congruence.
  - discriminate.
  - exfalso. destruct m; cbn [nth_node] in Hm; rewrite ?Z.eqb_refl in Hm; congruence.
  - destruct (chain_nodes n s (hsucc s a)) as [l|] eqn:El; [|discriminate]. injection E as <-. destruct m as [|m]; cbn [nth_node] in Hm; [now left|].
    destruct (Z.eqb_spec a 0); [contradiction|]. right. eauto.
Qed.
Inductive op := Add (rec node : Z) | Del (rec : Z).
Definition step (cmp : Z -> Z -> Z) (key : Z -> Z) (domb : Z -> bool) (st : option (tt * list Z)) (o : op) : option (tt * list Z) :=
  match st with
  | None => None
  | Some (s, g) =>
      match o with
      | Add rec nd =>
          match chain_nodes 100 s (tminn s), ttree_add_row cmp key 100 s rec nd with
          | Some L, Some (s', rc) => if domb (key rec) && (0 <? nd) && (nd <? 2 ^ 63) && negb (existsb (Z.eqb nd) L) && (rc =? 0) then Some (s', rec :: g) else None
          | _, _ => None
          end
      | Del rec =>
          match ttree_remove_row cmp key 100 s rec 0 with
          | Some (s', rc) => if domb (key rec) && (rc =? 0) then Some (s', remove_one rec g) else None
          | None => None
          end
      end
  end.
Definition zero_tt : tt := TT (fun _ => 0) (fun _ => 0) (fun _ => 0) (fun _ => 0) (fun _ => 0) (fun _ => 0) (fun _ _ => 0) (fun _ => 0) (fun _ => 0) (fun _ => 0) (fun _ => 0) 0 0 0.
Definition run (cmp : Z -> Z -> Z) (key : Z -> Z) (domb : Z -> bool) (ops : list op) : option (tt * list Z) :=
  fold_left (step cmp key domb) ops (Some (ttree_init zero_tt 1, [])).
Lemma run_treach cmp key domb (dom : Z -> Prop) ops : keyorder cmp dom -> (forall k, domb k = true -> dom k) -> forall s g, run cmp key domb ops = Some (s, g) -> treach cmp dom s key (Some g).
Proof.
  intros KO Hd. unfold run.
  assert (G : forall ops st, (forall s g, st = Some (s, g) -> treach cmp dom s key (Some g)) -> forall s g, fold_left (step cmp key domb) ops st = Some (s, g) -> treach cmp dom s key (Some g)).
  { clear ops. induction ops as [|o ops IH]; intros st H s g; cbn [fold_left]; [apply H|]. apply IH. clear s g. intros s g E. destruct st as [(s0 & g0)|]; [|discriminate].
    specialize (H s0 g0 eq_refl). destruct o as [rec nd|rec]; cbn [step] in E.
    - destruct (chain_nodes 100 s0 (tminn s0)) as [L|] eqn:El; [|discriminate]. destruct (ttree_add_row cmp key 100 s0 rec nd) as [(s1 & rc)|] eqn:Ea; [|discriminate].
      destruct (domb (key rec)) eqn:D; [|discriminate]. destruct (Z.ltb_spec 0 nd); [|discriminate]. destruct (Z.ltb_spec nd (2 ^ 63)); [|discriminate].
      destruct (existsb (Z.eqb nd) L) eqn:Ex; [discriminate|]. destruct (Z.eqb_spec rc 0) as [->|]; [|discriminate]. injection E as <- <-.
      apply (tr_add cmp dom s0 key (Some g0) rec nd 100 s1 0); auto. right. split; [lia|]. intros (_ & m & Hm).
      assert (Hi : In nd L) by (apply (chain_nodes_in s0 100 (tminn s0) L El m nd); [lia|exact Hm]).
      assert (T : existsb (Z.eqb nd) L = true) by (apply existsb_exists; exists nd; split; [exact Hi|apply Z.eqb_refl]). congruence.
    - destruct (ttree_remove_row cmp key 100 s0 rec 0) as [(s1 & rc)|] eqn:Ea; [|discriminate].
      destruct (domb (key rec)) eqn:D; [|discriminate]. destruct (Z.eqb_spec rc 0) as [->|]; [|discriminate]. injection E as <- <-.
      apply (tr_remove cmp dom s0 key (Some g0) rec 0 100 s1 0); auto. }
  intros s g. apply G. intros s0 g0 E. injection E as <- <-. apply tr_init; [exact KO|lia].
Qed.
(** Forty rows with keys from 0 to 12, then half of them removed. Row r has the
    key (5 * r) mod 13. *)
Definition ex_key (r : Z) : Z := encode_smallint ((5 * r) mod 13).
Definition ex_domb (k : Z) : bool := existsb (fun i => encode_smallint (Z.of_nat i) =? k) (seq 0 20).
Definition ex_ops : list op :=
  map (fun i => Add (Z.of_nat i + 1) (Z.of_nat i + 2)) (seq 0 40) ++ map (fun i => Del (2 * Z.of_nat i + 1)) (seq 0 20).
Definition ex_cs : cstate := CSt (fun _ => 0) 4096.
Definition ex_run := run (WG_COMPARE ex_cs) ex_key ex_domb.
Lemma ex_dom k : ex_domb k = true -> smallints k.
Proof.
  intros H. apply existsb_exists in H. destruct H as (i & Hi & E). apply in_seq in Hi. apply Z.eqb_eq in E. exists (Z.of_nat i). split; [lia|auto].
Qed.
Lemma ex_treach ops (f : tt * list Z -> bool) : match ex_run ops with Some r => f r | None => false end = true ->
  exists s g, treach (WG_COMPARE ex_cs) smallints s ex_key (Some g) /\ f (s, g) = true.
Proof.
  destruct (ex_run ops) as [(s & g)|] eqn:E; [|discriminate]. intros H. exists s, g. split; [|exact H]. exact (run_treach _ _ _ smallints ops (C21_compare_is_keyorder ex_cs smallints (smallints_comparable ex_cs)) ex_dom s g E).
Qed.

Section Props.
Variables (cmp : Z -> Z -> Z) (dom : Z -> Prop).
Hypothesis KO : keyorder cmp dom.

Lemma node_rows_eq s a : node_rows s a = rows s a.
Proof. reflexivity. Qed.

(** C21. The walk along the chain and the walk by the child links both give the
    rows that were inserted and not removed, in key order. *)
Theorem C21_index_contents s key g : treach cmp dom s key (Some g) ->
  exists W, Permutation W g /\ StronglySorted (fun x y => cmp (key x) (key y) <> WG_GREATER) W /\
  forall n, (length g < n)%nat -> walk_chain n s (tminn s) = Some W /\ walk_tree n s (troot s) = Some W.
Proof.
  intros R. destruct (TR_treach cmp dom KO s key (Some g) R) as (T & HT & HG). exists (cont s T). split; [exact HG|].
  pose proof (TI_len cmp dom s key T HT) as Hl. rewrite (Permutation_length HG) in Hl. destruct HT as (H & HV). split.
  - destruct HV as [(_ & V & _)|(a & -> & N0 & _)]; [exact V|]. unfold cont. cbn [ino app flat_map]. rewrite app_nil_r. unfold rows. rewrite N0. constructor.
  - intros n Hn. split.
    + destruct (sh_chain _ _ H) as (-> & _ & C). apply (walk_chain_ok s (ino T) (SH_zero _ _ H) 0 C). lia.
    + rewrite (sh_root _ _ H). apply (walk_tree_ok s T 0 (sh_st _ _ H)). pose proof (ht_len T). lia.
Qed.

(** C21. Inserting a row succeeds if a new node can be had, however the tree is
    shaped. *)
Theorem C21_insert_succeeds s key G rec nd : treach cmp dom s key G -> dom (key rec) -> 0 < nd < 2 ^ 63 -> ~ in_index s nd ->
  exists s' n, forall fuel, (n <= fuel)%nat -> ttree_add_row cmp key fuel s rec nd = Some (s', 0).
Proof.
  intros R D Hn Hf. destruct (TR_treach cmp dom KO s key G R) as (T & HT & _). pose proof HT as (HS & _).
  destruct (add_ok cmp dom KO key s T rec nd (length (ino T) + 2) HT D) as (s' & rc & E & Hr); [|lia|].
  { right. split; [exact Hn|]. apply (fresh_in s); auto; lia. }
  destruct Hr as [(-> & _)|(_ & -> & _)]; [|lia]. exists s', (length (ino T) + 2)%nat. intros fuel Hfu. now apply (add_row_mono cmp key (length (ino T) + 2)).
Qed.

(** C21. Removing a row that the walk meets succeeds. *)
Theorem C21_remove_succeeds s key G rec junk n W : treach cmp dom s key G -> dom (key rec) ->
  walk_chain n s (tminn s) = Some W -> In rec W ->
  exists s' m, forall fuel, (m <= fuel)%nat -> ttree_remove_row cmp key fuel s rec junk = Some (s', 0).
Proof.
  intros R D EW HW. destruct (TR_treach cmp dom KO s key G R) as (T & HT & _). pose proof HT as (HS & _).
  assert (W = cont s T) as ->.
  { destruct (sh_chain _ _ HS) as (C1 & _ & C3). rewrite C1 in EW. apply (walk_chain_mono s n (Nat.max n (length (ino T)))) in EW; [|lia].
    rewrite (walk_chain_ok s (ino T) (SH_zero _ _ HS) 0 C3) in EW by lia. now injection EW. }
  destruct (remove_ok cmp dom KO key s T rec junk (2 * length (ino T) + 2) HT D ltac:(lia)) as (s' & rc & E & [(_ & -> & _)|(Hn & _)]); [|contradiction].
  exists s', (2 * length (ino T) + 2)%nat. intros fuel Hfu. now apply (remove_row_mono cmp key (2 * length (ino T) + 2)).
Qed.

(** C21. Removing a row that is not in the index reports it and changes
    nothing. *)
Theorem C21_remove_absent s key G rec junk n W : treach cmp dom s key G -> dom (key rec) ->
  walk_chain n s (tminn s) = Some W -> ~ In rec W ->
  exists rc m, (rc = -2 \/ rc = -3) /\ forall fuel, (m <= fuel)%nat -> ttree_remove_row cmp key fuel s rec junk = Some (s, rc).
Proof.
  intros R D EW HW. destruct (TR_treach cmp dom KO s key G R) as (T & HT & _). pose proof HT as (HS & _).
  assert (W = cont s T) as ->.
  { destruct (sh_chain _ _ HS) as (C1 & _ & C3). rewrite C1 in EW. apply (walk_chain_mono s n (Nat.max n (length (ino T)))) in EW; [|lia].
    rewrite (walk_chain_ok s (ino T) (SH_zero _ _ HS) 0 C3) in EW by lia. now injection EW. }
  destruct (remove_ok cmp dom KO key s T rec junk (2 * length (ino T) + 2) HT D ltac:(lia)) as (s' & rc & E & [(Hn & _)|(_ & Hr & ->)]); [contradiction|].
  exists rc, (2 * length (ino T) + 2)%nat. split; [exact Hr|]. intros fuel Hfu. now apply (remove_row_mono cmp key (2 * length (ino T) + 2)).
Qed.

(** C21. When no node can be had the insertion either succeeds or returns -1; in
    the latter case exactly one row, maybe another one, is missing afterwards. *)
Theorem C21_insert_without_memory s key G rec : treach cmp dom s key G -> dom (key rec) ->
  exists s' rc m, (forall fuel, (m <= fuel)%nat -> ttree_add_row cmp key fuel s rec 0 = Some (s', rc)) /\
  (rc = 0 \/ rc = -1 /\ exists n W W' lost, walk_chain n s (tminn s) = Some W /\ walk_chain n s' (tminn s') = Some W' /\
     Permutation (lost :: W') (rec :: W)).
Proof.
  intros R D. destruct (TR_treach cmp dom KO s key G R) as (T & HT & _).
  destruct (add_ok cmp dom KO key s T rec 0 (length (ino T) + 2) HT D) as (s' & rc & E & Hr); [now left|lia|].
  exists s', rc, (length (ino T) + 2)%nat. split; [intros fuel Hfu; now apply (add_row_mono cmp key (length (ino T) + 2))|].
  destruct Hr as [(-> & _)|(-> & _ & HT' & m & P)]; [now left|right]. split; [reflexivity|]. exists (length (ino T)), (cont s T), (cont s' T), m.
  destruct HT as (H & _), HT' as (H' & _). destruct (sh_chain _ _ H) as (-> & _ & C). destruct (sh_chain _ _ H') as (-> & _ & C').
  split; [apply (walk_chain_ok s (ino T) (SH_zero _ _ H) 0 C); lia|]. split; [apply (walk_chain_ok s' (ino T) (SH_zero _ _ H') 0 C'); lia|exact P].
Qed.

(** A part of the tree read by its pointers: the parent links are right, the
    stored heights of the two sides are their real heights and differ by at most
    one. *)
Inductive subtree (s : tt) : Z -> Z -> Z -> Prop :=
| sub_nil p : subtree s p 0 0
| sub_node p a hl hr : a <> 0 -> hpar s a = p -> subtree s a (hleft s a) hl -> subtree s a (hright s a) hr ->
    hlh s a = hl -> hrh s a = hr -> Z.abs (hl - hr) <= 1 -> subtree s p a (1 + Z.max hl hr).
Lemma st_subtree s t : forall p, st s p t -> bal t -> subtree s p (addr t) (ht t).
Proof.
  induction t as [|l IHl a r IHr]; intros p H B; cbn [addr ht st bal] in *; [constructor|].
  destruct H as (A0 & A1 & A2 & A3 & A4 & A5 & Hl & Hr). destruct B as (Bl & Br & Hb). apply sub_node; auto; [rewrite A2; auto|rewrite A3; auto|lia].
Qed.

(** C22. Balance, right heights, node sizes, and a height logarithmic in the
    number of nodes. *)
Theorem C22_index_balanced s key G : treach cmp dom s key G ->
  exists h L, subtree s 0 (troot s) h /\ NoDup L /\ (forall a, In a L <-> in_index s a) /\
  2 ^ (h / 2) <= Z.of_nat (length L) + 1 /\
  (Forall (fun a => 1 <= hn s a <= WG_TNODE_ARRAY_SIZE) L \/ L = [troot s] /\ hn s (troot s) = 0) /\
  match G with Some g => (length L <= length g + 1)%nat | None => True end.
Proof.
  intros R. destruct (TR_treach cmp dom KO s key G R) as (T & HT & HG). pose proof HT as (H & HV). exists (ht T), (ino T).
  split; [rewrite (sh_root _ _ H); apply st_subtree; [exact (sh_st _ _ H)|exact (sh_bal _ _ H)]|].
  split; [exact (sh_nd _ _ H)|]. split.
  { intros a. destruct (sh_chain _ _ H) as (C1 & _ & C3). split.
    - intros Hi. split; [intros ->; now apply (SH_zero _ _ H)|]. rewrite C1. apply (in_nth_node s (ino T) (SH_zero _ _ H) 0 C3 a Hi).
    - intros (A0 & n & E). rewrite C1 in E. apply (nth_node_in s (ino T) (SH_zero _ _ H) 0 C3 n a A0 E). }
  split; [apply ht_size, H|]. split.
  - destruct HV as [(V & _)|(a & -> & N0 & _)].
    + left. rewrite Forall_forall in *. intros a Ha. destruct (V a Ha) as (N & _). change WG_TNODE_ARRAY_SIZE with 8. lia.
    + right. rewrite (sh_root _ _ H). auto.
  - destruct G as [g|]; [|exact I]. pose proof (TI_len cmp dom s key T HT). rewrite <- (Permutation_length HG). lia.
Qed.

(** Rows before and from a slot of a node of the chain. *)
Definition rows_before (s : tt) (A : list Z) (b i : Z) : list Z := flat_map (node_rows s) A ++ firstn (Z.to_nat i) (node_rows s b).
Definition rows_from (s : tt) (b i : Z) (B : list Z) : list Z := skipn (Z.to_nat i) (node_rows s b) ++ flat_map (node_rows s) B.
Lemma firstn_rows s b i : 0 <= i <= hn s b -> firstn (Z.to_nat i) (node_rows s b) = rowsf (harr s b) i /\ skipn (Z.to_nat i) (node_rows s b) = rowsf (fun j => harr s b (j + i)) (hn s b - i).
Proof.
  intros Hi. rewrite node_rows_eq. unfold rows. replace (hn s b) with (i + (hn s b - i)) at 1 2 by lia. rewrite rowsf_app by lia.
  rewrite firstn_app, skipn_app, rowsf_length, Nat.sub_diag. cbn [firstn skipn]. rewrite app_nil_r. split; [apply firstn_all2; rewrite rowsf_length; lia|].
  rewrite skipn_all2; [reflexivity|rewrite rowsf_length; lia].
Qed.
Lemma pos_rows s L A b B i P Q : NoDup L -> L = A ++ b :: B -> at_pos s L b i P Q -> 0 <= i < hn s b /\ P = rows_before s A b i /\ Q = rows_from s b i B.
Proof.
  intros N E (A' & B' & E' & Hi & -> & ->). rewrite E in N, E'. destruct (nodup_split A B A' B' b N E') as (-> & ->). split; [exact Hi|].
  destruct (firstn_rows s b i ltac:(lia)) as (F1 & F2). unfold rows_before, rows_from. now rewrite F1, F2.
Qed.
Lemma rb_all s A b : rows_before s A b 0 = flat_map (node_rows s) A.
Proof. unfold rows_before. cbn. now rewrite app_nil_r. Qed.

(** C23. Left-most search: in the bounding node the first slot whose row is not
    below the key splits all rows into those below and the others; at a dead end
    the node itself does. *)
Theorem C23_leftmost_search s key G k : treach cmp dom s key G -> dom k ->
  exists L b res, (forall n, (length L <= n)%nat -> chain_nodes n s (tminn s) = Some L /\ wg_search_ttree_leftmost cmp n s (troot s) k 0 = Some (b, res)) /\
  exists A B, L = A ++ b :: B /\
  match res with
  | REALLY_BOUNDING_NODE => let i := wg_search_tnode_first cmp key s b k in
      0 <= i < hn s b /\ Forall (fun x => cmp (key x) k = WG_LESSTHAN) (rows_before s A b i) /\ Forall (fun x => cmp (key x) k <> WG_LESSTHAN) (rows_from s b i B)
  | DEAD_END_LEFT_NOT_BOUNDING =>
      Forall (fun x => cmp (key x) k = WG_LESSTHAN) (rows_before s A b 0) /\ Forall (fun x => cmp (key x) k = WG_GREATER) (rows_from s b 0 B)
  | DEAD_END_RIGHT_NOT_BOUNDING =>
      Forall (fun x => cmp (key x) k = WG_LESSTHAN) (rows_before s A b (hn s b)) /\ Forall (fun x => cmp (key x) k = WG_GREATER) (rows_from s b (hn s b) B)
  end.
Proof.
  intros R D. destruct (TR_treach cmp dom KO s key G R) as (T & (H & HV) & _). destruct (sh_chain _ _ H) as (C1 & _ & C3).
  assert (Ch : forall n, (length (ino T) <= n)%nat -> chain_nodes n s (tminn s) = Some (ino T)).
  { intros n Hn. rewrite C1. apply (chain_nodes_ok s (ino T) (SH_zero _ _ H) 0 C3 n Hn). }
  destruct HV as [V|Nr].
  - pose proof (ht_len T) as Hl. destruct (leftmost_ok cmp dom KO key s k (ino T) V D T 0 (length (ino T)) [] [] 0 (sh_st _ _ H) (sh_nz _ _ H)) as (b & res & E & l1 & l2 & EL & S0); auto; [cbn; now rewrite app_nil_r|lia|].
    rewrite <- (sh_root _ _ H) in E.
    exists (ino T), b, res. split; [intros n Hn; split; [auto|now apply (leftmost_mono cmp s k (length (ino T)))]|]. exists l1, l2. split; [exact EL|].
    assert (V' := V). rewrite EL in V'.
    assert (Cv : forall P Q, flat_map (rows s) (ino T) = P ++ Q -> Forall (fun x => cmp k (key x) = WG_LESSTHAN) Q -> Forall (fun x => cmp (key x) k = WG_GREATER) Q).
    { intros P Q EW FQ. destruct V as (_ & _ & Dv). rewrite EW, Forall_app in Dv. destruct Dv as (_ & Dv). rewrite Forall_forall in *. intros x Hx. apply (ko_flip _ _ KO); auto. }
    destruct res.
    + destruct S0 as (R1 & R2 & R3). destruct (first_pos cmp dom KO key s l1 b l2 k V' D R2 R3) as (Ni & P & Q & Hp & FP & FQ). rewrite <- EL in Hp.
      destruct (pos_rows s (ino T) l1 b l2 _ P Q (sh_nd _ _ H) EL Hp) as (Hi & EP & EQ). cbv zeta. rewrite <- EP, <- EQ. split; [exact Hi|]. split; [exact FP|].
      pose proof (pos_cat _ _ _ _ _ _ Hp) as EW. destruct V as (_ & _ & Dv). rewrite EW, Forall_app in Dv. destruct Dv as (_ & Dv). rewrite Forall_forall in *. intros x Hx C. apply (lt_not_le cmp dom KO (key x) k); auto.
    + destruct S0 as (R1 & R2 & R3). rewrite rb_all. unfold rows_from. cbn [Z.to_nat skipn]. change (node_rows s b ++ flat_map (node_rows s) l2) with (flat_map (rows s) (b :: l2)). split.
      * rewrite Forall_forall. apply (below_rows cmp dom KO key s k l1); auto. exact (proj1 (VL_app cmp dom key _ _ _ V')).
      * apply (Cv (flat_map (rows s) l1)); [now rewrite EL, flat_map_app|]. rewrite Forall_forall. apply (above_rows cmp dom KO key s k (b :: l2)); auto. exact (proj2 (VL_app cmp dom key _ _ _ V')).
    + destruct S0 as (R1 & R2 & R3). destruct (VL_node cmp dom KO key _ _ _ _ V') as ((N & _) & _).
      assert (E1 : rows_before s l1 b (hn s b) = flat_map (rows s) (l1 ++ [b]) /\ rows_from s b (hn s b) l2 = flat_map (rows s) l2).
      { destruct (firstn_rows s b (hn s b) ltac:(lia)) as (F1 & F2). unfold rows_before, rows_from. rewrite F1, F2, Z.sub_diag, flat_map_app. cbn [flat_map]. rewrite app_nil_r. auto. }
      destruct E1 as (-> & ->). assert (EL' : ino T = (l1 ++ [b]) ++ l2) by (rewrite EL, <- app_assoc; reflexivity). assert (V'' := V). rewrite EL' in V''. split.
      * rewrite Forall_forall. apply (below_rows cmp dom KO key s k (l1 ++ [b])); auto. exact (proj1 (VL_app cmp dom key _ _ _ V'')).
      * apply (Cv (flat_map (rows s) (l1 ++ [b]))); [now rewrite EL', flat_map_app|]. rewrite Forall_forall. apply (above_rows cmp dom KO key s k l2); auto. exact (proj2 (VL_app cmp dom key _ _ _ V'')).
  - destruct Nr as (a & -> & N0 & Mi & Ma). pose proof (sh_st _ _ H) as S0. pose proof (sh_root _ _ H) as Rt. cbn [st addr ino app] in *. destruct S0 as (A0 & _ & A2 & A3 & _).
    assert (E0 : node_rows s a = []) by (unfold node_rows; now rewrite N0). pose proof (ko_ill _ _ KO _ D) as Ill.
    destruct (ko_tri _ _ KO k WG_ILLEGAL) as [E|[E|E]]; [exists [a], a, DEAD_END_LEFT_NOT_BOUNDING|now elim Ill|exists [a], a, DEAD_END_RIGHT_NOT_BOUNDING];
    (split; [intros n Hn; split; [now apply Ch|]; destruct n as [|n]; [cbn in Hn; lia|]; rewrite Rt; cbn [wg_search_ttree_leftmost]; rewrite ?Mi, ?Ma, ?A2, ?A3, E; reflexivity|]);
    exists [], []; (split; [reflexivity|]); unfold rows_before, rows_from; rewrite E0, firstn_nil, skipn_nil; cbn; auto.
Qed.

(** C23. Right-most search, with the last slot whose row is not above the key. *)
Theorem C23_rightmost_search s key G k : treach cmp dom s key G -> dom k ->
  exists L b res, (forall n, (length L <= n)%nat -> chain_nodes n s (tminn s) = Some L /\ wg_search_ttree_rightmost cmp n s (troot s) k 0 = Some (b, res)) /\
  exists A B, L = A ++ b :: B /\
  match res with
  | REALLY_BOUNDING_NODE => let i := wg_search_tnode_last cmp key s b k in
      0 <= i < hn s b /\ Forall (fun x => cmp (key x) k <> WG_GREATER) (rows_before s A b (i + 1)) /\ Forall (fun x => cmp (key x) k = WG_GREATER) (rows_from s b (i + 1) B)
  | DEAD_END_LEFT_NOT_BOUNDING =>
      Forall (fun x => cmp (key x) k = WG_LESSTHAN) (rows_before s A b 0) /\ Forall (fun x => cmp (key x) k = WG_GREATER) (rows_from s b 0 B)
  | DEAD_END_RIGHT_NOT_BOUNDING =>
      Forall (fun x => cmp (key x) k = WG_LESSTHAN) (rows_before s A b (hn s b)) /\ Forall (fun x => cmp (key x) k = WG_GREATER) (rows_from s b (hn s b) B)
  end.
Proof.
  intros R D. destruct (TR_treach cmp dom KO s key G R) as (T & (H & HV) & _). destruct (sh_chain _ _ H) as (C1 & _ & C3).
  assert (Ch : forall n, (length (ino T) <= n)%nat -> chain_nodes n s (tminn s) = Some (ino T)).
  { intros n Hn. rewrite C1. apply (chain_nodes_ok s (ino T) (SH_zero _ _ H) 0 C3 n Hn). }
  destruct HV as [V|Nr].
  - pose proof (ht_len T) as Hl. destruct (rightmost_ok cmp dom KO key s k (ino T) V D T 0 (length (ino T)) [] [] 0 (sh_st _ _ H) (sh_nz _ _ H)) as (b & res & E & l1 & l2 & EL & S0); auto; [cbn; now rewrite app_nil_r|lia|].
    rewrite <- (sh_root _ _ H) in E.
    exists (ino T), b, res. split; [intros n Hn; split; [auto|now apply (rightmost_mono cmp s k (length (ino T)))]|]. exists l1, l2. split; [exact EL|].
    assert (V' := V). rewrite EL in V'.
    assert (Cv : forall P Q, flat_map (rows s) (ino T) = P ++ Q -> Forall (fun x => cmp k (key x) = WG_LESSTHAN) Q -> Forall (fun x => cmp (key x) k = WG_GREATER) Q).
    { intros P Q EW FQ. destruct V as (_ & _ & Dv). rewrite EW, Forall_app in Dv. destruct Dv as (_ & Dv). rewrite Forall_forall in *. intros x Hx. apply (ko_flip _ _ KO); auto. }
    destruct res.
    + destruct S0 as (R1 & R2 & R3). destruct (last_pos cmp dom KO key s l1 b l2 k V' D R1 R3) as (Ni & P & x & Q & Hp & FP & FQ). rewrite <- EL in Hp.
      destruct (pos_rows s (ino T) l1 b l2 _ P (x :: Q) (sh_nd _ _ H) EL Hp) as (Hi & EP & EQ). cbv zeta. split; [exact Hi|].
      set (i := wg_search_tnode_last cmp key s b k) in *. destruct (firstn_rows s b i ltac:(lia)) as (F1 & F2). destruct (firstn_rows s b (i + 1) ltac:(lia)) as (F3 & F4).
      assert (Eq : x = harr s b i /\ Q = rows_from s b (i + 1) l2).
      { unfold rows_from in *. rewrite F2 in EQ. rewrite F4. replace (hn s b - i) with (1 + (hn s b - (i + 1))) in EQ by lia. rewrite rowsf_cons in EQ by lia. cbn [app] in EQ. injection EQ as -> ->. split; [f_equal; lia|].
        f_equal. apply rowsf_ext. intros j Hj. f_equal. lia. }
      destruct Eq as (Ex & EQ'). replace (rows_before s l1 b (i + 1)) with (P ++ [x]).
      2:{ rewrite EP, Ex. unfold rows_before. rewrite F1, F3, rowsf_snoc by lia. now rewrite app_assoc. }
      rewrite <- EQ'. split; [exact FP|]. apply (Cv (P ++ [x])); [|exact FQ]. rewrite <- app_assoc. exact (pos_cat _ _ _ _ _ _ Hp).
    + destruct S0 as (R1 & R2 & R3). rewrite rb_all. unfold rows_from. cbn [Z.to_nat skipn]. change (node_rows s b ++ flat_map (node_rows s) l2) with (flat_map (rows s) (b :: l2)). split.
      * rewrite Forall_forall. apply (below_rows cmp dom KO key s k l1); auto. exact (proj1 (VL_app cmp dom key _ _ _ V')).
      * apply (Cv (flat_map (rows s) l1)); [now rewrite EL, flat_map_app|]. rewrite Forall_forall. apply (above_rows cmp dom KO key s k (b :: l2)); auto. exact (proj2 (VL_app cmp dom key _ _ _ V')).
    + destruct S0 as (R1 & R2 & R3). destruct (VL_node cmp dom KO key _ _ _ _ V') as ((N & _) & _).
      assert (E1 : rows_before s l1 b (hn s b) = flat_map (rows s) (l1 ++ [b]) /\ rows_from s b (hn s b) l2 = flat_map (rows s) l2).
      { destruct (firstn_rows s b (hn s b) ltac:(lia)) as (F1 & F2). unfold rows_before, rows_from. rewrite F1, F2, Z.sub_diag, flat_map_app. cbn [flat_map]. rewrite app_nil_r. auto. }
      destruct E1 as (-> & ->). assert (EL' : ino T = (l1 ++ [b]) ++ l2) by (rewrite EL, <- app_assoc; reflexivity). assert (V'' := V). rewrite EL' in V''. split.
      * rewrite Forall_forall. apply (below_rows cmp dom KO key s k (l1 ++ [b])); auto. exact (proj1 (VL_app cmp dom key _ _ _ V'')).
      * apply (Cv (flat_map (rows s) (l1 ++ [b]))); [now rewrite EL', flat_map_app|]. rewrite Forall_forall. apply (above_rows cmp dom KO key s k l2); auto. exact (proj2 (VL_app cmp dom key _ _ _ V'')).
  - destruct Nr as (a & -> & N0 & Mi & Ma). pose proof (sh_st _ _ H) as S0. pose proof (sh_root _ _ H) as Rt. cbn [st addr ino app] in *. destruct S0 as (A0 & _ & A2 & A3 & _).
    assert (E0 : node_rows s a = []) by (unfold node_rows; now rewrite N0). pose proof (ko_ill _ _ KO _ D) as Ill.
    destruct (ko_tri _ _ KO k WG_ILLEGAL) as [E|[E|E]]; [exists [a], a, DEAD_END_LEFT_NOT_BOUNDING|now elim Ill|exists [a], a, DEAD_END_RIGHT_NOT_BOUNDING];
    (split; [intros n Hn; split; [now apply Ch|]; destruct n as [|n]; [cbn in Hn; lia|]; rewrite Rt; cbn [wg_search_ttree_rightmost]; rewrite ?Mi, ?Ma, ?A2, ?A3, ?E; try reflexivity|]);
    try (exists [], []; (split; [reflexivity|]); unfold rows_before, rows_from; rewrite E0, firstn_nil, skipn_nil; cbn; auto).
    all: cbn; rewrite ?Ma, ?E; reflexivity.
Qed.
End Props.
Print Assumptions C21_index_contents.
Print Assumptions C21_insert_succeeds.
Print Assumptions C21_remove_succeeds.
Print Assumptions C21_remove_absent.
Print Assumptions C21_insert_without_memory.
Print Assumptions C22_index_balanced.
Print Assumptions C23_leftmost_search.
Print Assumptions C23_rightmost_search.

(** A run of forty insertions and twenty removals that ends with twenty rows in
    several nodes, and the answers for row 2 (present), 1 (removed) and key 10. *)
Definition ex_check (r : tt * list Z) : bool :=
  let '(s, g) := r in
  (Z.of_nat (length g) =? 20) && negb (hleft s (troot s) =? 0) && negb (hright s (troot s) =? 0) &&
  match walk_chain 50 s (tminn s) with Some W => (Z.of_nat (length W) =? 20) && existsb (Z.eqb 2) W && negb (existsb (Z.eqb 1) W) | None => false end &&
  match ttree_remove_row (WG_COMPARE ex_cs) ex_key 100 s 2 0, ttree_remove_row (WG_COMPARE ex_cs) ex_key 100 s 1 0 with
  | Some (_, rc), Some (_, rc') => (rc =? 0) && (rc' <? 0) | _, _ => false end &&
  match chain_nodes 50 s (tminn s) with Some L => negb (existsb (Z.eqb 500) L) | None => false end &&
  match wg_search_ttree_leftmost (WG_COMPARE ex_cs) 50 s (troot s) (encode_smallint 10) 0, wg_search_ttree_rightmost (WG_COMPARE ex_cs) 50 s (troot s) (encode_smallint 10) 0 with
  | Some (_, REALLY_BOUNDING_NODE), Some (_, REALLY_BOUNDING_NODE) => true | _, _ => false end.
Example C21_C22_C23_hyp : exists s g, treach (WG_COMPARE ex_cs) smallints s ex_key (Some g) /\ ex_check (s, g) = true.
Proof. apply (ex_treach ex_ops). vm_compute. reflexivity. Qed.
Lemma existsb_in x l : existsb (Z.eqb x) l = true <-> In x l.
Proof. rewrite existsb_exists. split; [intros (y & Hy & E); apply Z.eqb_eq in E; now subst|intros H; exists x; split; [exact H|apply Z.eqb_refl]]. Qed.
Example C21_remove_hyp : exists s g n W, treach (WG_COMPARE ex_cs) smallints s ex_key (Some g) /\
  walk_chain n s (tminn s) = Some W /\ In 2 W /\ ~ In 1 W /\ smallints (ex_key 2) /\ smallints (ex_key 1).
Proof.
  destruct C21_C22_C23_hyp as (s & g & R & Hc). unfold ex_check in Hc. rewrite !andb_true_iff in Hc. destruct Hc as ((((_ & Hc) & _) & _) & _).
  destruct (walk_chain 50 s (tminn s)) as [W|] eqn:E; [|discriminate]. rewrite !andb_true_iff, negb_true_iff in Hc. destruct Hc as ((_ & H2) & H1).
  exists s, g, 50%nat, W. split; [exact R|]. split; [exact E|]. split; [now apply existsb_in|]. split; [rewrite <- existsb_in, H1; discriminate|].
  split; apply ex_dom; vm_compute; reflexivity.
Qed.
Example C21_insert_hyp : exists s g, treach (WG_COMPARE ex_cs) smallints s ex_key (Some g) /\ ~ in_index s 500 /\ smallints (ex_key 41).
Proof.
  destruct C21_C22_C23_hyp as (s & g & R & Hc). unfold ex_check in Hc. rewrite !andb_true_iff in Hc. destruct Hc as ((_ & Hc) & _).
  destruct (chain_nodes 50 s (tminn s)) as [L|] eqn:E; [|discriminate]. exists s, g. split; [exact R|]. split; [|apply ex_dom; vm_compute; reflexivity].
  intros (_ & m & Hm). apply negb_true_iff in Hc. assert (In 500 L) by (apply (chain_nodes_in s 50 (tminn s) L E m); [lia|exact Hm]).
  apply existsb_in in H. congruence.
Qed.

(** An insertion that fails for lack of memory is not undone: with eight rows in
    the only node, inserting row 9 returns -1, yet row 9 is in the index
    afterwards and row 8, which was there before, is not. *)
Theorem C21_failed_insert_unchanged_refuted :
  exists s g s' W W', treach (WG_COMPARE ex_cs) smallints s ex_key (Some g) /\ smallints (ex_key 9) /\
  ttree_add_row (WG_COMPARE ex_cs) ex_key 100 s 9 0 = Some (s', -1) /\
  walk_chain 100 s (tminn s) = Some W /\ walk_chain 100 s' (tminn s') = Some W' /\
  In 8 W /\ ~ In 9 W /\ ~ In 8 W' /\ In 9 W'.
Proof.
  destruct (ex_treach (map (fun i => Add (Z.of_nat i + 1) (Z.of_nat i + 2)) (seq 0 8)) (fun r => let '(s, g) := r in
    match ttree_add_row (WG_COMPARE ex_cs) ex_key 100 s 9 0, walk_chain 100 s (tminn s) with
    | Some (s', rc), Some W => match walk_chain 100 s' (tminn s') with
        | Some W' => (rc =? -1) && existsb (Z.eqb 8) W && negb (existsb (Z.eqb 9) W) && negb (existsb (Z.eqb 8) W') && existsb (Z.eqb 9) W'
        | None => false end
    | _, _ => false end)) as (s & g & R & Hc); [vm_compute; reflexivity|].
  cbv beta iota in Hc.
  destruct (ttree_add_row (WG_COMPARE ex_cs) ex_key 100 s 9 0) as [(s' & rc)|] eqn:Ea; [|discriminate]. destruct (walk_chain 100 s (tminn s)) as [W|] eqn:Ew; [|discriminate].
  destruct (walk_chain 100 s' (tminn s')) as [W'|] eqn:Ew'; [|discriminate]. rewrite !andb_true_iff, !negb_true_iff in Hc. destruct Hc as ((((Hr & H1) & H2) & H3) & H4).
  apply Z.eqb_eq in Hr. subst rc. exists s, g, s', W, W'. split; [exact R|]. split; [apply ex_dom; vm_compute; reflexivity|].
  split; [exact Ea|]. split; [exact Ew|]. split; [exact Ew'|]. rewrite <- !existsb_in. rewrite H1, H2, H3, H4. auto.
Qed.
Print Assumptions C21_failed_insert_unchanged_refuted.
