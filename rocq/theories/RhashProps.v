(** C81: the hash lists of the reasoner have the atoms stored for a hash. *)
From Coq Require Import ZArith Bool List Lia.
From Verif Require Import RhashModel.
Import ListNotations.
Open Scope Z_scope.

(** The list of nodes from an offset on; [own] tells the use of an offset: 0 for a node in a chain, else the hash whose first node it is. *)
Inductive chain (hp : Z -> node) (own : Z -> Z) (lv : Z -> bool) : Z -> list (Z * Z) -> Prop :=
  | Ch0 : chain hp own lv 0 []
  | ChS : forall a l, a <> 0 -> own a = 0 -> lv a = true -> chain hp own lv (next (hp a)) l -> chain hp own lv a ((first (hp a), ncl (hp a)) :: l).
Lemma chain_same : forall hp own lv hp' own' lv' a l, chain hp own lv a l -> (forall b, own b = 0 -> lv b = true -> hp' b = hp b /\ own' b = 0 /\ lv' b = true) -> chain hp' own' lv' a l.
Proof.
  intros hp own lv hp' own' lv' a l C. induction C; intros H3; [constructor|]. destruct (H3 a) as (A & B & D); [assumption|assumption|]. rewrite <- A. constructor; try assumption.
  rewrite A. apply IHC, H3.
Qed.
(** A table that has the atoms [f h] in the chain of [h]. *)
Definition holds (t : table) (f : Z -> list (Z * Z)) : Prop :=
  exists own, forall h, 1 <= h < vlen t ->
    (hvec t h = 0 /\ f h = []) \/
    (hvec t h <> 0 /\ f h <> [] /\ own (hvec t h) = h /\ live t (hvec t h) = true /\ first (heap t (hvec t h)) = Z.of_nat (length (f h)) /\ chain (heap t) own (live t) (next (heap t (hvec t h))) (f h)).
(** An atom stored, where malloc gives offsets that are not in use. *)
Inductive stored : table -> Z -> Z -> Z -> table -> Prop :=
  Stored : forall t h term cl a1 a2 t', a1 <> 0 -> a2 <> 0 -> a1 <> a2 -> live t a1 = false -> live t a2 = false -> add t h term cl a1 a2 = Some t' -> stored t h term cl t'.
(** Atoms stored one after the other. *)
Inductive stores : table -> list (Z * Z * Z) -> table -> Prop :=
  | St0 : forall t, stores t [] t
  | StS : forall t h term cl t1 l t2, stored t h term cl t1 -> stores t1 l t2 -> stores t ((h, term, cl) :: l) t2.

Lemma upd_eq : forall A (f : Z -> A) i x, upd f i x i = x.
Proof. intros. unfold upd. now rewrite Z.eqb_refl. Qed.
Lemma upd_ne : forall A (f : Z -> A) i x j, j <> i -> upd f i x j = f j.
Proof. intros. unfold upd. destruct (Z.eqb_spec j i); [contradiction|reflexivity]. Qed.

Lemma stored_ok : forall t h term cl t' f, stored t h term cl t' -> holds t f -> vlen t' = vlen t /\ 1 <= h < vlen t /\ holds t' (upd f h ((term, cl) :: f h)).
Proof.
  intros t h term cl t' f S (own & H). destruct S as [t h term cl a1 a2 t' N1 N2 N L1 L2 E]. unfold add in E.
  destruct (Z.leb_spec (vlen t) h); [discriminate E|]. destruct (Z.ltb_spec h 1); [discriminate E|]. cbn [orb] in E. assert (R : 1 <= h < vlen t) by lia.
  destruct (Z.eqb_spec (hvec t h) 0) as [Z0|Z0].
  - injection E as <-. cbn [vlen]. split; [reflexivity|]. split; [exact R|]. exists (upd (upd own a1 h) a2 0). cbn [vlen hvec heap live]. intros k K.
    assert (AG : forall b, own b = 0 -> live t b = true -> upd (upd (heap t) a1 (Node 1 (ncl (heap t a1)) a2)) a2 (Node term cl 0) b = heap t b /\ upd (upd own a1 h) a2 0 b = 0 /\ upd (upd (live t) a1 true) a2 true b = true).
    { intros b B L. assert (b <> a1 /\ b <> a2) as (X & Y) by (split; intros ->; congruence). rewrite !upd_ne by assumption. repeat split; assumption. }
    destruct (Z.eq_dec k h) as [->|NE].
    + right. rewrite !upd_eq. rewrite !(upd_ne _ _ a2 _ a1) by exact N. rewrite !upd_eq. destruct (H h R) as [(_ & F)|(F & _)]; [|contradiction]. rewrite F. cbn [first next length].
      split; [exact N1|]. split; [discriminate|]. split; [reflexivity|]. split; [reflexivity|]. split; [reflexivity|].
      set (hp := upd (upd (heap t) a1 (Node 1 (ncl (heap t a1)) a2)) a2 (Node term cl 0)). assert (X : hp a2 = Node term cl 0) by (unfold hp; apply upd_eq).
      replace (term, cl) with (first (hp a2), ncl (hp a2)) by (rewrite X; reflexivity). constructor; [exact N2|apply upd_eq|apply upd_eq|]. rewrite X. constructor.
    + rewrite !(upd_ne _ _ h _ k) by exact NE. destruct (H k K) as [F|(F1 & F2 & F3 & F4 & F5 & F6)]; [left; exact F|]. right.
      assert (hvec t k <> a1 /\ hvec t k <> a2) as (X & Y) by (split; intros Q; rewrite Q in F4; congruence).
      rewrite !upd_ne by assumption. repeat (split; [assumption|]). eapply chain_same; [exact F6|exact AG].
  - injection E as <-. cbn [vlen]. split; [reflexivity|]. split; [exact R|]. exists (upd own a2 0). cbn [vlen hvec heap live]. intros k K.
    destruct (H h R) as [(F & _)|(G1 & G2 & G3 & G4 & G5 & G6)]; [contradiction|]. set (c := hvec t h) in *.
    assert (C2 : c <> a2) by (intros Q; rewrite Q in G4; congruence).
    assert (AG : forall b, own b = 0 -> live t b = true -> upd (upd (heap t) c (Node (first (heap t c) + 1) (ncl (heap t c)) a2)) a2 (Node term cl (next (heap t c))) b = heap t b /\ upd own a2 0 b = 0 /\ upd (live t) a2 true b = true).
    { intros b B L. assert (b <> c /\ b <> a2) as (X & Y) by (split; intros ->; [lia|congruence]). rewrite !upd_ne by assumption. repeat split; assumption. }
    destruct (Z.eq_dec k h) as [->|NE].
    + right. rewrite (upd_eq _ f). fold c. rewrite !(upd_ne _ _ a2 _ c) by exact C2. rewrite !upd_eq. cbn [first next length].
      split; [exact Z0|]. split; [discriminate|]. split; [exact G3|]. split; [exact G4|]. split; [rewrite G5; lia|].
      set (hp := upd (upd (heap t) c (Node (first (heap t c) + 1) (ncl (heap t c)) a2)) a2 (Node term cl (next (heap t c)))) in *. assert (X : hp a2 = Node term cl (next (heap t c))) by (unfold hp; apply upd_eq).
      replace (term, cl) with (first (hp a2), ncl (hp a2)) by (rewrite X; reflexivity). constructor; [exact N2|apply upd_eq|apply upd_eq|]. rewrite X. cbn [next].
      eapply chain_same; [exact G6|exact AG].
    + rewrite !(upd_ne _ f h _ k) by exact NE. destruct (H k K) as [F|(F1 & F2 & F3 & F4 & F5 & F6)]; [left; exact F|]. right.
      assert (hvec t k <> c /\ hvec t k <> a2) as (X & Y) by (split; intros Q; [rewrite Q in F3; congruence|rewrite Q in F4; congruence]).
      rewrite !upd_ne by assumption. repeat (split; [assumption|]). eapply chain_same; [exact F6|exact AG].
Qed.
Lemma walk_chain : forall t own lv a l fuel, chain (heap t) own lv a l -> (length l <= fuel)%nat -> walk fuel t a = Atoms l.
Proof.
  intros t own lv a l fuel C. revert fuel. induction C; intros fuel F.
  - destruct fuel; reflexivity.
  - cbn [length] in F. destruct fuel; [lia|]. cbn [walk]. destruct (Z.eqb_spec a 0); [contradiction|]. rewrite IHC by lia. reflexivity.
Qed.
(** The atoms of a hash among those stored, the newest first. *)
Definition atoms_of (l : list (Z * Z * Z)) (h : Z) : list (Z * Z) := rev (map (fun x => (snd (fst x), snd x)) (filter (fun x => fst (fst x) =? h) l)).
Lemma stores_holds : forall t l t', stores t l t' -> forall f, holds t f -> vlen t' = vlen t /\ exists f', holds t' f' /\ forall h, f' h = atoms_of l h ++ f h.
Proof.
  intros t l t' S. induction S; intros f H0; [split; [reflexivity|]; exists f; split; [exact H0|reflexivity]|].
  destruct (stored_ok _ _ _ _ _ _ H H0) as (V & _ & H1). destruct (IHS _ H1) as (V' & f' & H2 & F). split; [congruence|]. exists f'. split; [exact H2|].
  intros k. rewrite F. unfold atoms_of. cbn [filter fst snd]. destruct (Z.eqb_spec h k) as [->|NE].
  - rewrite upd_eq. cbn [map rev fst snd]. rewrite <- app_assoc. reflexivity.
  - rewrite upd_ne by congruence. reflexivity.
Qed.
(** C81: in a table that was empty, the search of a hash gives the atoms stored for it and no others, the newest first, and the length is their number;
    when the offsets of the nodes are not negative. *)
Theorem C81_search_partial : forall t l t' h, (forall k, hvec t k = 0) -> stores t l t' -> 1 <= h < vlen t -> 0 <= hstart t' h ->
  hlen t' h = Z.of_nat (length (atoms_of l h)) /\ search (length l) t' h = Atoms (atoms_of l h).
Proof.
  intros t l t' h Z0 S R P. destruct (stores_holds t l t' S (fun _ => [])) as (V & f & (own & H) & F).
  { exists (fun _ => 0). intros k _. left. split; [apply Z0|reflexivity]. }
  assert (LL : (length (atoms_of l h) <= length l)%nat). { unfold atoms_of. rewrite rev_length, map_length. clear. induction l; cbn; [lia|]. destruct (fst (fst a) =? h); cbn; lia. }
  specialize (F h). rewrite app_nil_r in F. unfold search. destruct (Z.ltb_spec (hstart t' h) 0); [lia|]. clear P.
  unfold hlen, hstart in *. rewrite V in *. destruct (Z.leb_spec (vlen t) h); [lia|]. destruct (Z.ltb_spec h 1); [lia|]. cbn [orb] in *.
  destruct (H h R) as [(A & B)|(A1 & A2 & A3 & A4 & A5 & A6)].
  - rewrite A, <- F, B. split; reflexivity.
  - destruct (Z.eqb_spec (hvec t' h) 0); [contradiction|]. rewrite F in *. split; [exact A5|]. rewrite A5. destruct (Z.eqb_spec (Z.of_nat (length (atoms_of l h))) 0) as [Q|Q].
    + destruct (atoms_of l h); [contradiction|cbn [length] in Q; lia].
    + eapply walk_chain; [exact A6|exact LL].
Qed.
(** C81: so it is for every hash, when malloc gives only memory behind the start of the database. *)
Theorem C81_search_behind : forall t l t' h, (forall k, hvec t k = 0) -> stores t l t' -> (forall a, live t' a = true -> 0 < a) -> 1 <= h < vlen t ->
  hlen t' h = Z.of_nat (length (atoms_of l h)) /\ search (length l) t' h = Atoms (atoms_of l h).
Proof.
  intros t l t' h Z0 S P R. apply (C81_search_partial t l t' h Z0 S R). destruct (stores_holds t l t' S (fun _ => [])) as (V & f & (own & H) & F).
  { exists (fun _ => 0). intros k _. left. split; [apply Z0|reflexivity]. }
  unfold hstart. rewrite V in *. destruct (Z.leb_spec (vlen t) h); [lia|]. destruct (Z.ltb_spec h 1); [lia|]. cbn [orb].
  destruct (Z.eqb_spec (hvec t' h) 0); [lia|]. destruct (H h R) as [(A & _)|(_ & _ & _ & _ & _ & C)]; [contradiction|]. inversion C as [|a k _ _ L _ E1 E2]; [lia|]. apply P in L. lia.
Qed.
Print Assumptions C81_search_behind.
(** C81: a hash is always below the length of the vectors. *)
Theorem C81_range : forall v h, basehash v = Some h -> 0 <= h < 498.
Proof. intros v h. unfold basehash. destruct (rawhash v =? -2147483648); intros E; [discriminate E|]. injection E as <-. change (NELS - 2) with 498. apply Z.mod_pos_bound. lia. Qed.
(** C81: an atom with a hash from 1 on can be stored in a table of the length used. *)
Theorem C81_store_partial : forall t v h term cl a1 a2, vlen t = 500 -> basehash v = Some h -> h <> 0 -> exists t', add t h term cl a1 a2 = Some t'.
Proof.
  intros t v h term cl a1 a2 L B N. apply C81_range in B. unfold add. destruct (Z.leb_spec (vlen t) h); [lia|]. destruct (Z.ltb_spec h 1); [lia|]. cbn [orb]. cbv zeta. destruct (hvec t h =? 0); eexists; reflexivity.
Qed.
Print Assumptions C81_search_partial.
Print Assumptions C81_range.
Print Assumptions C81_store_partial.

(** An empty table, and three atoms stored in it: two for 7, one for 9. *)
Definition ex_t : table := Table 500 (fun _ => 0) (fun _ => Node 77 77 77) (fun _ => false).
Definition ex_t3 : table :=
  match add ex_t 7 100 1 1000 1001 with Some t => match add t 9 200 2 1002 1003 with Some t => match add t 7 300 3 1004 1005 with Some t => t | None => ex_t end | None => ex_t end | None => ex_t end.
Example C81_search_case : stores ex_t [(7, 100, 1); (9, 200, 2); (7, 300, 3)] ex_t3 /\ 0 <= hstart ex_t3 7 /\ search 3 ex_t3 7 = Atoms [(300, 3); (100, 1)] /\ hlen ex_t3 7 = 2 /\ search 3 ex_t3 8 = Atoms [].
Proof.
  split; [|vm_compute; repeat split; discriminate].
  eapply StS; [eapply (Stored _ _ _ _ 1000 1001); try reflexivity; discriminate|]. eapply StS; [eapply (Stored _ _ _ _ 1002 1003); try reflexivity; discriminate|].
  eapply StS; [eapply (Stored _ _ _ _ 1004 1005); try reflexivity; discriminate|]. apply St0.
Qed.
Example C81_behind_case : forall a, live ex_t3 a = true -> 0 < a.
Proof.
  intros a L. change (live ex_t3) with (upd (upd (upd (upd (upd (fun _ => false) 1000 true) 1001 true) 1002 true) 1003 true) 1005 true) in L. unfold upd in L.
  repeat match type of L with (if ?x =? ?y then _ else _) = _ => destruct (Z.eqb_spec x y); [lia|] end. discriminate L.
Qed.
Example C81_range_case : basehash (HStr [112]) = Some 112 /\ basehash (HInt 4) = Some 7 /\ basehash (HStr [102; 97; 116; 104; 101; 114]) <> Some 0.
Proof. vm_compute. repeat split. discriminate. Qed.
(** C81, finding: a predicate may have the hash 0, which is refused: with the name "cu" the program ends with an error when its first clause is made active. *)
Theorem C81_zero_refuted : basehash (HStr [99; 117]) = Some 0 /\ forall t term cl a1 a2, add t 0 term cl a1 a2 = None.
Proof. split; [vm_compute; reflexivity|]. intros. unfold add. change (0 <? 1) with true. now rewrite orb_true_r. Qed.
(** C81, finding: offsets are relative to the database; for nodes that malloc placed before it the search takes the chain for an error. *)
Theorem C81_negative_refuted : exists t', stored ex_t 7 100 1 t' /\ forall fuel, search fuel t' 7 = WrongHash.
Proof.
  destruct (add ex_t 7 100 1 (-64) (-32)) as [t'|] eqn:E; [|vm_compute in E; discriminate E]. exists t'. split; [eapply (Stored _ _ _ _ (-64) (-32)); try reflexivity; try discriminate; exact E|].
  vm_compute in E. injection E as <-. intros fuel. reflexivity.
Qed.
(** C81, finding: the vectors are not set to 0 when they are made (Reasoner/mem.c l.102); with other bytes there the search gives what never was stored. *)
Theorem C81_junk_refuted : exists hv0, search 5 (Table 500 hv0 (fun a => if a =? 40 then Node 1 0 48 else Node 5 6 0) (fun _ => false)) 7 = Atoms [(5, 6)].
Proof. exists (fun _ => 40). vm_compute. reflexivity. Qed.
(** C81, finding: the first nodes of the chains are not freed. *)
Theorem C81_leak_refuted : map (live (free_chain 5 ex_t3 (hstart ex_t3 7))) [1000; 1001; 1005] = [true; false; false].
Proof. vm_compute. reflexivity. Qed.
Print Assumptions C81_zero_refuted.
Print Assumptions C81_negative_refuted.
Print Assumptions C81_junk_refuted.
Print Assumptions C81_leak_refuted.
