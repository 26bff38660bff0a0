(** C24: ranges over a T-tree index. *)
From Coq Require Import ZArith List Bool Lia Permutation Sorted.
From Verif Require Import Base EncodingModel EncodingProofs CompareModel CompareProofs CompareProps TtreeModel TtreeShape TtreeArr TtreeOrd TtreeAdd TtreeDel TtreeReach TtreePos TtreeProps RangeModel RangeProofs.
Import ListNotations.
Open Scope Z_scope.
#[local] Ltac Zify.zify_post_hook ::= idtac.

(** Row [x] satisfies the lower and the upper bound; WG_ILLEGAL is no bound. *)
Definition above_lower (cmp : Z -> Z -> Z) (key : Z -> Z) (bound : Z) (incl : bool) (x : Z) : Prop :=
  bound = WG_ILLEGAL \/ cmp (key x) bound = WG_GREATER \/ incl = true /\ cmp (key x) bound = WG_EQUAL.
Definition below_upper (cmp : Z -> Z -> Z) (key : Z -> Z) (bound : Z) (incl : bool) (x : Z) : Prop :=
  bound = WG_ILLEGAL \/ cmp (key x) bound = WG_LESSTHAN \/ incl = true /\ cmp (key x) bound = WG_EQUAL.

Section Props.
Variables (cmp : Z -> Z -> Z) (dom : Z -> Prop).
Hypothesis KO : keyorder cmp dom.
Lemma lo_spec key k incl x : lo_b cmp key k incl x = true <-> above_lower cmp key k incl x.
Proof.
  unfold lo_b, above_lower. rewrite orb_true_iff, Z.eqb_eq. destruct (ko_tri _ _ KO (key x) k) as [E|[E|E]]; rewrite E; destruct incl; cbn; intuition (try discriminate; auto).
Qed.
Lemma hi_spec key k incl x : hi_b cmp key k incl x = true <-> below_upper cmp key k incl x.
Proof.
  unfold hi_b, below_upper. rewrite orb_true_iff, Z.eqb_eq. destruct (ko_tri _ _ KO (key x) k) as [E|[E|E]]; rewrite E; destruct incl; cbn; intuition (try discriminate; auto).
Qed.

(** C24. All nine kinds of bounds, except an empty interval written with two
    exclusive bounds of equal value (see the refutation below): fetching until
    NULL gives the rows of the index that are within the bounds and pass the
    check on the other columns, each as often as it is in the index, in order. *)
Theorem C24_range_query_partial s key g sb eb si ei (chk : Z -> bool) n : treach cmp dom s key (Some g) ->
  sb = WG_ILLEGAL \/ dom sb -> eb = WG_ILLEGAL \/ dom eb ->
  ~ (sb <> WG_ILLEGAL /\ eb <> WG_ILLEGAL /\ cmp sb eb = WG_EQUAL /\ si = false /\ ei = false) -> (length g < n)%nat ->
  exists W q inr, walk_chain n s (tminn s) = Some W /\ Permutation W g /\
  (forall x, inr x = true <-> above_lower cmp key sb si x /\ below_upper cmp key eb ei x /\ chk x = true) /\
  range_query cmp key n s sb eb si ei = Some (Some q) /\ fetch_all n chk s q = Some (filter inr W).
Proof.
  intros R Ds De Hb Hn. destruct (TR_treach cmp dom KO s key (Some g) R) as (T & HT & HG). pose proof (TI_len cmp dom s key T HT) as Hl.
  rewrite (Permutation_length HG) in Hl. pose proof HT as (H & _). destruct (sh_chain _ _ H) as (C1 & _ & C3).
  destruct (range_ok cmp dom KO key s T sb eb si ei n HT Ds De) as (q & E & F); [|lia|].
  { destruct (Z.eq_dec sb WG_ILLEGAL); [auto|]. destruct (Z.eq_dec eb WG_ILLEGAL); [auto|]. left. intros (A1 & A2 & A3). apply Hb. auto. }
  exists (cont s T), q, (fun x => lo_b cmp key sb si x && hi_b cmp key eb ei x && chk x).
  split; [rewrite C1; apply (walk_chain_ok s (ino T) (SH_zero _ _ H) 0 C3); lia|]. split; [exact HG|]. split.
  { intros x. rewrite !andb_true_iff, lo_spec, hi_spec. tauto. }
  split; [exact E|]. rewrite F by (rewrite (Permutation_length HG); lia). f_equal. clear. induction (cont s T) as [|x l IH]; [reflexivity|]. cbn [filter].
  destruct (lo_b cmp key sb si x && hi_b cmp key eb ei x); cbn [filter andb]; [destruct (chk x); congruence|exact IH].
Qed.
End Props.
Print Assumptions C24_range_query_partial.

(** The run of TtreeProps, asked for 3 <= key < 9 and for rows other than 4. *)
Example C24_hyp : exists s g q, treach (WG_COMPARE ex_cs) smallints s ex_key (Some g) /\ smallints (encode_smallint 3) /\ smallints (encode_smallint 9) /\
  range_query (WG_COMPARE ex_cs) ex_key 50 s (encode_smallint 3) (encode_smallint 9) true false = Some (Some q) /\
  fetch_all 50 (fun r => negb (r =? 4)) s q = Some [24; 6; 32; 14; 40; 22; 30; 12; 38].
Proof.
  destruct (ex_treach ex_ops (fun r => let '(s, g) := r in match range_query (WG_COMPARE ex_cs) ex_key 50 s (encode_smallint 3) (encode_smallint 9) true false with
    | Some (Some q) => match fetch_all 50 (fun r => negb (r =? 4)) s q with Some l => if list_eq_dec Z.eq_dec l [24; 6; 32; 14; 40; 22; 30; 12; 38] then true else false | None => false end
    | _ => false end)) as (s & g & R & Hc).
  - vm_compute. reflexivity.
  - cbv beta iota in Hc. destruct (range_query (WG_COMPARE ex_cs) ex_key 50 s (encode_smallint 3) (encode_smallint 9) true false) as [[q|]|] eqn:E; try discriminate Hc.
    destruct (fetch_all 50 (fun r => negb (r =? 4)) s q) as [l|] eqn:F; [|discriminate]. destruct (list_eq_dec Z.eq_dec l [24; 6; 32; 14; 40; 22; 30; 12; 38]) as [->|]; [|discriminate].
    exists s, g, q. split; [exact R|]. split; [apply ex_dom; vm_compute; reflexivity|]. split; [apply ex_dom; vm_compute; reflexivity|]. auto.
Qed.

(** C24 fails as stated for [x > v and x < v]: with eight rows of key 5, one row
    of key 1 and one of key 9, the query for 5 < x < 5 returns the row of
    key 9. *)
Definition ex_key2 (r : Z) : Z := encode_smallint (if r <=? 8 then 5 else if r =? 9 then 1 else 9).
Theorem C24_empty_open_interval_refuted : exists s g q, treach (WG_COMPARE ex_cs) smallints s ex_key2 (Some g) /\ smallints (encode_smallint 5) /\
  range_query (WG_COMPARE ex_cs) ex_key2 50 s (encode_smallint 5) (encode_smallint 5) false false = Some (Some q) /\
  fetch_all 50 (fun _ => true) s q = Some [10] /\ WG_COMPARE ex_cs (ex_key2 10) (encode_smallint 5) = WG_GREATER.
Proof.
  set (ops := map (fun i => Add (Z.of_nat i + 1) (Z.of_nat i + 2)) (seq 0 10)).
  destruct (run (WG_COMPARE ex_cs) ex_key2 ex_domb ops) as [(s & g)|] eqn:Er.
  2:{ assert (B : match run (WG_COMPARE ex_cs) ex_key2 ex_domb ops with Some _ => true | None => false end = true) by (vm_compute; reflexivity). rewrite Er in B. discriminate. }
  pose proof (run_treach _ _ _ smallints ops (C21_compare_is_keyorder ex_cs smallints (smallints_comparable ex_cs)) ex_dom s g Er) as R.
  assert (B : match run (WG_COMPARE ex_cs) ex_key2 ex_domb ops with Some (s, _) =>
      match range_query (WG_COMPARE ex_cs) ex_key2 50 s (encode_smallint 5) (encode_smallint 5) false false with
      | Some (Some q) => match fetch_all 50 (fun _ => true) s q with Some l => if list_eq_dec Z.eq_dec l [10] then true else false | None => false end
      | _ => false end | None => false end = true) by (vm_compute; reflexivity).
  rewrite Er in B. clear Er ops. destruct (range_query (WG_COMPARE ex_cs) ex_key2 50 s (encode_smallint 5) (encode_smallint 5) false false) as [[q|]|] eqn:E; try discriminate B.
  destruct (fetch_all 50 (fun _ => true) s q) as [l|] eqn:F; [|discriminate]. destruct (list_eq_dec Z.eq_dec l [10]) as [->|]; [|discriminate].
  exists s, g, q. split; [exact R|]. split; [apply ex_dom; vm_compute; reflexivity|]. split; [exact E|]. split; [exact F|reflexivity].
Qed.
Print Assumptions C24_empty_open_interval_refuted.
