(** Proofs about the records a request to dserve handles. *)
From Coq Require Import ZArith List Bool Lia Arith.
From Coq Require String.
From Verif Require Import DserveModel DserveProofs DserveConfModel DserveOpsModel.
Import ListNotations.
Import String.StringSyntax.
Open Scope Z_scope.

Lemma ulong_small : forall z, 0 <= z < 18446744073709551616 -> ulong z = z.
Proof. intros z H. unfold ulong. now apply Z.mod_small. Qed.
Section Select.
Variable rec : Type.
Variable haslen : rec -> bool.
Lemma skipn_cons : forall n (l : list rec), (n < length l)%nat -> exists x, skipn n l = x :: skipn (S n) l.
Proof.
  induction n as [|n IH]; intros [|y l] L; cbn [length] in L; try lia; [now exists y|].
  destruct (IH l) as (x & E); [lia|]. exists x. cbn [skipn] in *. exact E.
Qed.
(** From [from] on. *)
Lemma scan_taking : forall op from count recs rcount gcount, op <> DELETE_CODE -> ulong from <= rcount -> 0 <= gcount <= count ->
  full_scan rec haslen op from count rcount gcount recs = firstn (Z.to_nat (count - gcount)) recs.
Proof.
  intros op from count. induction recs as [|r recs IH]; intros rcount gcount No Lr Lg; [now rewrite firstn_nil|]. cbn [full_scan].
  destruct (Z.leb_spec (ulong from) rcount); [|lia]. destruct (Z.ltb_spec count (gcount + 1)).
  - replace (count - gcount) with 0 by lia. reflexivity.
  - replace (Z.to_nat (count - gcount)) with (S (Z.to_nat (count - (gcount + 1)))) by lia. cbn [firstn].
    rewrite IH by (assumption || lia). destruct op; reflexivity || contradiction.
Qed.
Lemma scan_all : forall op from count recs rcount, op <> DELETE_CODE -> 0 <= rcount -> rcount <= ulong from -> 0 <= count ->
  full_scan rec haslen op from count rcount 0 recs = firstn (Z.to_nat count) (skipn (Z.to_nat (ulong from - rcount)) recs).
Proof.
  intros op from count. induction recs as [|r recs IH]; intros rcount No L0 Lr Lc; [rewrite skipn_nil; now rewrite firstn_nil|].
  destruct (Z.eq_dec rcount (ulong from)) as [E|N].
  - rewrite scan_taking by (assumption || lia). rewrite E, Z.sub_diag, Z.sub_0_r. reflexivity.
  - cbn [full_scan]. destruct (Z.leb_spec (ulong from) rcount); [lia|]. rewrite IH by (assumption || lia).
    replace (Z.to_nat (ulong from - rcount)) with (S (Z.to_nat (ulong from - (rcount + 1)))) by lia. cbn [skipn]. destruct op; reflexivity || contradiction.
Qed.
(** A full scan that deletes passes over nothing. *)
Lemma scan_delete : forall from count recs rcount gcount, ulong from <= rcount -> 0 <= gcount <= count ->
  full_scan rec haslen DELETE_CODE from count rcount gcount recs = filter haslen (firstn (Z.to_nat (count - gcount)) recs).
Proof.
  intros from count. induction recs as [|r recs IH]; intros rcount gcount Lr Lg; [now rewrite firstn_nil|]. cbn [full_scan].
  destruct (Z.leb_spec (ulong from) rcount); [|lia]. destruct (Z.ltb_spec count (gcount + 1)).
  - replace (count - gcount) with 0 by lia. reflexivity.
  - replace (Z.to_nat (count - gcount)) with (S (Z.to_nat (count - (gcount + 1)))) by lia. cbn [firstn filter].
    rewrite IH by (assumption || lia). destruct (haslen r); reflexivity.
Qed.
Lemma scan_delete_all : forall from count recs rcount, 0 <= rcount -> rcount <= ulong from -> 0 <= count ->
  full_scan rec haslen DELETE_CODE from count rcount 0 recs = filter haslen (firstn (Z.to_nat (ulong from - rcount + count)) recs).
Proof.
  intros from count. induction recs as [|r recs IH]; intros rcount L0 Lr Lc; [now rewrite firstn_nil|].
  destruct (Z.eq_dec rcount (ulong from)) as [E|N].
  - rewrite scan_delete by lia. rewrite E, Z.sub_diag, Z.sub_0_r. reflexivity.
  - cbn [full_scan]. destruct (Z.leb_spec (ulong from) rcount); [lia|]. rewrite IH by lia.
    replace (Z.to_nat (ulong from - rcount + count)) with (S (Z.to_nat (ulong from - (rcount + 1) + count))) by lia. cbn [firstn filter]. destruct (haslen r); reflexivity.
Qed.
Lemma field_taking : forall from count recs rcount gcount, ulong from <= rcount -> 0 <= gcount < count ->
  field_scan rec from count rcount gcount recs = firstn (Z.to_nat (count - gcount)) recs.
Proof.
  intros from count. induction recs as [|r recs IH]; intros rcount gcount Lr Lg; [now rewrite firstn_nil|]. cbn [field_scan].
  destruct (Z.leb_spec (ulong from) rcount); [|lia].
  replace (Z.to_nat (count - gcount)) with (S (Z.to_nat (count - (gcount + 1)))) by lia. cbn [firstn app]. f_equal.
  destruct (Z.leb_spec count (gcount + 1)); [|rewrite IH by lia; reflexivity]. replace (count - (gcount + 1)) with 0 by lia. reflexivity.
Qed.
Lemma field_all : forall from count recs rcount, 0 <= rcount -> rcount <= ulong from -> 0 < count ->
  field_scan rec from count rcount 0 recs = firstn (Z.to_nat count) (skipn (Z.to_nat (ulong from - rcount)) recs).
Proof.
  intros from count. induction recs as [|r recs IH]; intros rcount L0 Lr Lc; [rewrite skipn_nil; now rewrite firstn_nil|].
  destruct (Z.eq_dec rcount (ulong from)) as [E|N].
  - rewrite field_taking by lia. rewrite E, Z.sub_diag, Z.sub_0_r. reflexivity.
  - cbn [field_scan]. destruct (Z.leb_spec (ulong from) rcount); [lia|]. destruct (Z.leb_spec count 0); [lia|]. rewrite IH by lia.
    replace (Z.to_nat (ulong from - rcount)) with (S (Z.to_nat (ulong from - (rcount + 1)))) by lia. reflexivity.
Qed.
End Select.

(** ** Record ids *)
Lemma take_digits_app : forall s c r, Forall (fun c => isdigit c = true) s -> isdigit c = false -> take_digits (s ++ c :: r) = s.
Proof. induction s as [|x s IH]; intros c r H N; cbn [app take_digits]; [now rewrite N|]. inversion H; subst. rewrite H2. f_equal. now apply IH. Qed.
Lemma take_digits_all : forall s, Forall (fun c => isdigit c = true) s -> take_digits s = s.
Proof. induction s as [|x s IH]; intros H; cbn [take_digits]; [reflexivity|]. inversion H; subst. rewrite H2. f_equal. now apply IH. Qed.
Lemma to_comma_app : forall s r, Forall (fun c => isdigit c = true) s -> to_comma (s ++ 44 :: r) = 44 :: r.
Proof.
  induction s as [|x s IH]; intros r H; cbn [app to_comma]; [reflexivity|]. inversion H; subst.
  destruct (Z.eqb_spec x 44) as [->|_]; [discriminate H2|]. now apply IH.
Qed.
Lemma to_comma_all : forall s, Forall (fun c => isdigit c = true) s -> to_comma s = [].
Proof.
  induction s as [|x s IH]; intros H; cbn [to_comma]; [reflexivity|]. inversion H; subst.
  destruct (Z.eqb_spec x 44) as [->|_]; [discriminate H2|]. now apply IH.
Qed.
Lemma atoi_digits : forall d s r n, Forall (fun c => isdigit c = true) (d :: s) -> take_digits (d :: s ++ r) = d :: s -> digits_value (d :: s) = n -> 0 <= n <= 2147483647 ->
  atoi_text (d :: s ++ r) = Some n.
Proof.
  intros d s r n F T V L. unfold atoi_text. inversion F as [|? ? Fd _]; subst. cbn [drop_space].
  assert (Rd : 48 <= d <= 57) by (unfold isdigit in Fd; apply andb_true_iff in Fd; destruct Fd as [A B]; apply Z.leb_le in A; apply Z.leb_le in B; lia).
  replace (isspace d) with false by (unfold isspace; destruct (Z.eqb_spec d 32); [lia|]; destruct (Z.leb_spec d 13); [lia|]; now rewrite andb_false_r).
  destruct (Z.eqb_spec d 45); [lia|]. destruct (Z.eqb_spec d 43); [lia|]. rewrite T.
  destruct (Z.leb_spec (-2147483648) (digits_value (d :: s))); [|lia]. destruct (Z.leb_spec (digits_value (d :: s)) 2147483647); [reflexivity|lia].
Qed.

Definition number (s : list Z) (n : Z) : Prop := s <> [] /\ Forall (fun c => isdigit c = true) s /\ digits_value s = n /\ 0 < n <= 2147483647.
(** The ids with commas between them. *)
Inductive listed : list Z -> list Z -> Prop :=
| li_one : forall s n, number s n -> listed s [n]
| li_more : forall s n t l, number s n -> listed t l -> listed (s ++ 44 :: t) (n :: l).
Lemma number_atoi : forall s n r, number s n -> r = [] \/ (exists u, r = 44 :: u) -> atoi_text (s ++ r) = Some n.
Proof.
  intros s n r (Ns & F & V & L) R. destruct s as [|d s]; [now contradiction Ns|]. cbn [app]. apply atoi_digits; [exact F| |exact V|lia].
  destruct R as [->|(u & ->)]; [rewrite app_nil_r; now apply take_digits_all|]. exact (take_digits_app (d :: s) 44 u F eq_refl).
Qed.
Lemma recids_listed : forall s l, listed s l -> forall fuel acc, (length s < fuel)%nat -> (length acc + length l <= MAXIDS)%nat -> recids fuel s acc = Some (acc ++ l).
Proof.
  intros s l H. induction H as [s n Hn|s n t l Hn Ht IH]; intros fuel acc Lf La; (destruct fuel as [|fuel]; [lia|]).
  - pose proof (number_atoi s n [] Hn (or_introl eq_refl)) as A. rewrite app_nil_r in A. destruct Hn as (Ns & F & V & L).
    cbn [recids]. destruct s as [|d s]; [now contradiction Ns|]. rewrite A. destruct (Z.ltb_spec 0 n); [|lia].
    destruct (Nat.leb MAXIDS (length (acc ++ [n]))); [reflexivity|]. rewrite to_comma_all by assumption. destruct fuel; [cbn [length] in Lf; lia|reflexivity].
  - pose proof (number_atoi s n (44 :: t) Hn (or_intror (ex_intro _ t eq_refl))) as A. destruct Hn as (Ns & F & V & L).
    cbn [recids]. remember (s ++ 44 :: t) as u eqn:Eu. destruct u as [|c u]; [destruct s; discriminate Eu|]. rewrite Eu in *. rewrite A.
    destruct (Z.ltb_spec 0 n); [|lia]. cbn [length] in La. rewrite app_length in *. cbn [length] in *.
    assert (Ll : (0 < length l)%nat) by (inversion Ht; subst; cbn [length]; lia).
    destruct (Nat.leb_spec MAXIDS (length acc + 1)); [lia|]. rewrite to_comma_app by assumption. cbn [tl].
    rewrite (IH fuel (acc ++ [n])); [now rewrite <- app_assoc|lia|rewrite app_length; cbn [length]; lia].
Qed.
(** No text of fewer than 1999 characters fills the array. *)
Lemma to_comma_length : forall s, (length (to_comma s) <= length s)%nat.
Proof. induction s as [|c s IH]; cbn [to_comma length]; [lia|]. destruct (c =? 44); cbn [length]; lia. Qed.
Lemma to_comma_head : forall c s, c <> 44 -> (length (to_comma (c :: s)) <= length s)%nat.
Proof. intros c s N. cbn [to_comma]. destruct (Z.eqb_spec c 44); [contradiction|]. apply to_comma_length. Qed.
Lemma recids_bound : forall fuel s acc ids, recids fuel s acc = Some ids -> (2 * length ids <= 2 * length acc + length s + 1)%nat /\ (length acc < MAXIDS -> length ids <= MAXIDS)%nat.
Proof.
  induction fuel as [|fuel IH]; intros s acc ids E; [discriminate E|]. cbn [recids] in E. destruct s as [|c s].
  - injection E as <-. cbn [length]. lia.
  - destruct (atoi_text (c :: s)) as [v|] eqn:A; [|discriminate E].
    destruct (Nat.leb_spec MAXIDS (length (if 0 <? v then acc ++ [v] else acc))) as [G|G].
    + injection E as <-. destruct (0 <? v); [|cbn [length]; lia]. rewrite app_length in *. cbn [length] in *. lia.
    + apply IH in E. destruct E as [E1 E2]. split.
      * destruct (Z.ltb_spec 0 v) as [Pv|Nv].
        -- assert (N : c <> 44).
           { intros ->. unfold atoi_text in A. cbn in A. injection A as <-. lia. }
           pose proof (to_comma_head c s N) as T. destruct (to_comma (c :: s)) as [|x u]; cbn [tl length] in *; rewrite app_length in E1; cbn [length] in *; lia.
        -- pose proof (to_comma_length (c :: s)) as T. destruct (to_comma (c :: s)) as [|x u]; cbn [tl length] in *; lia.
      * intros _. apply E2. lia.
Qed.
(** Records by ids. *)
Definition live (m : mem) (id : Z) : Prop := 0 < id /\ is_record m id = Some true /\ exists x, record_len m id = Some x /\ 0 < x.
Lemma id_scan_live : forall m count ids pre suf gcount fuel, Forall (live m) ids -> (length ids < fuel)%nat -> 0 <= gcount <= count ->
  (length pre + length ids <= MAXIDS)%nat -> nth_error (pre ++ ids ++ suf) (length pre + length ids) = Some 0 ->
  id_scan fuel m count gcount (pre ++ ids ++ suf) (length pre) = Some (firstn (Z.to_nat (count - gcount)) ids).
Proof.
  intros m count. induction ids as [|id ids IH]; intros pre suf gcount fuel F Lf Lg Lm E; (destruct fuel as [|fuel]; [cbn [length] in Lf; lia|]).
  - cbn [id_scan app length] in *. replace (length pre + 0)%nat with (length pre) in E by lia. rewrite E. cbn [Z.eqb orb]. now rewrite firstn_nil.
  - inversion F as [|? ? (Pi & R & x & X & Px) F']; subst. cbn [length] in *. cbn [id_scan].
    replace (nth_error (pre ++ (id :: ids) ++ suf) (length pre)) with (Some id) by (rewrite nth_error_app2 by lia; now rewrite Nat.sub_diag).
    destruct (Z.eqb_spec id 0); [lia|]. destruct (Nat.ltb_spec (length pre) MAXIDS); [|lia]. cbn [orb negb]. rewrite R, X. destruct (Z.leb_spec x 0); [lia|].
    destruct (Z.ltb_spec count (gcount + 1)); [replace (count - gcount) with 0 by lia; reflexivity|].
    replace (pre ++ (id :: ids) ++ suf) with ((pre ++ [id]) ++ ids ++ suf) in * by (rewrite <- app_assoc; reflexivity).
    replace (S (length pre)) with (length (pre ++ [id])) by (rewrite app_length; cbn; lia).
    rewrite IH; [|exact F'|lia|lia|rewrite app_length; cbn [length]; lia|rewrite app_length; cbn [length]; rewrite <- E; f_equal; lia].
    replace (Z.to_nat (count - gcount)) with (S (Z.to_nat (count - (gcount + 1)))) by lia. reflexivity.
Qed.

(** ** Parameters *)
(** The values given for a name, in order. *)
Definition given (name : list Z) (l : list (list Z * list Z)) : list (list Z) := map snd (filter (fun nv => if list_eq_dec Z.eq_dec (fst nv) name then true else false) l).
Lemma given_cons : forall name n v l, given name ((n, v) :: l) = if streq n name then v :: given name l else given name l.
Proof.
  intros name n v l. unfold given. cbn [filter fst]. destruct (list_eq_dec Z.eq_dec n name) as [E|E]; destruct (streq n name) eqn:S1; try reflexivity.
  - apply streq_eq in E. congruence.
  - apply streq_eq in S1. contradiction.
Qed.
Lemma last_snd : forall (A : Type) (v d : A) l, last (v :: l) d = last l v.
Proof. intros A v d l. revert v d. induction l as [|x l IH]; intros v d; [reflexivity|]. cbn [last] in *. destruct l as [|y l]; [reflexivity|]. rewrite (IH x d), (IH x v). reflexivity. Qed.
Lemma last_map_cons : forall (v : list Z) l d, last (map atoi_text (v :: l)) d = last (map atoi_text l) (atoi_text v).
Proof. intros v l d. cbn [map]. apply last_snd. Qed.
Lemma params_values : forall l p q, search_params p l = Some q ->
  p_fields q = p_fields p ++ given (bytes "field") l /\ p_values q = p_values p ++ given (bytes "value") l /\
  p_compares q = p_compares p ++ given (bytes "compare") l /\ p_types q = p_types p ++ given (bytes "type") l /\
  last (map atoi_text (given (bytes "from") l)) (Some (p_from p)) = Some (p_from q) /\
  Some (p_count q) = last (map (fun v => option_map ulong (atoi_text v)) (given (bytes "count") l)) (Some (p_count p)) /\
  p_ids q = last (map (fun v => recids (S (length v)) v []) (given (bytes "recids") l)) (p_ids p).
Proof.
  induction l as [|[n v] l IH]; intros p q E.
  - cbn [search_params] in E. injection E as <-. unfold given. cbn. rewrite !app_nil_r. repeat split; reflexivity.
  - cbn [search_params] in E. rewrite !given_cons. destruct (search_param p n v) as [p'|] eqn:P; [|discriminate E]. specialize (IH p' q E). clear E.
    destruct p as [i f vs c t fr co sf]. unfold search_param in P.
    assert (X : forall x y, streq n x = true -> streq x y = false -> streq n y = false).
    { intros x y A B. apply streq_eq in A. subst. exact B. }
    destruct (streq n (bytes "recids")) eqn:S1; [|destruct (streq n (bytes "fld")) eqn:S2; [|destruct (streq n (bytes "field")) eqn:S3; [|destruct (streq n (bytes "value")) eqn:S4; [|
      destruct (streq n (bytes "compare")) eqn:S5; [|destruct (streq n (bytes "type")) eqn:S6; [|destruct (streq n (bytes "from")) eqn:S7; [|destruct (streq n (bytes "count")) eqn:S8]]]]]]];
    repeat match goal with
    | A : streq n ?x = true |- context [if streq n ?y then _ else _] => rewrite (X x y A eq_refl)
    end;
    try (destruct (_ && _); [|discriminate P]); try (destruct (Nat.ltb _ _); [|discriminate P]); try (destruct (recids _ v []) as [k|] eqn:K; [|discriminate P]);
    try (destruct (atoi_text v) as [k|] eqn:K; [|discriminate P]);
    injection P as <-; cbn [p_ids p_fields p_values p_compares p_types p_from p_count] in *; rewrite <- ?app_assoc in IH; cbn [app] in IH;
    cbn [map]; rewrite ?last_snd; try rewrite K; try exact IH.
Qed.
Lemma params_safe : forall l p, (forall n v, In (n, v) l -> n <> bytes "fld") ->
  (forall n v, In (n, v) l -> (length v < Z.to_nat 2000)%nat /\ (n = bytes "from" \/ n = bytes "count" -> atoi_text v <> None) /\ (n = bytes "recids" -> recids (S (length v)) v [] <> None)) ->
  (length (p_fields p) + length l <= MAXPARAMS)%nat -> (length (p_values p) + length l <= MAXPARAMS)%nat ->
  (length (p_compares p) + length l <= MAXPARAMS)%nat -> (length (p_types p) + length l <= MAXPARAMS)%nat ->
  search_params p l <> None.
Proof.
  induction l as [|[n v] l IH]; intros p Nf Hv L1 L2 L3 L4; [discriminate|]. cbn [search_params].
  assert (Nf' : forall n v, In (n, v) l -> n <> bytes "fld") by (intros a b I; apply (Nf a b); now right).
  assert (Hv' : forall n v, In (n, v) l -> (length v < Z.to_nat 2000)%nat /\ (n = bytes "from" \/ n = bytes "count" -> atoi_text v <> None) /\ (n = bytes "recids" -> recids (S (length v)) v [] <> None)) by (intros a b I; apply (Hv a b); now right).
  destruct (Hv n v (or_introl eq_refl)) as (_ & Ha & Hr). pose proof (Nf n v (or_introl eq_refl)) as Nn. cbn [length] in *.
  destruct p as [i f vs c t fr co sf]. cbn [p_fields p_values p_compares p_types] in *. unfold search_param.
  destruct (streq n (bytes "recids")) eqn:S1.
  { apply streq_eq in S1. specialize (Hr S1). destruct (recids (S (length v)) v []); [|now contradiction Hr]. apply IH; cbn [p_fields p_values p_compares p_types]; try assumption; lia. }
  destruct (streq n (bytes "fld")) eqn:S2; [apply streq_eq in S2; contradiction|].
  destruct (streq n (bytes "field")); [destruct (Nat.ltb_spec (length f) MAXPARAMS); [|lia]; apply IH; cbn [p_fields p_values p_compares p_types]; try rewrite app_length; cbn [length]; try assumption; lia|].
  destruct (streq n (bytes "value")); [destruct (Nat.ltb_spec (length vs) MAXPARAMS); [|lia]; apply IH; cbn [p_fields p_values p_compares p_types]; try rewrite app_length; cbn [length]; try assumption; lia|].
  destruct (streq n (bytes "compare")); [destruct (Nat.ltb_spec (length c) MAXPARAMS); [|lia]; apply IH; cbn [p_fields p_values p_compares p_types]; try rewrite app_length; cbn [length]; try assumption; lia|].
  destruct (streq n (bytes "type")); [destruct (Nat.ltb_spec (length t) MAXPARAMS); [|lia]; apply IH; cbn [p_fields p_values p_compares p_types]; try rewrite app_length; cbn [length]; try assumption; lia|].
  destruct (streq n (bytes "from")) eqn:S3.
  { apply streq_eq in S3. specialize (Ha (or_introl S3)). destruct (atoi_text v); [|now contradiction Ha]. apply IH; cbn [p_fields p_values p_compares p_types]; try assumption; lia. }
  destruct (streq n (bytes "count")) eqn:S4.
  { apply streq_eq in S4. specialize (Ha (or_intror S4)). destruct (atoi_text v); [|now contradiction Ha]. apply IH; cbn [p_fields p_values p_compares p_types]; try assumption; lia. }
  apply IH; cbn [p_fields p_values p_compares p_types]; try assumption; lia.
Qed.

(** ** Order of actions *)
Definition touches (e : ev) : bool :=
  match e with E_attach | E_create | E_drop | E_lock _ | E_read _ | E_write _ => true | _ => false end.
(** The levels that allow an action. *)
Definition enough (l : level) (e : ev) : bool :=
  match e with
  | E_create | E_drop => match l with ADMIN_LEVEL => true | _ => false end
  | E_write _ => match l with READ_LEVEL => false | _ => true end
  | _ => true
  end.
Fixpoint chk (seen : list level) (t : list ev) : bool :=
  match t with
  | [] => true
  | E_auth l :: t => chk (l :: seen) t
  | e :: t => (if touches e then existsb (fun l => enough l e) seen else true) && chk seen t
  end.
Lemma chk_sound : forall t1 seen e t2, chk seen (t1 ++ e :: t2) = true -> touches e = true ->
  exists l, (In l seen \/ In (E_auth l) t1) /\ enough l e = true.
Proof.
  induction t1 as [|x t1 IH]; intros seen e t2 H T.
  - cbn [app] in H. assert (E : existsb (fun l => enough l e) seen = true).
    { destruct e; try discriminate T; cbn [chk touches] in H; apply andb_true_iff in H; tauto. }
    apply existsb_exists in E. destruct E as (l & I & E). exists l. split; [now left|exact E].
  - cbn [app] in H. assert (G : (exists l, x = E_auth l /\ chk (l :: seen) (t1 ++ e :: t2) = true) \/ chk seen (t1 ++ e :: t2) = true).
    { destruct x; cbn [chk] in H; try (right; apply andb_true_iff in H; tauto). left. eexists. split; [reflexivity|exact H]. }
    destruct G as [(l & -> & G)|G].
    + destruct (IH _ _ _ G T) as (l' & [[->|I]|I] & E); exists l'; (split; [|exact E]); [right; now left|now left|right; now right].
    + destruct (IH _ _ _ G T) as (l' & [I|I] & E); exists l'; (split; [|exact E]); [now left|right; now right].
Qed.
Lemma chk_work : forall w op recs l t, enough l (match op with DELETE_CODE | UPDATE_CODE => E_write 0 | _ => E_read 0 end) = true ->
  chk [l] (fst (work w op recs) ++ t) = chk [l] t.
Proof.
  intros w op recs l t E. induction recs as [|r recs IH]; [reflexivity|]. cbn [work]. destruct op.
  - destruct (work w COUNT_CODE recs) as [t' ok]. cbn [fst app chk touches existsb] in *. now rewrite IH.
  - destruct (w_work w r); [|reflexivity]. destruct (work w SEARCH_CODE recs) as [t' ok]. cbn [fst app chk touches existsb] in *. now rewrite IH.
  - destruct (work w DELETE_CODE recs) as [t' ok]. cbn [fst app chk touches existsb] in *. rewrite IH. cbn [enough] in *. now rewrite E.
  - destruct (work w UPDATE_CODE recs) as [t' ok]. cbn [fst app chk touches existsb] in *. rewrite IH. cbn [enough] in *. now rewrite E.
Qed.
Ltac cases :=
  repeat match goal with
  | |- context [if negb ?b then _ else _] => destruct b eqn:?; cbn [negb]
  | |- context [if ?b then _ else _] => destruct b eqn:?
  | |- context [match ?b with true => _ | false => _ end] => destruct b eqn:?
  end.
Lemma search_chk : forall w op recs, chk [] (search w op recs) = true.
Proof.
  intros w op recs. unfold search. set (lv := match op with DELETE_CODE | UPDATE_CODE => WRITE_LEVEL | _ => READ_LEVEL end).
  destruct (w_params w); [|reflexivity]. cbn [negb]. destruct (w_auth w lv); [|reflexivity]. cbn [negb chk].
  pose proof (fun t => chk_work w op recs lv t) as K.
  assert (En : enough lv (match op with DELETE_CODE | UPDATE_CODE => E_write 0 | _ => E_read 0 end) = true) by (destruct op; reflexivity).
  destruct (work w op recs) as [t ok]. cbn [fst] in K. unfold err_clear_detach_halt.
  cases; cbn [chk app touches existsb enough orb andb]; rewrite ?K by exact En; reflexivity.
Qed.
Lemma insert_chk : forall w, chk [] (insert w) = true.
Proof. intros w. unfold insert, err_clear_detach_halt. cases; reflexivity. Qed.
Lemma create_chk : forall w, chk [] (create w) = true.
Proof. intros w. unfold create, err_clear_detach_halt. cases; reflexivity. Qed.
Lemma drop_chk : forall w, chk [] (drop w) = true.
Proof. intros w. unfold drop, err_clear_detach_halt. cases; reflexivity. Qed.
Lemma work_no_auth : forall w op recs l, ~ In (E_auth l) (fst (work w op recs)).
Proof.
  intros w op recs l. induction recs as [|r recs IH]; [intros []|]. cbn [work].
  destruct op; try (destruct (w_work w r); [|intros [H|[]]; discriminate H]); destruct (work w _ recs); cbn [fst] in *; intros [H|H]; try discriminate H; contradiction.
Qed.
Lemma search_auth : forall w op recs l, In (E_auth l) (search w op recs) -> w_auth w l = true.
Proof.
  intros w op recs l. unfold search. set (lv := match op with DELETE_CODE | UPDATE_CODE => WRITE_LEVEL | _ => READ_LEVEL end).
  destruct (w_params w); [|intros [H|[]]; discriminate H]. cbn [negb]. destruct (w_auth w lv) eqn:A; [|intros [H|[]]; discriminate H]. cbn [negb].
  intros [H|H]; [injection H as <-; exact A|]. exfalso. revert H. pose proof (work_no_auth w op recs l) as N. destruct (work w op recs) as [t ok]. cbn [fst] in N.
  unfold err_clear_detach_halt. cases; cbn [In app]; rewrite ?in_app_iff; cbn [In]; intuition discriminate.
Qed.
Lemma insert_auth : forall w l, In (E_auth l) (insert w) -> w_auth w l = true.
Proof. intros w l. unfold insert, err_clear_detach_halt. cases; cbn [In app]; intuition congruence. Qed.
Lemma create_auth : forall w l, In (E_auth l) (create w) -> w_auth w l = true.
Proof. intros w l. unfold create, err_clear_detach_halt. cases; cbn [In app]; intuition congruence. Qed.
Lemma drop_auth : forall w l, In (E_auth l) (drop w) -> w_auth w l = true.
Proof. intros w l. unfold drop, err_clear_detach_halt. cases; cbn [In app]; intuition congruence. Qed.

(** Numbers of events of a kind. *)
Fixpoint number_of (p : ev -> bool) (t : list ev) : nat := match t with [] => 0%nat | e :: t => ((if p e then 1 else 0) + number_of p t)%nat end.
Definition is_lock (e : ev) : bool := match e with E_lock _ => true | _ => false end.
Definition is_unlock (e : ev) : bool := match e with E_unlock _ => true | _ => false end.
Definition is_attach (e : ev) : bool := match e with E_attach => true | _ => false end.
Definition is_detach (e : ev) : bool := match e with E_detach => true | _ => false end.
Definition on_record (e : ev) : bool := match e with E_read _ | E_write _ => true | _ => false end.
Lemma number_app : forall p a b, number_of p (a ++ b) = (number_of p a + number_of p b)%nat.
Proof. intros p a b. induction a as [|e a IH]; [reflexivity|]. cbn [app number_of]. rewrite IH. lia. Qed.
Lemma work_none : forall p w op recs, (forall r, p (E_read r) = false) -> (forall r, p (E_write r) = false) -> number_of p (fst (work w op recs)) = 0%nat.
Proof.
  intros p w op recs R Wr. induction recs as [|r recs IH]; [reflexivity|]. cbn [work].
  destruct op; try (destruct (w_work w r); [|cbn [fst number_of]; now rewrite R]); destruct (work w _ recs); cbn [fst number_of] in *; now rewrite ?R, ?Wr, IH.
Qed.
Lemma search_release : forall w op recs, ~ In E_terminate (search w op recs) ->
  number_of is_lock (search w op recs) = number_of is_unlock (search w op recs).
Proof.
  intros w op recs. unfold search.
  pose proof (work_none is_lock w op recs (fun _ => eq_refl) (fun _ => eq_refl)) as K1. pose proof (work_none is_unlock w op recs (fun _ => eq_refl) (fun _ => eq_refl)) as K2.
  destruct (work w op recs) as [t ok]. cbn [fst] in *. unfold err_clear_detach_halt.
  cases; cbn [number_of app is_lock is_unlock In]; rewrite ?number_app, ?in_app_iff, ?K1, ?K2; cbn [number_of app is_lock is_unlock In]; intros N; try reflexivity;
    exfalso; apply N; tauto.
Qed.
Lemma create_release : forall w, number_of is_lock (create w) = number_of is_unlock (create w).
Proof. intros w. unfold create, err_clear_detach_halt. cases; reflexivity. Qed.
Lemma insert_release : forall w, w_attach w = true -> ~ In E_terminate (insert w) -> number_of is_lock (insert w) = number_of is_unlock (insert w).
Proof. intros w A. unfold insert, err_clear_detach_halt. rewrite A. cases; cbn [number_of app is_lock is_unlock In Nat.add]; intros N; try reflexivity; exfalso; apply N; tauto. Qed.
Lemma search_detach : forall w op recs, w_shutdown w = false -> w_alloc w = true -> ~ In E_terminate (search w op recs) ->
  number_of is_attach (search w op recs) = number_of is_detach (search w op recs).
Proof.
  intros w op recs Sh Al. unfold search. rewrite Sh, Al.
  pose proof (work_none is_attach w op recs (fun _ => eq_refl) (fun _ => eq_refl)) as K1. pose proof (work_none is_detach w op recs (fun _ => eq_refl) (fun _ => eq_refl)) as K2.
  destruct (work w op recs) as [t ok]. cbn [fst] in *. unfold err_clear_detach_halt.
  cases; cbn [number_of app is_attach is_detach In]; rewrite ?number_app, ?in_app_iff, ?K1, ?K2; cbn [number_of app is_attach is_detach In Nat.add]; intros N; try reflexivity; try discriminate;
    exfalso; apply N; tauto.
Qed.
(** Work on records only while a lock is held. *)
Fixpoint depth_ok (d : nat) (t : list ev) : bool :=
  match t with
  | [] => true
  | E_lock _ :: t => depth_ok (S d) t
  | E_unlock _ :: t => Nat.ltb 0 d && depth_ok (d - 1) t
  | e :: t => (if on_record e then Nat.ltb 0 d else true) && depth_ok d t
  end.
Lemma depth_sound : forall t1 d e t2, depth_ok d (t1 ++ e :: t2) = true -> on_record e = true -> (number_of is_unlock t1 < d + number_of is_lock t1)%nat.
Proof.
  induction t1 as [|x t1 IH]; intros d e t2 H O; cbn [app number_of] in *.
  - destruct e; try discriminate O; cbn [depth_ok on_record] in H; apply andb_true_iff in H; destruct H as [H _]; apply Nat.ltb_lt in H; lia.
  - destruct x; cbn [depth_ok on_record is_lock is_unlock] in *;
      try (apply andb_true_iff in H; destruct H as [H1 H2]; specialize (IH _ _ _ H2 O); try apply Nat.ltb_lt in H1; lia);
      specialize (IH _ _ _ H O); lia.
Qed.
Lemma depth_work : forall w op recs t, depth_ok 1 (fst (work w op recs) ++ t) = depth_ok 1 t.
Proof.
  intros w op recs t. induction recs as [|r recs IH]; [reflexivity|]. cbn [work].
  destruct op; try (destruct (w_work w r); [|reflexivity]); destruct (work w _ recs); cbn [fst app depth_ok on_record] in *; now rewrite IH.
Qed.
Lemma search_depth : forall w op recs, depth_ok 0 (search w op recs) = true.
Proof.
  intros w op recs. unfold search. pose proof (depth_work w op recs) as K. destruct (work w op recs) as [t ok]. cbn [fst] in K. unfold err_clear_detach_halt.
  cases; cbn [depth_ok app on_record andb]; rewrite ?K; reflexivity.
Qed.
Lemma work_reads : forall w op recs, op = COUNT_CODE \/ op = SEARCH_CODE -> forall r, ~ In (E_write r) (fst (work w op recs)).
Proof.
  intros w op recs H r. induction recs as [|x recs IH]; [intros []|]. cbn [work].
  destruct H as [->| ->]; try (destruct (w_work w x); [|intros [H|[]]; discriminate H]); destruct (work w _ recs); cbn [fst] in *; intros [H|H]; try discriminate H; contradiction.
Qed.
(** A search that is done has handled all its records. *)
Definition handled (op : opcode) (r : nat) : ev := match op with DELETE_CODE | UPDATE_CODE => E_write r | _ => E_read r end.
Lemma work_all : forall w op recs t, work w op recs = (t, true) -> t = map (handled op) recs.
Proof.
  intros w op recs. induction recs as [|r recs IH]; intros t E; cbn [work] in E; [injection E as <-; reflexivity|]. cbn [map].
  destruct op; try (destruct (w_work w r); [|discriminate E]); destruct (work w _ recs) as [t' ok]; injection E as <- ->; rewrite (IH t' eq_refl); reflexivity.
Qed.
Lemma search_done : forall w op recs, In E_done (search w op recs) -> filter on_record (search w op recs) = map (handled op) recs.
Proof.
  intros w op recs. unfold search. destruct (work w op recs) as [t ok] eqn:E.
  assert (Nd : ~ In E_done t).
  { replace t with (fst (work w op recs)) by now rewrite E. clear. induction recs as [|r recs IH]; [intros []|]. cbn [work].
    destruct op; try (destruct (w_work w r); [|intros [H|[]]; discriminate H]); destruct (work w _ recs); cbn [fst] in *; intros [H|H]; try discriminate H; contradiction. }
  destruct ok.
  - apply work_all in E. subst t. assert (F : filter on_record (map (handled op) recs) = map (handled op) recs).
    { clear. induction recs as [|r recs IH]; [reflexivity|]. cbn [map filter]. destruct op; cbn [handled on_record] in *; now rewrite IH. }
    unfold err_clear_detach_halt.
    cases; cbn [filter on_record app In]; rewrite ?filter_app, ?in_app_iff, ?F; cbn [filter on_record app In negb]; intros H; try discriminate; rewrite ?app_nil_r; try reflexivity; exfalso; intuition discriminate.
  - unfold err_clear_detach_halt. cases; cbn [filter on_record app In]; rewrite ?in_app_iff; cbn [In]; intros H; exfalso; intuition discriminate.
Qed.
