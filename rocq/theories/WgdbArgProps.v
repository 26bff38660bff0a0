(** C82: the command line of wgdb is understood as it is written. *)
From Coq Require Import ZArith Bool List Lia.
From Verif Require Import WgdbArgModel.
Import ListNotations.
Open Scope Z_scope.

(** The text of a list of digits, and the number it stands for. *)
Definition text (ds : list Z) : list Z := map (fun d => 48 + d) ds.
Definition number (base : Z) (ds : list Z) : Z := fold_left (fun a d => a * base + d) ds 0.
Lemma digits_text : forall base ds acc rest, Forall (fun d => 0 <= d < base) ds -> match rest with c :: _ => digit base c = false | [] => True end ->
  digits base acc (text ds ++ rest) = (fold_left (fun a d => a * base + d) ds acc, rest).
Proof.
  intros base ds. induction ds as [|d ds IH]; intros acc rest F R.
  - cbn [text map app fold_left]. destruct rest as [|c r]; [reflexivity|]. cbn [digits]. rewrite R. reflexivity.
  - inversion F as [|? ? D F']; subst. cbn [text map app fold_left digits]. assert (G : digit base (48 + d) = true).
    { unfold digit. destruct (Z.leb_spec 48 (48 + d)); [|lia]. destruct (Z.ltb_spec (48 + d) (48 + base)); [reflexivity|lia]. }
    rewrite G. replace (48 + d - 48) with d by lia. apply IH; assumption.
Qed.
Lemma fold_nonneg : forall base ds acc, 0 <= acc -> 0 <= base -> Forall (fun d => 0 <= d < base) ds -> 0 <= fold_left (fun a d => a * base + d) ds acc.
Proof. intros base ds. induction ds as [|d ds IH]; intros acc A B F; [exact A|]. inversion F; subst. cbn [fold_left]. apply IH; [nia|assumption|assumption]. Qed.
Lemma strtol_text : forall base ds rest, 0 < base <= 10 -> ds <> [] -> Forall (fun d => 0 <= d < base) ds -> match rest with c :: _ => digit base c = false | [] => True end -> number base ds <= 9223372036854775807 ->
  strtol base (text ds ++ rest) = (number base ds, rest, false).
Proof.
  intros base ds rest B N F R L. pose proof (digits_text base ds 0 rest F R) as DT. destruct ds as [|d ds]; [contradiction|]. inversion F as [|? ? D F']; subst.
  assert (P : 0 <= number base (d :: ds)) by (apply fold_nonneg; [lia|lia|exact F]).
  unfold strtol. assert (W : skip_ws (text (d :: ds) ++ rest) = text (d :: ds) ++ rest).
  { cbn [text map app skip_ws]. destruct (Z.eqb_spec (48 + d) 32); [lia|]. destruct (Z.leb_spec (48 + d) 13); [lia|]. rewrite andb_false_r. reflexivity. }
  rewrite W. assert (S : sign (text (d :: ds) ++ rest) = (false, text (d :: ds) ++ rest)).
  { cbn [text map app sign]. destruct (Z.eqb_spec (48 + d) 45); [lia|]. destruct (Z.eqb_spec (48 + d) 43); [lia|]. reflexivity. }
  rewrite S.
  rewrite DT. fold (number base (d :: ds)). cbn [text map app]. assert (G : digit base (48 + d) = true).
  { unfold digit. destruct (Z.leb_spec 48 (48 + d)); [|lia]. destruct (Z.ltb_spec (48 + d) (48 + base)); [reflexivity|lia]. }
  rewrite G. unfold LMIN, LMAX. destruct (Z.ltb_spec (number base (d :: ds)) (-9223372036854775808)); [lia|]. destruct (Z.ltb_spec 9223372036854775807 (number base (d :: ds))); [lia|]. reflexivity.
Qed.

(** C82: a size written as a number below LONG_MAX with a unit is that many bytes, when this fits. *)
Theorem C82_size_partial : forall stale ds u m, ds <> [] -> Forall (fun d => 0 <= d < 10) ds -> In (u, m) [([], 1); ([107], 1000); ([75], 1000); ([109], 1000000); ([77], 1000000); ([103], 1000000000); ([71], 1000000000)] ->
  number 10 ds < 9223372036854775807 -> number 10 ds * m <= 9223372036854775807 -> parse_shmsize stale (text ds ++ u) = Some (number 10 ds * m).
Proof.
  intros stale ds u m N F I L O. assert (P : 0 <= number 10 ds) by (apply fold_nonneg; [lia|lia|exact F]).
  assert (U : unit_of u = m /\ match u with c :: _ => digit 10 c = false | [] => True end /\ 0 < m).
  { cbn [In] in I. repeat (destruct I as [I|I]; [injection I as <- <-; split; [reflexivity|split; [reflexivity || exact Logic.I|lia]]|]). contradiction. }
  destruct U as (U & R & M). unfold parse_shmsize. rewrite strtol_text by (assumption || lia). unfold LMAX, LMIN. destruct (Z.eqb_spec (number 10 ds) 9223372036854775807); [lia|]. destruct (Z.eqb_spec (number 10 ds) (-9223372036854775808)); [lia|].
  cbn [orb andb]. rewrite U. destruct (Z.ltb_spec 9223372036854775807 (number 10 ds)); [lia|]. destruct (Z.leb_spec (-9223372036854775808) (number 10 ds * m)); [|nia]. destruct (Z.leb_spec (number 10 ds * m) 9223372036854775807); [reflexivity|lia].
Qed.
(** C82: a mode written as an octal number from 1 to 777 is that mode, and what is given is always such a number or 0, when errno was 0. *)
Theorem C82_mode : forall ds, ds <> [] -> Forall (fun d => 0 <= d < 8) ds -> 1 <= number 8 ds <= 511 -> parse_memmode 0 (text ds) = number 8 ds.
Proof.
  intros ds N F R. unfold parse_memmode. rewrite <- (app_nil_r (text ds)). rewrite strtol_text by (assumption || lia || exact I).
  destruct (Z.leb_spec (number 8 ds) 511); [|lia]. destruct (Z.ltb_spec 0 (number 8 ds)); [reflexivity|lia].
Qed.
Theorem C82_mode_range : forall errno s, parse_memmode errno s = 0 \/ 1 <= parse_memmode errno s <= 511 /\ errno = 0 /\ exists r, strtol 8 s = (r, [], false).
Proof.
  intros errno s. unfold parse_memmode. destruct (strtol 8 s) as [[p t] range]. destruct (Z.eqb_spec errno 0); [|left; reflexivity]. destruct range; [left; reflexivity|]. destruct t; [|left; reflexivity].
  cbn [andb negb]. destruct (Z.leb_spec p 511); [|left; reflexivity]. destruct (Z.ltb_spec 0 p); [|left; reflexivity]. cbn [andb]. right. split; [lia|]. split; [assumption|]. exists p. reflexivity.
Qed.
(** C82: select prints the records asked for. *)
Theorem C82_select : forall A (l : list A) howmany from, 1 <= howmany -> selectdata l howmany from = firstn (Z.to_nat howmany) (skipn (Z.to_nat from) l).
Proof.
  intros A l howmany from H. unfold selectdata. assert (SK : forall n (l : list A), skip n l = if Nat.leb n (length l) then Some (skipn n l) else None).
  { induction n; intros [|x k]; try reflexivity. cbn [skip length skipn]. rewrite IHn. reflexivity. }
  assert (SH : forall (l : list A) c, 0 <= c < howmany -> show c howmany l = firstn (Z.to_nat (howmany - c)) l).
  { induction l0 as [|x k IH]; intros c C; [now rewrite firstn_nil|]. cbn [show]. replace (Z.to_nat (howmany - c)) with (S (Z.to_nat (howmany - (c + 1)))) by lia. cbn [firstn]. f_equal.
    destruct (Z.eqb_spec (c + 1) howmany) as [Q|Q]; [replace (howmany - (c + 1)) with 0 by lia; reflexivity|]. apply IH. lia. }
  rewrite SK. destruct (Nat.leb_spec (Z.to_nat from) (length l)).
  - rewrite SH by lia. now rewrite Z.sub_0_r.
  - rewrite skipn_all2 by lia. now rewrite firstn_nil.
Qed.
(** C82: with as many arguments as there should be, each three are one condition, and the query has them all, in their order. *)
Theorem C82_query_partial : forall T Q check (one : T -> T -> T -> option Q) (l : list (T * T * T)), l <> [] ->
  run_args check one (concat (map (fun x => [fst (fst x); snd (fst x); snd x]) l)) =
  fold_right (fun x r => match one (fst (fst x)) (snd (fst x)) (snd x), r with Some q, Some k => Some (q :: k) | _, _ => None end) (Some []) l.
Proof.
  intros T Q check one l N. unfold run_args.
  assert (E : arglist one (concat (map (fun x => [fst (fst x); snd (fst x); snd x]) l)) = fold_right (fun x r => match one (fst (fst x)) (snd (fst x)) (snd x), r with Some q, Some k => Some (q :: k) | _, _ => None end) (Some []) l).
  { clear N. induction l as [|x l IH]; [reflexivity|]. cbn [map concat app arglist fold_right]. rewrite <- IH. destruct (one (fst (fst x)) (snd (fst x)) (snd x)); reflexivity. }
  rewrite E. destruct l as [|x l]; [contradiction|]. cbn [fold_right]. destruct (one (fst (fst x)) (snd (fst x)) (snd x)); [|reflexivity]. destruct (fold_right _ _ l); reflexivity.
Qed.
(** C82: each condition is taken for what it says. *)
Theorem C82_cond_partial : cond_of [61] = Some EQUAL /\ cond_of [33; 61] = Some NOT_EQUAL /\ cond_of [60; 61] = Some LTEQUAL /\ cond_of [62; 61] = Some GTEQUAL /\ cond_of [60] = Some LESSTHAN /\ cond_of [62] = Some GREATER /\
  forall s c, cond_of s = Some c -> exists h r, s = h :: r /\ In h [33; 60; 61; 62].
Proof.
  do 6 (split; [reflexivity|]). intros [|h r] c E; [discriminate E|]. exists h, r. split; [reflexivity|]. cbn [In].
  destruct (Z.eq_dec h 33); [now left|]. destruct (Z.eq_dec h 60); [now right; left|]. destruct (Z.eq_dec h 61); [now right; right; left|]. destruct (Z.eq_dec h 62); [now right; right; right; left|].
  exfalso. unfold cond_of in E. repeat (match type of E with context[match ?x with _ => _ end] => is_var x; destruct x end; try discriminate E; try congruence).
Qed.
(** C82: behind any number of dashes, f is the flag to force and l that for logging; other letters are no flag. *)
Theorem C82_flag : forall n r, parse_flag (repeat 45 n ++ 102 :: r) = 1 /\ parse_flag (repeat 45 n ++ 108 :: r) = 2 /\
  forall c, c <> 45 -> c <> 102 -> c <> 108 -> parse_flag (repeat 45 n ++ c :: r) = 0.
Proof.
  intros n r. induction n as [|n (A & B & C)]; [|repeat split; assumption]. repeat split. intros c X Y Z. cbn [repeat app parse_flag].
  destruct (Z.eqb_spec c 45); [contradiction|]. destruct (Z.eqb_spec c 102); [contradiction|]. destruct (Z.eqb_spec c 108); [contradiction|reflexivity].
Qed.
Print Assumptions C82_flag.
Print Assumptions C82_size_partial.
Print Assumptions C82_mode.
Print Assumptions C82_mode_range.
Print Assumptions C82_select.
Print Assumptions C82_query_partial.
Print Assumptions C82_cond_partial.
(** "512M", "640", "select 2 1", and two conditions. *)
Example C82_size_case : parse_shmsize false (text [5; 1; 2] ++ [77]) = Some 512000000 /\ parse_memmode 0 (text [6; 4; 0]) = 416 /\ selectdata [10; 11; 12; 13] 2 1 = [11; 12] /\
  run_args true (fun a b c => if b =? 61 then Some (a, c) else None) [1; 61; 5; 2; 61; 6] = Some [(1, 5); (2, 6)].
Proof. vm_compute. repeat split. Qed.
(** C82, finding: with gint of 64 bits the limit is not divided by the unit, so that 10000000000G overflows; with other units, and with none, all of the rest of the text is left out, and a negative size is given on. *)
Theorem C82_size_refuted : parse_shmsize false (text [1; 0; 0; 0; 0; 0; 0; 0; 0; 0; 0] ++ [71]) = None /\ parse_shmsize false (text [5] ++ [84; 66]) = Some 5 /\ parse_shmsize false (45 :: text [5] ++ [77]) = Some (-5000000).
Proof. vm_compute. repeat split. Qed.
(** C82, finding: a mode is refused when an earlier call had set errno. *)
Theorem C82_mode_refuted : forall errno s, errno <> 0 -> parse_memmode errno s = 0.
Proof. intros errno s N. destruct (C82_mode_range errno s) as [E|(_ & E & _)]; [exact E|contradiction]. Qed.
(** C82, finding: arguments behind the last three are left out, so that del with an unfinished second condition deletes all records of the first;
    built without CHECK, del with two arguments deletes all records. *)
Theorem C82_query_refuted : forall (one : Z -> Z -> Z -> option Z) a b c d e q, one a b c = Some q -> run_args true one [a; b; c; d; e] = Some [q] /\ run_args false one [d; e] = Some [].
Proof. intros one a b c d e q H. unfold run_args. cbn [arglist]. rewrite H. split; reflexivity. Qed.
(** C82, finding: <> is taken for less than. *)
Theorem C82_cond_refuted : cond_of [60; 62] = Some LESSTHAN.
Proof. reflexivity. Qed.
(** C82, finding: a negative number of records prints all. *)
Theorem C82_select_refuted : forall A (l : list A) howmany, howmany < 0 -> selectdata l howmany 0 = l.
Proof.
  intros A l howmany H. unfold selectdata. cbn [Z.to_nat skip]. assert (G : forall (l : list A) c, 0 <= c -> show c howmany l = l).
  { induction l0 as [|x k IH]; intros c C; [reflexivity|]. cbn [show]. destruct (Z.eqb_spec (c + 1) howmany); [lia|]. now rewrite IH by lia. }
  apply G. lia.
Qed.
Print Assumptions C82_size_refuted.
Print Assumptions C82_mode_refuted.
Print Assumptions C82_query_refuted.
Print Assumptions C82_cond_refuted.
Print Assumptions C82_select_refuted.
Example C82_found_case : selectdata [1; 2; 3] (-1) 0 = [1; 2; 3] /\ parse_memmode 34 (text [6; 4; 0]) = 0 /\ parse_flag [45; 108] = 2 /\ parse_flag [45; 45; 102] = 1.
Proof. vm_compute. repeat split. Qed.
