(** Lemmas on CSV export and import. *)
From Coq Require Import ZArith List Bool Lia.
From Verif Require Import Base CalendarModel CalendarSpec CalendarProofs CsvModel.
Import ListNotations.
Open Scope Z_scope.
#[local] Ltac Zify.zify_post_hook ::= idtac.

(** * Reading rows *)
Definition idle r d := RS false false false false [] r d.
Fixpoint esclen (s : list Z) : Z :=
  match s with [] => 0 | c :: s => (if c =? QUOTE then 2 else 1) + esclen s end.
Lemma esclen_nonneg s : Z.of_nat (length s) <= esclen s.
Proof. induction s as [|c s IH]; cbn [esclen length]; [lia|]. destruct (c =? QUOTE); lia. Qed.

Lemma escape_full s : forall pos lim, pos + esclen s < lim ->
  escape s pos lim = flat_map (fun c => if c =? QUOTE then [QUOTE; QUOTE] else [c]) s.
Proof.
  induction s as [|c s IH]; intros pos lim H; cbn [escape flat_map esclen] in *; [reflexivity|].
  pose proof (esclen_nonneg s). destruct (Z.ltb_spec (pos + (if c =? QUOTE then 2 else 1)) lim) as [L | L]; [|lia].
  f_equal. apply IH. lia.
Qed.
Lemma cstring_id s : Forall (fun c => c <> 0) s -> cstring s = s.
Proof.
  induction 1 as [|c s H _ IH]; [reflexivity|]. cbn [cstring]. destruct (Z.eqb_spec c 0); [contradiction|]. now rewrite IH.
Qed.

Lemma put_char_room b c : Z.of_nat (length b) < 4095 -> put_char b c = b ++ [c].
Proof. intros H. unfold put_char, CSV_FIELD_BUF. destruct (Z.ltb_spec (Z.of_nat (length b)) (4096 - 1)); [reflexivity|lia]. Qed.

Lemma quoted_run : forall s b r d x f, Z.of_nat (length b + length s) <= 4095 -> x <> QUOTE -> x <> 255 ->
  fread_csv (flat_map (fun c => if c =? QUOTE then [QUOTE; QUOTE] else [c]) s ++ QUOTE :: x :: f) (RS false true false false b r d) =
  fread_csv (x :: f) (RS false false false true [] (r ++ [cstring (b ++ s)]) d).
Proof.
  induction s as [|c s IH]; intros b r d x f L Nx Ne.
  - cbn [flat_map app]. remember (x :: f) as g. cbn [fread_csv quoted_field esc_quote negb andb].
    rewrite Z.eqb_refl. subst g. destruct (Z.eqb_spec x QUOTE); [contradiction|]. destruct (Z.eqb_spec x 255); [contradiction|].
    cbn [negb uq_field strbuf row done]. unfold commit_strbuf. cbn [uq_field quoted_field esc_quote eat_sep strbuf row done].
    now rewrite app_nil_r.
  - cbn [length] in L. assert (E : b ++ c :: s = (b ++ [c]) ++ s) by now rewrite <- app_assoc.
    rewrite E. cbn [flat_map]. destruct (Z.eqb_spec c QUOTE) as [-> | N].
    + cbn [app fread_csv quoted_field esc_quote negb andb]. rewrite Z.eqb_refl. cbn [negb]. change (QUOTE =? 255) with false.
      cbv iota. cbn [uq_field eat_sep strbuf row done quoted_field esc_quote negb andb].
      rewrite put_char_room by lia. apply IH; auto. rewrite app_length. cbn [length]. lia.
    + cbn [app]. remember (flat_map _ s ++ _) as g. cbn [fread_csv quoted_field esc_quote negb andb].
      destruct (Z.eqb_spec c QUOTE); [contradiction|]. cbn [uq_field eat_sep strbuf row done]. subst g.
      rewrite put_char_room by lia. apply IH; auto. rewrite app_length. cbn [length]. lia.
Qed.

Definition special (c : Z) : Prop := c = COMMA \/ c = CR \/ c = LF.
Definition plain (t : list Z) : Prop :=
  t <> [] /\ Forall (fun c => ~ special c /\ c <> 0) t /\ hd 0 t <> QUOTE /\ Z.of_nat (length t) <= 4095.

Lemma unquoted_run : forall t b r d f, Z.of_nat (length b + length t) <= 4095 -> Forall (fun c => ~ special c /\ c <> 0) t ->
  fread_csv (t ++ f) (RS true false false false b r d) = fread_csv f (RS true false false false (b ++ t) r d).
Proof.
  induction t as [|c t IH]; intros b r d f L F; cbn [app]; [now rewrite app_nil_r|].
  apply Forall_cons_iff in F as ((N & _) & F). unfold special in N. cbn [length] in L.
  remember (t ++ f) as g. cbn [fread_csv quoted_field uq_field].
  destruct (Z.eqb_spec c COMMA); [tauto|]. destruct (Z.eqb_spec c CR); [tauto|]. destruct (Z.eqb_spec c LF); [tauto|].
  cbn [esc_quote eat_sep strbuf row done]. rewrite put_char_room by lia. subst g. rewrite IH; auto.
  - now rewrite <- app_assoc.
  - rewrite app_length. cbn [length]. lia.
Qed.

(** The text of a cell: empty, quoted or plain. *)
Inductive cell : list Z -> list Z -> Prop :=
| cell_null : cell [] []
| cell_str s : Forall (fun c => c <> 0) s -> esclen s <= 4091 -> cell (csv_escaped_str s 4094) s
| cell_plain t : plain t -> cell t t.

Lemma cell_comma t s r d f : cell t s -> fread_csv (t ++ COMMA :: f) (idle r d) = fread_csv f (idle (r ++ [s]) d).
Proof.
  unfold idle. intros C. destruct C as [|s F L|t (N & F & H & L)].
  - cbn [app fread_csv idle quoted_field uq_field eat_sep]. rewrite Z.eqb_refl. unfold commit_strbuf.
    cbn [uq_field quoted_field esc_quote eat_sep strbuf row done cstring]. reflexivity.
  - unfold csv_escaped_str. rewrite escape_full by lia. rewrite <- app_comm_cons, <- app_assoc. cbn [app].
    remember (flat_map _ s ++ _) as g. cbn [fread_csv idle quoted_field uq_field].
    change (QUOTE =? COMMA) with false. change (QUOTE =? CR) with false. change (QUOTE =? LF) with false. rewrite Z.eqb_refl.
    cbv iota. cbn [esc_quote eat_sep strbuf row done]. subst g. pose proof (esclen_nonneg s).
    rewrite quoted_run; [|cbn [length]; lia|discriminate|discriminate]. cbn [app]. rewrite cstring_id by assumption.
    cbn [fread_csv quoted_field uq_field eat_sep]. rewrite Z.eqb_refl. cbn [esc_quote strbuf row done]. reflexivity.
  - destruct t as [|c t]; [contradiction|]. cbn [hd] in H. pose proof F as F0. apply Forall_cons_iff in F as ((Nc & _) & F). unfold special in Nc.
    cbn [app]. remember (t ++ COMMA :: f) as g. cbn [fread_csv idle quoted_field uq_field].
    destruct (Z.eqb_spec c COMMA); [tauto|]. destruct (Z.eqb_spec c CR); [tauto|]. destruct (Z.eqb_spec c LF); [tauto|].
    destruct (Z.eqb_spec c QUOTE); [contradiction|]. cbn [esc_quote eat_sep strbuf row done app]. subst g. cbn [length] in L.
    rewrite unquoted_run; [|cbn [length]; lia|assumption]. cbn [fread_csv quoted_field uq_field]. rewrite Z.eqb_refl.
    unfold commit_strbuf. cbn [uq_field quoted_field esc_quote eat_sep strbuf row done app]. rewrite cstring_id; [reflexivity|].
    eapply Forall_impl; [|exact F0]. cbn. tauto.
Qed.
Lemma cell_lf t s r d f : cell t s -> (t = [] -> r <> []) -> fread_csv (t ++ LF :: f) (idle r d) = fread_csv f (idle [] (d ++ [r ++ [s]])).
Proof.
  unfold idle. intros C. destruct C as [|s F L|t (N & F & H & L)]; intros NE.
  - cbn [app fread_csv idle quoted_field uq_field eat_sep]. change (LF =? COMMA) with false. change (LF =? CR) with false. rewrite Z.eqb_refl.
    cbv iota. cbn [row]. destruct r as [|x r]; [now specialize (NE eq_refl)|]. unfold commit_record, commit_strbuf.
    cbn [uq_field quoted_field esc_quote eat_sep strbuf row done cstring app]. reflexivity.
  - unfold csv_escaped_str. rewrite escape_full by lia. rewrite <- app_comm_cons, <- app_assoc. cbn [app].
    remember (flat_map _ s ++ _) as g. cbn [fread_csv idle quoted_field uq_field].
    change (QUOTE =? COMMA) with false. change (QUOTE =? CR) with false. change (QUOTE =? LF) with false. rewrite Z.eqb_refl.
    cbv iota. cbn [esc_quote eat_sep strbuf row done]. subst g. pose proof (esclen_nonneg s).
    rewrite quoted_run; [|cbn [length]; lia|discriminate|discriminate]. cbn [app]. rewrite cstring_id by assumption.
    cbn [fread_csv quoted_field uq_field eat_sep]. change (LF =? COMMA) with false. change (LF =? CR) with false. rewrite Z.eqb_refl.
    cbv iota. unfold commit_record. cbn [uq_field quoted_field esc_quote eat_sep strbuf row done]. destruct r; reflexivity.
  - destruct t as [|c t]; [contradiction|]. cbn [hd] in H. pose proof F as F0. apply Forall_cons_iff in F as ((Nc & _) & F). unfold special in Nc.
    cbn [app]. remember (t ++ LF :: f) as g. cbn [fread_csv idle quoted_field uq_field].
    destruct (Z.eqb_spec c COMMA); [tauto|]. destruct (Z.eqb_spec c CR); [tauto|]. destruct (Z.eqb_spec c LF); [tauto|].
    destruct (Z.eqb_spec c QUOTE); [contradiction|]. cbn [esc_quote eat_sep strbuf row done app]. subst g. cbn [length] in L.
    rewrite unquoted_run; [|cbn [length]; lia|assumption]. cbn [fread_csv quoted_field uq_field].
    change (LF =? COMMA) with false. change (LF =? CR) with false. rewrite Z.eqb_refl. cbv iota.
    unfold commit_record, commit_strbuf. cbn [uq_field quoted_field esc_quote eat_sep strbuf row done app].
    rewrite cstring_id by (eapply Forall_impl; [|exact F0]; cbn; tauto). destruct r; reflexivity.
Qed.

(** Rows as texts joined by commas. *)
Fixpoint join (ts : list (list Z)) : list Z :=
  match ts with [] => [] | [t] => t | t :: ts => t ++ COMMA :: join ts end.
Lemma row_read : forall ts ss r d f, Forall2 cell ts ss -> ts <> [] -> (r = [] -> ts <> [[]]) ->
  fread_csv (join ts ++ LF :: f) (idle r d) = fread_csv f (idle [] (d ++ [r ++ ss])).
Proof.
  induction ts as [|t ts IH]; intros ss r d f F NE NN; [contradiction|]. inversion F as [|? s ? ss' C F']; subst.
  destruct ts as [|t2 ts].
  - inversion F'; subst. cbn [join]. apply cell_lf; [assumption|]. intros -> ->. now apply (NN eq_refl).
  - change (join (t :: t2 :: ts)) with (t ++ COMMA :: join (t2 :: ts)). rewrite <- app_assoc. cbn [app].
    rewrite (cell_comma t s r d _ C). rewrite (IH ss'); auto.
    + now rewrite <- app_assoc.
    + discriminate.
    + intros E. now destruct r.
Qed.
Lemma rows_read : forall rows out d, Forall2 (Forall2 cell) rows out -> Forall (fun ts => ts <> [] /\ ts <> [[]]) rows ->
  fread_csv (flat_map (fun ts => join ts ++ [LF]) rows) (idle [] d) = idle [] (d ++ out).
Proof.
  induction rows as [|ts rows IH]; intros out d F G; inversion F as [|? o ? out' C F']; subst; cbn [flat_map fread_csv].
  - now rewrite app_nil_r.
  - apply Forall_cons_iff in G as ((G1 & G2) & G). rewrite <- app_assoc. cbn [app].
    rewrite (row_read ts o [] d _ C G1 (fun _ => G2)). cbn [app]. rewrite (IH out'); auto. now rewrite <- app_assoc.
Qed.

(** * Integers *)
Lemma isdigit_spec c : isdigit c = true <-> 48 <= c <= 57.
Proof. unfold isdigit. rewrite andb_true_iff, !Z.leb_le. tauto. Qed.
Definition alldigits (s : list Z) : Prop := Forall (fun c => isdigit c = true) s.

Lemma digits_val_app a b : forall x, alldigits a -> digits_val (a ++ b) x = digits_val b (digits_val a x).
Proof.
  induction a as [|c a IH]; intros x H; [reflexivity|]. apply Forall_cons_iff in H as (Hc & H). cbn [app digits_val]. rewrite Hc. now apply IH.
Qed.
Lemma digits_ok : forall fuel n acc, 0 <= n < 10 ^ Z.of_nat fuel -> (0 < fuel)%nat ->
  exists ds, digits fuel n acc = ds ++ acc /\ ds <> [] /\ alldigits ds /\ digits_val ds 0 = n /\ (length ds <= fuel)%nat /\
    forall w, n < 10 ^ Z.of_nat w -> (0 < w)%nat -> (length ds <= w)%nat.
Proof.
  induction fuel as [|fuel IH]; intros n acc H F; [lia|]. cbn [digits]. cbn zeta.
  pose proof (Z.mod_pos_bound n 10 ltac:(lia)) as M. pose proof (Z.div_mod n 10 ltac:(lia)) as DM.
  assert (D0 : isdigit (48 + n mod 10) = true) by (apply isdigit_spec; lia).
  destruct (Z.ltb_spec n 10) as [L | L].
  - exists [48 + n mod 10]. split; [reflexivity|]. split; [discriminate|]. split; [constructor; [assumption|constructor]|].
    cbn [digits_val length]. rewrite D0, Z.mod_small by lia. repeat split; try lia.
  - assert (F1 : (0 < fuel)%nat) by (destruct fuel; [cbn in H; lia|lia]).
    rewrite Nat2Z.inj_succ, Z.pow_succ_r in H by lia.
    destruct (IH (n / 10) (48 + n mod 10 :: acc)) as (ds & E & N & A & V & Len & W); [|assumption|].
    { split; [apply Z.div_pos; lia|]. apply Z.div_lt_upper_bound; lia. }
    exists (ds ++ [48 + n mod 10]). rewrite E. split; [now rewrite <- app_assoc|]. split; [destruct ds; discriminate|].
    split; [apply Forall_app; split; [assumption|constructor; [assumption|constructor]]|]. split; [|split].
    + rewrite digits_val_app by assumption. cbn [digits_val]. rewrite D0, V. lia.
    + rewrite app_length. cbn [length]. lia.
    + intros w Hw W0. rewrite app_length. cbn [length]. destruct w as [|w]; [lia|].
      rewrite Nat2Z.inj_succ, Z.pow_succ_r in Hw by lia.
      assert (Wp : (0 < w)%nat) by (destruct w; [cbn in Hw; lia|lia]).
      specialize (W w ltac:(apply Z.div_lt_upper_bound; lia) Wp). lia.
Qed.

Lemma print_int_nonneg n : 0 <= n < 10 ^ 19 -> exists ds, print_int n = ds /\ ds <> [] /\ alldigits ds /\ digits_val ds 0 = n /\
  (length ds <= 20)%nat /\ forall w, n < 10 ^ Z.of_nat w -> (0 < w)%nat -> (length ds <= w)%nat.
Proof.
  intros H. unfold print_int. destruct (Z.ltb_spec n 0); [lia|].
  destruct (digits_ok 20 n []) as (ds & E & A); [split; [lia|]; change (Z.of_nat 20) with 20; assert (10 ^ 19 < 10 ^ 20) by (now vm_compute); lia|lia|].
  exists ds. rewrite E, app_nil_r. split; [reflexivity|]. exact A.
Qed.

Lemma print_pad_ok w n : 0 <= n < 10 ^ Z.of_nat w -> (0 < w <= 19)%nat ->
  exists ds, print_pad w n = ds /\ length ds = w /\ alldigits ds /\ digits_val ds 0 = n.
Proof.
  intros H W. unfold print_pad. destruct (Z.ltb_spec n 0); [lia|]. rewrite Z.abs_eq by lia. cbn [app].
  assert (B : 10 ^ Z.of_nat w <= 10 ^ 19) by (apply Z.pow_le_mono_r; lia).
  destruct (print_int_nonneg n ltac:(lia)) as (ds & -> & N & A & V & _ & Len). specialize (Len w ltac:(lia) ltac:(lia)).
  exists (repeat 48 (w - length ds) ++ ds). split; [reflexivity|]. split; [rewrite app_length, repeat_length; lia|].
  assert (R : forall k, alldigits (repeat 48 k)) by (induction k; constructor; auto).
  split; [apply Forall_app; split; [apply R|exact A]|]. rewrite digits_val_app by auto.
  replace (digits_val (repeat 48 (w - length ds)) 0) with 0; [assumption|].
  generalize (w - length ds)%nat. intros k. symmetry. induction k as [|k IH]; [reflexivity|]. cbn [repeat digits_val]. exact IH.
Qed.

Lemma scan_digits_ok : forall ds rest acc got, alldigits ds -> ds <> [] \/ got = true ->
  scan_digits (length ds) (ds ++ rest) acc got = Some (digits_val ds acc, rest).
Proof.
  induction ds as [|c ds IH]; intros rest acc got A N.
  - destruct N as [N | ->]; [contradiction|]. destruct rest; reflexivity.
  - apply Forall_cons_iff in A as (Hc & A). cbn [length app scan_digits digits_val]. rewrite Hc. apply IH; auto.
Qed.
Lemma scan_int_ok ds rest : alldigits ds -> ds <> [] -> scan_int (length ds) (ds ++ rest) = Some (digits_val ds 0, rest).
Proof.
  intros A N. destruct ds as [|c ds]; [contradiction|]. pose proof A as A0. apply Forall_cons_iff in A as (Hc & A). apply isdigit_spec in Hc.
  unfold scan_int. cbn [app skip_space]. unfold isspace. destruct (Z.eqb_spec c 32); [lia|]. destruct (Z.leb_spec 9 c), (Z.leb_spec c 13); try lia; cbn [orb andb].
  all: unfold MINUS; destruct (Z.eqb_spec c 45); [lia|]; destruct (Z.eqb_spec c 43); [lia|]; apply (scan_digits_ok (c :: ds)); auto; left; discriminate.
Qed.
(** Scanning digits only: what follows starts with a digit or is empty. *)
Lemma scan_digits_all : forall w s acc got, alldigits s -> match scan_digits w s acc got with Some (_, r) => alldigits r | None => True end.
Proof.
  induction w as [|w IH]; intros [|c s] acc got A; cbn [scan_digits]; try (destruct got; [exact A|exact I]).
  apply Forall_cons_iff in A as (Hc & A). rewrite Hc. apply IH. assumption.
Qed.
Lemma scan_int_all w s : alldigits s -> match scan_int w s with Some (_, r) => alldigits r | None => True end.
Proof.
  intros A. unfold scan_int. destruct s as [|c s]; [exact I|]. pose proof A as A0. apply Forall_cons_iff in A as (Hc & _). apply isdigit_spec in Hc.
  cbn [skip_space]. unfold isspace. destruct (Z.eqb_spec c 32); [lia|]. destruct (Z.leb_spec 9 c), (Z.leb_spec c 13); try lia; cbn [orb andb].
  all: unfold MINUS; destruct (Z.eqb_spec c 45); [lia|]; destruct (Z.eqb_spec c 43); [lia|]; now apply scan_digits_all.
Qed.
Lemma scan_lit_all l s : isdigit l = false -> alldigits s -> scan_lit l s = None.
Proof.
  intros L A. destruct s as [|c s]; [reflexivity|]. apply Forall_cons_iff in A as (Hc & _). cbn. destruct (Z.eqb_spec c l); [congruence|reflexivity].
Qed.
Lemma digits_no_date s : alldigits s -> wg_strp_iso_date s = -1 /\ wg_strp_iso_time s = -1.
Proof.
  intros A. unfold wg_strp_iso_date, wg_strp_iso_time. split.
  - pose proof (scan_int_all 4 s A) as H. destruct (scan_int 4 s) as [[v r]|]; [|reflexivity]. now rewrite scan_lit_all.
  - pose proof (scan_int_all 2 s A) as H. destruct (scan_int 2 s) as [[v r]|]; [|reflexivity]. now rewrite scan_lit_all.
Qed.

Lemma numscan_digits : forall room s, alldigits s -> (length s <= room)%nat -> numscan room false s 0 = (s, 0).
Proof.
  induction room as [|room IH]; intros [|c s] A L; cbn [length] in *; try lia; try reflexivity.
  apply Forall_cons_iff in A as (Hc & A). cbn [numscan]. assert (c <> DOT) by (apply isdigit_spec in Hc; unfold DOT; lia).
  destruct (Z.eqb_spec c DOT); [contradiction|]. rewrite Hc. cbn [negb andb]. now rewrite IH by (auto; lia).
Qed.
Lemma numscan_first room c s : c <> DOT -> alldigits s -> (length s <= room)%nat -> numscan (S room) true (c :: s) 0 = (c :: s, 0).
Proof.
  intros N A L. cbn [numscan]. destruct (Z.eqb_spec c DOT); [contradiction|]. cbn [negb]. rewrite andb_false_r.
  now rewrite numscan_digits.
Qed.

Section Parse.
Context {D : Type} (strtod : list Z -> D * bool).
Lemma parse_print_int n : - 2 ^ 63 <= n < 2 ^ 63 -> parse_input strtod false (print_int n) = (PInt n, false) /\ plain (print_int n).
Proof.
  intros H. assert (B : 2 ^ 63 < 10 ^ 19) by (now vm_compute).
  assert (ST : forall v, - 2 ^ 63 <= v < 2 ^ 63 -> (if v <? - 2 ^ 63 then (- 2 ^ 63, true) else if 2 ^ 63 - 1 <? v then (2 ^ 63 - 1, true) else (v, false)) = (v, false)).
  { intros v Hv. destruct (Z.ltb_spec v (- 2 ^ 63)); [lia|]. destruct (Z.ltb_spec (2 ^ 63 - 1) v); [lia|reflexivity]. }
  destruct (Z.ltb_spec n 0) as [L | L].
  - unfold print_int. destruct (Z.ltb_spec n 0); [|lia]. destruct (digits_ok 20 (- n) []) as (ds & E & N & A & V & Len & _); [|lia|].
    { split; [lia|]. change (Z.of_nat 20) with 20. assert (10 ^ 19 < 10 ^ 20) by (now vm_compute). lia. }
    rewrite app_nil_r in E. rewrite E. destruct ds as [|c ds]; [contradiction|].
    assert (Hc : isdigit c = true) by exact (proj1 (proj1 (Forall_cons_iff _ _ _) A)). split.
    + unfold parse_input. rewrite Hc. change (isdigit MINUS) with false. change (MINUS =? MINUS) with true. cbn [orb andb negb].
      rewrite (numscan_first 78); [|discriminate|exact A|cbn [length] in *; lia]. cbn [Z.eqb].
      unfold strtol. rewrite Z.eqb_refl, V. rewrite ST by lia. cbn [orb]. now rewrite Z.opp_involutive.
    + split; [discriminate|]. split; [|split; [discriminate|cbn [length] in *; lia]]. constructor; [unfold special, MINUS, COMMA, CR, LF; lia|].
      eapply Forall_impl; [|exact A]. intros a Ha. apply isdigit_spec in Ha. unfold special, COMMA, CR, LF. lia.
  - destruct (print_int_nonneg n ltac:(lia)) as (ds & -> & N & A & V & Len & _). destruct ds as [|c ds]; [contradiction|].
    pose proof A as A0. apply Forall_cons_iff in A as (Hc & A). pose proof (proj1 (isdigit_spec c) Hc) as Hc'. split.
    + unfold parse_input. rewrite Hc. cbn [orb]. destruct (digits_no_date _ A0) as (-> & ->).
      change (0 <=? -1) with false. rewrite !andb_false_r. rewrite (numscan_first 78); [|unfold DOT; lia|exact A|cbn [length] in *; lia].
      cbn [Z.eqb]. unfold strtol. destruct (Z.eqb_spec c MINUS); [unfold MINUS in *; lia|]. rewrite V. now rewrite ST by lia.
    + split; [discriminate|]. split; [|split; [cbn [hd]; unfold QUOTE; lia|cbn [length] in *; lia]].
      eapply Forall_impl; [|exact A0]. intros a Ha. apply isdigit_spec in Ha. unfold special, COMMA, CR, LF. lia.
Qed.
End Parse.

(** * Dates and times *)
Lemma year_loop_range fuel : forall n z y, 0 <= n < 2 ^ 32 -> year_loop fuel n z = Some y -> 0 <= y < 2 ^ 32.
Proof.
  induction fuel as [|fuel IH]; intros n z y H E; cbn [year_loop] in E; destruct (years_to_days n <? z).
  - discriminate.
  - inversion E; subst; assumption.
  - apply IH in E; [assumption|]. unfold u32. apply Z.mod_pos_bound. lia.
  - inversion E; subst; assumption.
Qed.
Lemma u32_range z : 0 <= u32 z < 2 ^ 32.
Proof. unfold u32. apply Z.mod_pos_bound. lia. Qed.
Lemma scalar_range n y m d : scalar_to_ymd n = Some (y, m, d) -> 0 <= y < 2 ^ 32 /\ 0 <= m < 2 ^ 32 /\ 0 <= d < 2 ^ 32.
Proof.
  unfold scalar_to_ymd. destruct (year_loop _ _ _) as [yr|] eqn:E; [|discriminate]. intros H. inversion H as [[H1 H2 H3]]. clear H.
  apply year_loop_range in E; [|apply u32_range]. rewrite H1 in *. split; [assumption|]. rewrite H2.
  split; [|subst d; apply u32_range]. subst m.
  match goal with |- 0 <= u32 ?a / 3057 < _ => pose proof (u32_range a) as R; set (x := u32 a) in * end.
  split; [apply Z.div_pos; lia|]. apply Z.div_lt_upper_bound; lia.
Qed.
Lemma wrap32_pos y : 0 <= y < 2 ^ 32 -> 0 <= wrap32 y -> wrap32 y = y.
Proof.
  intros H. unfold wrap32. destruct (Z.lt_ge_cases y (2 ^ 31)); [rewrite Z.mod_small; lia|].
  replace (y + 2 ^ 31) with ((y - 2 ^ 31) + 1 * 2 ^ 32) by lia. rewrite Z.mod_add, Z.mod_small by lia. lia.
Qed.

(** A day of the years 1 to 9999 and its parts. *)
Lemma day_parts n : 1 <= n <= 3652059 -> exists y m d, scalar_to_ymd n = Some (y, m, d) /\ 1 <= y <= 9999 /\ 1 <= m <= 12 /\ 1 <= d <= 31 /\ wg_ymd_to_date y m d = n.
Proof.
  intros H. destruct (date_surj n ltac:(lia)) as (y & m & d & E & V & M & W).
  unfold wg_date_to_ymd in E. destruct (scalar_to_ymd n) as [[[y' m'] d']|] eqn:S; [|discriminate]. inversion E as [[E1 E2 E3]]. clear E.
  destruct (scalar_range _ _ _ _ S) as (R1 & R2 & R3). pose proof V as (V1 & V2 & V3).
  assert (D31 : d <= 31).
  { assert (month_length (leap_yearb y) m <= 31); [|lia]. unfold month_length. destruct (leap_yearb y); repeat (destruct (_ =? _) || destruct (_ || _)); lia. }
  assert (Y : y' = y) by (rewrite <- E1; symmetry; apply wrap32_pos; [assumption|lia]).
  assert (MM : m' = m) by (rewrite <- E2; symmetry; apply wrap32_pos; [assumption|lia]).
  assert (DD : d' = d) by (rewrite <- E3; symmetry; apply wrap32_pos; [assumption|lia]).
  subst y' m' d'. exists y, m, d. split; [reflexivity|]. split; [|repeat split; try lia; assumption].
  split; [lia|]. destruct (Z.le_gt_cases y 9999) as [L | L]; [assumption|exfalso].
  assert (V9 : valid_date (9999, 12, 31)) by (cbn; lia).
  assert (O : earlier (9999, 12, 31) (y, m, d)) by (cbn [earlier]; lia).
  apply date_order_lt in O; [|assumption|assumption|unfold MAXYEAR; lia|assumption].
  change (wg_ymd_to_date 9999 12 31) with 3652059 in O. lia.
Qed.

Lemma pad_len w n : 0 <= n < 10 ^ Z.of_nat w -> (0 < w <= 19)%nat -> length (print_pad w n) = w.
Proof. intros H W. destruct (print_pad_ok w n H W) as (ds & -> & L & _). exact L. Qed.
Lemma scan_pad w n rest : 0 <= n < 10 ^ Z.of_nat w -> (0 < w <= 19)%nat -> scan_int w (print_pad w n ++ rest) = Some (n, rest).
Proof.
  intros H W. destruct (print_pad_ok w n H W) as (ds & -> & L & A & V). rewrite <- L at 1.
  rewrite scan_int_ok; [now rewrite V|assumption|]. intros ->. cbn in L. lia.
Qed.
Lemma pad_plain w n : 0 <= n < 10 ^ Z.of_nat w -> (0 < w <= 19)%nat -> Forall (fun c => ~ special c /\ c <> 0) (print_pad w n).
Proof.
  intros H W. destruct (print_pad_ok w n H W) as (ds & -> & _ & A & _). eapply Forall_impl; [|exact A].
  intros a Ha. apply isdigit_spec in Ha. unfold special, COMMA, CR, LF. lia.
Qed.
Lemma pad_head w n : 0 <= n < 10 ^ Z.of_nat w -> (0 < w <= 19)%nat -> exists c s, print_pad w n = c :: s /\ isdigit c = true.
Proof.
  intros H W. destruct (print_pad_ok w n H W) as (ds & -> & L & A & _). destruct ds as [|c ds]; [cbn in L; lia|].
  exists c, ds. split; [reflexivity|]. now apply Forall_cons_iff in A.
Qed.

(** The texts of a date and a time in full. *)
Definition date_text (y m d : Z) : list Z := print_pad 4 y ++ MINUS :: print_pad 2 m ++ MINUS :: print_pad 2 d.
Definition time_text (h m s c : Z) : list Z :=
  print_pad 2 h ++ COLON :: print_pad 2 m ++ COLON :: print_pad 2 s ++ DOT :: print_pad 2 c.

Lemma date_export n y m d : scalar_to_ymd n = Some (y, m, d) -> 1 <= y <= 9999 -> 1 <= m <= 12 -> 1 <= d <= 31 ->
  snprint_value_csv (VDate n) = Some (date_text y m d).
Proof.
  intros E Y M D. unfold snprint_value_csv, wg_strf_iso_datetime. destruct (wg_time_to_hms 0) as [[[h mi] s] c].
  rewrite E. rewrite firstn_firstn. change (min 10 23) with 10%nat.
  pose proof (pad_len 4 y ltac:(change (10 ^ Z.of_nat 4) with 10000; lia) ltac:(lia)) as L1.
  pose proof (pad_len 2 m ltac:(change (10 ^ Z.of_nat 2) with 100; lia) ltac:(lia)) as L2.
  pose proof (pad_len 2 d ltac:(change (10 ^ Z.of_nat 2) with 100; lia) ltac:(lia)) as L3.
  match goal with |- Some (firstn 10 ?t) = _ => match t with context[84 :: ?r] => replace t with (date_text y m d ++ 84 :: r) end end.
  2:{ unfold date_text. repeat (rewrite <- app_assoc; cbn [app]). reflexivity. }
  assert (L : length (date_text y m d) = 10%nat).
  { unfold date_text. rewrite app_length. cbn [length]. rewrite app_length. cbn [length]. lia. }
  rewrite <- L. rewrite firstn_app, firstn_all, Nat.sub_diag, firstn_O, app_nil_r. reflexivity.
Qed.
Lemma time_export n h m s c : wg_time_to_hms n = (h, m, s, c) -> valid_time h m s c ->
  snprint_value_csv (VTime n) = Some (time_text h m s c).
Proof.
  intros E (H1 & H2 & H3 & H4). unfold snprint_value_csv, wg_strf_iso_datetime. rewrite E.
  change (scalar_to_ymd 1) with (Some (1, 1, 1)). cbv iota.
  pose proof (pad_len 2 h ltac:(change (10 ^ Z.of_nat 2) with 100; lia) ltac:(lia)) as L1.
  pose proof (pad_len 2 m ltac:(change (10 ^ Z.of_nat 2) with 100; lia) ltac:(lia)) as L2.
  pose proof (pad_len 2 s ltac:(change (10 ^ Z.of_nat 2) with 100; lia) ltac:(lia)) as L3.
  pose proof (pad_len 2 c ltac:(change (10 ^ Z.of_nat 2) with 100; lia) ltac:(lia)) as L4.
  assert (L : length (time_text h m s c) = 11%nat).
  { unfold time_text. rewrite app_length. cbn [length]. rewrite app_length. cbn [length]. rewrite app_length. cbn [length]. lia. }
  f_equal. fold (time_text h m s c). 
  change (print_pad 4 1 ++ MINUS :: print_pad 2 1 ++ MINUS :: print_pad 2 1 ++ 84 :: time_text h m s c) with ([48;48;48;49;45;48;49;45;48;49;84] ++ time_text h m s c).
  rewrite firstn_all2 by (rewrite app_length, L; cbn; lia). reflexivity.
Qed.
Lemma date_parse y m d : 1 <= y <= 9999 -> 1 <= m <= 12 -> 1 <= d <= 31 -> wg_strp_iso_date (date_text y m d) = wg_ymd_to_date y m d.
Proof.
  intros Y M D. unfold wg_strp_iso_date, date_text. rewrite scan_pad by (try (change (10 ^ Z.of_nat 4) with 10000); lia).
  cbn [scan_lit]. rewrite Z.eqb_refl. rewrite scan_pad by (try (change (10 ^ Z.of_nat 2) with 100); lia).
  cbn [scan_lit]. rewrite Z.eqb_refl. rewrite <- (app_nil_r (print_pad 2 d)).
  rewrite scan_pad by (try (change (10 ^ Z.of_nat 2) with 100); lia). reflexivity.
Qed.
Lemma time_parse h m s c : valid_time h m s c -> wg_strp_iso_time (time_text h m s c) = wg_hms_to_time h m s c /\ wg_strp_iso_date (time_text h m s c) = -1.
Proof.
  intros (H1 & H2 & H3 & H4). split.
  - unfold wg_strp_iso_time, time_text, wg_hms_to_time.
    do 3 (rewrite scan_pad by (try (change (10 ^ Z.of_nat 2) with 100); lia); cbn [scan_lit]; rewrite Z.eqb_refl).
    rewrite <- (app_nil_r (print_pad 2 c)). rewrite scan_pad by (try (change (10 ^ Z.of_nat 2) with 100); lia).
    destruct (_ || _); [reflexivity|]. rewrite wrap32_id; [reflexivity|]. unfold is32. lia.
  - unfold wg_strp_iso_date, time_text. destruct (print_pad_ok 2 h) as (ds & -> & L & A & _); [change (10 ^ Z.of_nat 2) with 100; lia|lia|].
    destruct ds as [|a [|b [|]]]; try discriminate L. apply Forall_cons_iff in A as (Ha & A). apply Forall_cons_iff in A as (Hb & _).
    pose proof (proj1 (isdigit_spec a) Ha). unfold scan_int. cbn [app skip_space]. unfold isspace.
    replace ((a =? 32) || (9 <=? a) && (a <=? 13)) with false
      by (destruct (Z.eqb_spec a 32); [lia|]; destruct (Z.leb_spec a 13); [lia|]; now rewrite andb_false_r).
    destruct (Z.eqb_spec a MINUS); [unfold MINUS in *; lia|]. destruct (Z.eqb_spec a 43); [lia|].
    cbn [scan_digits]. rewrite Ha, Hb. reflexivity.
Qed.
Lemma date_text_plain y m d : 1 <= y <= 9999 -> 1 <= m <= 12 -> 1 <= d <= 31 -> plain (date_text y m d) /\ exists c s, date_text y m d = c :: s /\ isdigit c = true.
Proof.
  intros Y M D. unfold date_text. destruct (pad_head 4 y ltac:(change (10 ^ Z.of_nat 4) with 10000; lia) ltac:(lia)) as (a & t & E & Ha).
  pose proof (pad_len 4 y ltac:(change (10 ^ Z.of_nat 4) with 10000; lia) ltac:(lia)) as L1.
  pose proof (pad_len 2 m ltac:(change (10 ^ Z.of_nat 2) with 100; lia) ltac:(lia)) as L2.
  pose proof (pad_len 2 d ltac:(change (10 ^ Z.of_nat 2) with 100; lia) ltac:(lia)) as L3.
  pose proof (pad_plain 4 y ltac:(change (10 ^ Z.of_nat 4) with 10000; lia) ltac:(lia)) as P1.
  pose proof (pad_plain 2 m ltac:(change (10 ^ Z.of_nat 2) with 100; lia) ltac:(lia)) as P2.
  pose proof (pad_plain 2 d ltac:(change (10 ^ Z.of_nat 2) with 100; lia) ltac:(lia)) as P3.
  assert (PM : ~ special MINUS /\ MINUS <> 0) by (unfold special, MINUS, COMMA, CR, LF; lia).
  split; [|rewrite E; eexists _, _; split; [reflexivity|exact Ha]].
  split; [rewrite E; discriminate|]. split; [|split].
  - repeat first [assumption | apply Forall_app; split | apply Forall_cons].
  - rewrite E. cbn [app hd]. apply isdigit_spec in Ha. unfold QUOTE. lia.
  - rewrite app_length. cbn [length]. rewrite app_length. cbn [length]. lia.
Qed.
Lemma time_text_plain h m s c : valid_time h m s c -> plain (time_text h m s c) /\ exists a t, time_text h m s c = a :: t /\ isdigit a = true.
Proof.
  intros (H1 & H2 & H3 & H4). unfold time_text. destruct (pad_head 2 h ltac:(change (10 ^ Z.of_nat 2) with 100; lia) ltac:(lia)) as (a & t & E & Ha).
  pose proof (pad_len 2 h ltac:(change (10 ^ Z.of_nat 2) with 100; lia) ltac:(lia)) as L1.
  pose proof (pad_len 2 m ltac:(change (10 ^ Z.of_nat 2) with 100; lia) ltac:(lia)) as L2.
  pose proof (pad_len 2 s ltac:(change (10 ^ Z.of_nat 2) with 100; lia) ltac:(lia)) as L3.
  pose proof (pad_len 2 c ltac:(change (10 ^ Z.of_nat 2) with 100; lia) ltac:(lia)) as L4.
  pose proof (pad_plain 2 h ltac:(change (10 ^ Z.of_nat 2) with 100; lia) ltac:(lia)) as P1.
  pose proof (pad_plain 2 m ltac:(change (10 ^ Z.of_nat 2) with 100; lia) ltac:(lia)) as P2.
  pose proof (pad_plain 2 s ltac:(change (10 ^ Z.of_nat 2) with 100; lia) ltac:(lia)) as P3.
  pose proof (pad_plain 2 c ltac:(change (10 ^ Z.of_nat 2) with 100; lia) ltac:(lia)) as P4.
  assert (PC : ~ special COLON /\ COLON <> 0) by (unfold special, COLON, COMMA, CR, LF; lia).
  assert (PD : ~ special DOT /\ DOT <> 0) by (unfold special, DOT, COMMA, CR, LF; lia).
  split; [|rewrite E; eexists _, _; split; [reflexivity|exact Ha]].
  split; [rewrite E; discriminate|]. split; [|split].
  - repeat first [assumption | apply Forall_app; split | apply Forall_cons].
  - rewrite E. cbn [app hd]. apply isdigit_spec in Ha. unfold QUOTE. lia.
  - rewrite app_length. cbn [length]. rewrite app_length. cbn [length]. rewrite app_length. cbn [length]. lia.
Qed.

(** * Whole tables *)
Lemma record_join : forall vs ts first, Forall2 (fun v t => snprint_value_csv v = Some t) vs ts ->
  wg_fprint_record_csv first vs = Some ((if first then [] else match ts with [] => [] | _ => [COMMA] end) ++ join ts).
Proof.
  induction vs as [|v vs IH]; intros ts first F; inversion F as [|? t ? ts' E F']; subst; cbn [wg_fprint_record_csv].
  - destruct first; reflexivity.
  - rewrite E, (IH ts' false F'). destruct ts' as [|t2 ts2]; [cbn [join app]; rewrite app_nil_r|]; destruct first; reflexivity.
Qed.
Lemma export_join : forall rows tss, Forall2 (Forall2 (fun v t => snprint_value_csv v = Some t)) rows tss ->
  wg_export_db_csv rows = Some (flat_map (fun ts => join ts ++ [LF]) tss).
Proof.
  induction rows as [|r rows IH]; intros tss F; inversion F as [|? ts ? tss' E F']; subst; cbn [wg_export_db_csv flat_map]; [reflexivity|].
  rewrite (record_join _ _ true E), (IH _ F'). cbn [app]. now rewrite <- app_assoc.
Qed.
