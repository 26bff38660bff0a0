(** Theorems on CSV export and import: C41, C42, C54. *)
From Coq Require Import ZArith List Bool Lia.
From Verif Require Import Base CalendarModel CalendarSpec CalendarProofs CsvModel CsvProofs.
Import ListNotations.
Open Scope Z_scope.
#[local] Ltac Zify.zify_post_hook ::= idtac.

(** * C41: strings *)
(** A string that fits: no zero byte; with its quotes counted twice at most 4091 bytes. *)
Definition fits (s : list Z) : Prop :=
  Forall (fun c => 1 <= c <= 255) s /\ Z.of_nat (length s + count_occ Z.eq_dec s 34) <= 4091.
(** Values that can stand in the rows. *)
Definition exportable (v : cval) : Prop :=
  match v with
  | VNull => True
  | VInt _ => True
  | VStr s => fits s
  | VChar c => 1 <= c <= 255 /\ ~ In c [34; 44; 10; 13]
  | VDate d => 1 <= d <= 3652059
  | VTime t => 0 <= t < 8640000
  end.
Definition good_row (r : list cval) : Prop := r <> [] /\ r <> [VNull] /\ Forall exportable r.

Lemma esclen_count s : esclen s = Z.of_nat (length s + count_occ Z.eq_dec s 34).
Proof.
  induction s as [|c s IH]; [reflexivity|]. cbn [esclen length count_occ]. unfold QUOTE in *.
  destruct (Z.eq_dec c 34) as [-> | N]; [rewrite Z.eqb_refl|rewrite (proj2 (Z.eqb_neq c 34) N)]; lia.
Qed.
Lemma exportable_cell v : exportable v -> exists t u, snprint_value_csv v = Some t /\ cell t u /\ (t = [] -> v = VNull) /\
  match v with VStr s => u = s | VNull => u = [] | _ => u = t end.
Proof.
  destruct v as [|n|s|c|d|t]; cbn [exportable]; intros H.
  - exists [], []. repeat split; auto using cell_null.
  - destruct (parse_print_int (fun _ => (tt, false)) (wrap32 n)) as (_ & P); [pose proof (wrap32_range n); unfold is32 in *; lia|].
    exists (print_int (wrap32 n)), (print_int (wrap32 n)). repeat split; auto using cell_plain. intros E. now destruct P.
  - destruct H as (F & L). exists (csv_escaped_str s 4094), s. split; [reflexivity|]. split; [|split; [discriminate|reflexivity]].
    apply cell_str; [eapply Forall_impl; [|exact F]; cbn; lia|]. now rewrite esclen_count.
  - destruct H as (R & N). exists [c], [c]. cbn [snprint_value_csv]. destruct (Z.eqb_spec c 0); [lia|]. split; [reflexivity|].
    split; [|split; [discriminate|reflexivity]]. apply cell_plain. cbn [In] in N.
    split; [discriminate|]. split; [constructor; [|constructor]; unfold special, COMMA, CR, LF; lia|]. cbn [hd length]. unfold QUOTE. lia.
  - destruct (day_parts d H) as (y & m & dd & E & Y & M & D & _). exists (date_text y m dd), (date_text y m dd).
    split; [now apply date_export|]. destruct (date_text_plain y m dd Y M D) as (P & c & s & Es & _).
    split; [now apply cell_plain|]. split; [rewrite Es; discriminate|reflexivity].
  - destruct (hms_surj t H) as (h & m & s & c & E & V & _). exists (time_text h m s c), (time_text h m s c).
    split; [now apply time_export|]. destruct (time_text_plain h m s c V) as (P & a & r & Es & _).
    split; [now apply cell_plain|]. split; [rewrite Es; discriminate|reflexivity].
Qed.

(** What the reader must see for a value: a string as its bytes, NULL as the empty text, the rest
    as the text that was written. *)
Definition seen (v : cval) (u : list Z) : Prop :=
  match v with VStr s => u = s | VNull => u = [] | _ => snprint_value_csv v = Some u end.

Lemma row_cells r : Forall exportable r -> exists ts us, Forall2 (fun v t => snprint_value_csv v = Some t) r ts /\ Forall2 cell ts us /\
  Forall2 seen r us /\ Forall2 (fun v t => t = [] -> v = VNull) r ts.
Proof.
  induction 1 as [|v r H _ IH].
  - exists [], []. repeat split; constructor.
  - destruct IH as (ts & us & A & B & C & D). destruct (exportable_cell v H) as (t & u & E & F & G & K).
    exists (t :: ts), (u :: us). split; [now constructor|]. split; [now constructor|]. split; [|now constructor].
    constructor; [|assumption]. destruct v; cbn [seen]; auto; now rewrite K.
Qed.
Lemma rows_cells rows : Forall good_row rows -> exists tss uss, Forall2 (Forall2 (fun v t => snprint_value_csv v = Some t)) rows tss /\
  Forall2 (Forall2 cell) tss uss /\ Forall2 (Forall2 seen) rows uss /\ Forall (fun ts => ts <> [] /\ ts <> [[]]) tss.
Proof.
  induction 1 as [|r rows (N1 & N2 & H) _ IH].
  - exists [], []. repeat split; constructor.
  - destruct IH as (tss & uss & A & B & C & D). destruct (row_cells r H) as (ts & us & E & F & G & K).
    exists (ts :: tss), (us :: uss). repeat (split; [constructor; assumption|]). constructor; [|assumption]. split.
    + intros ->. inversion E; subst. now apply N1.
    + intros ->. inversion K as [|v t r' ts' Kv K']; subst. inversion K'; subst. rewrite (Kv eq_refl) in N2. now apply N2.
Qed.

(** Export writes every such table, and the reader finds the same rows with the same fields: every string
    back byte for byte, whatever quotes, separators and line breaks it contains. *)
Theorem C41_strings_partial : forall rows, Forall good_row rows ->
  exists f, wg_export_db_csv rows = Some f /\ Forall2 (Forall2 seen) rows (read_rows f).
Proof.
  intros rows G. destruct (rows_cells rows G) as (tss & uss & A & B & C & D).
  exists (flat_map (fun ts => join ts ++ [LF]) tss). split; [now apply export_join|].
  unfold read_rows. change r_init with (idle [] []). rewrite (rows_read tss uss [] B D). cbn [idle done app]. exact C.
Qed.
Print Assumptions C41_strings_partial.
(** A table with quotes, separators and line breaks in its strings. *)
Definition ex_rows : list (list cval) :=
  [[VStr [34; 97; 44; 10; 34]; VNull; VInt (-7)]; [VNull; VStr [13; 10; 44; 34; 34]; VChar 59]; [VStr []]; [VDate 733862; VTime 4530000]].
Example C41_strings_hyp : Forall good_row ex_rows /\
  option_map read_rows (wg_export_db_csv ex_rows) =
  Some [[[34; 97; 44; 10; 34]; []; [45; 55]]; [[]; [13; 10; 44; 34; 34]; [59]]; [[]];
        [[50;48;49;48;45;48;51;45;51;49]; [49;50;58;51;53;58;48;48;46;48;48]]].
Proof.
  split; [|vm_compute; reflexivity]. unfold ex_rows, good_row.
  repeat (apply Forall_cons; [split; [discriminate|]; split; [discriminate|] | ]); try apply Forall_nil.
  all: repeat (apply Forall_cons; [cbn; unfold fits; try split; try exact I; cbn; try lia | ]); try apply Forall_nil.
  all: repeat (apply Forall_cons; [lia|]); try apply Forall_nil.
Qed.

(** Hence two different tables of strings have different texts. *)
Theorem C41_injective : forall a b f, Forall good_row a -> Forall good_row b ->
  Forall (Forall (fun v => exists s, v = VStr s)) a -> Forall (Forall (fun v => exists s, v = VStr s)) b ->
  wg_export_db_csv a = Some f -> wg_export_db_csv b = Some f -> a = b.
Proof.
  intros a b f Ga Gb Sa Sb Ea Eb. destruct (C41_strings_partial a Ga) as (f1 & E1 & R1). destruct (C41_strings_partial b Gb) as (f2 & E2 & R2).
  assert (f1 = f) by congruence. assert (f2 = f) by congruence. subst f1 f2. clear - R1 R2 Sa Sb.
  revert b R2 Sb. generalize dependent (read_rows f). clear f. induction a as [|r a IH]; intros us R1 b R2 Sb; inversion R1 as [|? u ? us' Q1 R1']; subst; inversion R2 as [|r2 ? b' ? Q2 R2']; subst; [reflexivity|].
  apply Forall_cons_iff in Sa as (Sr & Sa). apply Forall_cons_iff in Sb as (Sr2 & Sb). f_equal; [|now apply (IH Sa us')].
  clear - Q1 Q2 Sr Sr2. revert r2 u Q1 Q2 Sr2. induction r as [|v r IHr]; intros r2 u Q1 Q2 Sr2; inversion Q1 as [|? x ? u' K1 Q1']; subst; inversion Q2 as [|v2 ? r2' ? K2 Q2']; subst; [reflexivity|].
  apply Forall_cons_iff in Sr as ((s & ->) & Sr). apply Forall_cons_iff in Sr2 as ((s2 & ->) & Sr2). cbn [seen] in K1, K2.
  f_equal; [congruence|]. now apply (IHr Sr r2' u').
Qed.
Print Assumptions C41_injective.
Example C41_injective_hyp : exists f g, wg_export_db_csv [[VStr [44]; VStr [34]]] = Some f /\ wg_export_db_csv [[VStr [44; 34]]] = Some g /\ f <> g.
Proof. eexists _, _. split; [vm_compute; reflexivity|]. split; [vm_compute; reflexivity|]. discriminate. Qed.

(** The full claim, for every string shorter than the field buffer, fails: 2100 quotes are cut
    to 2045. *)
Theorem C41_many_quotes_refuted : exists s, (Z.of_nat (length s) < CSV_FIELD_BUF) /\ Forall (fun c => 1 <= c <= 255) s /\
  exists f t, wg_export_db_csv [[VStr s]] = Some f /\ read_rows f = [[t]] /\ t <> s.
Proof.
  exists (repeat 34 (Z.to_nat 2100)). split; [now vm_compute|]. split; [apply Forall_forall; intros c H; apply repeat_spec in H; lia|].
  eexists _, _. split; [vm_compute; reflexivity|]. split; [vm_compute; reflexivity|].
  intros E. apply (f_equal (fun l => Z.of_nat (length l))) in E. revert E. vm_compute. discriminate.
Qed.
Print Assumptions C41_many_quotes_refuted.
(** A row with a single NULL field is lost. *)
Theorem C41_null_row_refuted : exists f, wg_export_db_csv [[VStr [97]]; [VNull]; [VStr [98]]] = Some f /\ read_rows f = [[[97]]; [[98]]].
Proof. eexists. split; [vm_compute; reflexivity|]. vm_compute. reflexivity. Qed.
Print Assumptions C41_null_row_refuted.
(** A character field holding the separator is written bare, and makes two fields of one: it moves its
    neighbours. *)
Theorem C41_char_refuted : exists f, wg_export_db_csv [[VChar 44; VStr [97]]] = Some f /\ read_rows f = [[[]; []; [97]]].
Proof. eexists. split; [vm_compute; reflexivity|]. vm_compute. reflexivity. Qed.
Print Assumptions C41_char_refuted.
(** In a file written elsewhere: the last line is lost when it has no line feed at its end, and a field after a
    closing quote is glued or lost. *)
Theorem C41_last_line_refuted : read_rows [97; 44; 98; 10; 99; 44; 100] = [[[97]; [98]]].
Proof. vm_compute. reflexivity. Qed.
Print Assumptions C41_last_line_refuted.

(** * C42: integers and types *)
Section Types.
Context {D : Type} (strtod : list Z -> D * bool).

(** The value a field comes back as. *)
Definition same (v : cval) : pval D :=
  match v with
  | VNull => PNull | VInt n => PInt n | VStr s => PStr s | VChar c => PStr [c] | VDate d => PDate d | VTime t => PTime t
  end.
(** A text that does not look like a number. *)
Definition not_numeric (s : list Z) : Prop :=
  match s with
  | [] => False
  | c :: s => ~ (48 <= c <= 57) /\ (c = 45 -> match s with d :: _ => ~ (48 <= d <= 57) | [] => True end)
  end.
Definition keeps_type (v : cval) : Prop :=
  match v with
  | VInt n => - 2 ^ 31 <= n < 2 ^ 31
  | VStr s => not_numeric s
  | VChar c => not_numeric [c]
  | _ => True
  end.

Lemma parse_not_numeric e s : not_numeric s -> parse_input strtod e s = (PStr s, e).
Proof.
  destruct s as [|c s]; [intros []|]. intros (N & M). unfold parse_input.
  assert (I0 : isdigit c = false) by (destruct (isdigit c) eqn:E; [apply isdigit_spec in E; contradiction|reflexivity]).
  rewrite I0. cbn [orb]. destruct (Z.eqb_spec c MINUS) as [-> | _]; [|reflexivity]. specialize (M eq_refl). cbn [andb].
  destruct s as [|d s]; [reflexivity|]. destruct (isdigit d) eqn:E; [apply isdigit_spec in E; contradiction|reflexivity].
Qed.
Lemma parse_date c s : isdigit c = true -> 0 <= wg_strp_iso_date (c :: s) -> parse_input strtod false (c :: s) = (PDate (wg_strp_iso_date (c :: s)), false).
Proof.
  intros H P. unfold parse_input. rewrite H. cbn [orb]. apply isdigit_spec in H. destruct (Z.eqb_spec c MINUS); [unfold MINUS in *; lia|].
  cbn [negb andb]. destruct (Z.leb_spec 0 (wg_strp_iso_date (c :: s))); [reflexivity|lia].
Qed.
Lemma parse_time c s : isdigit c = true -> wg_strp_iso_date (c :: s) = -1 -> 0 <= wg_strp_iso_time (c :: s) ->
  parse_input strtod false (c :: s) = (PTime (wg_strp_iso_time (c :: s)), false).
Proof.
  intros H Q P. unfold parse_input. rewrite H, Q. cbn [orb]. apply isdigit_spec in H. destruct (Z.eqb_spec c MINUS); [unfold MINUS in *; lia|].
  cbn [negb andb]. change (0 <=? -1) with false. destruct (Z.leb_spec 0 (wg_strp_iso_time (c :: s))); [reflexivity|lia].
Qed.
Lemma seen_parse v u : exportable v -> keeps_type v -> seen v u -> parse_input strtod false u = (same v, false).
Proof.
  destruct v as [|n|s|c|d|t]; cbn [exportable keeps_type seen same]; intros X K S.
  - now subst u.
  - cbn [snprint_value_csv] in S. rewrite wrap32_id in S by (unfold is32; lia). inversion S; subst. apply parse_print_int. lia.
  - subst u. now apply parse_not_numeric.
  - cbn [snprint_value_csv] in S. destruct (Z.eqb_spec c 0); [lia|]. inversion S; subst. now apply parse_not_numeric.
  - destruct (day_parts d X) as (y & m & dd & E & Y & M & DD & W). rewrite (date_export d y m dd E Y M DD) in S. inversion S; subst u.
    pose proof (date_parse y m dd Y M DD) as P. destruct (date_text_plain y m dd Y M DD) as (_ & c & s & Es & Hc). rewrite Es in *.
    rewrite parse_date; [now rewrite P, W|assumption|lia].
  - destruct (hms_surj t X) as (h & m & s & c & E & V & W). rewrite (time_export t h m s c E V) in S. inversion S; subst u.
    destruct (time_parse h m s c V) as (P & Q). destruct (time_text_plain h m s c V) as (_ & a & r & Es & Ha). rewrite Es in *.
    rewrite parse_time; [now rewrite P, W|assumption|assumption|lia].
Qed.

(** A whole table written and read again is the same table: integers within 32 bits, strings not looking like
    numbers, NULL, dates and times all come back with their types and values. *)
Theorem C42_table_partial : forall rows, Forall good_row rows -> Forall (Forall keeps_type) rows ->
  exists f, wg_export_db_csv rows = Some f /\ wg_import_db_csv strtod false f = map (map same) rows.
Proof.
  intros rows G K. destruct (C41_strings_partial rows G) as (f & E & R). exists f. split; [assumption|].
  assert (PR : forall r us, Forall exportable r -> Forall keeps_type r -> Forall2 seen r us -> parse_row strtod false us = (map same r, false)).
  { clear. induction r as [|v r IH]; intros us X K S; inversion S as [|? u ? us' Sv S']; subst; [reflexivity|].
    apply Forall_cons_iff in X as (Xv & X). apply Forall_cons_iff in K as (Kv & K). cbn [parse_row map].
    now rewrite (seen_parse v u Xv Kv Sv), (IH us' X K S'). }
  assert (PRS : forall rows uss, Forall good_row rows -> Forall (Forall keeps_type) rows -> Forall2 (Forall2 seen) rows uss ->
    parse_rows strtod false uss = (map (map same) rows, false)).
  { clear - PR. induction rows as [|r rows IH]; intros uss G K S; inversion S as [|? u ? uss' Sr S']; subst; [reflexivity|].
    apply Forall_cons_iff in G as ((_ & _ & X) & G). apply Forall_cons_iff in K as (Kr & K). cbn [parse_rows map].
    now rewrite (PR r u X Kr Sr), (IH uss' G K S'). }
  unfold wg_import_db_csv. now rewrite (PRS rows (read_rows f) G K R).
Qed.
End Types.
Print Assumptions C42_table_partial.
Definition ex_rows2 : list (list cval) :=
  [[VInt (- 2 ^ 31); VStr [97; 34; 44; 10]; VNull; VInt (2 ^ 31 - 1)]; [VStr [45; 45; 49]; VInt 0; VDate 1; VTime 8639999]; [VDate 3652059; VChar 45]].
Example C42_table_hyp : Forall good_row ex_rows2 /\ Forall (Forall keeps_type) ex_rows2 /\
  (exists f, wg_export_db_csv ex_rows2 = Some f /\ wg_import_db_csv (fun _ => (tt, false)) false f =
    [[PInt (- 2 ^ 31); PStr [97; 34; 44; 10]; PNull; PInt (2 ^ 31 - 1)]; [PStr [45; 45; 49]; PInt 0; PDate 1; PTime 8639999]; [PDate 3652059; PStr [45]]]).
Proof.
  split; [|split].
  - unfold ex_rows2, good_row. repeat (apply Forall_cons; [split; [discriminate|]; split; [discriminate|] | ]); try apply Forall_nil.
    all: repeat (apply Forall_cons; [cbn; unfold fits; try split; try exact I; cbn; try lia | ]); try apply Forall_nil.
    all: repeat (apply Forall_cons; [lia|]); try apply Forall_nil.
  - unfold ex_rows2. repeat (apply Forall_cons; [|]); try apply Forall_nil. all: cbn; try exact I; lia.
  - eexists. split; [vm_compute; reflexivity|]. vm_compute. reflexivity.
Qed.

(** The full claim fails. An integer of more than 32 bits comes back as another one; *)
Theorem C42_int_refuted : exists f, wg_export_db_csv [[VInt (2 ^ 31)]] = Some f /\ wg_import_db_csv (fun _ => (tt, false)) false f = [[PInt (- 2 ^ 31)]].
Proof. eexists. split; [vm_compute; reflexivity|]. vm_compute. reflexivity. Qed.
Print Assumptions C42_int_refuted.
(** a string of digits comes back as an integer, one that begins like a date ("2010-03-31x") as a date, one that
    begins like a time ("12:30:15x") as a time, and the empty string as NULL; *)
Theorem C42_string_refuted :
  (exists f, wg_export_db_csv [[VStr [49; 50; 51]]] = Some f /\ wg_import_db_csv (fun _ => (tt, false)) false f = [[PInt 123]]) /\
  (exists f, wg_export_db_csv [[VStr [50;48;49;48;45;48;51;45;51;49;120]]] = Some f /\ wg_import_db_csv (fun _ => (tt, false)) false f = [[PDate 733862]]) /\
  (exists f, wg_export_db_csv [[VStr [49;50;58;51;48;58;49;53;120]]] = Some f /\ wg_import_db_csv (fun _ => (tt, false)) false f = [[PTime 4501500]]) /\
  (exists f, wg_export_db_csv [[VStr []]] = Some f /\ wg_import_db_csv (fun _ => (tt, false)) false f = [[PNull]]).
Proof. repeat split; eexists; (split; [vm_compute; reflexivity|]); vm_compute; reflexivity. Qed.
Print Assumptions C42_string_refuted.
(** an errno left from an earlier call turns the first number of a file into a string; *)
Theorem C42_errno_refuted : exists f, wg_export_db_csv [[VInt 5; VInt 6]] = Some f /\ wg_import_db_csv (fun _ => (tt, false)) true f = [[PStr [53]; PInt 6]].
Proof. eexists. split; [vm_compute; reflexivity|]. vm_compute. reflexivity. Qed.
Print Assumptions C42_errno_refuted.
(** and only the first 79 characters of a number are looked at: a text of 79 zeros and anything after is the
    number 0. *)
Theorem C42_long_refuted : exists f, wg_export_db_csv [[VStr (repeat 48 (Z.to_nat 79) ++ [120; 121])]] = Some f /\
  wg_import_db_csv (fun _ => (tt, false)) false f = [[PInt 0]].
Proof. eexists. split; [vm_compute; reflexivity|]. vm_compute. reflexivity. Qed.
Print Assumptions C42_long_refuted.

(** * C54: dates and times as ISO text *)
(** The text of a date of the years 1 to 9999 is ten characters and reads back as the date, whatever the time. *)
Theorem C54_date : forall d, 1 <= d <= 3652059 -> exists s,
  wg_strf_iso_datetime d 0 = Some s /\ length (firstn 10 s) = 10%nat /\ wg_strp_iso_date (firstn 10 s) = d.
Proof.
  intros d H. destruct (day_parts d H) as (y & m & dd & E & Y & M & D & W). pose proof (date_export d y m dd E Y M D) as P.
  unfold snprint_value_csv in P. destruct (wg_strf_iso_datetime d 0) as [s|]; [|discriminate]. assert (Q : firstn 10 s = date_text y m dd) by congruence.
  exists s. split; [reflexivity|]. rewrite Q, date_parse by assumption. split; [|assumption].
  unfold date_text. rewrite app_length. cbn [length]. rewrite app_length. cbn [length].
  rewrite !pad_len; try (change (10 ^ Z.of_nat 4) with 10000); try (change (10 ^ Z.of_nat 2) with 100); lia.
Qed.
Print Assumptions C54_date.
Example C54_date_hyp : 1 <= 733862 <= 3652059 /\
  option_map (firstn 10) (wg_strf_iso_datetime 733862 0) = Some [50;48;49;48;45;48;51;45;51;49].
Proof. split; [lia|vm_compute; reflexivity]. Qed.
(** The text of a time of day reads back as the time. *)
Theorem C54_time : forall t, 0 <= t < 8640000 -> exists s,
  wg_strf_iso_datetime 1 t = Some s /\ length (skipn 11 s) = 11%nat /\ wg_strp_iso_time (skipn 11 s) = t.
Proof.
  intros t H. destruct (hms_surj t H) as (h & m & s & c & E & V & W). pose proof (time_export t h m s c E V) as P.
  unfold snprint_value_csv in P. destruct (wg_strf_iso_datetime 1 t) as [x|]; [|discriminate]. assert (Q : skipn 11 x = time_text h m s c) by congruence.
  exists x. split; [reflexivity|]. rewrite Q. destruct (time_parse h m s c V) as (-> & _). split; [|assumption].
  destruct V as (V1 & V2 & V3 & V4). unfold time_text. rewrite app_length. cbn [length]. rewrite app_length. cbn [length]. rewrite app_length. cbn [length].
  rewrite !pad_len; try (change (10 ^ Z.of_nat 2) with 100); lia.
Qed.
Print Assumptions C54_time.
Example C54_time_hyp : 0 <= 4501507 < 8640000 /\
  option_map (skipn 11) (wg_strf_iso_datetime 1 4501507) = Some [49;50;58;51;48;58;49;53;46;48;55].
Proof. split; [lia|vm_compute; reflexivity]. Qed.
(** Later years do not fit: the text of a date in the year 10000 is cut and reads back as a day of the year 1000. *)
Theorem C54_year_refuted : exists d s, 0 < d /\ wg_strf_iso_datetime d 0 = Some s /\ wg_strp_iso_date (firstn 10 s) <> d.
Proof. exists 3652060. eexists. split; [lia|]. split; [vm_compute; reflexivity|]. now vm_compute. Qed.
Print Assumptions C54_year_refuted.
(** The reader takes dates that do not exist: 31 February 2011 is taken as 3 March, so two different texts are the
    same date. *)
Theorem C54_nonexistent_refuted :
  wg_strp_iso_date [50;48;49;49;45;48;50;45;51;49] = wg_strp_iso_date [50;48;49;49;45;48;51;45;48;51] /\ 0 < wg_strp_iso_date [50;48;49;49;45;48;50;45;51;49].
Proof. split; vm_compute; reflexivity. Qed.
Print Assumptions C54_nonexistent_refuted.
