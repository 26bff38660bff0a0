(** Properties C55, C56, C57 and C58: JSON texts. *)
From Coq Require Import ZArith List Bool Lia Arith.
From Verif Require Import Base CsvModel CsvProofs EncodingModel RecordModel RecordProofs RecordProps SchemaModel SchemaProofs SchemaTree JsonModel JsonProofs JsonRead JsonProps
  YajlModel YajlProofs YajlParse YajlText YajlPrint YajlSafe.
Import ListNotations.
Open Scope Z_scope.
#[local] Ltac Zify.zify_post_hook ::= idtac.

(** * Pieces *)
Lemma pieces_concat n fuel : (0 < n)%nat -> forall s, (length s <= fuel)%nat -> concat (pieces fuel n s) = s.
Proof.
  intros Hn. induction fuel as [|fuel IH]; intros s L; [destruct s; [reflexivity|cbn in L; lia]|]. destruct s as [|c s]; [reflexivity|]. cbn [pieces concat].
  rewrite IH; [apply firstn_skipn|]. rewrite skipn_length. cbn [length] in *. lia.
Qed.
Lemma chunk_pos : (0 < Z.to_nat WG_JSON_INPUT_CHUNK)%nat. Proof. unfold WG_JSON_INPUT_CHUNK. lia. Qed.
Lemma text_chunks_concat buf : concat (text_chunks buf) = cut_zero buf.
Proof. apply pieces_concat; [exact chunk_pos|lia]. Qed.
(** The full pieces and the rest. *)
Lemma full_pieces n fuel : (0 < n)%nat -> forall s, (length s <= fuel)%nat ->
  let l := filter (fun p => Z.of_nat (length p) =? Z.of_nat n) (pieces fuel n s) in
  s = concat l ++ skipn (length (concat l)) s /\ length (skipn (length (concat l)) s) = (length s mod n)%nat.
Proof.
  intros Hn. induction fuel as [|fuel IH]; intros s L; [destruct s; [cbn; split; [reflexivity|now rewrite Nat.mod_0_l by lia]|cbn in L; lia]|].
  destruct s as [|c s]; [cbn; split; [reflexivity|now rewrite Nat.mod_0_l by lia]|]. cbn [pieces]. set (t := c :: s) in *. cbn [filter].
  destruct (le_lt_dec n (length t)) as [Le | Lt].
  - rewrite firstn_length, Nat.min_l, Z.eqb_refl by lia. destruct (IH (skipn n t)) as (I1 & I2); [rewrite skipn_length; lia|].
    cbn [concat]. set (l := filter _ _) in *. rewrite app_length, firstn_length, Nat.min_l by lia. rewrite skipn_skipn in I1, I2. split.
    + rewrite <- app_assoc, <- I1. symmetry. apply firstn_skipn.
    + rewrite I2, skipn_length. replace (length t) with (length t - n + 1 * n)%nat at 2 by lia. now rewrite Nat.mod_add by lia.
  - rewrite firstn_all2 by lia. rewrite skipn_all2 by lia. assert (pieces fuel n [] = []) as -> by (destruct fuel; reflexivity).
    destruct (Z.eqb_spec (Z.of_nat (length t)) (Z.of_nat n)) as [E | _]; [lia|]. cbn [filter concat length skipn app]. split; [reflexivity|]. now rewrite Nat.mod_small.
Qed.

(** ** C55: how a text is cut does not matter *)
(** Any cut of a text into chunks, empty ones too, gives the callbacks and the result of the whole text. *)
Theorem C55_chunks {C : Type} full (callback : C -> event -> option (C * bool)) strtod c chunks chunks' : concat chunks = concat chunks' ->
  yajl_run full callback strtod c chunks = yajl_run full callback strtod c chunks'.
Proof. intros E. now rewrite !run_eq, E. Qed.
Print Assumptions C55_chunks.
(** Both inputs cut inside a token: a string, a number with its exponent, an escape, a comment. *)
Definition ex_trace (c : list event) (e : event) : option (list event * bool) := Some (c ++ [e], true).
Definition ex_strtod (s : list Z) : option Z := Some (Z.of_nat (length s)).
Example C55_chunks_ex :
  yajl_run true ex_trace ex_strtod [] [[91; 34; 97]; [92]; [117; 48; 48]; [52; 49; 34; 44; 49]; []; [50; 47]; [42; 42; 47; 44; 49; 46; 53; 101]; [51]; [93]] =
    Some ([EArrayBegin; ELit (LStr [97; 65]); ELit (LInt 12); ELit (LDouble 5); EArrayEnd], true) /\
  yajl_run true ex_trace ex_strtod [] [[91; 34; 97; 92; 117; 48; 48; 52; 49; 34; 44; 49; 50; 47; 42; 42; 47; 44; 49; 46; 53; 101; 51; 93]] =
    Some ([EArrayBegin; ELit (LStr [97; 65]); ELit (LInt 12); ELit (LDouble 5); EArrayEnd], true).
Proof. split; vm_compute; reflexivity. Qed.

(** ** C57: no text makes the parser crash *)
(** wg_check_json ends with a result on every text. *)
Theorem C57_check buf : exists rc, check_json buf = Some rc /\ (rc = 0 \/ rc = -1).
Proof.
  unfold check_json. pose proof (run_safe false (fun depth e => Some (check_callback depth e)) (fun _ => None) ltac:(discriminate) (-1) (text_chunks buf)) as H.
  destruct (yajl_run _ _ _ _ _) as [(depth, ok)|]; [|exfalso; apply H; [intros Q; discriminate Q|reflexivity]]. destruct ok; cbn [negb]; [destruct (depth =? -1)|]; eexists; (split; [reflexivity|auto]).
Qed.
Print Assumptions C57_check.
Example C57_check_ex : check_json [91; 34; 92; 117; 100; 56; 48; 48; 92; 92; 120; 34; 93] = Some 0 /\ check_json [91; 34; 92; 117; 100; 56; 34; 93] = Some (-1) /\ check_json [] = Some (-1) /\ check_json [91; 93; 0; 93] = Some 0.
Proof. repeat split; vm_compute; reflexivity. Qed.
(** Also the parser with all callbacks ends on every text without escaped high surrogates and without
    numbers of 19 or more digits, if the callbacks end. Missing: the other texts; for them see
    C57_refuted. *)
Theorem C57_parse_partial {C : Type} (callback : C -> event -> option (C * bool)) strtod c chunks :
  (forall c e, callback c e <> None) ->
  (forall a x y b, concat chunks = a ++ [92; 117; x; y] ++ b -> In x [68; 100] -> In y [56; 57; 65; 66; 97; 98] -> False) ->
  (forall a ds b, concat chunks = a ++ ds ++ b -> Forall (fun c => 48 <= c <= 57) ds -> (length ds <= 18)%nat) ->
  yajl_run true callback strtod c chunks <> None.
Proof.
  intros T S N. apply run_safe; [exact T|]. intros _. split; [exact S|]. intros a ds b E A. apply (N a ds b E). eapply Forall_impl; [|exact A]. intros d Hd. unfold isdigit in Hd. apply andb_prop in Hd. destruct Hd as (H1 & H2). apply Z.leb_le in H1. apply Z.leb_le in H2. lia.
Qed.
Print Assumptions C57_parse_partial.
(** Texts with no callbacks at the end: errors in several places. *)
Example C57_parse_ex : map (fun s => match yajl_run true ex_trace ex_strtod [] [s] with Some (es, ok) => Some (length es, ok) | None => None end)
  [[91; 49; 44; 93]; [123; 34; 97; 34; 58; 45; 125]; [91; 34; 92; 120]; [93]; [91; 49; 93; 32; 49]] = map Some [(2, false); (2, false); (1, false); (0, false); (3, false)]%nat.
Proof. vm_compute. reflexivity. Qed.
(** The full claim is false: texts accepted by wg_check_json on which the parser aborts or has undefined
    behaviour: ["\ud800\\x"] (assertion), ["\ud800\\u"] (read outside the string), [9223372036854775815]
    (signed overflow). *)
Theorem C57_refuted : forall C (callback : C -> event -> option (C * bool)) strtod c, (exists c', callback c EArrayBegin = Some (c', true)) ->
  forall s, In s [[91; 34; 92; 117; 100; 56; 48; 48; 92; 92; 120; 34; 93]; [91; 34; 92; 117; 100; 56; 48; 48; 92; 92; 117; 34; 93];
    [91; 57; 50; 50; 51; 51; 55; 50; 48; 51; 54; 56; 53; 52; 55; 55; 53; 56; 49; 53; 93]] ->
  check_json s = Some 0 /\ yajl_run true callback strtod c [s] = None.
Proof.
  intros C callback strtod c (c' & Cb) s Hs. repeat (destruct Hs as [<- | Hs]; [split; [vm_compute; reflexivity|]|]); [| | |contradiction]; rewrite run_eq; cbn [concat app].
  all: rewrite sp_eq; match goal with |- context [s_lex ?s] => let v := eval vm_compute in (s_lex s) in change (s_lex s) with v end; cbv iota; cbn [length firstn Nat.sub is_complete negb action_of value_action after_value]; rewrite Cb;
    cbn [app]; rewrite sp_eq; match goal with |- context [s_lex ?s] => let v := eval vm_compute in (s_lex s) in change (s_lex s) with v end; cbv iota;
    match goal with |- context [YajlModel.action_of ?f ?g ?st ?tok ?o] => let v := eval vm_compute in o in change o with v end;
    match goal with |- context [YajlModel.action_of ?f ?g ?st ?tok ?o] => change (YajlModel.action_of f g st tok o) with Undefined end; reflexivity.
Qed.
Print Assumptions C57_refuted.

(** ** C58: reading a file is reading its text *)
(** For a file without zero bytes whose size is not a multiple of 16384: the text is checked, then
    parsed. Missing: the other sizes; for them see C58_refuted. *)
Theorem C58_file_partial {D : Type} (parse : D -> list Z -> option (D * Z)) d content : ~ In 0 content -> (Z.of_nat (length content)) mod WG_JSON_INPUT_CHUNK <> 0 ->
  wg_parse_json_file parse d content = match check_json content with None => None | Some rc => if rc =? 0 then parse d content else Some (d, -1) end.
Proof.
  intros Nz Nm. unfold wg_parse_json_file, check_json. set (cb := fun depth e => Some (check_callback depth e)). set (st := fun _ : list Z => @None Z).
  rewrite (C55_chunks false cb st (-1) (text_chunks content) [content]) by (rewrite text_chunks_concat, cut_zero_id by exact Nz; cbn [concat]; now rewrite app_nil_r).
  destruct (full_pieces (Z.to_nat WG_JSON_INPUT_CHUNK) (length content) chunk_pos content (le_n _)) as (E & Len). rewrite Z2Nat.id in * by (unfold WG_JSON_INPUT_CHUNK; lia).
  set (l := filter _ _) in *. clearbody l. set (last := skipn (length (concat l)) content) in *. clearbody last.
  assert (Nl : last <> []). { intros ->. cbn [length] in Len. apply Nm. rewrite <- (Z2Nat.id WG_JSON_INPUT_CHUNK) by (unfold WG_JSON_INPUT_CHUNK; lia). rewrite <- Nat2Z.inj_mod. now rewrite <- Len. }
  rewrite (C55_chunks false cb st (-1) [content] (l ++ [last])) by (rewrite concat_app; cbn [concat]; rewrite !app_nil_r; exact E).
  unfold yajl_run. rewrite fold_left_app, fold_cons. destruct (fold_left (feed false cb st) l (yajl_alloc (-1))) as [[lx stack c|c]|]; [|reflexivity|reflexivity].
  destruct last as [|b last]; [contradiction|]. change (fold_left (feed false cb st) [] ?x) with x.
  destruct (complete false cb st _) as [(depth, ok)|]; [|reflexivity]. destruct ok; cbn [negb]; [|reflexivity]. destruct (depth =? -1); reflexivity.
Qed.
Print Assumptions C58_file_partial.
Example C58_file_ex : wg_parse_json_file (fun (_ : nat) s => Some (length s, 7)) 0%nat [91; 49; 93; 10] = Some (4%nat, 7) /\ wg_parse_json_file (fun (_ : nat) s => Some (length s, 7)) 0%nat [91; 49; 10] = Some (0%nat, -1).
Proof. split; vm_compute; reflexivity. Qed.
(** A file whose size is a multiple of 16384 is never stored, and not reported as wrong if it is the
    start of some valid text; so is the empty file. *)
Theorem C58_multiple {D : Type} (parse : D -> list Z -> option (D * Z)) d content : (Z.of_nat (length content)) mod WG_JSON_INPUT_CHUNK = 0 ->
  exists rc, wg_parse_json_file parse d content = Some (d, rc) /\ (rc = 0 \/ rc = -1).
Proof.
  intros M. unfold wg_parse_json_file. set (cb := fun depth e => Some (check_callback depth e)). set (st := fun _ : list Z => @None Z).
  destruct (full_pieces (Z.to_nat WG_JSON_INPUT_CHUNK) (length content) chunk_pos content (le_n _)) as (E & Len). rewrite Z2Nat.id in * by (unfold WG_JSON_INPUT_CHUNK; lia).
  set (l := filter _ _) in *. clearbody l. set (last := skipn (length (concat l)) content) in *. clearbody last.
  assert (HL : last = []). { apply length_zero_iff_nil. rewrite Len. apply Nat2Z.inj. rewrite Nat2Z.inj_mod. rewrite Z2Nat.id by (unfold WG_JSON_INPUT_CHUNK; lia). exact M. }
  pose proof (run_safe false cb st ltac:(discriminate) (-1) l ltac:(intros Q; discriminate Q)) as H. unfold yajl_run in H.
  destruct (fold_left (feed false cb st) l (yajl_alloc (-1))) as [[lx stack c|c]|]; [|eexists; split; [reflexivity|auto]|contradiction]. subst last. eexists. split; [reflexivity|auto].
Qed.
Print Assumptions C58_multiple.
(** [, 16382 spaces and ] : the text is accepted, but nothing is stored and the result is 0. *)
Theorem C58_refuted : exists content, check_json content = Some 0 /\ forall D (parse : D -> list Z -> option (D * Z)) d, wg_parse_json_file parse d content = Some (d, 0).
Proof.
  set (n := Z.to_nat 16382). exists ([91] ++ repeat 32 n ++ [93]).
  assert (Nz : ~ In 0 ([91] ++ repeat 32 n ++ [93])). { intros H. apply in_app_or in H. destruct H as [[H | []] | H]; [discriminate H|]. apply in_app_or in H. destruct H as [H | [H | []]]; [apply repeat_spec in H|]; discriminate H. }
  assert (Len : length ([91] ++ repeat 32 n ++ [93]) = Z.to_nat WG_JSON_INPUT_CHUNK) by (rewrite !app_length, repeat_length; cbn [length]; unfold WG_JSON_INPUT_CHUNK, n; lia).
  assert (W : Forall (fun c => white c = true) (repeat 32 n)) by (apply Forall_forall; intros x Hx; apply repeat_spec in Hx; now subst).
  set (cb := fun depth e => Some (check_callback depth e)). set (st := fun _ : list Z => @None Z).
  assert (Sp : sp false cb st [state_start] (-1) ([91] ++ repeat 32 n ++ [93]) = Some (More [state_parse_complete] 0 [])).
  { rewrite sp_eq. assert (s_lex ([91] ++ repeat 32 n ++ [93]) = (tok_left_brace, [91] ++ repeat 32 n ++ [93], repeat 32 n ++ [93])) as -> by (cbn [app]; rewrite lex_cons; reflexivity).
    cbv iota. cbn [action_of value_action after_value is_complete negb]. change (cb (-1) EArrayBegin) with (Some (1, true)). cbv iota. cbn [app]. rewrite sp_white by exact W. vm_compute. reflexivity. }
  clearbody n. set (content := [91] ++ repeat 32 n ++ [93]) in *. clearbody content. split.
  - unfold check_json. fold cb. fold st. rewrite run_eq, text_chunks_concat, cut_zero_id by exact Nz. rewrite Sp. vm_compute. reflexivity.
  - intros D parse d. unfold wg_parse_json_file. fold cb. fold st.
    assert (filter (fun p => Z.of_nat (length p) =? WG_JSON_INPUT_CHUNK) (pieces (length content) (Z.to_nat WG_JSON_INPUT_CHUNK) content) = [content]) as ->.
    { rewrite Len. destruct (Z.to_nat WG_JSON_INPUT_CHUNK) as [|k] eqn:Ek; [unfold WG_JSON_INPUT_CHUNK in Ek; lia|]. destruct content as [|b s]; [discriminate Len|]. cbn [pieces]. rewrite <- Len. rewrite firstn_all, skipn_all.
      assert (forall k n, pieces k n [] = []) as -> by (destruct k0; reflexivity). cbn [filter]. rewrite Len, <- Ek, Z2Nat.id, Z.eqb_refl by (unfold WG_JSON_INPUT_CHUNK; lia). reflexivity. }
    rewrite fold_cons. change (fold_left (feed false cb st) [] ?x) with x. cbn [concat]. rewrite app_nil_r, skipn_all.
    pose proof (do_parse_agrees false cb st (Lexer [] false 0) [state_start] (-1) content ltac:(intros Q; discriminate Q)) as A. change (eb (Lexer [] false 0)) with (@nil Z) in A. cbn [app] in A. rewrite Sp in A. cbn [agrees] in A. destruct A as (lx & A & _).
    unfold yajl_alloc. rewrite (feed_eq _ _ _ _ _ _ _ _ A). reflexivity.
Qed.
Print Assumptions C58_refuted.
(** A zero byte in a comment: the file is accepted, but only the text ahead of it is parsed. *)
Theorem C58_zero_refuted : forall D (parse : D -> list Z -> option (D * Z)) d, wg_parse_json_file parse d [91; 47; 42; 0; 42; 47; 93] = parse d [91; 47; 42; 0; 42; 47; 93] /\
  cut_zero [91; 47; 42; 0; 42; 47; 93] = [91; 47; 42] /\ check_json [91; 47; 42; 0; 42; 47; 93] = Some (-1).
Proof. intros D parse d. split; [vm_compute; reflexivity|]. split; vm_compute; reflexivity. Qed.
Print Assumptions C58_zero_refuted.

(** ** C56: a printed document can be read back *)
(** A string of any bytes: what is printed for it is decoded to it. *)
Theorem C56_string s : Forall (fun b => 0 <= b < 256) s -> yajl_string_decode (yajl_string_encode s) = Some s.
Proof. intros F. apply decode_encode. exact F. Qed.
Print Assumptions C56_string.
Example C56_string_ex : yajl_string_encode [0; 34; 92; 10; 195; 164; 255] = [92; 117; 48; 48; 48; 48; 92; 34; 92; 92; 92; 110; 195; 164; 255].
Proof. vm_compute. reflexivity. Qed.
(** An integer of 64 bits except the least one: the digits printed for it are read as it. *)
Theorem C56_integer z : - (2 ^ 63 - 1) <= z <= 2 ^ 63 - 1 -> yajl_parse_integer (print_int z) = Some (Some z).
Proof. exact (parse_print z). Qed.
Print Assumptions C56_integer.
Example C56_integer_ex : yajl_parse_integer (print_int (- (2 ^ 63 - 1))) = Some (Some (- (2 ^ 63 - 1))) /\ yajl_parse_integer (print_int (- 2 ^ 63)) = Some None.
Proof. split; vm_compute; reflexivity. Qed.
(** The text printed for a value with strings of valid UTF-8, integers of 32 bits and decimal numbers
    that are read back as printed has no zero byte, and parsing it calls the callbacks for the events
    of the value, in order, until one refuses; in both modes of the parser. *)
Theorem C56_text strtod beautify double_text other_text j : printable strtod double_text j -> container j -> (nesting j < YAJL_MAX_DEPTH)%nat ->
  exists text, printed beautify double_text other_text (gens j) = Some text /\ ~ In 0 text /\
    forall C full (callback : C -> event -> option (C * bool)) c chunks, concat chunks = text -> yajl_run full callback strtod c chunks = deliver callback c (evs full j).
Proof.
  intros P Cn N. destruct (printed_text true ex_trace strtod beautify double_text other_text j P Cn N) as (text & E & Nz & _). exists text. split; [exact E|]. split; [exact Nz|].
  intros C full callback c chunks Ec. destruct (printed_text full callback strtod beautify double_text other_text j P Cn N) as (text' & E' & _ & H). apply H. congruence.
Qed.
Print Assumptions C56_text.
Definition ex_double (b : Z) : list Z := print_int b ++ [46; 53].
Definition ex_dbl (s : list Z) : option Z := match yajl_parse_integer (firstn (length s - 2) s) with Some r => r | None => None end.
Definition ex_json := JObj [([195; 164; 34], JArr [JLit (LInt (-5)); JLit (LStr [98; 10; 99]); JObj []; JLit (LDouble 7)]); ([], JArr [])].
Example C56_text_ex : printable ex_dbl ex_double ex_json /\ printed true ex_double (fun _ => []) (gens ex_json) =
  Some ([123; 10] ++ indent ++ [34; 195; 164; 92; 34; 34; 58; 32; 91; 10] ++ indent ++ indent ++ [45; 53; 44; 10] ++ indent ++ indent ++ [34; 98; 92; 110; 99; 34; 44; 10] ++
    indent ++ indent ++ [123; 10; 10] ++ indent ++ indent ++ [125; 44; 10] ++ indent ++ indent ++ [55; 46; 53; 10] ++ indent ++ [93; 44; 10] ++ indent ++ [34; 34; 58; 32; 91; 10; 10] ++ indent ++ [93; 10; 125; 10]).
Proof.
  split; [|vm_compute; reflexivity]. cbn [ex_json printable fold_right map fst snd].
  assert (U1 : utf8 [195; 164; 34]) by (apply utf8_2; [lia|unfold cont; lia|]; apply utf8_1; [lia|constructor]).
  assert (U2 : utf8 [98; 10; 99]) by (repeat (apply utf8_1; [lia|]); constructor).
  assert (D : decimal (ex_double 7)) by (exists [], [55], 53, []; split; [reflexivity|]; split; [now left|]; split; [right; exists 55, []; repeat constructor; discriminate|repeat constructor]).
  repeat split; try lia; try assumption; try constructor.
Qed.

Section Reload.
Context {I V : Type}.
Variable ix_any ix_tab : I -> Z -> bool.
Variable ix_add_rec : rmap -> V -> I -> Z -> option (I * Z).
Variable ix_add_field ix_del_field : rmap -> V -> I -> Z -> Z -> option (I * Z).
Variable v_ref v_free : V -> Z -> V.
Variable alloc_rec : @rdb I V -> Z -> Z.
Variable cell_ok malloc_ok : @rdb I V -> bool.
Variable encode : V -> lit -> V * Z.
Variable decode : V -> Z -> option lit.
Variable strtod : list Z -> option Z.
Variable double_text other_text : Z -> list Z.
Hypothesis alloc_fresh : forall d n, alloc_rec d n = 0 \/ (is_record_ref (alloc_rec d n) = true /\ d_rec d (alloc_rec d n) = None).
Hypothesis encode_ok : forall v l v' e, encode v l = (v', e) ->
  (forall x y, decode v x = Some y -> decode v' x = Some y) /\ (e <> WG_ILLEGAL -> is_record_ref e = false /\ decode v' e = Some l).
Hypothesis ref_ok : forall v x e l, decode v e = Some l -> decode (v_ref v x) e = Some l.
Notation parse isparam isdocument d j := (run_json_parser ix_any ix_tab ix_add_rec ix_add_field ix_del_field v_ref v_free alloc_rec cell_ok encode malloc_ok isparam isdocument d (events j) true).
Notation parse_text isparam isdocument d text := (run_json_text ix_any ix_tab ix_add_rec ix_add_field ix_del_field v_ref v_free alloc_rec cell_ok encode malloc_ok isparam isdocument strtod d text).
Notation cb := (JsonModel.callback ix_any ix_tab ix_add_rec ix_add_field ix_del_field v_ref v_free alloc_rec cell_ok encode malloc_ok).
Lemma deliver_callbacks ip isdoc es : forall c, deliver (cb ip isdoc) c es = callbacks ix_any ix_tab ix_add_rec ix_add_field ix_del_field v_ref v_free alloc_rec cell_ok encode malloc_ok ip isdoc c es.
Proof. induction es as [|e es IH]; intros c; [reflexivity|]. cbn [deliver callbacks]. destruct (cb ip isdoc c e) as [(c', [|])|]; [apply IH|reflexivity|reflexivity]. Qed.
(** A document that was stored is printed as a text from which any database stores the same document. *)
Theorem C56_reload ip d j d' doc : RI (d_rec d) -> clean j -> printable strtod double_text j -> (nesting j < YAJL_MAX_DEPTH)%nat -> parse ip true d j = Some (d', 0, doc) ->
  exists text, (forall n, (depth j <= n)%nat -> exists calls, wg_print_json_document decode n d' doc = Some (calls, true) /\ printed true double_text other_text calls = Some text) /\
    (forall ip2 isdoc2 d2, parse_text ip2 isdoc2 d2 text = parse ip2 isdoc2 d2 j) /\
    (forall ip2 isdoc2 d2 d2' doc2, RI (d_rec d2) -> parse_text ip2 isdoc2 d2 text = Some (d2', 0, doc2) -> reads decode (d_rec d2') (d_val d2') doc2 j).
Proof.
  intros R Cl P N E.
  assert (Cn : container j). { pose proof (parse_ok ix_any ix_tab ix_add_rec ix_add_field ix_del_field v_ref v_free alloc_rec cell_ok encode malloc_ok decode ip true alloc_fresh encode_ok ref_ok d j d' 0 doc R E eq_refl) as H. destruct j as [|b|l|l|l]; [contradiction|contradiction|contradiction|exact Logic.I|exact Logic.I]. }
  destruct (C56_text strtod true double_text other_text j P Cn N) as (text & Et & Nz & H). exists text.
  assert (Q : forall ip2 isdoc2 d2, parse_text ip2 isdoc2 d2 text = parse ip2 isdoc2 d2 j).
  { intros ip2 isdoc2 d2. unfold run_json_text. rewrite (H _ true (cb ip2 isdoc2) (Ctx d2 [] 0) (text_chunks text)) by (rewrite text_chunks_concat; now apply cut_zero_id).
    rewrite deliver_callbacks. unfold evs. assert (filter (visible true) (events j) = events j) as -> by (generalize (events j); induction l as [|e l IH]; [reflexivity|]; cbn [filter]; rewrite IH; destruct e; reflexivity).
    unfold run_json_parser. destruct (callbacks _ _ _ _ _ _ _ _ _ _ _ _ _ _ _) as [(c', [|])|]; reflexivity. }
  split; [|split; [exact Q|]].
  - intros n Hn. exists (gens j). split; [|exact Et]. apply (C45_roundtrip ix_any ix_tab ix_add_rec ix_add_field ix_del_field v_ref v_free alloc_rec cell_ok malloc_ok encode decode alloc_fresh encode_ok ref_ok ip true d j d' doc R Cl E); [reflexivity|exact Hn].
  - intros ip2 isdoc2 d2 d2' doc2 R2 E2. rewrite Q in E2. apply (C45_roundtrip ix_any ix_tab ix_add_rec ix_add_field ix_del_field v_ref v_free alloc_rec cell_ok malloc_ok encode decode alloc_fresh encode_ok ref_ok ip2 isdoc2 d2 j d2' doc2 R2 Cl E2).
Qed.
End Reload.
Print Assumptions C56_reload.
Notation ex_text d text := (run_json_text no_ix no_ix ex_rec ex_field ex_field ex_ref ex_ref ex_alloc ex_yes ex_encode ex_yes false true ex_dbl d text).
Example C56_reload_ex : ex_rc ex_db ex_json = Some (0, 384) /\
  match wg_print_json_document ex_decode 10 (ex_after ex_db ex_json) 384 with
  | Some (calls, true) => match printed true ex_double (fun _ => []) calls with
                          | Some text => match ex_text ex_db text with Some (d, rc, doc) => (d_val d, rc, doc) = (d_val (ex_after ex_db ex_json), 0, 384) | None => False end
                          | None => False
                          end
  | _ => False
  end.
Proof. split; vm_compute; reflexivity. Qed.
(** Not so in general: an integer of more than 32 bits is printed as another one; a string that is
    not UTF-8 gives a text that is refused. *)
Theorem C56_refuted :
  printed true ex_double (fun _ => []) (gens (JArr [JLit (LInt (2 ^ 32 + 5))])) = printed true ex_double (fun _ => []) (gens (JArr [JLit (LInt 5)])) /\
  (exists text, printed true ex_double (fun _ => []) (gens (JArr [JLit (LStr [255])])) = Some text /\ check_json text = Some (-1)) /\
  (exists d', ex_parse false true ex_db (JArr [JLit (LInt (2 ^ 32 + 5))]) = Some (d', 0, 64)) /\ (exists d', ex_parse false true ex_db (JArr [JLit (LStr [255])]) = Some (d', 0, 64)).
Proof. split; [vm_compute; reflexivity|]. split.
  { exists [91; 10; 32; 32; 32; 32; 34; 255; 34; 10; 93; 10]. split; vm_compute; reflexivity. }
  split; eexists; apply ex_parse_rc; vm_compute; reflexivity.
Qed.
Print Assumptions C56_refuted.
