(** Property C59: the texts that are accepted as JSON. *)
From Coq Require Import ZArith List Bool Lia Arith.
From Verif Require Import Base CsvModel CsvProofs EncodingModel RecordModel RecordProofs RecordProps SchemaModel SchemaProofs SchemaTree JsonModel JsonProofs JsonRead JsonProps
  YajlModel YajlProofs YajlParse YajlText YajlPrint YajlSafe YajlProps YajlGrammar YajlValue YajlAccept.
Import ListNotations.
Open Scope Z_scope.
#[local] Ltac Zify.zify_post_hook ::= idtac.

(** The texts with the values they stand for; [strtod] gives the value of a number with a fraction or
    an exponent. *)
Definition json_of (strtod : list Z -> option Z) : list Z -> json -> Prop := json_text str_text int_value (fun t d => double_text t /\ strtod t = Some d).
(** The form of a text: the same grammar, with the value of strings and numbers left open. *)
Definition json_form : list Z -> json -> Prop := json_text (fun b v => str_ok b /\ v = b) (fun t z => int_text t /\ z = 0) (fun t d => double_text t /\ d = 0).

(** ** wg_check_json accepts exactly the texts of the form, with an array or object of less than 7 levels *)
Lemma deliver_check es : forall n, deliver (fun depth e => Some (check_callback depth e)) n (filter (visible false) es) = Some (check_callbacks n es).
Proof.
  induction es as [|e es IH]; intros n; [reflexivity|]. cbn [filter check_callbacks]. destruct (visible false e) eqn:V.
  - cbn [deliver]. destruct (check_callback n e) as (n' & [|]); [apply IH|reflexivity].
  - destruct e; try discriminate V; apply IH.
Qed.
Theorem C59_check buf : check_json buf = Some 0 <-> exists j, json_form (cut_zero buf) j /\ check_json_spec j.
Proof.
  unfold check_json. split.
  - intros E. destruct (yajl_run false _ _ (-1) (text_chunks buf)) as [(depth, ok)|] eqn:R; [|discriminate E]. destruct ok; cbn [negb] in E; [|discriminate E].
    destruct (accept_sound false (fun depth e => Some (check_callback depth e)) (fun _ => None) (fun b v => str_ok b /\ v = b) (fun t z => int_text t /\ z = 0) (fun t d => double_text t /\ d = 0)
      ltac:(intros b v (H & _); split; [exact H|discriminate]) ltac:(intros t z (H & _); split; [exact H|discriminate]) ltac:(intros t d (H & _); split; [exact H|discriminate]) (fun _ => True) ltac:(auto) ltac:(intros b H _; exists b; auto) ltac:(intros t H; exists 0; auto) ltac:(intros t H; exists 0; auto) (-1) (text_chunks buf) depth Logic.I R) as (j & T & D).
    exists j. rewrite text_chunks_concat in T. split; [exact T|]. apply C45_check. unfold evs in D. rewrite deliver_check in D. injection D as D. unfold wg_check_json. rewrite D. cbn [negb orb]. now injection E.
  - intros (j & T & Sp). rewrite <- text_chunks_concat in T. rewrite (accept_complete false (fun depth e => Some (check_callback depth e)) (fun _ => None) (fun b v => str_ok b /\ v = b) (fun t z => int_text t /\ z = 0) (fun t d => double_text t /\ d = 0)
      ltac:(intros b v (H & _); split; [exact H|discriminate]) ltac:(intros t z (H & _); split; [exact H|discriminate]) ltac:(intros t d (H & _); split; [exact H|discriminate]) (-1) (text_chunks buf) j T).
    unfold evs. rewrite deliver_check. apply C45_check in Sp. unfold wg_check_json in Sp. destruct (check_callbacks (-1) (events j)) as (depth, ok). destruct ok; cbn [negb orb] in *; [now rewrite Sp|discriminate Sp].
Qed.
Print Assumptions C59_check.
(** [1 ,"é"] with a comment at the end: a text of the form; without the comma it is not. *)
Example C59_check_ex : json_form [91; 49; 32; 44; 34; 92; 117; 48; 48; 101; 57; 34; 93; 47; 47; 120; 10] (JArr [JLit (LInt 0); JLit (LStr [92; 117; 48; 48; 101; 57])]) /\
  check_json [91; 49; 32; 44; 34; 92; 117; 48; 48; 101; 57; 34; 93; 47; 47; 120; 10] = Some 0 /\
  ~ exists j, json_form [91; 49; 32; 34; 92; 117; 48; 48; 101; 57; 34; 93] j /\ check_json_spec j.
Proof.
  split; [|split; [vm_compute; reflexivity|]].
  - exists [], [91; 49; 32; 44; 34; 92; 117; 48; 48; 101; 57; 34; 93], [47; 47; 120; 10], []. split; [reflexivity|]. split; [constructor|]. split; [|split; [apply (gap_line [120] []); [cbn; lia|constructor]|constructor]].
    apply (v_arr _ _ _ [49; 32; 44; 34; 92; 117; 48; 48; 101; 57; 34]). apply (e_more _ _ _ [] [49] [32] (JLit (LInt 0)) [34; 92; 117; 48; 48; 101; 57; 34]); [constructor| |apply gap_white; [lia|constructor]|].
    + constructor. split; [|reflexivity]. exists [], [49]. split; [reflexivity|]. split; [auto|]. right. exists 49, []. split; [reflexivity|]. split; [repeat constructor|lia].
    + apply (e_one _ _ _ [] [34; 92; 117; 48; 48; 101; 57; 34] []); [constructor| |constructor]. apply (v_str _ _ _ [92; 117; 48; 48; 101; 57]). split; [|reflexivity]. apply (so_u [48; 48; 101; 57] 233 []); [|constructor]. exists 48, 48, 101, 57, 0, 0, 14, 9. repeat split.
  - rewrite <- (C59_check [91; 49; 32; 34; 92; 117; 48; 48; 101; 57; 34; 93]). vm_compute. discriminate.
Qed.

(** ** The parser reports the value of a text of the grammar *)
Lemma all_visible j : evs true j = events j.
Proof. unfold evs. generalize (events j). induction l as [|e l IH]; [reflexivity|]. cbn [filter]. rewrite IH. destruct e; reflexivity. Qed.
Theorem C59_parse {C : Type} (callback : C -> event -> option (C * bool)) strtod c chunks j : json_of strtod (concat chunks) j ->
  yajl_run true callback strtod c chunks = deliver callback c (events j).
Proof.
  intros T. rewrite <- all_visible. apply (accept_complete true callback strtod str_text int_value (fun t d => double_text t /\ strtod t = Some d)); [| | |exact T].
  - intros b v H. split; [now apply (text_ok b v)|]. intros _. split; [now apply text_plain|now apply decode_text].
  - intros t z H. destruct (int_value_ok t z H). auto.
  - intros t d (H & E). auto.
Qed.
Print Assumptions C59_parse.
(** Conversely a text that is accepted is one of the grammar, and its value was reported, if it has no
    escaped high surrogates. Missing: texts with them; "\ud800x" is accepted and read as "?" (see C59_refuted). *)
Theorem C59_accepted_partial {C : Type} (callback : C -> event -> option (C * bool)) strtod c chunks c' :
  (forall a x y b, concat chunks = a ++ [92; 117; x; y] ++ b -> In x [68; 100] -> In y [56; 57; 65; 66; 97; 98] -> False) ->
  yajl_run true callback strtod c chunks = Some (c', true) -> exists j, json_of strtod (concat chunks) j /\ deliver callback c (events j) = Some (c', true).
Proof.
  intros Ns E. destruct (accept_sound true callback strtod str_text int_value (fun t d => double_text t /\ strtod t = Some d)) with (okay := no_surrogates) (c := c) (chunks := chunks) (c' := c') as (j & T & D); [| | | | | | | |exact E|].
  - intros b v H. split; [now apply (text_ok b v)|]. intros _. split; [now apply text_plain|now apply decode_text].
  - intros t z H. destruct (int_value_ok t z H). auto.
  - intros t d (H & Q). auto.
  - intros a b e H p x y r Q Hx Hy. apply (H (a ++ p) x y (r ++ e)); [rewrite Q, <- !app_assoc; reflexivity|exact Hx|exact Hy].
  - exact ok_text.
  - intros t H z. now apply int_value_inv.
  - intros t H d Q. auto.
  - intros a x y b Q Hx Hy. destruct (exists_last (l := [92; 117; x; y] ++ b) ltac:(discriminate)) as (b' & z & Eb). rewrite Eb, app_assoc in Q. apply app_inj_tail in Q. destruct Q as (Q & <-). destruct b as [|t b _] using rev_ind.
    + cbn [app] in Eb. change [92; 117; x; y] with ([92; 117; x] ++ [y]) in Eb. apply app_inj_tail in Eb. destruct Eb as (_ & ->). cbn in Hy. lia.
    + rewrite app_assoc in Eb. apply app_inj_tail in Eb. destruct Eb as (Eb & _). apply (Ns a x y b); [now rewrite Eb|exact Hx|exact Hy].
  - exists j. rewrite all_visible in D. auto.
Qed.
Print Assumptions C59_accepted_partial.
(** {"k":-12.5e1} and the surrogate pair "𝄞". *)
Example C59_parse_ex : json_of ex_strtod [123; 34; 107; 34; 58; 45; 49; 50; 46; 53; 101; 49; 125] (JObj [([107], JLit (LDouble 7))]) /\
  json_of ex_strtod [34; 92; 117; 100; 56; 51; 52; 92; 117; 100; 100; 49; 101; 34] (JLit (LStr [240; 157; 132; 158])) /\
  yajl_run true ex_trace ex_strtod [] [[123; 34; 107; 34; 58; 45; 49]; [50; 46; 53; 101; 49; 125]] = Some ([EObjectBegin; EKey [107]; ELit (LDouble 7); EObjectEnd], true) /\
  yajl_run true ex_trace ex_strtod [] [[34; 92; 117; 100; 56; 51; 52; 92; 117; 100; 100; 49; 101; 34]] = Some ([ELit (LStr [240; 157; 132; 158])], true).
Proof.
  split; [|split; [|split; vm_compute; reflexivity]].
  - exists [], [123; 34; 107; 34; 58; 45; 49; 50; 46; 53; 101; 49; 125], [], []. split; [reflexivity|]. split; [constructor|]. split; [|split; constructor].
    apply (v_obj _ _ _ [34; 107; 34; 58; 45; 49; 50; 46; 53; 101; 49]). apply (m_one _ _ _ [] [107] [107] [] [] [45; 49; 50; 46; 53; 101; 49] (JLit (LDouble 7)) []); try constructor.
    + lia.
    + lia.
    + lia.
    + constructor.
    + split; [|reflexivity]. exists [45; 49; 50], [46; 53], [101; 49]. split; [reflexivity|]. split.
      { exists [45], [49; 50]. split; [reflexivity|]. split; [auto|]. right. exists 49, [50]. split; [reflexivity|]. split; [repeat constructor|lia]. }
      split; [right; exists [53]; split; [reflexivity|]; split; [discriminate|]; repeat constructor; lia|]. split; [right|left; discriminate]. exists 101, [], [49]. split; [reflexivity|]. split; [auto|]. split; [auto|]. split; [discriminate|]. repeat constructor; lia.
  - exists [], [34; 92; 117; 100; 56; 51; 52; 92; 117; 100; 100; 49; 101; 34], [], []. split; [reflexivity|]. split; [constructor|]. split; [|split; constructor]. apply (v_str _ _ _ [92; 117; 100; 56; 51; 52; 92; 117; 100; 100; 49; 101]).
    apply (st_pair [100; 56; 51; 52] 55348 [100; 100; 49; 101] 56606 [] []); [|lia| |lia|constructor].
    + exists 100, 56, 51, 52, 13, 8, 3, 4. repeat split.
    + exists 100, 100, 49, 101, 13, 13, 1, 14. repeat split.
Qed.

(** ** Documents from texts *)
Section Store.
Context {I V : Type}.
Variable ix_any ix_tab : I -> Z -> bool.
Variable ix_add_rec : rmap -> V -> I -> Z -> option (I * Z).
Variable ix_add_field ix_del_field : rmap -> V -> I -> Z -> Z -> option (I * Z).
Variable v_ref v_free : V -> Z -> V.
Variable alloc_rec : @rdb I V -> Z -> Z.
Variable cell_ok malloc_ok : @rdb I V -> bool.
Variable encode : V -> lit -> V * Z.
Variable decode : V -> Z -> option lit.
Variable strtod : list Z -> option Z.
Hypothesis alloc_fresh : forall d n, alloc_rec d n = 0 \/ (is_record_ref (alloc_rec d n) = true /\ d_rec d (alloc_rec d n) = None).
Hypothesis encode_ok : forall v l v' e, encode v l = (v', e) ->
  (forall x y, decode v x = Some y -> decode v' x = Some y) /\ (e <> WG_ILLEGAL -> is_record_ref e = false /\ decode v' e = Some l).
Hypothesis ref_ok : forall v x e l, decode v e = Some l -> decode (v_ref v x) e = Some l.
Notation parse_text isparam isdocument d text := (run_json_text ix_any ix_tab ix_add_rec ix_add_field ix_del_field v_ref v_free alloc_rec cell_ok encode malloc_ok isparam isdocument strtod d text).
Notation data d := (data_of (d_rec d)).
Notation cb := (JsonModel.callback ix_any ix_tab ix_add_rec ix_add_field ix_del_field v_ref v_free alloc_rec cell_ok encode malloc_ok).
(** A text without escaped high surrogates from which a document was stored is a text of the grammar;
    the document is its value, without null and boolean values, with strings up to a zero byte and
    keys of at most 79 bytes. *)
Theorem C59_document_partial ip isdoc d buf d' doc : RI (d_rec d) ->
  (forall a x y b, cut_zero buf = a ++ [92; 117; x; y] ++ b -> In x [68; 100] -> In y [56; 57; 65; 66; 97; 98] -> False) ->
  parse_text ip isdoc d buf = Some (d', 0, doc) -> doc <> 0 ->
  exists j j', json_of strtod (cut_zero buf) j /\ strip j = Some j' /\ reads decode (d_rec d') (d_val d') doc j' /\ RI (d_rec d') /\ forall o, data d o <> None -> data d' o = data d o.
Proof.
  intros R Ns E Nd. unfold run_json_text in E. destruct (yajl_run true (cb ip isdoc) strtod (Ctx d [] 0) (text_chunks buf)) as [(c, ok)|] eqn:Y; [|discriminate E]. destruct ok; [|discriminate E].
  destruct (C59_accepted_partial (cb ip isdoc) strtod (Ctx d [] 0) (text_chunks buf) c ltac:(rewrite text_chunks_concat; exact Ns) Y) as (j & T & D). rewrite text_chunks_concat in T. exists j.
  rewrite deliver_callbacks in D.
  assert (P : run_json_parser ix_any ix_tab ix_add_rec ix_add_field ix_del_field v_ref v_free alloc_rec cell_ok encode malloc_ok ip isdoc d (events j) true = Some (d', 0, doc)).
  { unfold run_json_parser. rewrite D. exact E. }
  destruct (C45_stored ix_any ix_tab ix_add_rec ix_add_field ix_del_field v_ref v_free alloc_rec cell_ok malloc_ok encode decode alloc_fresh encode_ok ref_ok ip isdoc d j d' doc R P Nd) as (j' & Sj & H). exists j'. auto.
Qed.
End Store.
Print Assumptions C59_document_partial.
Example C59_document_ex : match ex_text ex_db [91; 49; 44; 110; 117; 108; 108; 44; 34; 92; 110; 34; 93] with Some (d, rc, doc) => rc = 0 /\ doc <> 0 | None => False end.
Proof. vm_compute. split; [reflexivity|discriminate]. Qed.

(** ** What is accepted besides *)
Lemma gap_end w : gap w -> w = [] \/ exists t x, w = t ++ [x] /\ (9 <= x <= 13 \/ x = 32 \/ x = 47).
Proof.
  assert (Pre : forall a t, (t = [] -> exists t' x, a = t' ++ [x] /\ (9 <= x <= 13 \/ x = 32 \/ x = 47)) -> (t = [] \/ exists t' x, t = t' ++ [x] /\ (9 <= x <= 13 \/ x = 32 \/ x = 47)) -> a ++ t = [] \/ exists t' x, a ++ t = t' ++ [x] /\ (9 <= x <= 13 \/ x = 32 \/ x = 47)).
  { intros a t H [-> | (t' & x & -> & Hx)]; right; [rewrite app_nil_r; auto|]. exists (a ++ t'), x. rewrite <- app_assoc. auto. }
  induction 1 as [|c s Hc G IH|t s N G IH|t s N G IH]; [now left| | |].
  - apply (Pre [c] s); [|exact IH]. intros _. exists [], c. split; [reflexivity|]. lia.
  - replace (47 :: 47 :: t ++ 10 :: s) with ((47 :: 47 :: t ++ [10]) ++ s) by (cbn [app]; rewrite <- app_assoc; reflexivity). apply Pre; [|exact IH]. intros _. exists (47 :: 47 :: t), 10. split; [reflexivity|lia].
  - replace (47 :: 42 :: t ++ 42 :: 47 :: s) with ((47 :: 42 :: t ++ [42; 47]) ++ s) by (cbn [app]; rewrite <- app_assoc; reflexivity). apply Pre; [|exact IH]. intros _. exists (47 :: 42 :: t ++ [42]), 47. split; [cbn [app]; rewrite <- app_assoc; reflexivity|lia].
Qed.
(** A string that is not closed is accepted after the value, as in the bytes 91 93 34 97, although no text of the grammar
    ends so; an escaped high surrogate alone is accepted with the character after it, 
    and the two are read as a question mark. *)
Theorem C59_refuted : check_json [91; 93; 34; 97] = Some 0 /\
  (~ exists w t w' j, [91; 93; 34; 97] = w ++ t ++ w' /\ gap w /\ value (fun b v => str_ok b /\ v = b) (fun t z => int_text t /\ z = 0) (fun t d => double_text t /\ d = 0) t j /\ gap w') /\
  (forall strtod, yajl_run true ex_trace strtod [] [[91; 34; 92; 117; 100; 56; 48; 48; 120; 34; 93]] = Some ([EArrayBegin; ELit (LStr [63]); EArrayEnd], true)).
Proof.
  split; [vm_compute; reflexivity|]. split; [|intros; vm_compute; reflexivity].
  intros (w & t & w' & j & E & G & V & G'). destruct (gap_end w' G') as [-> | (u & x & -> & Hx)].
  2: { change [91; 93; 34; 97] with ([91; 93; 34] ++ [97]) in E. rewrite !app_assoc in E. apply app_inj_tail in E. destruct E as (_ & <-). lia. }
  rewrite app_nil_r in E.
  assert (L : forall p q x, t = p ++ q ++ [x] -> x <> 97 -> False). { intros p q x -> Nx. change [91; 93; 34; 97] with ([91; 93; 34] ++ [97]) in E. rewrite !app_assoc in E. apply app_inj_tail in E. destruct E as (_ & <-). now apply Nx. }
  assert (Dg : forall p ds, t = p ++ ds -> ds <> [] -> Forall digit ds -> False). { intros p ds Et Nd F. destruct (exists_last Nd) as (q & x & ->). apply (L p q x Et). apply Forall_app in F. destruct F as (_ & F). apply Forall_cons_iff in F. destruct F as (F & _). unfold digit in F. lia. }
  assert (Wh : forall p ds, t = p ++ ds -> whole_digits ds -> False) by (intros p ds Et W; apply (Dg p ds Et); [destruct W as [-> | (c & r & -> & _)]; discriminate|apply digits_spec; now apply whole_all]).
  destruct V as [| | |b v H|u z H|u d H|g Gg|u l H|g Gg|u l H].
  - apply (L [] [110; 117; 108] 108); [reflexivity|lia].
  - apply (L [] [116; 114; 117] 101); [reflexivity|lia].
  - apply (L [] [102; 97; 108; 115] 101); [reflexivity|lia].
  - apply (L [34] b 34); [reflexivity|lia].
  - destruct H as ((sign & ds & -> & _ & W) & _). apply (Wh sign ds eq_refl W).
  - destruct H as ((i & f & e & -> & (sign & ds & -> & _ & W) & Hf & He & _) & _). destruct He as [-> | (x & sg & es & -> & _ & _ & Ne & Fe)].
    + rewrite app_nil_r in *. destruct Hf as [-> | (fs & -> & Nf & Ff)]; [rewrite app_nil_r in *; apply (Wh sign ds eq_refl W)|]. apply (Dg ((sign ++ ds) ++ [46]) fs); [rewrite <- !app_assoc; reflexivity|exact Nf|exact Ff].
    + apply (Dg ((sign ++ ds) ++ f ++ x :: sg) es); [rewrite <- !app_assoc; reflexivity|exact Ne|exact Fe].
  - apply (L [91] g 93); [reflexivity|lia].
  - apply (L [91] u 93); [reflexivity|lia].
  - apply (L [123] g 125); [reflexivity|lia].
  - apply (L [123] u 125); [reflexivity|lia].
Qed.
Print Assumptions C59_refuted.
