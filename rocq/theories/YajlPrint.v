(** What the generator prints for a value is parsed into the events of the value. *)
From Coq Require Import ZArith List Bool Lia Arith.
From Verif Require Import Base CsvModel CsvProofs JsonModel JsonProofs JsonRead YajlModel YajlProofs YajlParse YajlText.
Import ListNotations.
Open Scope Z_scope.
#[local] Ltac Zify.zify_post_hook ::= idtac.

Section Print.
Context {C : Type}.
Variable full : bool.
Variable callback : C -> event -> option (C * bool).
Variable strtod : list Z -> option Z.
Variable beautify : bool.
Variable double_text : Z -> list Z.
Variable other_text : Z -> list Z.
Notation sp := (sp full callback strtod).
Notation action_of := (action_of full strtod).
Notation gen_calls := (gen_calls beautify double_text other_text).
Notation gen_call := (gen_call beautify double_text other_text).
Notation pretty := (pretty beautify).
Notation insert_sep := (insert_sep beautify).
Notation insert_whitespace := (insert_whitespace beautify).

(** The callbacks made for a list of events, one after the other until one refuses. *)
Fixpoint deliver (c : C) (es : list event) : option (C * bool) :=
  match es with
  | [] => Some (c, true)
  | e :: es => match callback c e with None => None | Some (c, true) => deliver c es | Some (c, false) => Some (c, false) end
  end.
(** validate_cb has no callbacks for strings, keys and numbers. *)
Definition visible (e : event) : bool := match e with ELit _ | EKey _ => full | _ => true end.
Definition evs (j : json) : list event := filter visible (events j).
Definition then_ (r : option (C * bool)) (k : C -> option (outcome C)) : option (outcome C) :=
  match r with None => None | Some (c, true) => k c | Some (c, false) => Some (Stop c) end.
Lemma deliver_app a : forall c b k, then_ (deliver c (a ++ b)) k = then_ (deliver c a) (fun c => then_ (deliver c b) k).
Proof. induction a as [|e a IH]; intros c b k; [reflexivity|]. cbn [app deliver]. destruct (callback c e) as [(c', [|])|]; [apply IH|reflexivity|reflexivity]. Qed.
Lemma then_ext r k k' : (forall c, k c = k' c) -> then_ r k = then_ r k'.
Proof. intros H. destruct r as [(c, [|])|]; [apply H|reflexivity|reflexivity]. Qed.
(** One callback, if it exists. *)
Lemma move_only st stk c l e tok text rest : errored st = false -> tok <> tok_eof -> s_lex (text ++ rest) = (tok, text ++ rest, rest) ->
  action_of st tok text = Move (if visible e then Some e else None) l -> sp (st :: stk) c (text ++ rest) = then_ (deliver c (filter visible [e])) (fun c => sp (l ++ stk) c rest).
Proof.
  intros Er N L A. rewrite (sp_eq' _ _ _ _ _ _ _ Er), L. destruct (match tok with tok_eof => true | _ => false end) eqn:Te; [destruct tok; try discriminate Te; contradiction|].
  replace (firstn (length (text ++ rest) - length rest) (text ++ rest)) with text. 2: { rewrite app_length, Nat.add_sub, firstn_app, Nat.sub_diag, firstn_all. cbn [firstn]. symmetry. apply app_nil_r. }
  rewrite A. cbn [filter]. destruct (visible e); cbn [deliver]; [|reflexivity]. destruct (callback c e) as [(c', [|])|]; reflexivity.
Qed.
Lemma move_silent st stk c l tok text rest : errored st = false -> tok <> tok_eof -> s_lex (text ++ rest) = (tok, text ++ rest, rest) ->
  action_of st tok text = Move None l -> sp (st :: stk) c (text ++ rest) = sp (l ++ stk) c rest.
Proof.
  intros Er N L A. rewrite (sp_eq' _ _ _ _ _ _ _ Er), L. destruct (match tok with tok_eof => true | _ => false end) eqn:Te; [destruct tok; try discriminate Te; contradiction|].
  replace (firstn (length (text ++ rest) - length rest) (text ++ rest)) with text. 2: { rewrite app_length, Nat.add_sub, firstn_app, Nat.sub_diag, firstn_all. cbn [firstn]. symmetry. apply app_nil_r. }
  rewrite A. reflexivity.
Qed.
Lemma lex_white w s : Forall (fun c => white c = true) w -> s_lex (w ++ s) = s_lex s.
Proof. induction w as [|c w IH]; intros F; [reflexivity|]. inversion F; subst. cbn [app]. rewrite lex_cons. rewrite H1. now apply IH. Qed.
Lemma sp_white st stk c w s : Forall (fun c => white c = true) w -> sp (st :: stk) c (w ++ s) = sp (st :: stk) c s.
Proof. intros F. rewrite !(sp_eq full callback strtod (st :: stk)). now rewrite (lex_white w s F). Qed.
Lemma pretty_white s : Forall (fun c => white c = true) s -> Forall (fun c => white c = true) (pretty s).
Proof. unfold YajlModel.pretty. destruct beautify; auto. Qed.
Lemma ws_white s n : Forall (fun c => white c = true) (insert_whitespace s n).
Proof. assert (Forall (fun c => white c = true) (pretty (flat_map (fun _ : nat => indent) (seq 0 n)))) by (apply pretty_white; induction (seq 0 n); [constructor|cbn [flat_map]; apply Forall_app; split; [repeat constructor|assumption]]). destruct s; auto; constructor. Qed.

(** Values that are printed so that they can be read back. *)
Fixpoint printable (j : json) : Prop :=
  match j with
  | JNull | JBool _ => False
  | JLit (LInt z) => - 2 ^ 31 <= z < 2 ^ 31
  | JLit (LDouble b) => decimal (double_text b) /\ strtod (double_text b) = Some b
  | JLit (LStr s) => utf8 s
  | JArr l => fold_right and True (map printable l)
  | JObj l => fold_right and True (map (fun kj => utf8 (fst kj) /\ printable (snd kj)) l)
  end.
Definition value_state (st : yajl_state) : Prop := In st [state_start; state_map_need_val; state_array_need_val; state_array_start].
Definition container (j : json) : Prop := match j with JArr _ | JObj _ => True | _ => False end.
(** The text is parsed into the events of the value. *)
Definition parses (j : json) (text : list Z) : Prop :=
  forall st stk c rest, value_state st -> container j \/ delim rest -> sp (st :: stk) c (text ++ rest) = then_ (deliver c (evs j)) (fun c => sp (after_value st :: stk) c rest).
Definition prints (j : json) : Prop :=
  forall s st out, valid_state s = true -> not_key s = true -> (nesting j + length (s :: st) <= YAJL_MAX_DEPTH)%nat ->
  exists text, gen_calls (Gen (s :: st) out) (gens j) = Some (Gen (appended_atom s :: st) (out ++ insert_sep s ++ insert_whitespace s (length st) ++ text ++ final_newline beautify (appended_atom s))) /\
    parses j text /\ ~ In 0 text.
Lemma value_errored st : value_state st -> errored st = false.
Proof. intros H. repeat (destruct H as [<- | H]; [reflexivity|]). contradiction. Qed.
Lemma value_act st tok text : value_state st -> action_of st tok text = value_action full strtod st tok text.
Proof. intros H. repeat (destruct H as [<- | H]; [reflexivity|]). contradiction. Qed.
Lemma atom_prints j text (key : bool) x : gens j = [x] -> (forall g, gen_call g x = gen_atom beautify key text g) -> nesting j = 0%nat -> parses j text -> ~ In 0 text -> prints j.
Proof.
  intros G K N P Z s st out V Nk _. exists text. rewrite G. cbn [YajlModel.gen_calls]. rewrite K. unfold gen_atom. cbn [g_state g_out]. rewrite V, Nk. cbn [negb andb orb]. rewrite andb_false_r. cbn [orb]. split; [reflexivity|auto].
Qed.
Lemma digits_nonzero ds : alldigits ds -> ~ In 0 ds.
Proof. intros A I. apply (proj1 (Forall_forall _ _) A) in I. discriminate I. Qed.
Lemma encode_nonzero s : Forall byte s -> ~ In 0 (yajl_string_encode s).
Proof.
  intros F I. unfold yajl_string_encode in I. apply in_flat_map in I. destruct I as (c & Ic & I). apply (proj1 (Forall_forall _ _) F) in Ic. destruct (encode_cases c Ic) as [(E & _ & _ & L) | [(x & E & V & _) | (_ & x & y & E & V1 & V2 & _)]]; rewrite E in I; cbn [In] in I.
  - destruct I as [-> | []]. lia.
  - destruct I as [I | [-> | []]]; discriminate.
  - repeat destruct I as [I | I]; try discriminate; try contradiction; subst; discriminate.
Qed.
Lemma quoted_nonzero s : utf8 s -> ~ In 0 (quoted s).
Proof. intros U I. unfold quoted in I. destruct I as [I | I]; [discriminate|]. apply in_app_or in I. destruct I as [I | [I | []]]; [|discriminate]. apply encode_nonzero in I; [contradiction|now apply utf8_bytes]. Qed.
Lemma int_prints z : - 2 ^ 31 <= z < 2 ^ 31 -> prints (JLit (LInt z)).
Proof.
  intros H. assert (B : - LLONG_MAX <= z <= LLONG_MAX) by (unfold LLONG_MAX; lia).
  apply (atom_prints _ (print_int z) false (GNumber (LInt z))); try reflexivity.
  - intros g. unfold YajlModel.gen_call, number_text. rewrite wrap32_id by exact H. reflexivity.
  - intros st stk c rest V [[] | D]. change (evs (JLit (LInt z))) with (filter visible [ELit (LInt z)]). apply (move_only st stk c [after_value st] (ELit (LInt z)) tok_integer); [now apply value_errored|discriminate|now apply lex_int|].
    rewrite value_act by exact V. cbn [value_action visible]. destruct full; [|reflexivity]. rewrite parse_print by exact B. reflexivity.
  - destruct (print_int_shape z B) as (sign & ds & -> & S & _ & A & _). intros I. apply in_app_or in I. destruct I as [I | I]; [destruct S as [-> | ->]; cbn in I; [contradiction|destruct I; [discriminate|contradiction]]|]. now apply digits_nonzero in I.
Qed.
Lemma double_prints b : decimal (double_text b) -> strtod (double_text b) = Some b -> prints (JLit (LDouble b)).
Proof.
  intros D E. apply (atom_prints _ (double_text b) false (GNumber (LDouble b))); try reflexivity.
  - intros st stk c rest V [[] | Dl]. change (evs (JLit (LDouble b))) with (filter visible [ELit (LDouble b)]). apply (move_only st stk c [after_value st] (ELit (LDouble b)) tok_double); [now apply value_errored|discriminate|now apply lex_decimal|].
    rewrite value_act by exact V. cbn [value_action visible]. destruct full; [|reflexivity]. rewrite E. reflexivity.
  - destruct D as (sign & ds & x & fs & -> & S & W & A). intros I. apply in_app_or in I. destruct I as [I | I]; [destruct S as [-> | ->]; cbn in I; [contradiction|destruct I; [discriminate|contradiction]]|]. apply in_app_or in I. destruct I as [I | [I | I]]; [|discriminate|apply digits_nonzero in I; auto].
    destruct W as [-> | (y & r & -> & A' & _)]; [destruct I as [I | []]; discriminate|]. now apply digits_nonzero in I.
Qed.
Lemma string_token s rest : utf8 s -> exists tok, tok <> tok_eof /\ s_lex (quoted s ++ rest) = (tok, quoted s ++ rest, rest) /\
  (forall st, value_state st -> action_of st tok (quoted s) = Move (if visible (ELit (LStr s)) then Some (ELit (LStr s)) else None) [after_value st]) /\
  (forall st, st = state_map_start \/ st = state_map_need_key -> action_of st tok (quoted s) = Move (if visible (EKey s) then Some (EKey s) else None) [state_map_sep]).
Proof.
  intros U. destruct (lex_string s rest U) as (esc & L & Sv). exists (if esc then tok_string_with_escapes else tok_string). split; [destruct esc; discriminate|]. split; [exact L|]. specialize (Sv full). split.
  - intros st V. rewrite value_act by exact V. destruct esc; cbn [value_action visible]; rewrite Sv; unfold only_full; destruct full; reflexivity.
  - intros st [-> | ->]; cbn [YajlModel.action_of]; destruct esc; cbn [key_action visible]; rewrite Sv; unfold only_full; destruct full; reflexivity.
Qed.
Lemma str_prints s : utf8 s -> prints (JLit (LStr s)).
Proof.
  intros U. apply (atom_prints _ (quoted s) true (GString s)); try reflexivity; [|now apply quoted_nonzero].
  intros st stk c rest V [[] | D]. destruct (string_token s rest U) as (tok & N & L & A & _). change (evs (JLit (LStr s))) with (filter visible [ELit (LStr s)]). apply (move_only st stk c [after_value st] (ELit (LStr s)) tok); [now apply value_errored|exact N|exact L|now apply A].
Qed.
Lemma gen_calls_app a : forall g b, gen_calls g (a ++ b) = match gen_calls g a with None => None | Some g => gen_calls g b end.
Proof. induction a as [|x a IH]; intros g b; [reflexivity|]. cbn [app YajlModel.gen_calls]. destruct (gen_call g x); [apply IH|reflexivity]. Qed.
Lemma lex_single x tok rest : In (x, tok) [(91, tok_left_brace); (93, tok_right_brace); (123, tok_left_bracket); (125, tok_right_bracket); (44, tok_comma); (58, tok_colon)] -> s_lex ([x] ++ rest) = (tok, [x] ++ rest, rest).
Proof. intros I. cbn [app]. rewrite lex_cons. cbn [In] in I. repeat (destruct I as [I | I]; [injection I as <- <-; reflexivity|]). contradiction. Qed.
(** What follows an element. *)
Lemma delim_cons x r : In x [10; 44; 93; 125] -> delim (x :: r).
Proof. intros I. exists x, r. cbn [In] in I. repeat (destruct I as [<- | I]; [repeat split; try reflexivity; lia|]). contradiction. Qed.
Definition pst (s : gen_state) : yajl_state := match s with gen_array_start => state_array_start | gen_in_array => state_array_got_val | gen_map_start => state_map_start | _ => state_map_got_val end.
Lemma elems_prints l : Forall prints l -> forall s st out, s = gen_array_start \/ s = gen_in_array -> (list_max (map nesting l) + length (s :: st) <= YAJL_MAX_DEPTH)%nat ->
  exists s' body, gen_calls (Gen (s :: st) out) (flat_map gens l) = Some (Gen (s' :: st) (out ++ body)) /\ (s' = gen_array_start \/ s' = gen_in_array) /\ ~ In 0 body /\ (l <> [] -> s = gen_in_array -> delim body) /\ (l = [] -> body = []) /\
    forall stk c rest, delim rest -> sp (pst s :: stk) c (body ++ rest) = then_ (deliver c (filter visible (flat_map events l))) (fun c => sp (pst s' :: stk) c rest).
Proof.
  induction 1 as [|j l Hj Hl IH]; intros s st out Hs Hn; cbn [flat_map].
  - exists s, []. rewrite app_nil_r. cbn [YajlModel.gen_calls]. repeat split; auto. contradiction.
  - cbn [map list_max fold_right] in Hn. change (fold_right Nat.max 0%nat (map nesting l)) with (list_max (map nesting l)) in Hn. assert (V : valid_state s = true /\ not_key s = true) by (destruct Hs as [-> | ->]; split; reflexivity). destruct V as (V & Nk).
    destruct (Hj s st out V Nk ltac:(lia)) as (text & G & P & Z). rewrite gen_calls_app, G.
    assert (A : appended_atom s = gen_in_array) by (destruct Hs as [-> | ->]; reflexivity). rewrite A in *. cbn [final_newline]. rewrite app_nil_r.
    destruct (IH gen_in_array st (out ++ insert_sep s ++ insert_whitespace s (length st) ++ text) ltac:(auto) ltac:(cbn [length] in *; lia)) as (s' & body & G' & Hs' & Z' & D' & E' & P').
    exists s', (insert_sep s ++ insert_whitespace s (length st) ++ text ++ body). rewrite G'. split; [f_equal; f_equal; rewrite <- !app_assoc; reflexivity|]. split; [exact Hs'|].
    assert (White0 : forall w, Forall (fun c => white c = true) w -> ~ In 0 w) by (intros w F I; apply (proj1 (Forall_forall _ _) F) in I; discriminate I).
    split; [|split; [|split; [discriminate|]]].
    + intros I. repeat (apply in_app_or in I; destruct I as [I | I]); try contradiction.
      * destruct Hs as [-> | ->]; cbn [YajlModel.insert_sep] in I; [contradiction|]. destruct I as [I | I]; [discriminate|]. apply (White0 (pretty [10])) in I; [contradiction|]. apply pretty_white. repeat constructor.
      * apply (White0 _ (ws_white s (length st))) in I. contradiction.
    + intros _ ->. cbn [YajlModel.insert_sep app]. apply delim_cons. cbn; auto.
    + intros stk c rest D. rewrite <- !app_assoc.
      assert (Db : delim (body ++ rest)). { destruct l as [|j2 l]; [rewrite E' by reflexivity; exact D|]. destruct (D' ltac:(discriminate) eq_refl) as (x & r & -> & Q). exists x, (r ++ rest). split; [reflexivity|exact Q]. }
      assert (T : forall vst, value_state vst -> after_value vst = state_array_got_val -> forall w, Forall (fun c => white c = true) w -> sp (vst :: stk) c (w ++ text ++ body ++ rest) =
        then_ (deliver c (filter visible (events j ++ flat_map events l))) (fun c => sp (pst s' :: stk) c rest)).
      { intros vst Vs Av w Fw. rewrite sp_white by exact Fw. rewrite (P vst stk c (body ++ rest) Vs (or_intror Db)), Av. rewrite filter_app, deliver_app. apply then_ext. intros c'. apply (P' stk c' rest D). }
      destruct Hs as [-> | ->]; cbn [YajlModel.insert_sep pst app].
      * apply T; [cbn; auto|reflexivity|apply ws_white].
      * change (44 :: pretty [10] ++ insert_whitespace gen_in_array (length st) ++ text ++ body ++ rest) with ([44] ++ pretty [10] ++ insert_whitespace gen_in_array (length st) ++ text ++ body ++ rest).
        rewrite (move_silent state_array_got_val stk c [state_array_need_val] tok_comma); [|reflexivity|discriminate|apply lex_single; cbn; auto|reflexivity]. cbn [app]. rewrite (app_assoc (pretty [10])). apply T; [cbn; auto|reflexivity|apply Forall_app; split; [apply pretty_white; repeat constructor|apply ws_white]].
        cbn. auto 8.
Qed.
Lemma pairs_prints l : Forall (fun kj => utf8 (fst kj) /\ prints (snd kj)) l -> forall s st out, s = gen_map_start \/ s = gen_map_key -> (list_max (map (fun kj => nesting (snd kj)) l) + length (s :: st) <= YAJL_MAX_DEPTH)%nat ->
  exists s' body, gen_calls (Gen (s :: st) out) (flat_map (fun kj => GString (fst kj) :: gens (snd kj)) l) = Some (Gen (s' :: st) (out ++ body)) /\ (s' = gen_map_start \/ s' = gen_map_key) /\ ~ In 0 body /\ (l <> [] -> s = gen_map_key -> delim body) /\ (l = [] -> body = []) /\
    forall stk c rest, delim rest -> sp (pst s :: stk) c (body ++ rest) = then_ (deliver c (filter visible (flat_map (fun kj => EKey (fst kj) :: events (snd kj)) l))) (fun c => sp (pst s' :: stk) c rest).
Proof.
  induction 1 as [|(k, j) l Hj Hl IH]; intros s st out Hs Hn; cbn [flat_map].
  - exists s, []. rewrite app_nil_r. cbn [YajlModel.gen_calls]. repeat split; auto. contradiction.
  - cbn [fst snd] in *. destruct Hj as (U & Hj). cbn [map list_max fold_right] in Hn. change (fold_right Nat.max 0%nat (map (fun kj => nesting (snd kj)) l)) with (list_max (map (fun kj => nesting (snd kj)) l)) in Hn. cbn [snd] in Hn.
    assert (V : valid_state s = true) by (destruct Hs as [-> | ->]; reflexivity).
    set (out1 := out ++ insert_sep s ++ insert_whitespace s (length st) ++ quoted k).
    assert (G1 : gen_call (Gen (s :: st) out) (GString k) = Some (Gen (gen_map_val :: st) out1)).
    { unfold YajlModel.gen_call, gen_atom. cbn [g_state g_out]. rewrite V. cbn [negb orb andb]. assert (A : appended_atom s = gen_map_val) by (destruct Hs as [-> | ->]; reflexivity). rewrite A. cbn [final_newline]. rewrite app_nil_r. reflexivity. }
    cbn [app YajlModel.gen_calls]. rewrite G1. rewrite gen_calls_app. destruct (Hj gen_map_val st out1 eq_refl eq_refl ltac:(cbn [length] in *; lia)) as (text & G & P & Z). rewrite G. cbn [appended_atom final_newline YajlModel.insert_sep YajlModel.insert_whitespace app]. rewrite app_nil_r.
    set (out2 := out1 ++ 58 :: pretty [32] ++ text). destruct (IH gen_map_key st out2 ltac:(auto) ltac:(cbn [length] in *; lia)) as (s' & body & G' & Hs' & Z' & D' & E' & P').
    exists s', (insert_sep s ++ insert_whitespace s (length st) ++ quoted k ++ 58 :: pretty [32] ++ text ++ body). rewrite G'. split; [unfold out2, out1; f_equal; f_equal; rewrite <- !app_assoc; cbn [app]; rewrite <- !app_assoc; reflexivity|]. split; [exact Hs'|].
    assert (White0 : forall w, Forall (fun c => white c = true) w -> ~ In 0 w) by (intros w F I; apply (proj1 (Forall_forall _ _) F) in I; discriminate I).
    split; [|split; [|split; [discriminate|]]].
    + intros I. apply in_app_or in I. destruct I as [I | I].
      { destruct Hs as [-> | ->]; cbn [YajlModel.insert_sep] in I; [contradiction|]. destruct I as [I | I]; [discriminate|]. apply (White0 (pretty [10])) in I; [contradiction|]. apply pretty_white. repeat constructor. }
      apply in_app_or in I. destruct I as [I | I]; [apply (White0 _ (ws_white s (length st))) in I; contradiction|]. apply in_app_or in I. destruct I as [I | I]; [now apply (quoted_nonzero k U) in I|]. destruct I as [I | I]; [discriminate|]. apply in_app_or in I. destruct I as [I | I]; [apply (White0 (pretty [32])) in I; [contradiction|apply pretty_white; repeat constructor]|]. apply in_app_or in I. tauto.
    + intros _ ->. cbn [YajlModel.insert_sep app]. apply delim_cons. cbn; auto.
    + intros stk c rest D. rewrite <- !app_assoc. cbn [app]. rewrite <- !app_assoc.
      assert (Db : delim (body ++ rest)). { destruct l as [|j2 l]; [rewrite E' by reflexivity; exact D|]. destruct (D' ltac:(discriminate) eq_refl) as (x & r & -> & Q). exists x, (r ++ rest). split; [reflexivity|exact Q]. }
      assert (T : forall kst, kst = state_map_start \/ kst = state_map_need_key -> forall w, Forall (fun c => white c = true) w -> sp (kst :: stk) c (w ++ quoted k ++ 58 :: pretty [32] ++ text ++ body ++ rest) =
        then_ (deliver c (filter visible (EKey k :: events j ++ flat_map (fun kj => EKey (fst kj) :: events (snd kj)) l))) (fun c => sp (pst s' :: stk) c rest)).
      { intros kst Ks w Fw. rewrite sp_white by exact Fw. destruct (string_token k (58 :: pretty [32] ++ text ++ body ++ rest) U) as (tok & N & L & _ & Ak).
        rewrite (move_only kst stk c [state_map_sep] (EKey k) tok); [|destruct Ks as [-> | ->]; reflexivity|exact N|exact L|now apply Ak].
        change (EKey k :: events j ++ flat_map (fun kj => EKey (fst kj) :: events (snd kj)) l) with ([EKey k] ++ events j ++ flat_map (fun kj => EKey (fst kj) :: events (snd kj)) l). rewrite filter_app, deliver_app. apply then_ext. intros c1. cbn [app].
        change (58 :: pretty [32] ++ text ++ body ++ rest) with ([58] ++ pretty [32] ++ text ++ body ++ rest). rewrite (move_silent state_map_sep stk c1 [state_map_need_val] tok_colon); [|reflexivity|discriminate|apply lex_single; cbn; auto 8|reflexivity]. cbn [app].
        rewrite sp_white by (apply pretty_white; repeat constructor). rewrite (P state_map_need_val stk c1 (body ++ rest) ltac:(cbn; auto) (or_intror Db)). rewrite filter_app, deliver_app. apply then_ext. intros c'. apply (P' stk c' rest D). }
      destruct Hs as [-> | ->]; cbn [YajlModel.insert_sep pst app].
      * apply T; [auto|apply ws_white].
      * change (44 :: pretty [10] ++ insert_whitespace gen_map_key (length st) ++ quoted k ++ 58 :: pretty [32] ++ text ++ body ++ rest) with ([44] ++ pretty [10] ++ insert_whitespace gen_map_key (length st) ++ quoted k ++ 58 :: pretty [32] ++ text ++ body ++ rest).
        rewrite (move_silent state_map_got_val stk c [state_map_need_key] tok_comma); [|reflexivity|discriminate|apply lex_single; cbn; auto 8|reflexivity]. cbn [app]. rewrite (app_assoc (pretty [10])). apply T; [auto|apply Forall_app; split; [apply pretty_white; repeat constructor|apply ws_white]].
Qed.
Lemma white_nonzero w : Forall (fun c => white c = true) w -> ~ In 0 w.
Proof. intros F I. apply (proj1 (Forall_forall _ _) F) in I. discriminate I. Qed.
Lemma close_text s n x r : In x [93; 125] -> delim (pretty [10] ++ insert_whitespace s n ++ x :: r).
Proof. intros I. unfold YajlModel.insert_whitespace, YajlModel.pretty. destruct beautify; cbn [app]; [apply delim_cons; cbn; auto|]. destruct s; cbn [app]; apply delim_cons; cbn in *; tauto. Qed.
Lemma close_white s n : Forall (fun c => white c = true) (pretty [10] ++ insert_whitespace s n).
Proof. apply Forall_app. split; [apply pretty_white; repeat constructor|apply ws_white]. Qed.
Lemma arr_prints l : Forall prints l -> prints (JArr l).
Proof.
  intros F s st out V Nk Hn. cbn [nesting length] in Hn. cbn [gens YajlModel.gen_calls]. unfold YajlModel.gen_call at 1, gen_open. cbn [g_state g_out]. rewrite V, Nk. cbn [negb orb]. destruct (Nat.leb_spec YAJL_MAX_DEPTH (S (length st))); [lia|].
  set (o1 := out ++ insert_sep s ++ insert_whitespace s (length st) ++ 91 :: pretty [10]). destruct (elems_prints l F gen_array_start (s :: st) o1 ltac:(auto) ltac:(cbn [length]; lia)) as (s' & body & G & Hs' & Z & _ & _ & P).
  rewrite gen_calls_app, G. cbn [YajlModel.gen_calls]. unfold YajlModel.gen_call, gen_close. cbn [g_state g_out]. assert (V' : valid_state s' = true) by (destruct Hs' as [-> | ->]; reflexivity). rewrite V'. cbn [negb].
  set (ws := insert_whitespace (appended_atom s) (length st)).
  exists (91 :: pretty [10] ++ body ++ pretty [10] ++ ws ++ [93]). split; [|split].
  - f_equal. f_equal. unfold o1. repeat first [rewrite <- app_assoc | progress cbn [app]]. reflexivity.
  - intros vst stk c rest Vs D. change (91 :: pretty [10] ++ body ++ pretty [10] ++ ws ++ [93]) with ([91] ++ pretty [10] ++ body ++ pretty [10] ++ ws ++ [93]). rewrite <- !app_assoc.
    change (evs (JArr l)) with (filter visible ([EArrayBegin] ++ flat_map events l ++ [EArrayEnd])). rewrite filter_app, deliver_app.
    rewrite (move_only vst stk c [state_array_start; after_value vst] EArrayBegin tok_left_brace); [|now apply value_errored|discriminate|apply lex_single; cbn; auto|rewrite value_act by exact Vs; reflexivity].
    apply then_ext. intros c1. cbn [app]. rewrite sp_white by (apply pretty_white; repeat constructor). pose proof (P (after_value vst :: stk) c1 (pretty [10] ++ ws ++ 93 :: rest) (close_text _ _ 93 rest ltac:(cbn; auto))) as Q. cbn [pst] in Q. rewrite Q. rewrite filter_app, deliver_app. apply then_ext. intros c2. rewrite app_assoc, sp_white by apply close_white.
    change (93 :: rest) with ([93] ++ rest). rewrite (move_only (pst s') (after_value vst :: stk) c2 [] EArrayEnd tok_right_brace); [reflexivity|destruct Hs' as [-> | ->]; reflexivity|discriminate|apply lex_single; cbn; auto|destruct Hs' as [-> | ->]; reflexivity].
  - intros I. destruct I as [I | I]; [discriminate|]. apply in_app_or in I. destruct I as [I | I]; [apply (white_nonzero (pretty [10])) in I; [contradiction|apply pretty_white; repeat constructor]|]. apply in_app_or in I. destruct I as [I | I]; [contradiction|]. rewrite app_assoc in I. apply in_app_or in I. destruct I as [I | [I | []]]; [|discriminate]. apply (white_nonzero _ (close_white _ _)) in I. contradiction.
Qed.
Lemma obj_prints l : Forall (fun kj => utf8 (fst kj) /\ prints (snd kj)) l -> prints (JObj l).
Proof.
  intros F s st out V Nk Hn. cbn [nesting length] in Hn. cbn [gens YajlModel.gen_calls]. unfold YajlModel.gen_call at 1, gen_open. cbn [g_state g_out]. rewrite V, Nk. cbn [negb orb]. destruct (Nat.leb_spec YAJL_MAX_DEPTH (S (length st))); [lia|].
  set (o1 := out ++ insert_sep s ++ insert_whitespace s (length st) ++ 123 :: pretty [10]). destruct (pairs_prints l F gen_map_start (s :: st) o1 ltac:(auto) ltac:(cbn [length]; lia)) as (s' & body & G & Hs' & Z & _ & _ & P).
  rewrite gen_calls_app, G. cbn [YajlModel.gen_calls]. unfold YajlModel.gen_call, gen_close. cbn [g_state g_out]. assert (V' : valid_state s' = true) by (destruct Hs' as [-> | ->]; reflexivity). rewrite V'. cbn [negb].
  set (ws := insert_whitespace (appended_atom s) (length st)).
  exists (123 :: pretty [10] ++ body ++ pretty [10] ++ ws ++ [125]). split; [|split].
  - f_equal. f_equal. unfold o1. repeat first [rewrite <- app_assoc | progress cbn [app]]. reflexivity.
  - intros vst stk c rest Vs D. change (123 :: pretty [10] ++ body ++ pretty [10] ++ ws ++ [125]) with ([123] ++ pretty [10] ++ body ++ pretty [10] ++ ws ++ [125]). rewrite <- !app_assoc.
    change (evs (JObj l)) with (filter visible ([EObjectBegin] ++ flat_map (fun kj => EKey (fst kj) :: events (snd kj)) l ++ [EObjectEnd])). rewrite filter_app, deliver_app.
    rewrite (move_only vst stk c [state_map_start; after_value vst] EObjectBegin tok_left_bracket); [|now apply value_errored|discriminate|apply lex_single; cbn; auto|rewrite value_act by exact Vs; reflexivity].
    apply then_ext. intros c1. cbn [app]. rewrite sp_white by (apply pretty_white; repeat constructor). pose proof (P (after_value vst :: stk) c1 (pretty [10] ++ ws ++ 125 :: rest) (close_text _ _ 125 rest ltac:(cbn; auto))) as Q. cbn [pst] in Q. rewrite Q. rewrite filter_app, deliver_app. apply then_ext. intros c2. rewrite app_assoc, sp_white by apply close_white.
    change (125 :: rest) with ([125] ++ rest). rewrite (move_only (pst s') (after_value vst :: stk) c2 [] EObjectEnd tok_right_bracket); [reflexivity|destruct Hs' as [-> | ->]; reflexivity|discriminate|apply lex_single; cbn; auto|destruct Hs' as [-> | ->]; reflexivity].
  - intros I. destruct I as [I | I]; [discriminate|]. apply in_app_or in I. destruct I as [I | I]; [apply (white_nonzero (pretty [10])) in I; [contradiction|apply pretty_white; repeat constructor]|]. apply in_app_or in I. destruct I as [I | I]; [contradiction|]. rewrite app_assoc in I. apply in_app_or in I. destruct I as [I | [I | []]]; [|discriminate]. apply (white_nonzero _ (close_white _ _)) in I. contradiction.
Qed.
Lemma all_and {A} (P : A -> Prop) l : fold_right and True (map P l) -> Forall P l.
Proof. induction l as [|x l IH]; cbn; [constructor|]. intros (H & T). constructor; auto. Qed.
Lemma printable_prints j : printable j -> prints j.
Proof.
  induction j as [|b|l|l F|l F] using json_ind'; cbn [printable]; try contradiction.
  - destruct l as [z|b|s]; [apply int_prints|intros (A & B); now apply double_prints|apply str_prints].
  - intros P. apply arr_prints. apply all_and in P. rewrite Forall_forall in *. auto.
  - intros P. apply obj_prints. apply all_and in P. rewrite Forall_forall in *. intros kj I. destruct (P kj I). split; [assumption|]. now apply F.
Qed.

Lemma printed_text j : printable j -> container j -> (nesting j < YAJL_MAX_DEPTH)%nat ->
  exists text, printed beautify double_text other_text (gens j) = Some text /\ ~ In 0 text /\
    forall c chunks, concat chunks = text -> yajl_run full callback strtod c chunks = deliver c (evs j).
Proof.
  intros P Cn N. destruct (printable_prints j P gen_start [] [] eq_refl eq_refl) as (text & G & Ps & Z); [cbn [length]; lia|]. cbn [appended_atom final_newline YajlModel.insert_sep app length] in G. unfold printed. 
  change (insert_whitespace gen_start 0) with (pretty []) in G. assert (pretty [] = []) as E0 by (unfold YajlModel.pretty; destruct beautify; reflexivity). rewrite E0 in G. cbn [app] in G. rewrite G. cbn [g_out].
  exists (text ++ pretty [10]). split; [reflexivity|]. assert (W : Forall (fun c => white c = true) (pretty [10])) by (apply pretty_white; repeat constructor). split.
  - intros I. apply in_app_or in I. destruct I as [I | I]; [contradiction|]. now apply (white_nonzero _ W) in I.
  - intros c chunks E. rewrite run_eq, E.
    assert (Fin : forall c w, Forall (fun c => white c = true) w -> finish full callback strtod (sp [state_parse_complete] c w) = Some (c, true)).
    { intros c' w Fw. replace w with (w ++ []) by apply app_nil_r. rewrite sp_white by exact Fw. rewrite (sp_pending full callback strtod state_parse_complete [] c' [] eq_refl pending_nil). cbn [finish app]. change [32] with ([32] ++ []). rewrite sp_white by (repeat constructor). rewrite (sp_pending full callback strtod state_parse_complete [] c' [] eq_refl pending_nil). reflexivity. }
    rewrite (Ps state_start [] c (pretty [10]) ltac:(cbn; auto) (or_introl Cn)). destruct (deliver c (evs j)) as [(c', [|])|]; cbn [then_]; [now apply Fin|reflexivity|reflexivity].
Qed.
End Print.
