(** The grammar of JSON values, and the parser against it. *)
From Coq Require Import ZArith List Bool Lia Arith.
From Verif Require Import Base CsvModel CsvProofs JsonModel JsonProofs JsonRead YajlModel YajlProofs YajlParse YajlText YajlPrint YajlSafe YajlGrammar YajlValue.
Import ListNotations.
Open Scope Z_scope.
#[local] Ltac Zify.zify_post_hook ::= idtac.

(** * Grammar of values *)
Section Grammar.
(** The texts of strings (without the quotes), integers and other numbers, with their values. *)
Variable sv : list Z -> list Z -> Prop.
Variable iv dv : list Z -> Z -> Prop.
Inductive value : list Z -> json -> Prop :=
| v_null : value [110; 117; 108; 108] JNull
| v_true : value [116; 114; 117; 101] (JBool true)
| v_false : value [102; 97; 108; 115; 101] (JBool false)
| v_str b v : sv b v -> value (34 :: b ++ [34]) (JLit (LStr v))
| v_int t z : iv t z -> value t (JLit (LInt z))
| v_double t d : dv t d -> value t (JLit (LDouble d))
| v_arr0 w : gap w -> value (91 :: w ++ [93]) (JArr [])
| v_arr t l : elems t l -> value (91 :: t ++ [93]) (JArr l)
| v_obj0 w : gap w -> value (123 :: w ++ [125]) (JObj [])
| v_obj t l : members t l -> value (123 :: t ++ [125]) (JObj l)
with elems : list Z -> list json -> Prop :=
| e_one w t w' j : gap w -> value t j -> gap w' -> elems (w ++ t ++ w') [j]
| e_more w t w' j u l : gap w -> value t j -> gap w' -> elems u l -> elems (w ++ t ++ w' ++ 44 :: u) (j :: l)
with members : list Z -> list (list Z * json) -> Prop :=
| m_one w b k w1 w2 t j w3 : gap w -> sv b k -> gap w1 -> gap w2 -> value t j -> gap w3 -> members (w ++ (34 :: b ++ [34]) ++ w1 ++ 58 :: w2 ++ t ++ w3) [(k, j)]
| m_more w b k w1 w2 t j w3 u l : gap w -> sv b k -> gap w1 -> gap w2 -> value t j -> gap w3 -> members u l -> members (w ++ (34 :: b ++ [34]) ++ w1 ++ 58 :: w2 ++ t ++ w3 ++ 44 :: u) ((k, j) :: l).
(** A text: a value between gaps; at the end an open comment or string may follow. *)
Definition json_text (s : list Z) (j : json) : Prop := exists w t w' e, s = w ++ t ++ w' ++ e /\ gap w /\ value t j /\ gap w' /\ open_end e.
End Grammar.
Scheme value_min := Minimality for value Sort Prop with elems_min := Minimality for elems Sort Prop with members_min := Minimality for members Sort Prop.
Combined Scheme grammar_ind from value_min, elems_min, members_min.

Section Accept.
Context {C : Type}.
Variable full : bool.
Variable callback : C -> event -> option (C * bool).
Variable strtod : list Z -> option Z.
Notation sp := (sp full callback strtod).
Notation action_of := (action_of full strtod).
Notation deliver := (deliver callback).
Notation visible := (visible full).
Notation evs := (evs full).
Variable sv : list Z -> list Z -> Prop.
Variable iv dv : list Z -> Z -> Prop.
Notation value := (value sv iv dv).
Notation elems := (elems sv iv dv).
Notation members := (members sv iv dv).
Notation json_text := (json_text sv iv dv).
Hypothesis sv_ok : forall b v, sv b v -> str_ok b /\ (full = true -> (~ In 92 b -> v = b) /\ yajl_string_decode b = Some v).
Hypothesis iv_ok : forall t z, iv t z -> int_text t /\ (full = true -> yajl_parse_integer t = Some (Some z)).
Hypothesis dv_ok : forall t d, dv t d -> double_text t /\ (full = true -> strtod t = Some d).

Lemma sp_gap st stk c w s : gap w -> sp (st :: stk) c (w ++ s) = sp (st :: stk) c s.
Proof. intros G. rewrite !(sp_eq full callback strtod (st :: stk)). now rewrite (lex_gap w s G). Qed.
Lemma gap_delim w s : gap w -> delim s -> delim (w ++ s).
Proof.
  intros G D. destruct G as [|c w Hc _|t w _ _|t w _ _]; [exact D| | |]; cbn [app]; eexists _, _; (split; [reflexivity|]); repeat split; try reflexivity; try lia. unfold isdigit. destruct (Z.leb_spec 48 c); [lia|reflexivity].
Qed.
Lemma delim_of x r : In x [32; 44; 93; 125] -> delim (x :: r).
Proof. intros I. exists x, r. cbn [In] in I. repeat (destruct I as [<- | I]; [repeat split; try reflexivity; lia|]). contradiction. Qed.
Lemma open_delim e : open_end e -> delim (e ++ [32]).
Proof. destruct 1; cbn [app]; eexists _, _; (split; [reflexivity|]); repeat split; try reflexivity; lia. Qed.
Lemma unquote_quoted b : unquote (34 :: b ++ [34]) = Some b.
Proof. unfold unquote. destruct (b ++ [34]) eqn:E; [destruct b; discriminate E|]. rewrite <- E. now rewrite removelast_last. Qed.
Lemma string_ok_token b v rest : sv b v -> exists tok, tok <> tok_eof /\ s_lex ((34 :: b ++ [34]) ++ rest) = (tok, (34 :: b ++ [34]) ++ rest, rest) /\
  (forall st, value_state st -> action_of st tok (34 :: b ++ [34]) = Move (if visible (ELit (LStr v)) then Some (ELit (LStr v)) else None) [after_value st]) /\
  (forall st, st = state_map_start \/ st = state_map_need_key -> action_of st tok (34 :: b ++ [34]) = Move (if visible (EKey v) then Some (EKey v) else None) [state_map_sep]).
Proof.
  intros Hv. destruct (sv_ok b v Hv) as (Ok & Val). destruct (in_dec Z.eq_dec 92 b) as [I | N].
  - exists tok_string_with_escapes. split; [discriminate|]. split; [apply lex_complete; [exists b; auto|intros [Q | Q]; discriminate Q]|]. split; intros st Vs.
    + rewrite value_act by exact Vs. cbn [value_action]. unfold string_value, only_full. rewrite unquote_quoted. cbn [YajlPrint.visible]. destruct full; [|reflexivity]. cbn [andb]. destruct (Val eq_refl) as (_ & ->). reflexivity.
    + assert (action_of st tok_string_with_escapes (34 :: b ++ [34]) = key_action full st tok_string_with_escapes (34 :: b ++ [34])) as -> by (destruct Vs as [-> | ->]; reflexivity). cbn [key_action]. unfold string_value, only_full. rewrite unquote_quoted. cbn [YajlPrint.visible]. destruct full; [|reflexivity]. cbn [andb]. destruct (Val eq_refl) as (_ & ->). reflexivity.
  - exists tok_string. split; [discriminate|]. split; [apply lex_complete; [exists b; auto|intros [Q | Q]; discriminate Q]|]. split; intros st Vs.
    + rewrite value_act by exact Vs. cbn [value_action]. unfold string_value, only_full. rewrite unquote_quoted. cbn [YajlPrint.visible]. rewrite andb_false_r. destruct full; [|reflexivity]. destruct (Val eq_refl) as (E & _). now rewrite (E N).
    + assert (action_of st tok_string (34 :: b ++ [34]) = key_action full st tok_string (34 :: b ++ [34])) as -> by (destruct Vs as [-> | ->]; reflexivity). cbn [key_action]. unfold string_value, only_full. rewrite unquote_quoted. cbn [YajlPrint.visible]. rewrite andb_false_r. destruct full; [|reflexivity]. destruct (Val eq_refl) as (E & _). now rewrite (E N).
Qed.

(** * Texts of the grammar are accepted *)
Definition elems_parse (t : list Z) (l : list json) : Prop := forall vst stk c rest, vst = state_array_start \/ vst = state_array_need_val ->
  sp (vst :: stk) c (t ++ 93 :: rest) = then_ (deliver c (filter visible (flat_map events l ++ [EArrayEnd]))) (fun c => sp stk c rest).
Definition members_parse (t : list Z) (l : list (list Z * json)) : Prop := forall kst stk c rest, kst = state_map_start \/ kst = state_map_need_key ->
  sp (kst :: stk) c (t ++ 125 :: rest) = then_ (deliver c (filter visible (flat_map (fun kj => EKey (fst kj) :: events (snd kj)) l ++ [EObjectEnd]))) (fun c => sp stk c rest).
Lemma single x tok rest : tok_text tok [x] -> tok <> tok_integer -> tok <> tok_double -> s_lex ([x] ++ rest) = (tok, [x] ++ rest, rest).
Proof. intros T N1 N2. apply lex_complete; [exact T|]. intros [-> | ->]; contradiction. Qed.
Lemma close_array stk c rest : forall st, st = state_array_start \/ st = state_array_got_val -> sp (st :: stk) c (93 :: rest) = then_ (deliver c (filter visible [EArrayEnd])) (fun c => sp stk c rest).
Proof. intros st H. change (93 :: rest) with ([93] ++ rest). apply (move_only full callback strtod st stk c [] EArrayEnd tok_right_brace); [destruct H as [-> | ->]; reflexivity|discriminate|now apply single|destruct H as [-> | ->]; reflexivity]. Qed.
Lemma close_map stk c rest : forall st, st = state_map_start \/ st = state_map_got_val -> sp (st :: stk) c (125 :: rest) = then_ (deliver c (filter visible [EObjectEnd])) (fun c => sp stk c rest).
Proof. intros st H. change (125 :: rest) with ([125] ++ rest). apply (move_only full callback strtod st stk c [] EObjectEnd tok_right_bracket); [destruct H as [-> | ->]; reflexivity|discriminate|now apply single|destruct H as [-> | ->]; reflexivity]. Qed.
Lemma member_head w b k w1 w2 t j : gap w -> sv b k -> gap w1 -> gap w2 -> parses full callback strtod j t -> forall kst stk c rest, kst = state_map_start \/ kst = state_map_need_key -> delim rest ->
  sp (kst :: stk) c (w ++ (34 :: b ++ [34]) ++ w1 ++ 58 :: w2 ++ t ++ rest) = then_ (deliver c (filter visible (EKey k :: events j))) (fun c => sp (state_map_got_val :: stk) c rest).
Proof.
  intros G Hv G1 G2 P kst stk c rest Hk D. rewrite sp_gap by exact G. destruct (string_ok_token b k (w1 ++ 58 :: w2 ++ t ++ rest) Hv) as (tok & N & L & _ & A).
  rewrite (move_only full callback strtod kst stk c [state_map_sep] (EKey k) tok); [|destruct Hk as [-> | ->]; reflexivity|exact N|exact L|now apply A].
  change (EKey k :: events j) with ([EKey k] ++ events j). rewrite filter_app, deliver_app. apply then_ext. intros c1. cbn [app]. rewrite sp_gap by exact G1.
  change (58 :: w2 ++ t ++ rest) with ([58] ++ w2 ++ t ++ rest). rewrite (move_silent full callback strtod state_map_sep stk c1 [state_map_need_val] tok_colon); [|reflexivity|discriminate|now apply single|reflexivity]. cbn [app]. rewrite sp_gap by exact G2.
  apply P; [cbn; auto|right; exact D].
Qed.
Lemma grammar_parses : (forall t j, value t j -> parses full callback strtod j t) /\ (forall t l, elems t l -> elems_parse t l) /\ (forall t l, members t l -> members_parse t l).
Proof.
  apply (grammar_ind sv iv dv).
  - intros st stk c rest Vs _. apply (move_only full callback strtod st stk c [after_value st] ENull tok_null); [now apply value_errored|discriminate|apply lex_complete; [reflexivity|intros [Q | Q]; discriminate Q]|rewrite value_act by exact Vs; reflexivity].
  - intros st stk c rest Vs _. apply (move_only full callback strtod st stk c [after_value st] (EBool true) tok_bool); [now apply value_errored|discriminate|apply lex_complete; [now left|intros [Q | Q]; discriminate Q]|rewrite value_act by exact Vs; reflexivity].
  - intros st stk c rest Vs _. apply (move_only full callback strtod st stk c [after_value st] (EBool false) tok_bool); [now apply value_errored|discriminate|apply lex_complete; [now right|intros [Q | Q]; discriminate Q]|rewrite value_act by exact Vs; reflexivity].
  - intros b v Hv st stk c rest Vs _. destruct (string_ok_token b v rest Hv) as (tok & N & L & A & _). apply (move_only full callback strtod st stk c [after_value st] (ELit (LStr v)) tok); [now apply value_errored|exact N|exact L|now apply A].
  - intros t z Hz st stk c rest Vs [[] | D]. destruct (iv_ok t z Hz) as (It & Val). apply (move_only full callback strtod st stk c [after_value st] (ELit (LInt z)) tok_integer); [now apply value_errored|discriminate|apply lex_complete; [exact It|auto]|]. rewrite value_act by exact Vs. cbn [value_action YajlPrint.visible]. destruct full; [|reflexivity]. rewrite (Val eq_refl). reflexivity.
  - intros t d Hd st stk c rest Vs [[] | D]. destruct (dv_ok t d Hd) as (It & Val). apply (move_only full callback strtod st stk c [after_value st] (ELit (LDouble d)) tok_double); [now apply value_errored|discriminate|apply lex_complete; [exact It|auto]|]. rewrite value_act by exact Vs. cbn [value_action YajlPrint.visible]. destruct full; [|reflexivity]. rewrite (Val eq_refl). reflexivity.
  - intros w G st stk c rest Vs _. change (91 :: w ++ [93]) with ([91] ++ w ++ [93]). rewrite <- !app_assoc. change (evs (JArr [])) with (filter visible ([EArrayBegin] ++ [EArrayEnd])). rewrite filter_app, deliver_app.
    rewrite (move_only full callback strtod st stk c [state_array_start; after_value st] EArrayBegin tok_left_brace); [|now apply value_errored|discriminate|now apply single|rewrite value_act by exact Vs; reflexivity]. apply then_ext. intros c1. cbn [app]. rewrite sp_gap by exact G. apply close_array. auto.
  - intros t l _ P st stk c rest Vs _. change (91 :: t ++ [93]) with ([91] ++ t ++ [93]). rewrite <- !app_assoc. change (evs (JArr l)) with (filter visible ([EArrayBegin] ++ flat_map events l ++ [EArrayEnd])). rewrite filter_app, deliver_app.
    rewrite (move_only full callback strtod st stk c [state_array_start; after_value st] EArrayBegin tok_left_brace); [|now apply value_errored|discriminate|now apply single|rewrite value_act by exact Vs; reflexivity]. apply then_ext. intros c1. cbn [app]. apply P. auto.
  - intros w G st stk c rest Vs _. change (123 :: w ++ [125]) with ([123] ++ w ++ [125]). rewrite <- !app_assoc. change (evs (JObj [])) with (filter visible ([EObjectBegin] ++ [EObjectEnd])). rewrite filter_app, deliver_app.
    rewrite (move_only full callback strtod st stk c [state_map_start; after_value st] EObjectBegin tok_left_bracket); [|now apply value_errored|discriminate|now apply single|rewrite value_act by exact Vs; reflexivity]. apply then_ext. intros c1. cbn [app]. rewrite sp_gap by exact G. apply close_map. auto.
  - intros t l _ P st stk c rest Vs _. change (123 :: t ++ [125]) with ([123] ++ t ++ [125]). rewrite <- !app_assoc. change (evs (JObj l)) with (filter visible ([EObjectBegin] ++ flat_map (fun kj => EKey (fst kj) :: events (snd kj)) l ++ [EObjectEnd])). rewrite filter_app, deliver_app.
    rewrite (move_only full callback strtod st stk c [state_map_start; after_value st] EObjectBegin tok_left_bracket); [|now apply value_errored|discriminate|now apply single|rewrite value_act by exact Vs; reflexivity]. apply then_ext. intros c1. cbn [app]. apply P. auto.
  - intros w t w' j G _ P G' vst stk c rest Hv. rewrite <- !app_assoc. rewrite sp_gap by exact G. rewrite (P vst stk c (w' ++ 93 :: rest) ltac:(destruct Hv as [-> | ->]; cbn; auto) (or_intror (gap_delim _ _ G' (delim_of 93 rest ltac:(cbn; auto))))). cbn [flat_map]. rewrite app_nil_r, filter_app, deliver_app. apply then_ext. intros c1.
    rewrite sp_gap by exact G'. assert (after_value vst = state_array_got_val) as -> by (destruct Hv as [-> | ->]; reflexivity). apply close_array. auto.
  - intros w t w' j u l G _ P G' _ Pu vst stk c rest Hv. replace ((w ++ t ++ w' ++ 44 :: u) ++ 93 :: rest) with (w ++ t ++ w' ++ 44 :: u ++ 93 :: rest) by (rewrite <- !app_assoc; reflexivity). rewrite sp_gap by exact G.
    rewrite (P vst stk c (w' ++ 44 :: u ++ 93 :: rest) ltac:(destruct Hv as [-> | ->]; cbn; auto) (or_intror (gap_delim _ _ G' (delim_of 44 _ ltac:(cbn; auto))))). cbn [flat_map]. rewrite <- app_assoc, filter_app, deliver_app. apply then_ext. intros c1. rewrite sp_gap by exact G'.
    change (44 :: u ++ 93 :: rest) with ([44] ++ u ++ 93 :: rest). assert (after_value vst = state_array_got_val) as -> by (destruct Hv as [-> | ->]; reflexivity). rewrite (move_silent full callback strtod state_array_got_val stk c1 [state_array_need_val] tok_comma); [|reflexivity|discriminate|now apply single|reflexivity]. cbn [app]. apply Pu. auto.
  - intros w b k w1 w2 t j w3 G Hv G1 G2 _ P G3 kst stk c rest Hk. replace ((w ++ (34 :: b ++ [34]) ++ w1 ++ 58 :: w2 ++ t ++ w3) ++ 125 :: rest) with (w ++ (34 :: b ++ [34]) ++ w1 ++ 58 :: w2 ++ t ++ w3 ++ 125 :: rest) by (repeat first [rewrite <- app_assoc | progress cbn [app]]; reflexivity).
    rewrite (member_head w b k w1 w2 t j G Hv G1 G2 P kst stk c (w3 ++ 125 :: rest) Hk (gap_delim _ _ G3 (delim_of 125 rest ltac:(cbn; auto)))). cbn [flat_map fst snd]. rewrite app_nil_r, filter_app, deliver_app. apply then_ext. intros c1. rewrite sp_gap by exact G3. apply close_map. auto.
  - intros w b k w1 w2 t j w3 u l G Hv G1 G2 _ P G3 _ Pu kst stk c rest Hk. replace ((w ++ (34 :: b ++ [34]) ++ w1 ++ 58 :: w2 ++ t ++ w3 ++ 44 :: u) ++ 125 :: rest) with (w ++ (34 :: b ++ [34]) ++ w1 ++ 58 :: w2 ++ t ++ w3 ++ 44 :: u ++ 125 :: rest) by (repeat first [rewrite <- app_assoc | progress cbn [app]]; reflexivity).
    rewrite (member_head w b k w1 w2 t j G Hv G1 G2 P kst stk c (w3 ++ 44 :: u ++ 125 :: rest) Hk (gap_delim _ _ G3 (delim_of 44 _ ltac:(cbn; auto)))). cbn [flat_map fst snd]. rewrite <- app_assoc, filter_app, deliver_app. apply then_ext. intros c1. rewrite sp_gap by exact G3.
    change (44 :: u ++ 125 :: rest) with ([44] ++ u ++ 125 :: rest). rewrite (move_silent full callback strtod state_map_got_val stk c1 [state_map_need_key] tok_comma); [|reflexivity|discriminate|now apply single|reflexivity]. cbn [app]. apply Pu. auto.
Qed.
(** The end of a parse, with the space that yajl_do_finish adds. *)
Definition ended (o : option (outcome C)) : option (C * bool) :=
  match o with
  | None => None
  | Some (Stop c) => Some (c, false)
  | Some (More stack c _) => match stack with [] => None | state_got_value :: _ | state_parse_complete :: _ => Some (c, true) | _ => Some (c, false) end
  end.
Lemma run_ended c chunks : yajl_run full callback strtod c chunks = ended (sp [state_start] c (concat chunks ++ [32])).
Proof. rewrite run_eq, sp_app. destruct (sp [state_start] c (concat chunks)) as [[stack c' pend|c']|]; reflexivity. Qed.
Lemma accept_complete c chunks j : json_text (concat chunks) j -> yajl_run full callback strtod c chunks = deliver c (evs j).
Proof.
  intros (w & t & w' & e & E & G & V & G' & O). rewrite run_ended, E. rewrite <- !app_assoc. rewrite sp_gap by exact G. destruct grammar_parses as (P & _).
  rewrite (P t j V state_start [] c (w' ++ e ++ [32]) ltac:(cbn; auto) (or_intror (gap_delim _ _ G' (open_delim e O)))). destruct (deliver c (evs j)) as [(c', [|])|]; cbn [then_ ended]; [|reflexivity|reflexivity].
  cbn [after_value]. rewrite sp_gap by exact G'. rewrite sp_eq' by reflexivity. pose proof (proj2 (lex_open e) (ex_intro _ [] (ex_intro _ e (conj eq_refl (conj gap_nil O))))) as Q. destruct (s_lex (e ++ [32])) as ((tok, st), r). cbn [fst] in Q. subst tok. reflexivity.
Qed.

(** * What is accepted is a text of the grammar *)
Variable okay : list Z -> Prop.
Hypothesis okay_part : forall a b c, okay (a ++ b ++ c) -> okay b.
Hypothesis sv_of : forall b, str_ok b -> okay b -> exists v, sv b v.
Hypothesis iv_of : forall t, int_text t -> if full then forall z, yajl_parse_integer t = Some (Some z) -> iv t z else exists z, iv t z.
Hypothesis dv_of : forall t, double_text t -> if full then forall d, strtod t = Some d -> dv t d else exists d, dv t d.
Lemma deliver_then a : forall c b c1, deliver c a = Some (c1, true) -> deliver c (a ++ b) = deliver c1 b.
Proof. induction a as [|e a IH]; intros c b c1 E; cbn [YajlPrint.deliver app] in *; [now injection E as ->|]. destruct (callback c e) as [(c', [|])|]; [now apply IH|discriminate|discriminate]. Qed.
Definition moved (c : C) (e : option event) (c1 : C) : Prop := match e with None => c1 = c | Some e => deliver c [e] = Some (c1, true) end.
(** One step of a parse that does not stop. *)
Lemma step_inv st stk c s fin c' pend : errored st = false -> sp (st :: stk) c s = Some (More fin c' pend) ->
  (fst (fst (s_lex s)) = tok_eof /\ fin = st :: stk /\ c' = c) \/
  exists w t r tok e l c1, s = w ++ t ++ r /\ gap w /\ tok_text tok t /\ action_of st tok t = Move e l /\ moved c e c1 /\ sp (l ++ stk) c1 r = Some (More fin c' pend) /\ (length r < length s)%nat.
Proof.
  intros Er E. rewrite sp_eq' in E by exact Er. destruct (s_lex s) as ((tok, st'), r) eqn:L. destruct (match tok with tok_eof => true | _ => false end) eqn:Te.
  - left. destruct tok; try discriminate Te. injection E as <- <- _. auto.
  - right. assert (N1 : tok <> tok_eof) by (destruct tok; congruence).
    assert (N2 : tok <> tok_error). { intros ->. rewrite error_action in E. discriminate E. }
    pose proof (lex_len s) as Ln. rewrite L in Ln. destruct Ln as (L1 & L2 & L3). specialize (L3 N1 N2).
    destruct (lex_sound s tok st' r L N1 N2) as (w & t & Es & G & -> & T). exists w, t, r, tok.
    assert (Et : firstn (length (t ++ r) - length r) (t ++ r) = t) by (rewrite app_length, Nat.add_sub, firstn_app, Nat.sub_diag, firstn_all; cbn [firstn]; apply app_nil_r). rewrite Et in E.
    destruct (action_of st tok t) as [| |[e|] l]; try discriminate E.
    + destruct (callback c e) as [(c1, [|])|] eqn:Cb; try discriminate E. exists (Some e), l, c1. repeat split; try assumption; [|lia]. cbn [moved YajlPrint.deliver]. now rewrite Cb.
    + exists None, l, c. repeat split; try assumption. lia.
Qed.
Lemma sp_nested s : forall stack c fin c' pend, nested stack -> sp stack c s = Some (More fin c' pend) -> nested fin.
Proof.
  induction s as [s IH] using lex_ind. intros stack c fin c' pend N E. destruct (nested_head _ N) as (st & stk & -> & Er). destruct (step_inv st stk c s fin c' pend Er E) as [(_ & -> & _) | (w & t & r & tok & e & l & c1 & _ & _ & _ & A & _ & E1 & Lr)]; [exact N|].
  apply (IH r Lr _ _ _ _ _ (move_nested full strtod st stk tok t e l N A) E1).
Qed.
(** A value that was read. *)
Definition reads_value (st : yajl_state) (stk : list yajl_state) (c : C) (s : list Z) (fin : list yajl_state) (c' : C) (pend : list Z) : Prop :=
  exists w t r j c1, s = w ++ t ++ r /\ gap w /\ value t j /\ deliver c (evs j) = Some (c1, true) /\ sp (after_value st :: stk) c1 r = Some (More fin c' pend) /\ (length r < length s)%nat.
Definition reads_empty (close : Z) (e : event) (stk : list yajl_state) (c : C) (s : list Z) (fin : list yajl_state) (c' : C) (pend : list Z) : Prop :=
  exists w r c1, s = w ++ close :: r /\ gap w /\ deliver c [e] = Some (c1, true) /\ sp stk c1 r = Some (More fin c' pend) /\ (length r < length s)%nat.
Definition soundA (s : list Z) : Prop := forall st stk c fin c' pend, okay s -> value_state st -> sp (st :: stk) c s = Some (More fin c' pend) -> (length fin <= S (length stk))%nat ->
  fin = st :: stk \/ reads_value st stk c s fin c' pend \/ (st = state_array_start /\ reads_empty 93 EArrayEnd stk c s fin c' pend).
Definition soundE (s : list Z) : Prop := forall vst stk c fin c' pend, okay s -> vst = state_array_start \/ vst = state_array_need_val -> sp (vst :: stk) c s = Some (More fin c' pend) -> (length fin <= length stk)%nat ->
  (exists t l r c1, s = t ++ 93 :: r /\ elems t l /\ deliver c (filter visible (flat_map events l ++ [EArrayEnd])) = Some (c1, true) /\ sp stk c1 r = Some (More fin c' pend) /\ (length r < length s)%nat) \/
  (vst = state_array_start /\ reads_empty 93 EArrayEnd stk c s fin c' pend).
Definition soundM (s : list Z) : Prop := forall kst stk c fin c' pend, okay s -> kst = state_map_start \/ kst = state_map_need_key -> sp (kst :: stk) c s = Some (More fin c' pend) -> (length fin <= length stk)%nat ->
  (exists t l r c1, s = t ++ 125 :: r /\ members t l /\ deliver c (filter visible (flat_map (fun kj => EKey (fst kj) :: events (snd kj)) l ++ [EObjectEnd])) = Some (c1, true) /\ sp stk c1 r = Some (More fin c' pend) /\ (length r < length s)%nat) \/
  (kst = state_map_start /\ reads_empty 125 EObjectEnd stk c s fin c' pend).
Lemma okay_rest a r : okay (a ++ r) -> okay r.
Proof. intros H. apply (okay_part a r []). now rewrite app_nil_r. Qed.
Lemma string_sound tok b : tok = tok_string \/ tok = tok_string_with_escapes -> str_ok b -> (tok = tok_string -> ~ In 92 b) -> okay b -> forall v, string_value full (match tok with tok_string => false | _ => true end) (34 :: b ++ [34]) = Some v ->
  exists v', sv b v' /\ (full = true -> v' = v).
Proof.
  intros T Ok Np O v E. unfold string_value in E. rewrite unquote_quoted in E. destruct (sv_of b Ok O) as (v' & Hv). exists v'. split; [exact Hv|]. intros F. destruct (sv_ok b v' Hv) as (_ & Q). destruct (Q F) as (Q1 & Q2). rewrite F in E. destruct T as [-> | ->]; cbn [andb] in E.
  - injection E as <-. auto.
  - congruence.
Qed.
Lemma sound_A s : (forall r, (length r < length s)%nat -> soundE r /\ soundM r) -> soundA s.
Proof.
  intros IH st stk c fin c' pend Ok Vs E Lf. pose proof (value_errored st Vs) as Er. destruct (step_inv st stk c s fin c' pend Er E) as [(_ & -> & _) | (w & t & r & tok & e & l & c1 & Es & G & T & A & Mv & E1 & Lr)]; [now left|right].
  assert (Okt : okay t) by (rewrite Es in Ok; now apply okay_part in Ok). assert (Okr : okay r) by (rewrite Es, app_assoc in Ok; now apply okay_rest in Ok). rewrite value_act in A by exact Vs.
  assert (Atom : forall j, value t j -> l = [after_value st] -> deliver c (evs j) = Some (c1, true) -> reads_value st stk c s fin c' pend \/ (st = state_array_start /\ reads_empty 93 EArrayEnd stk c s fin c' pend)).
  { intros j V -> D. left. exists w, t, r, j, c1. repeat split; assumption. }
  assert (Str : forall b, tok = tok_string \/ tok = tok_string_with_escapes -> t = 34 :: b ++ [34] -> str_ok b -> (tok = tok_string -> ~ In 92 b) -> reads_value st stk c s fin c' pend \/ (st = state_array_start /\ reads_empty 93 EArrayEnd stk c s fin c' pend)).
  { intros b Tk Et Ob Np. assert (Okb : okay b) by (rewrite Et in Okt; apply (okay_part [34] b [34]); exact Okt).
    assert (Q : exists v, string_value full (match tok with tok_string => false | _ => true end) (34 :: b ++ [34]) = Some v /\ e = only_full full (ELit (LStr v)) /\ l = [after_value st]).
    { rewrite Et in A. destruct Tk as [-> | ->]; cbn [value_action] in A; destruct (string_value full _ _) as [v|]; try discriminate A; injection A as <- <-; eauto. }
    destruct Q as (v & Ev & -> & ->). destruct (string_sound tok b Tk Ob Np Okb v Ev) as (v' & Hv & Eq). apply (Atom (JLit (LStr v'))); [rewrite Et; now constructor|reflexivity|].
    unfold YajlPrint.evs. cbn [events filter YajlPrint.visible]. unfold only_full, moved in Mv. destruct full; [rewrite (Eq eq_refl); exact Mv|rewrite Mv; reflexivity]. }
  destruct tok; cbn [value_action tok_text] in A, T; try discriminate A; try contradiction.
  - injection A as <- <-. cbn [moved] in Mv. destruct T as [-> | ->]; [apply (Atom (JBool true))|apply (Atom (JBool false))]; try constructor; exact Mv.
  - injection A as <- <-. cbn [moved] in Mv. left. subst t. destruct (IH r Lr) as (HE & _). destruct (HE state_array_start (after_value st :: stk) c1 fin c' pend Okr (or_introl eq_refl) E1 Lf) as [(t & l & r' & c2 & -> & He & D & E2 & L2) | (_ & (w' & r' & c2 & -> & G' & D & E2 & L2))].
    + exists w, (91 :: t ++ [93]), r', (JArr l), c2. split; [rewrite Es; cbn [app]; rewrite <- app_assoc; reflexivity|]. split; [exact G|]. split; [now constructor|]. split; [|split; [exact E2|rewrite Es; rewrite !app_length in *; cbn [length] in *; lia]].
      change (evs (JArr l)) with ([EArrayBegin] ++ filter visible (flat_map events l ++ [EArrayEnd])). rewrite (deliver_then _ _ _ _ Mv). exact D.
    + exists w, (91 :: w' ++ [93]), r', (JArr []), c2. split; [rewrite Es; cbn [app]; rewrite <- app_assoc; reflexivity|]. split; [exact G|]. split; [now constructor|]. split; [|split; [exact E2|rewrite Es; rewrite !app_length in *; cbn [length] in *; lia]].
      change (evs (JArr [])) with ([EArrayBegin] ++ [EArrayEnd]). rewrite (deliver_then _ _ _ _ Mv). exact D.
  - injection A as <- <-. cbn [moved] in Mv. left. subst t. destruct (IH r Lr) as (_ & HM). destruct (HM state_map_start (after_value st :: stk) c1 fin c' pend Okr (or_introl eq_refl) E1 Lf) as [(t & l & r' & c2 & -> & He & D & E2 & L2) | (_ & (w' & r' & c2 & -> & G' & D & E2 & L2))].
    + exists w, (123 :: t ++ [125]), r', (JObj l), c2. split; [rewrite Es; cbn [app]; rewrite <- app_assoc; reflexivity|]. split; [exact G|]. split; [now constructor|]. split; [|split; [exact E2|rewrite Es; rewrite !app_length in *; cbn [length] in *; lia]].
      change (evs (JObj l)) with ([EObjectBegin] ++ filter visible (flat_map (fun kj => EKey (fst kj) :: events (snd kj)) l ++ [EObjectEnd])). rewrite (deliver_then _ _ _ _ Mv). exact D.
    + exists w, (123 :: w' ++ [125]), r', (JObj []), c2. split; [rewrite Es; cbn [app]; rewrite <- app_assoc; reflexivity|]. split; [exact G|]. split; [now constructor|]. split; [|split; [exact E2|rewrite Es; rewrite !app_length in *; cbn [length] in *; lia]].
      change (evs (JObj [])) with ([EObjectBegin] ++ [EObjectEnd]). rewrite (deliver_then _ _ _ _ Mv). exact D.
  - injection A as <- <-. subst t. apply (Atom JNull); [constructor|reflexivity|exact Mv].
  - right. destruct st; try discriminate A. injection A as <- <-. split; [reflexivity|]. exists w, r, c1. subst t. repeat split; assumption.
  - assert (Q : exists z, iv t z /\ l = [after_value st] /\ moved c (if full then Some (ELit (LInt z)) else None) c1).
    { pose proof (iv_of t T) as I. destruct full; [destruct (yajl_parse_integer t) as [[z|]|]; try discriminate A; injection A as <- <-; exists z; auto|]. injection A as <- <-. destruct I as (z & Hz). exists z. auto. }
    destruct Q as (z & Hz & -> & Mz). apply (Atom (JLit (LInt z))); [now constructor|reflexivity|]. unfold YajlPrint.evs. cbn [events filter YajlPrint.visible]. unfold moved in Mz. destruct full; [exact Mz|rewrite Mz; reflexivity].
  - assert (Q : exists d, dv t d /\ l = [after_value st] /\ moved c (if full then Some (ELit (LDouble d)) else None) c1).
    { pose proof (dv_of t T) as I. destruct full; [destruct (strtod t) as [d|]; try discriminate A; injection A as <- <-; exists d; auto|]. injection A as <- <-. destruct I as (d & Hd). exists d. auto. }
    destruct Q as (d & Hd & -> & Md). apply (Atom (JLit (LDouble d))); [now constructor|reflexivity|]. unfold YajlPrint.evs. cbn [events filter YajlPrint.visible]. unfold moved in Md. destruct full; [exact Md|rewrite Md; reflexivity].
  - destruct T as (b & Et & Ob & Np). apply (Str b); auto.
  - destruct T as (b & Et & Ob & Np). apply (Str b); auto. discriminate.
Qed.
Lemma sound_E s : soundA s -> (forall r, (length r < length s)%nat -> soundE r) -> soundE s.
Proof.
  intros HA IH vst stk c fin c' pend Ok Hv E Lf. assert (Vs : value_state vst) by (destruct Hv as [-> | ->]; cbn; auto). assert (Av : after_value vst = state_array_got_val) by (destruct Hv as [-> | ->]; reflexivity).
  destruct (HA vst stk c fin c' pend Ok Vs E ltac:(lia)) as [-> | [(w & t & r & j & c1 & Es & G & V & D & E1 & Lr) | H]]; [cbn [length] in Lf; lia| |right; exact H]. left. rewrite Av in E1.
  assert (Okr : okay r) by (rewrite Es, app_assoc in Ok; now apply okay_rest in Ok).
  destruct (step_inv state_array_got_val stk c1 r fin c' pend eq_refl E1) as [(_ & -> & _) | (w' & t' & r' & tok & e & l & c2 & Er & G' & T & A & Mv & E2 & Lr')]; [cbn [length] in Lf; lia|].
  assert (Okr' : okay r') by (rewrite Er, app_assoc in Okr; now apply okay_rest in Okr).
  destruct tok; cbn [YajlModel.action_of tok_text] in A, T; try discriminate A; injection A as <- <-; cbn [moved app] in Mv, E2; subst t'.
  - subst c2. destruct (IH r' ltac:(lia) state_array_need_val stk c1 fin c' pend Okr' (or_intror eq_refl) E2 Lf) as [(t2 & l2 & r2 & c2 & E3 & He & D2 & E4 & L4) | (Q & _)]; [|discriminate Q].
    exists (w ++ t ++ w' ++ 44 :: t2), (j :: l2), r2, c2. split; [rewrite Es, Er, E3; repeat first [rewrite <- app_assoc | progress cbn [app]]; reflexivity|]. split; [now constructor|]. split; [|split; [exact E4|lia]]. cbn [flat_map]. rewrite <- app_assoc, filter_app. rewrite (deliver_then _ _ _ _ D). exact D2.
  - exists (w ++ t ++ w'), [j], r', c2. split; [rewrite Es, Er; repeat first [rewrite <- app_assoc | progress cbn [app]]; reflexivity|]. split; [now constructor|]. split; [|split; [exact E2|lia]]. cbn [flat_map]. rewrite app_nil_r, filter_app. rewrite (deliver_then _ _ _ _ D). exact Mv.
Qed.
Lemma sound_M s : (forall r, (length r < length s)%nat -> soundA r /\ soundM r) -> soundM s.
Proof.
  intros IH kst stk c fin c' pend Ok Hk E Lf. assert (Er : errored kst = false) by (destruct Hk as [-> | ->]; reflexivity).
  destruct (step_inv kst stk c s fin c' pend Er E) as [(_ & -> & _) | (w & t & r & tok & e & l & c1 & Es & G & T & A & Mv & E1 & Lr)]; [cbn [length] in Lf; lia|].
  assert (Okt : okay t) by (rewrite Es in Ok; now apply okay_part in Ok). assert (Okr : okay r) by (rewrite Es, app_assoc in Ok; now apply okay_rest in Ok).
  assert (A' : key_action full kst tok t = Move e l) by (destruct Hk as [-> | ->]; exact A). clear A.
  assert (Key : forall b, tok = tok_string \/ tok = tok_string_with_escapes -> t = 34 :: b ++ [34] -> str_ok b -> (tok = tok_string -> ~ In 92 b) ->
    exists t l r c1, s = t ++ 125 :: r /\ members t l /\ deliver c (filter visible (flat_map (fun kj => EKey (fst kj) :: events (snd kj)) l ++ [EObjectEnd])) = Some (c1, true) /\ sp stk c1 r = Some (More fin c' pend) /\ (length r < length s)%nat).
  { intros b Tk Et Ob Np. assert (Okb : okay b) by (rewrite Et in Okt; apply (okay_part [34] b [34]); exact Okt).
    assert (Q : exists v, string_value full (match tok with tok_string => false | _ => true end) (34 :: b ++ [34]) = Some v /\ e = only_full full (EKey v) /\ l = [state_map_sep]).
    { rewrite Et in A'. destruct Tk as [-> | ->]; cbn [key_action] in A'; destruct (string_value full _ _) as [v|]; try discriminate A'; injection A' as <- <-; eauto. }
    destruct Q as (v & Ev & -> & ->). destruct (string_sound tok b Tk Ob Np Okb v Ev) as (k & Hk' & Eq).
    assert (Dk : deliver c (filter visible [EKey k]) = Some (c1, true)) by (cbn [filter YajlPrint.visible]; unfold only_full, moved in Mv; destruct full; [rewrite (Eq eq_refl); exact Mv|rewrite Mv; reflexivity]).
    cbn [app] in E1. destruct (step_inv state_map_sep stk c1 r fin c' pend eq_refl E1) as [(_ & -> & _) | (w1 & t1 & r1 & tok1 & e1 & l1 & c2 & Er1 & G1 & T1 & A1 & Mv1 & E2 & Lr1)]; [cbn [length] in Lf; lia|].
    assert (Okr1 : okay r1) by (rewrite Er1, app_assoc in Okr; now apply okay_rest in Okr).
    destruct tok1; cbn [YajlModel.action_of tok_text] in A1, T1; try discriminate A1. injection A1 as <- <-. cbn [moved app] in Mv1, E2. subst t1 c2.
    destruct (IH r1 ltac:(lia)) as (HA & _). destruct (HA state_map_need_val stk c1 fin c' pend Okr1 ltac:(cbn; auto) E2 ltac:(lia)) as [-> | [(w2 & t2 & r2 & j & c3 & Er2 & G2 & V & D & E3 & Lr2) | (Q & _)]]; [cbn [length] in Lf; lia| |discriminate Q].
    assert (Okr2 : okay r2) by (rewrite Er2, app_assoc in Okr1; now apply okay_rest in Okr1). cbn [after_value] in E3.
    destruct (step_inv state_map_got_val stk c3 r2 fin c' pend eq_refl E3) as [(_ & -> & _) | (w3 & t3 & r3 & tok3 & e3 & l3 & c4 & Er3 & G3 & T3 & A3 & Mv3 & E4 & Lr3)]; [cbn [length] in Lf; lia|].
    assert (Okr3 : okay r3) by (rewrite Er3, app_assoc in Okr2; now apply okay_rest in Okr2).
    destruct tok3; cbn [YajlModel.action_of tok_text] in A3, T3; try discriminate A3; injection A3 as <- <-; cbn [moved app] in Mv3, E4; subst t3.
    - subst c4. destruct (IH r3 ltac:(lia)) as (_ & HM). destruct (HM state_map_need_key stk c3 fin c' pend Okr3 (or_intror eq_refl) E4 Lf) as [(t4 & l4 & r4 & c4 & E5 & He & D4 & E6 & L6) | (Q & _)]; [|discriminate Q].
      exists (w ++ (34 :: b ++ [34]) ++ w1 ++ 58 :: w2 ++ t2 ++ w3 ++ 44 :: t4), ((k, j) :: l4), r4, c4. split; [rewrite Es, Et, Er1, Er2, Er3, E5; repeat first [rewrite <- app_assoc | progress cbn [app]]; reflexivity|]. split; [now constructor|]. split; [|split; [exact E6|lia]].
      cbn [flat_map fst snd]. change ((EKey k :: events j) ++ flat_map (fun kj => EKey (fst kj) :: events (snd kj)) l4) with ([EKey k] ++ events j ++ flat_map (fun kj => EKey (fst kj) :: events (snd kj)) l4). rewrite <- !app_assoc, filter_app. rewrite (deliver_then _ _ _ _ Dk). rewrite filter_app. rewrite (deliver_then _ _ _ _ D). exact D4.
    - exists (w ++ (34 :: b ++ [34]) ++ w1 ++ 58 :: w2 ++ t2 ++ w3), [(k, j)], r3, c4. split; [rewrite Es, Et, Er1, Er2, Er3; repeat first [rewrite <- app_assoc | progress cbn [app]]; reflexivity|]. split; [now constructor|]. split; [|split; [exact E4|lia]].
      cbn [flat_map fst snd]. rewrite app_nil_r. change (EKey k :: events j) with ([EKey k] ++ events j). rewrite <- !app_assoc, filter_app. rewrite (deliver_then _ _ _ _ Dk). rewrite filter_app. rewrite (deliver_then _ _ _ _ D). exact Mv3. }
  destruct tok; cbn [key_action tok_text] in A', T; try discriminate A'; try contradiction.
  - right. destruct kst; try discriminate A'. injection A' as <- <-. split; [reflexivity|]. exists w, r, c1. subst t. repeat split; assumption.
  - left. destruct T as (b & Et & Ob & Np). apply (Key b); auto.
  - left. destruct T as (b & Et & Ob & Np). apply (Key b); auto. discriminate.
Qed.
Lemma sound_all s : soundA s /\ soundE s /\ soundM s.
Proof.
  induction s as [s IH] using lex_ind. assert (HA : soundA s) by (apply sound_A; intros r Lr; split; apply (IH r Lr)). split; [exact HA|]. split; [apply sound_E; [exact HA|intros r Lr; apply (IH r Lr)]|]. apply sound_M. intros r Lr. split; apply (IH r Lr).
Qed.
Lemma digits_last ds : ds <> [] -> Forall digit ds -> exists t x, ds = t ++ [x] /\ x <> 32.
Proof. intros N F. destruct (exists_last N) as (t & x & ->). exists t, x. split; [reflexivity|]. apply Forall_app in F. destruct F as (_ & F). apply Forall_cons_iff in F. destruct F as (H & _). unfold digit in H. lia. Qed.
Lemma value_last t j : value t j -> exists t' x, t = t' ++ [x] /\ x <> 32.
Proof.
  assert (Pre : forall a t, (exists t' x, t = t' ++ [x] /\ x <> 32) -> exists t' x, a ++ t = t' ++ [x] /\ x <> 32) by (intros a u (t' & x & -> & N); exists (a ++ t'), x; rewrite <- app_assoc; auto).
  assert (Whole : forall ds, whole_digits ds -> exists t x, ds = t ++ [x] /\ x <> 32) by (intros ds W; apply digits_last; [destruct W as [-> | (c & r & -> & _)]; discriminate|apply digits_spec; now apply whole_all]).
  intros V. destruct V as [| | |b v H|u z H|u d H|w G|u l H|w G|u l H].
  - exists [110; 117; 108], 108. split; [reflexivity|lia].
  - exists [116; 114; 117], 101. split; [reflexivity|lia].
  - exists [102; 97; 108; 115], 101. split; [reflexivity|lia].
  - exists (34 :: b), 34. split; [reflexivity|lia].
  - destruct (iv_ok u z H) as ((sign & ds & -> & _ & W) & _). auto.
  - destruct (dv_ok u d H) as ((i & f & e & -> & (sign & ds & -> & _ & W) & Hf & He & _) & _). destruct He as [-> | (x & sg & es & -> & _ & _ & Ne & Fe)].
    + rewrite app_nil_r. destruct Hf as [-> | (fs & -> & Nf & Ff)]; [rewrite app_nil_r; auto|]. apply Pre. change (46 :: fs) with ([46] ++ fs). apply Pre, digits_last; assumption.
    + apply Pre, Pre. change (x :: sg ++ es) with ((x :: sg) ++ es). apply Pre, digits_last; assumption.
  - exists (91 :: w), 93. split; [reflexivity|lia].
  - exists (91 :: u), 93. split; [reflexivity|lia].
  - exists (123 :: w), 125. split; [reflexivity|lia].
  - exists (123 :: u), 125. split; [reflexivity|lia].
Qed.
Lemma accept_sound c chunks c' : okay (concat chunks ++ [32]) -> yajl_run full callback strtod c chunks = Some (c', true) -> exists j, json_text (concat chunks) j /\ deliver c (evs j) = Some (c', true).
Proof.
  intros Ok E. rewrite run_ended in E. destruct (sp [state_start] c (concat chunks ++ [32])) as [[fin c2 pend|c2]|] eqn:Sp; cbn [ended] in E; try discriminate E.
  assert (N : nested fin) by (apply (sp_nested _ _ _ _ _ _ (ex_intro _ [] (ex_intro _ state_start (conj eq_refl (conj eq_refl (or_introl eq_refl))))) Sp)).
  assert (Ef : fin = [state_parse_complete] /\ c2 = c'). { destruct N as (a & b & -> & Ia & Hb). destruct a as [|x a]; cbn [app] in E; [destruct Hb as [-> | ->]; [discriminate E|injection E as ->; auto]|]. cbn [forallb] in Ia. apply andb_prop in Ia. destruct Ia as (Ix & _). destruct x; discriminate. }
  destruct Ef as (-> & ->). destruct (sound_all (concat chunks ++ [32])) as (HA & _). destruct (HA state_start [] c [state_parse_complete] c' pend Ok ltac:(cbn; auto) Sp ltac:(cbn; lia)) as [Q | [(w & t & r & j & c1 & Es & G & V & D & E1 & Lr) | (Q & _)]]; [discriminate Q| |discriminate Q].
  exists j. cbn [after_value] in E1. destruct (step_inv state_parse_complete [] c1 r _ _ _ eq_refl E1) as [(Le & _ & ->) | (w' & t' & r' & tok & e & l & c3 & _ & _ & _ & A & _)]; [|destruct tok; discriminate A]. split; [|exact D].
  destruct r as [|x r _] using rev_ind.
  - exfalso. destruct (value_last t j V) as (t' & x & -> & Nx). rewrite app_nil_r, app_assoc in Es. apply app_inj_tail in Es. destruct Es as (_ & Q). congruence.
  - rewrite !app_assoc in Es. apply app_inj_tail in Es. destruct Es as (Es & <-). apply lex_open in Le. destruct Le as (w' & e & -> & G' & O). exists w, t, w', e. rewrite Es, <- !app_assoc. auto.
Qed.
End Accept.
