(** The grammar of JSON texts with comments, and the lexer against it. *)
From Coq Require Import ZArith List Bool Lia Arith.
From Verif Require Import Base CsvModel CsvProofs JsonModel JsonProofs YajlModel YajlProofs YajlParse YajlText YajlSafe.
Import ListNotations.
Open Scope Z_scope.
#[local] Ltac Zify.zify_post_hook ::= idtac.

(** * Grammar *)
(** White space and comments. *)
Definition no_end (t : list Z) : Prop := forall a b, t <> a ++ [42; 47] ++ b.
Inductive gap : list Z -> Prop :=
| gap_nil : gap []
| gap_white c s : 9 <= c <= 13 \/ c = 32 -> gap s -> gap (c :: s)
| gap_line t s : ~ In 10 t -> gap s -> gap (47 :: 47 :: t ++ 10 :: s)
| gap_block t s : no_end (t ++ [42]) -> gap s -> gap (47 :: 42 :: t ++ 42 :: 47 :: s).
(** Digits. *)
Definition digit (c : Z) : Prop := 48 <= c <= 57.
Definition hexval (c : Z) : option Z := if (48 <=? c) && (c <=? 57) then Some (c - 48) else if (65 <=? c) && (c <=? 70) then Some (c - 55) else if (97 <=? c) && (c <=? 102) then Some (c - 87) else None.
Definition hex4 (h : list Z) (cp : Z) : Prop := exists a b c d x y z w, h = [a; b; c; d] /\ hexval a = Some x /\ hexval b = Some y /\ hexval c = Some z /\ hexval d = Some w /\ cp = 4096 * x + 256 * y + 16 * z + w.
(** A character of more than one byte. *)
Inductive high : list Z -> Prop :=
| high_2 a b : 192 <= a < 224 -> cont b -> high [a; b]
| high_3 a b c : 224 <= a < 240 -> cont b -> cont c -> high [a; b; c]
| high_4 a b c d : 240 <= a < 248 -> cont b -> cont c -> cont d -> high [a; b; c; d].
Definition escapes : list (Z * Z) := [(34, 34); (92, 92); (47, 47); (98, 8); (102, 12); (110, 10); (114, 13); (116, 9)].
(** The text between the quotes of a string. *)
Inductive str_ok : list Z -> Prop :=
| so_nil : str_ok []
| so_char c b : 32 <= c <= 127 -> c <> 34 -> c <> 92 -> str_ok b -> str_ok (c :: b)
| so_high u b : high u -> str_ok b -> str_ok (u ++ b)
| so_esc c x b : In (c, x) escapes -> str_ok b -> str_ok (92 :: c :: b)
| so_u h cp b : hex4 h cp -> str_ok b -> str_ok (92 :: 117 :: h ++ b).
(** The UTF-8 encoding of a code point. *)
Definition utf8_of (cp : Z) : list Z :=
  if cp <? 128 then [cp]
  else if cp <? 2048 then [192 + cp / 64; 128 + cp mod 64]
  else if cp <? 65536 then [224 + cp / 4096; 128 + cp / 64 mod 64; 128 + cp mod 64]
  else [240 + cp / 262144; 128 + cp / 4096 mod 64; 128 + cp / 64 mod 64; 128 + cp mod 64].
(** The text of a string and the string it stands for. *)
Inductive str_text : list Z -> list Z -> Prop :=
| st_nil : str_text [] []
| st_char c b v : 32 <= c <= 127 -> c <> 34 -> c <> 92 -> str_text b v -> str_text (c :: b) (c :: v)
| st_high u b v : high u -> str_text b v -> str_text (u ++ b) (u ++ v)
| st_esc c x b v : In (c, x) escapes -> str_text b v -> str_text (92 :: c :: b) (x :: v)
| st_u h cp b v : hex4 h cp -> ~ (55296 <= cp < 56320) -> str_text b v -> str_text (92 :: 117 :: h ++ b) (utf8_of cp ++ v)
| st_pair h c1 k c2 b v : hex4 h c1 -> 55296 <= c1 < 56320 -> hex4 k c2 -> 56320 <= c2 < 57344 -> str_text b v ->
    str_text (92 :: 117 :: h ++ 92 :: 117 :: k ++ b) (utf8_of (65536 + 1024 * (c1 - 55296) + (c2 - 56320)) ++ v).
(** Numbers. *)
Definition int_text (s : list Z) : Prop := exists sign ds, s = sign ++ ds /\ (sign = [] \/ sign = [45]) /\ whole_digits ds.
Definition frac_text (s : list Z) : Prop := exists ds, s = 46 :: ds /\ ds <> [] /\ Forall digit ds.
Definition exp_text (s : list Z) : Prop := exists e sign ds, s = e :: sign ++ ds /\ (e = 101 \/ e = 69) /\ (sign = [] \/ sign = [43] \/ sign = [45]) /\ ds <> [] /\ Forall digit ds.
Definition double_text (s : list Z) : Prop := exists i f e, s = i ++ f ++ e /\ int_text i /\ (f = [] \/ frac_text f) /\ (e = [] \/ exp_text e) /\ (f <> [] \/ e <> []).
Definition int_value (s : list Z) (z : Z) : Prop := exists ds, whole_digits ds /\ digits_val ds 0 <= LLONG_MAX /\ ((s = ds /\ z = digits_val ds 0) \/ (s = 45 :: ds /\ z = - digits_val ds 0)).
(** What may stand at the end: nothing, a comment or a string that is not closed. *)
Inductive open_end : list Z -> Prop :=
| oe_nil : open_end []
| oe_line t : ~ In 10 t -> open_end (47 :: 47 :: t)
| oe_block t : no_end t -> open_end (47 :: 42 :: t)
| oe_str b : str_ok b -> open_end (34 :: b).
(** The text of a token. *)
Definition tok_text (tok : yajl_tok) (t : list Z) : Prop :=
  match tok with
  | tok_string => exists b, t = 34 :: b ++ [34] /\ str_ok b /\ ~ In 92 b
  | tok_string_with_escapes => exists b, t = 34 :: b ++ [34] /\ str_ok b /\ In 92 b
  | tok_integer => int_text t
  | tok_double => double_text t
  | tok_bool => t = [116; 114; 117; 101] \/ t = [102; 97; 108; 115; 101]
  | tok_null => t = [110; 117; 108; 108]
  | tok_left_bracket => t = [123] | tok_right_bracket => t = [125]
  | tok_left_brace => t = [91] | tok_right_brace => t = [93]
  | tok_comma => t = [44] | tok_colon => t = [58]
  | _ => False
  end.

(** * Gaps *)
Lemma white_spec c : white c = true <-> 9 <= c <= 13 \/ c = 32.
Proof. unfold white. rewrite orb_true_iff, andb_true_iff, !Z.leb_le, Z.eqb_eq. tauto. Qed.
Lemma line_ok t s : ~ In 10 t -> s_line (t ++ 10 :: s) = (tok_comment, s).
Proof. induction t as [|c t IH]; intros N; cbn [app s_line]; [reflexivity|]. destruct (Z.eqb_spec c 10) as [-> | ]; [exfalso; apply N; now left|]. apply IH. intros H. apply N. now right. Qed.
Lemma line_inv s r : s_line s = (tok_comment, r) -> exists t, s = t ++ 10 :: r /\ ~ In 10 t.
Proof.
  induction s as [|c s IH]; cbn [s_line]; [discriminate|]. destruct (Z.eqb_spec c 10) as [-> | N]; [intros [= <-]; exists []; auto|]. intros E. destruct (IH E) as (t & -> & Nt). exists (c :: t). split; [reflexivity|]. intros [H | H]; [congruence|contradiction].
Qed.
Lemma line_open t : ~ In 10 t <-> fst (s_line t) = tok_eof.
Proof.
  induction t as [|c t IH]; cbn [s_line fst In]; [tauto|]. destruct (Z.eqb_spec c 10) as [-> | N]; cbn [fst]; [split; [intros H; exfalso; auto|discriminate]|]. rewrite <- IH. tauto.
Qed.
Lemma no_end_cons c t : no_end (c :: t) <-> no_end t /\ ~ (c = 42 /\ exists r, t = 47 :: r).
Proof.
  unfold no_end. split.
  - intros H. split; [intros a b ->; now apply (H (c :: a) b)|]. intros (-> & r & ->). now apply (H [] r).
  - intros (H1 & H2) a b E. destruct a as [|x a]; cbn [app] in E; injection E as -> ->; [apply H2; eauto|]. now apply (H1 a b).
Qed.
(** [star]: the character ahead is an asterisk. *)
Lemma block_ok t s : forall star : bool, no_end (t ++ [42]) -> (star = true -> forall r, t <> 47 :: r) -> s_block star (t ++ 42 :: 47 :: s) = (tok_comment, s).
Proof.
  induction t as [|c t IH]; intros star N F; cbn [app s_block].
  - change (42 =? 47) with false. rewrite andb_false_r. reflexivity.
  - cbn [app] in N. apply no_end_cons in N. destruct N as (N & Nc).
    destruct (star && (c =? 47)) eqn:E. { apply andb_prop in E. destruct E as (-> & E). apply Z.eqb_eq in E. subst c. exfalso. now apply (F eq_refl t). }
    apply IH; [exact N|]. intros E2 r ->. apply Z.eqb_eq in E2. subst c. apply Nc. split; [reflexivity|]. cbn [app]. eauto.
Qed.
Lemma block_inv s r : forall star : bool, s_block star s = (tok_comment, r) -> (star = true /\ s = 47 :: r) \/ exists t, s = t ++ 42 :: 47 :: r /\ no_end (t ++ [42]) /\ (star = true -> forall r, t <> 47 :: r).
Proof.
  induction s as [|c s IH]; intros star; cbn [s_block]; [discriminate|]. destruct (star && (c =? 47)) eqn:E.
  - apply andb_prop in E. destruct E as (-> & E). apply Z.eqb_eq in E. subst c. intros [= <-]. now left.
  - intros H. right. destruct (IH _ H) as [(E2 & ->) | (t & -> & N & F)].
    + apply Z.eqb_eq in E2. subst c. exists []. split; [reflexivity|]. cbn [app]. split; [|discriminate]. intros a b Q. destruct a as [|x [|y a]]; discriminate Q.
    + exists (c :: t). split; [reflexivity|]. split.
      * cbn [app]. apply no_end_cons. split; [exact N|]. intros (-> & r0 & E3). change (42 =? 42) with true in F. destruct t as [|x t]; [discriminate E3|]. injection E3 as -> _. now apply (F eq_refl t).
      * intros -> r0 Q. injection Q as -> _. discriminate E.
Qed.
Lemma block_open t : forall star : bool, fst (s_block star t) = tok_eof <-> no_end t /\ (star = true -> forall r, t <> 47 :: r).
Proof.
  induction t as [|c t IH]; intros star; cbn [s_block fst].
  - split; [|reflexivity]. intros _. split; [|discriminate]. intros a b Q. destruct a as [|x [|y a]]; discriminate Q.
  - destruct (star && (c =? 47)) eqn:E; cbn [fst].
    + apply andb_prop in E. destruct E as (-> & E). apply Z.eqb_eq in E. subst c. split; [discriminate|]. intros (_ & F). exfalso. now apply (F eq_refl t).
    + rewrite IH, no_end_cons. split.
      * intros (N & F). split; [split; [exact N|]|]; [intros (-> & r & ->); now apply (F eq_refl r)|]. intros -> r Q. injection Q as -> _. discriminate E.
      * intros ((N & F) & _). split; [exact N|]. intros E2 r ->. apply Z.eqb_eq in E2. apply F. eauto.
Qed.
Lemma lex_gap w s : gap w -> s_lex (w ++ s) = s_lex s.
Proof.
  induction 1 as [|c w Hc G IH|t w Nt G IH|t w Nt G IH]; [reflexivity| | |]; cbn [app]; rewrite lex_cons.
  - apply white_spec in Hc. now rewrite Hc.
  - change (white 47) with false. change (47 =? 47) with true. cbv iota. unfold s_comment. cbn [s_next]. change (47 =? 47) with true. cbv iota. rewrite <- app_assoc. cbn [app]. now rewrite line_ok.
  - change (white 47) with false. change (47 =? 47) with true. cbv iota. unfold s_comment. cbn [s_next]. change (42 =? 47) with false. change (42 =? 42) with true. cbv iota. rewrite <- app_assoc. cbn [app]. now rewrite block_ok.
Qed.
Lemma comment_inv s r : s_comment s = (tok_comment, r) -> exists w, 47 :: s = w ++ r /\ forall v, gap v -> gap (w ++ v).
Proof.
  unfold s_comment. destruct s as [|c s]; cbn [s_next]; [discriminate|]. destruct (Z.eqb_spec c 47) as [-> | ]; [|destruct (Z.eqb_spec c 42) as [-> | ]; [|discriminate]].
  - intros E. destruct (line_inv _ _ E) as (t & -> & N). exists (47 :: 47 :: t ++ [10]). split; [cbn [app]; rewrite <- app_assoc; reflexivity|]. intros v G. cbn [app]. rewrite <- app_assoc. now apply gap_line.
  - intros E. destruct (block_inv _ _ _ E) as [(Q & _) | (t & -> & N & _)]; [discriminate|]. exists (47 :: 42 :: t ++ [42; 47]). split; [cbn [app]; rewrite <- app_assoc; reflexivity|]. intros v G. cbn [app]. rewrite <- app_assoc. now apply gap_block.
Qed.
(** The stream at the start of a token, after a gap. *)
Lemma lex_split s : match s_lex s with (tok, st, r) => exists w, s = w ++ st /\ gap w /\ match st with [] => tok = tok_eof | c :: s' => white c = false /\ if c =? 47 then s_comment s' = (tok, r) /\ tok <> tok_comment else s_token c s' = (tok, r) end end.
Proof.
  induction s as [s IH] using lex_ind. destruct s as [|c s]; [exists []; split; [reflexivity|]; split; [constructor|reflexivity]|]. rewrite lex_cons. destruct (white c) eqn:Wc.
  { specialize (IH s ltac:(cbn; lia)). destruct (s_lex s) as ((tok, st), r). destruct IH as (w & -> & G & H). exists (c :: w). split; [reflexivity|]. split; [|exact H]. apply gap_white; [now apply white_spec|exact G]. }
  destruct (Z.eqb_spec c 47) as [-> | N].
  - pose proof (good_comment s) as (L & _). destruct (s_comment s) as (tok, r) eqn:E. cbn [snd] in L.
    assert (Keep : tok <> tok_comment -> exists w, 47 :: s = w ++ 47 :: s /\ gap w /\ (white 47 = false /\ if 47 =? 47 then s_comment s = (tok, r) /\ tok <> tok_comment else s_token 47 s = (tok, r))) by (intros N; exists []; split; [reflexivity|]; split; [constructor|]; split; [reflexivity|]; split; [exact E|exact N]).
    destruct tok; try (apply Keep; discriminate).
    specialize (IH r ltac:(cbn; lia)). destruct (comment_inv _ _ E) as (w & Ew & Gw). destruct (s_lex r) as ((tok, st), r'). destruct IH as (w' & -> & G & H). exists (w ++ w'). rewrite <- app_assoc. split; [exact Ew|]. split; [now apply Gw|exact H].
  - destruct (s_token c s) as (tok, r) eqn:E. exists []. split; [reflexivity|]. split; [constructor|]. split; [exact Wc|]. destruct (Z.eqb_spec c 47); [contradiction|exact E].
Qed.

(** * Strings *)
Lemma VHC_hexval c : VHC c = true <-> exists x, hexval c = Some x.
Proof. unfold VHC, hexval. destruct ((48 <=? c) && (c <=? 57)); cbn [orb]; [split; eauto|]. destruct ((65 <=? c) && (c <=? 70)); cbn [orb]; [split; eauto|]. destruct ((97 <=? c) && (c <=? 102)); split; eauto; [discriminate|intros (x & H); discriminate H]. Qed.
Lemma VEC_escape c : VEC c = true <-> exists x, In (c, x) escapes.
Proof.
  unfold VEC, escapes. rewrite existsb_exists. split.
  - intros (y & H & E). apply Z.eqb_eq in E. subst y. cbn [In] in *. repeat (destruct H as [<- | H]; [eexists; eauto 12|]). contradiction.
  - intros (x & H). exists c. rewrite Z.eqb_refl. split; [|reflexivity]. cbn [In] in *. repeat (destruct H as [[= <- <-] | H]; [auto 12|]). contradiction.
Qed.
Lemma shift_inv c k q : 0 <= k -> Z.shiftr c k = q -> q * 2 ^ k <= c < (q + 1) * 2 ^ k.
Proof. intros K E. rewrite Z.shiftr_div_pow2 in E by lia. assert (P : 0 < 2 ^ k) by (apply Z.pow_pos_nonneg; lia). pose proof (Z.div_mod c (2 ^ k) ltac:(lia)) as D. pose proof (Z.mod_pos_bound c (2 ^ k) P). rewrite E in D. nia. Qed.
Lemma cont_spec b : Z.shiftr b 6 = 2 <-> cont b.
Proof. unfold cont. split; [intros E; apply shift_inv in E; lia|]. intros H. apply shift_range; lia. Qed.
Lemma string_ok b : str_ok b -> forall (esc : bool) r, exists esc' : bool, s_string Normal esc (b ++ r) = s_string Normal esc' r /\ (esc' = true <-> esc = true \/ In 92 b).
Proof.
  induction 1 as [|c b Hc N1 N2 H IH|u b Hu H IH|c x b Hc H IH|h cp b Hh H IH]; intros esc r.
  - exists esc. split; [reflexivity|]. cbn [In]. tauto.
  - destruct (IH esc r) as (e & E & P). exists e. split; [|rewrite P; cbn [In]; intuition congruence]. cbn [app s_string]. unfold IJC. destruct (Z.eqb_spec c 34); [lia|]. destruct (Z.eqb_spec c 92); [lia|]. destruct (Z.ltb_spec c 32); [lia|]. cbn [orb]. destruct (Z.leb_spec c 127); [exact E|lia].
  - destruct (IH esc r) as (e & E & P). exists e. split.
    + rewrite <- app_assoc. destruct Hu as [a b1 Ha H1|a b1 b2 Ha H1 H2|a b1 b2 b3 Ha H1 H2 H3]; cbn [app].
      * rewrite (lead_step esc a _ 0) by (first [lia | destruct (Z.ltb_spec a 224); lia]). rewrite cont_step by assumption. exact E.
      * rewrite (lead_step esc a _ 1) by (first [lia | destruct (Z.ltb_spec a 224); destruct (Z.ltb_spec a 240); lia]). repeat (rewrite cont_step by assumption; cbn [contm]). exact E.
      * rewrite (lead_step esc a _ 2) by (first [lia | destruct (Z.ltb_spec a 224); destruct (Z.ltb_spec a 240); lia]). repeat (rewrite cont_step by assumption; cbn [contm]). exact E.
    + rewrite P, in_app_iff. assert (~ In 92 u) by (unfold cont in *; destruct Hu; cbn [In]; unfold cont in *; lia). tauto.
  - destruct (IH true r) as (e & E & P). exists e. split; [|rewrite P; cbn [In]; tauto]. cbn [app s_string]. change (92 =? 34) with false. change (92 =? 92) with true. cbv iota.
    assert (c =? 117 = false) as -> by (unfold escapes in Hc; cbn [In] in Hc; repeat (destruct Hc as [[= <- <-] | Hc]; [reflexivity|]); contradiction). assert (VEC c = true) as -> by (apply VEC_escape; eauto). exact E.
  - destruct Hh as (a & b1 & b2 & b3 & x & y & z & w & -> & V1 & V2 & V3 & V4 & _). destruct (IH true r) as (e & E & P). exists e. split; [|rewrite P; cbn [In]; tauto]. cbn [app s_string]. change (92 =? 34) with false. change (92 =? 92) with true. change (117 =? 117) with true. cbv iota.
    assert (VHC a = true) as -> by (apply VHC_hexval; eauto). assert (VHC b1 = true) as -> by (apply VHC_hexval; eauto). assert (VHC b2 = true) as -> by (apply VHC_hexval; eauto). assert (VHC b3 = true) as -> by (apply VHC_hexval; eauto). exact E.
Qed.
(** A string is closed, or it goes on to the end, where a space is a character of it. *)
Lemma string_inv s : forall (esc : bool) tok r, s_string Normal esc s = (tok, r) -> tok <> tok_error ->
  (exists b (esc' : bool), s = b ++ 34 :: r /\ str_ok b /\ tok = (if esc' then tok_string_with_escapes else tok_string) /\ (esc' = true <-> esc = true \/ In 92 b)) \/
  (tok = tok_eof /\ (forall t, s = t ++ [32] -> str_ok t)).
Proof.
  induction s as [s IH] using lex_ind. intros esc tok r E Ne.
  assert (Go : forall u s' (esc' : bool), s = u ++ s' -> u <> [] -> s_string Normal esc' s' = (tok, r) -> (forall b, str_ok b -> str_ok (u ++ b)) -> (esc' = true <-> esc = true \/ In 92 u) -> (forall t, s' = [] -> s = t ++ [32] -> str_ok t) ->
    (exists b (esc' : bool), s = b ++ 34 :: r /\ str_ok b /\ tok = (if esc' then tok_string_with_escapes else tok_string) /\ (esc' = true <-> esc = true \/ In 92 b)) \/ (tok = tok_eof /\ (forall t, s = t ++ [32] -> str_ok t))).
  { intros u s' esc' Es Nu E' Hu He Last. assert (Ls : (length s' < length s)%nat) by (rewrite Es, app_length; destruct u; [contradiction|cbn; lia]).
    destruct (IH s' Ls esc' tok r E' Ne) as [(b & e & Eb & Hb & Et & He') | (Et & Ht)].
    - left. exists (u ++ b), e. split; [rewrite Es, Eb, app_assoc; reflexivity|]. split; [auto|]. split; [exact Et|]. rewrite He', in_app_iff, He. tauto.
    - right. split; [exact Et|]. intros t Q. destruct s' as [|x s' _] using rev_ind; [now apply Last|]. rewrite Es, app_assoc in Q. apply app_inj_tail in Q. destruct Q as (<- & ->). apply Hu. apply Ht. reflexivity. }
  assert (Eof : s_string Normal esc s = (tok_eof, []) -> (forall t, s = t ++ [32] -> str_ok t) -> (exists b (esc' : bool), s = b ++ 34 :: r /\ str_ok b /\ tok = (if esc' then tok_string_with_escapes else tok_string) /\ (esc' = true <-> esc = true \/ In 92 b)) \/ (tok = tok_eof /\ (forall t, s = t ++ [32] -> str_ok t))) by (intros Q Ht; right; split; [congruence|exact Ht]).
  destruct s as [|c s]; [apply Eof; [reflexivity|intros t Q; destruct t; discriminate Q]|]. pose proof E as E0. cbn [s_string] in E0.
  destruct (Z.eqb_spec c 34) as [-> | N1]. { left. exists [], esc. injection E0 as <- <-. split; [reflexivity|]. split; [constructor|]. split; [reflexivity|]. cbn [In]. tauto. }
  destruct (Z.eqb_spec c 92) as [-> | N2].
  { destruct s as [|d s]; [apply Eof; [reflexivity|intros t Q; destruct t as [|x [|y t]]; discriminate Q]|]. cbn [s_string] in E0.
    destruct (Z.eqb_spec d 117) as [-> | Nd].
    - destruct s as [|a s]; [apply Eof; [reflexivity|intros t Q; destruct t as [|x [|y [|z t]]]; discriminate Q]|]. cbn [s_string hexm] in E0. destruct (VHC a) eqn:V1; [|congruence].
      destruct s as [|b s]; [apply Eof; [cbn [s_string]; change (92 =? 34) with false; change (92 =? 92) with true; change (117 =? 117) with true; cbv iota; now rewrite V1|intros t Q; destruct t as [|x [|y [|z [|w t]]]]; try discriminate Q; injection Q as <- <- ->; discriminate V1]|].
      cbn [s_string hexm] in E0. destruct (VHC b) eqn:V2; [|congruence].
      destruct s as [|d s]; [apply Eof; [cbn [s_string]; change (92 =? 34) with false; change (92 =? 92) with true; change (117 =? 117) with true; cbv iota; rewrite V1; cbn [hexm]; now rewrite V2|intros t Q; destruct t as [|x [|y [|z [|w [|u t]]]]]; try discriminate Q; injection Q as <- <- <- ->; discriminate V2]|].
      cbn [s_string hexm] in E0. destruct (VHC d) eqn:V3; [|congruence].
      destruct s as [|e s]; [apply Eof; [cbn [s_string]; change (92 =? 34) with false; change (92 =? 92) with true; change (117 =? 117) with true; cbv iota; rewrite V1; cbn [hexm]; rewrite V2; cbn [hexm]; now rewrite V3|intros t Q; destruct t as [|x [|y [|z [|w [|u [|v t]]]]]]; try discriminate Q; injection Q as <- <- <- <- ->; discriminate V3]|].
      cbn [s_string hexm] in E0. destruct (VHC e) eqn:V4; [|congruence].
      apply VHC_hexval in V1, V2, V3. destruct V1 as (x1 & V1), V2 as (x2 & V2), V3 as (x3 & V3). pose proof V4 as V5. apply VHC_hexval in V5. destruct V5 as (x4 & V5).
      apply (Go [92; 117; a; b; d; e] s true); [reflexivity|discriminate|exact E0| |cbn [In]; tauto|].
      + intros t Ht. cbn [app]. change (a :: b :: d :: e :: t) with ([a; b; d; e] ++ t). eapply so_u; [|exact Ht]. exists a, b, d, e, x1, x2, x3, x4. repeat split; try assumption.
      + intros t -> Q. exfalso. change [92; 117; a; b; d; e] with ([92; 117; a; b; d] ++ [e]) in Q. apply app_inj_tail in Q. destruct Q as (_ & ->). discriminate V4.
    - destruct (VEC d) eqn:V; [|congruence]. pose proof V as V'. apply VEC_escape in V'. destruct V' as (x & Hx). apply (Go [92; d] s true); [reflexivity|discriminate|exact E0| |cbn [In]; tauto|].
      + intros t Ht. cbn [app]. eapply so_esc; eassumption.
      + intros t -> Q. exfalso. change [92; d] with ([92] ++ [d]) in Q. apply app_inj_tail in Q. destruct Q as (_ & ->). discriminate V. }
  destruct (IJC c) eqn:IJ; [congruence|]. unfold IJC in IJ. apply orb_false_elim in IJ. destruct IJ as (IJ & _). apply orb_false_elim in IJ. destruct IJ as (IJ & _). apply Z.ltb_ge in IJ.
  destruct (Z.leb_spec c 127).
  { apply (Go [c] s esc); [reflexivity|discriminate|exact E0| |cbn [In]; intuition congruence|].
    - intros b Hb. cbn [app]. apply so_char; auto; lia.
    - intros t -> Q. destruct t as [|x t]; [constructor|]. destruct t; discriminate Q. }
  assert (Lead : forall a : Z, cont a -> a <> 32) by (unfold cont; intros; lia).
  assert (Lead2 : forall k (e : bool) r0 a s, s_string (Cont k) e (a :: s) = (tok, r0) -> cont a /\ s_string (contm k) e s = (tok, r0)).
  { intros k e r0 a s0 Q. cbn [s_string] in Q. destruct (Z.eqb_spec (Z.shiftr a 6) 2) as [C | C]; [|congruence]. split; [now apply cont_spec|exact Q]. }
  assert (NoEnd : forall t x l, c :: x :: l = t ++ [32] -> (exists l' y, x :: l = l' ++ [y] /\ cont y) -> False).
  { intros t x l Q (l' & y & El & Cy). rewrite El in Q. change (c :: l' ++ [y]) with ((c :: l') ++ [y]) in Q. apply app_inj_tail in Q. destruct Q as (_ & ->). unfold cont in Cy. lia. }
  destruct (Z.eqb_spec (Z.shiftr c 5) 6) as [C5 | C5]; [|destruct (Z.eqb_spec (Z.shiftr c 4) 14) as [C4 | C4]; [|destruct (Z.eqb_spec (Z.shiftr c 3) 30) as [C3 | C3]; [|congruence]]].
  - apply shift_inv in C5; [|lia]. destruct s as [|b1 s].
    { cbn [s_string] in E0. right. split; [congruence|]. intros t Q. destruct t as [|x [|y t]]; try discriminate Q. injection Q as ->. lia. }
    apply Lead2 in E0. destruct E0 as (K1 & E0). cbn [contm] in E0. apply (Go [c; b1] s esc); [reflexivity|discriminate|exact E0| |cbn [In]; unfold cont in K1; intuition lia|].
    + intros b Hb. apply so_high; [|exact Hb]. constructor; [lia|assumption].
    + intros t -> Q. exfalso. apply (NoEnd _ _ _ Q). exists [], b1. auto.
  - apply shift_inv in C4; [|lia]. destruct s as [|b1 s].
    { cbn [s_string] in E0. right. split; [congruence|]. intros t Q. destruct t as [|x [|y t]]; try discriminate Q. injection Q as ->. lia. }
    apply Lead2 in E0. destruct E0 as (K1 & E0). cbn [contm] in E0. destruct s as [|b2 s].
    { cbn [s_string] in E0. right. split; [congruence|]. intros t Q. exfalso. apply (NoEnd _ _ _ Q). exists [], b1. auto. }
    apply Lead2 in E0. destruct E0 as (K2 & E0). cbn [contm] in E0. apply (Go [c; b1; b2] s esc); [reflexivity|discriminate|exact E0| |cbn [In]; unfold cont in *; intuition lia|].
    + intros b Hb. apply so_high; [|exact Hb]. constructor; [lia|assumption|assumption].
    + intros t -> Q. exfalso. apply (NoEnd _ _ _ Q). exists [b1], b2. auto.
  - apply shift_inv in C3; [|lia]. destruct s as [|b1 s].
    { cbn [s_string] in E0. right. split; [congruence|]. intros t Q. destruct t as [|x [|y t]]; try discriminate Q. injection Q as ->. lia. }
    apply Lead2 in E0. destruct E0 as (K1 & E0). cbn [contm] in E0. destruct s as [|b2 s].
    { cbn [s_string] in E0. right. split; [congruence|]. intros t Q. exfalso. apply (NoEnd _ _ _ Q). exists [], b1. auto. }
    apply Lead2 in E0. destruct E0 as (K2 & E0). cbn [contm] in E0. destruct s as [|b3 s].
    { cbn [s_string] in E0. right. split; [congruence|]. intros t Q. exfalso. apply (NoEnd _ _ _ Q). exists [b1], b2. auto. }
    apply Lead2 in E0. destruct E0 as (K3 & E0). cbn [contm] in E0. apply (Go [c; b1; b2; b3] s esc); [reflexivity|discriminate|exact E0| |cbn [In]; unfold cont in *; intuition lia|].
    + intros b Hb. apply so_high; [|exact Hb]. constructor; [lia|assumption|assumption|assumption].
    + intros t -> Q. exfalso. apply (NoEnd _ _ _ Q). exists [b1; b2], b3. auto.
Qed.
Lemma string_open b : str_ok b -> forall esc, fst (s_string Normal esc (b ++ [32])) = tok_eof.
Proof. intros H esc. destruct (string_ok b H esc [32]) as (e & -> & _). reflexivity. Qed.

(** * Numbers *)
Lemma digits_spec ds : alldigits ds <-> Forall digit ds.
Proof. unfold alldigits. rewrite !Forall_forall. unfold digit. split; intros H x I; apply isdigit_spec, H, I. Qed.
Lemma digits_inv k s tok r : s_digits s k = (tok, r) -> tok <> tok_eof -> exists ds c s', s = ds ++ c :: s' /\ alldigits ds /\ isdigit c = false /\ k c s' = (tok, r).
Proof.
  intros E N. induction s as [|c s IH]; cbn [s_digits] in E; [congruence|]. destruct (isdigit c) eqn:D.
  - destruct (IH E) as (ds & x & s' & -> & A & Hx & K). exists (c :: ds), x, s'. split; [reflexivity|]. split; [now constructor|auto].
  - exists [], c, s. split; [reflexivity|]. split; [constructor|auto].
Qed.
Lemma exponent_inv tok c s tok' r : s_exponent tok c s = (tok', r) -> tok' <> tok_eof -> tok' <> tok_error ->
  (tok' = tok /\ r = c :: s) \/ (tok' = tok_double /\ exists e, c :: s = e ++ r /\ exp_text e).
Proof.
  unfold s_exponent. intros E N1 N2. destruct ((c =? 101) || (c =? 69)) eqn:Ce; [|left; injection E as <- <-; auto]. right.
  assert (Hc : c = 101 \/ c = 69) by (apply orb_prop in Ce; destruct Ce as [Ce | Ce]; apply Z.eqb_eq in Ce; auto).
  destruct s as [|x s]; cbn [s_next] in E; [congruence|].
  assert (Go : forall sign x s0, (sign = [] \/ sign = [43] \/ sign = [45]) -> s = s0 \/ True -> (if isdigit x then s_digits s0 (fun c s => (tok_double, c :: s)) else (tok_error, x :: s0)) = (tok', r) -> tok' = tok_double /\ exists e, c :: sign ++ x :: s0 = e ++ r /\ exp_text e).
  { intros sign y s0 Hs _ Q. destruct (isdigit y) eqn:Dy; [|congruence]. destruct (digits_inv _ _ _ _ Q N1) as (ds & z & s' & -> & A & _ & K). injection K as <- <-. split; [reflexivity|]. exists (c :: sign ++ y :: ds). split; [cbn [app]; rewrite <- app_assoc; reflexivity|].
    exists c, sign, (y :: ds). split; [reflexivity|]. split; [exact Hc|]. split; [exact Hs|]. split; [discriminate|]. apply digits_spec. constructor; assumption. }
  destruct ((x =? 43) || (x =? 45)) eqn:Sx.
  - destruct s as [|y s]; cbn [s_next] in E; [congruence|]. apply (Go [x] y s); [|auto|exact E]. apply orb_prop in Sx. destruct Sx as [Sx | Sx]; apply Z.eqb_eq in Sx; subst x; auto.
  - apply (Go [] x s); auto.
Qed.
Lemma fraction_inv c s tok r : s_fraction c s = (tok, r) -> tok <> tok_eof -> tok <> tok_error ->
  (tok = tok_integer /\ r = c :: s) \/ (tok = tok_double /\ exists f e, c :: s = f ++ e ++ r /\ (f = [] \/ frac_text f) /\ (e = [] \/ exp_text e) /\ (f <> [] \/ e <> [])).
Proof.
  unfold s_fraction. intros E N1 N2. assert (Ne : forall e, exp_text e -> e <> []) by (intros e (x & sg & ds & -> & _); discriminate). destruct (Z.eqb_spec c 46) as [-> | ].
  - right. destruct s as [|x s]; cbn [s_next] in E; [congruence|]. destruct (isdigit x) eqn:Dx; [|congruence]. destruct (digits_inv _ _ _ _ E N1) as (ds & z & s' & -> & A & _ & K).
    assert (F : frac_text (46 :: x :: ds)) by (exists (x :: ds); split; [reflexivity|]; split; [discriminate|]; apply digits_spec; constructor; assumption).
    destruct (exponent_inv _ _ _ _ _ K N1 N2) as [(-> & ->) | (-> & e & Ee & He)]; (split; [reflexivity|]).
    + exists (46 :: x :: ds), []. split; [reflexivity|]. split; [auto|]. split; [auto|]. left. discriminate.
    + exists (46 :: x :: ds), e. rewrite <- Ee. split; [reflexivity|]. split; [auto|]. split; [auto|]. left. discriminate.
  - destruct (exponent_inv _ _ _ _ _ E N1 N2) as [(-> & ->) | (-> & e & Ee & He)]; [left; auto|]. right. split; [reflexivity|]. exists [], e. cbn [app]. split; [exact Ee|]. split; [auto|]. split; [auto|]. right. auto.
Qed.
Lemma int_inv s tok r : s_next s s_int = (tok, r) -> tok <> tok_eof -> tok <> tok_error -> exists ds c s', s = ds ++ c :: s' /\ whole_digits ds /\ s_fraction c s' = (tok, r).
Proof.
  intros E N1 N2. destruct s as [|c s]; cbn [s_next] in E; [congruence|]. unfold s_int in E. destruct (Z.eqb_spec c 48) as [-> | N].
  - destruct s as [|x s]; cbn [s_next] in E; [congruence|]. exists [48], x, s. split; [reflexivity|]. split; [now left|exact E].
  - destruct (isdigit c) eqn:D; [|congruence]. destruct (digits_inv _ _ _ _ E N1) as (ds & x & s' & -> & A & _ & K). exists (c :: ds), x, s'. split; [reflexivity|]. split; [|exact K]. right. exists c, ds. split; [reflexivity|]. split; [constructor; assumption|exact N].
Qed.
Lemma number_inv s tok r : s_number s = (tok, r) -> tok <> tok_eof -> tok <> tok_error -> exists t, s = t ++ r /\ ((tok = tok_integer /\ int_text t) \/ (tok = tok_double /\ double_text t)).
Proof.
  intros E N1 N2. assert (H : exists sign s0, s = sign ++ s0 /\ (sign = [] \/ sign = [45]) /\ s_next s0 s_int = (tok, r)).
  { unfold s_number in E. destruct s as [|c s]; cbn [s_next] in E; [congruence|]. destruct (Z.eqb_spec c 45) as [-> | ]; [exists [45], s|exists [], (c :: s)]; auto. }
  destruct H as (sign & s0 & -> & Hs & E0). destruct (int_inv _ _ _ E0 N1 N2) as (ds & c & s' & -> & W & F).
  assert (It : int_text (sign ++ ds)) by (exists sign, ds; auto).
  destruct (fraction_inv _ _ _ _ F N1 N2) as [(-> & ->) | (-> & f & e & -> & Hf & He & Hn)].
  - exists (sign ++ ds). rewrite <- app_assoc. split; [reflexivity|]. left. auto.
  - exists ((sign ++ ds) ++ f ++ e). rewrite <- !app_assoc. split; [reflexivity|]. right. split; [reflexivity|]. exists (sign ++ ds), f, e. rewrite <- !app_assoc. split; [reflexivity|]. auto.
Qed.
Lemma int_ok t s : int_text t -> delim s -> s_number (t ++ s) = (tok_integer, s).
Proof. intros (sign & ds & -> & Hs & W) D. rewrite <- app_assoc. now apply int_lexes. Qed.
Lemma exp_ok e s tok : exp_text e -> delim s -> exists c r, e ++ s = c :: r /\ isdigit c = false /\ c <> 46 /\ s_exponent tok c r = (tok_double, s).
Proof.
  intros (c & sign & ds & -> & Hc & Hs & Nd & F) (x & r & -> & D & _). destruct ds as [|d ds]; [contradiction|]. apply digits_spec in F. apply Forall_cons_iff in F as (Hd & F). exists c, (sign ++ (d :: ds) ++ x :: r). cbn [app]. rewrite <- app_assoc. split; [reflexivity|]. split; [destruct Hc as [-> | ->]; reflexivity|]. split; [destruct Hc as [-> | ->]; lia|].
  unfold s_exponent. assert ((c =? 101) || (c =? 69) = true) as -> by (destruct Hc as [-> | ->]; reflexivity).
  assert (K : s_digits (ds ++ x :: r) (fun c s => (tok_double, c :: s)) = (tok_double, x :: r)) by (rewrite digits_skip by exact F; cbn [s_digits]; now rewrite D).
  destruct Hs as [-> | [-> | ->]]; cbn [app s_next].
  - pose proof Hd as Hd'. apply isdigit_spec in Hd'. destruct (Z.eqb_spec d 43); [lia|]. destruct (Z.eqb_spec d 45); [lia|]. cbn [orb]. rewrite Hd. exact K.
  - change ((43 =? 43) || (43 =? 45)) with true. cbv iota. rewrite Hd. exact K.
  - change ((45 =? 43) || (45 =? 45)) with true. cbv iota. rewrite Hd. exact K.
Qed.
Lemma double_ok t s : double_text t -> delim s -> s_number (t ++ s) = (tok_double, s).
Proof.
  intros (i & f & e & -> & (sign & ds & -> & Hs & W) & Hf & He & Hn) D. rewrite <- !app_assoc. destruct Hf as [-> | (fs & -> & Nf & Ff)].
  - destruct He as [-> | He]; [destruct Hn; contradiction|]. cbn [app]. destruct (exp_ok e s tok_integer He D) as (c & r & -> & Hc & N46 & E). rewrite number_head by assumption. unfold s_fraction. destruct (Z.eqb_spec c 46); [contradiction|]. exact E.
  - cbn [app]. rewrite number_head by (assumption || reflexivity). unfold s_fraction. change (46 =? 46) with true. cbv iota. destruct fs as [|d fs]; [contradiction|]. apply digits_spec in Ff. apply Forall_cons_iff in Ff as (Hd & Ff). cbn [app s_next]. rewrite Hd, digits_skip by exact Ff.
    destruct He as [-> | He].
    + destruct D as (x & r & -> & H1 & H2 & H3 & H4). cbn [app s_digits]. rewrite H1. now apply int_delim.
    + destruct (exp_ok e s tok_double He D) as (c & r & -> & Hc & N46 & E). cbn [s_digits]. rewrite Hc. exact E.
Qed.
Lemma number_first t : int_text t \/ double_text t -> exists c r, t = c :: r /\ ((c =? 45) || isdigit c) = true.
Proof.
  intros [(sign & ds & -> & Hs & W) | (i & f & e & -> & (sign & ds & -> & Hs & W) & _)].
  - destruct (whole_first sign ds [] Hs W) as (c & r & Q & Hc). rewrite app_nil_r in Q. eauto.
  - destruct (whole_first sign ds (f ++ e) Hs W) as (c & r & Q & Hc). rewrite <- !app_assoc. eauto.
Qed.
(** A space ends a number. *)
Lemma number_space t : fst (s_number (t ++ [32])) <> tok_eof.
Proof.
  assert (D : forall k ds, (forall c s, s = [] \/ (exists t, s = t ++ [32]) -> c = 32 \/ (exists t, s = t ++ [32]) -> fst (k c s) <> tok_eof) -> fst (s_digits (ds ++ [32]) k) <> tok_eof).
  { intros k ds H. induction ds as [|d ds IH]; cbn [app s_digits]; [change (isdigit 32) with false; apply H; auto|]. destruct (isdigit d); [exact IH|]. apply H; eauto. }
  assert (X : forall tok c s, tok <> tok_eof -> c = 32 \/ (exists t, s = t ++ [32]) -> fst (s_exponent tok c s) <> tok_eof).
  { intros tok c s Nt H. unfold s_exponent. destruct ((c =? 101) || (c =? 69)) eqn:E; [|exact Nt]. destruct H as [-> | (u & ->)]; [discriminate E|].
    assert (Go : forall c s, s = [] \/ (exists t, s = t ++ [32]) -> c = 32 \/ (exists t, s = t ++ [32]) -> fst (if isdigit c then s_digits s (fun c s => (tok_double, c :: s)) else (tok_error, c :: s)) <> tok_eof).
    { intros c0 s0 _ H. destruct (isdigit c0) eqn:D0; [|discriminate]. destruct H as [-> | (v & ->)]; [discriminate D0|]. apply D. intros; discriminate. }
    destruct u as [|x u]; cbn [app s_next]; [discriminate|]. destruct ((x =? 43) || (x =? 45)); [|apply Go; eauto]. destruct u as [|y u]; cbn [app s_next]; [discriminate|]. apply Go; eauto. }
  assert (F : forall c s, c = 32 \/ (exists t, s = t ++ [32]) -> fst (s_fraction c s) <> tok_eof).
  { intros c s H. unfold s_fraction. destruct (Z.eqb_spec c 46) as [-> | ]; [|apply X; [discriminate|exact H]]. destruct H as [H | (u & ->)]; [discriminate H|]. destruct u as [|x u]; cbn [app s_next]; [discriminate|]. destruct (isdigit x); [|discriminate]. apply D. intros c s _ H. apply X; [discriminate|exact H]. }
  assert (Int : forall c s, c = 32 \/ (exists t, s = t ++ [32]) -> fst (s_int c s) <> tok_eof).
  { intros c s H. unfold s_int. destruct (Z.eqb_spec c 48) as [-> | ].
    - destruct H as [H | (u & ->)]; [discriminate H|]. destruct u as [|x u]; cbn [app s_next]; apply F; eauto.
    - destruct (isdigit c) eqn:Dc; [|discriminate]. destruct H as [-> | (u & ->)]; [discriminate Dc|]. apply D. intros; apply F; assumption. }
  unfold s_number. destruct t as [|c t]; cbn [app s_next]; [discriminate|]. destruct (c =? 45); [|apply Int; eauto]. destruct t as [|d t]; cbn [app s_next]; apply Int; eauto.
Qed.
Lemma word_ok w tok s : s_word w tok (w ++ s) = (tok, s).
Proof. induction w as [|x w IH]; [reflexivity|]. cbn [app s_word s_next]. now rewrite Z.eqb_refl. Qed.
Lemma word_inv w tok : forall s tok' r, s_word w tok s = (tok', r) -> tok' <> tok_eof -> tok' <> tok_error -> tok' = tok /\ s = w ++ r.
Proof.
  induction w as [|x w IH]; intros s tok' r E N1 N2; cbn [s_word] in E; [injection E as <- <-; auto|]. destruct s as [|c s]; cbn [s_next] in E; [congruence|]. destruct (Z.eqb_spec c x) as [-> | ]; [|congruence]. destruct (IH _ _ _ E N1 N2) as (-> & ->). auto.
Qed.
Lemma word_space w tok : ~ In 32 w -> tok <> tok_eof -> forall t, fst (s_word w tok (t ++ [32])) <> tok_eof.
Proof.
  intros N Nt. induction w as [|x w IH]; intros t; cbn [s_word]; [exact Nt|]. destruct t as [|c t]; cbn [app s_next].
  - destruct (Z.eqb_spec 32 x) as [<- | ]; [exfalso; apply N; now left|discriminate].
  - destruct (c =? x); [|discriminate]. apply IH. intros H. apply N. now right.
Qed.

(** * Tokens *)
Lemma lex_complete tok t s : tok_text tok t -> (tok = tok_integer \/ tok = tok_double -> delim s) -> s_lex (t ++ s) = (tok, t ++ s, s).
Proof.
  intros T D. destruct tok; cbn [tok_text] in T; try contradiction.
  - destruct T as [-> | ->]; cbn [app]; rewrite lex_cons; reflexivity.
  - subst t. cbn [app]. rewrite lex_cons. reflexivity.
  - subst t. cbn [app]. rewrite lex_cons. reflexivity.
  - subst t. cbn [app]. rewrite lex_cons. reflexivity.
  - subst t. cbn [app]. rewrite lex_cons. reflexivity.
  - subst t. cbn [app]. rewrite lex_cons. reflexivity.
  - subst t. cbn [app]. rewrite lex_cons. reflexivity.
  - subst t. cbn [app]. rewrite lex_cons. reflexivity.
  - apply lex_number; [apply int_ok; auto|apply number_first; auto].
  - apply lex_number; [apply double_ok; auto|apply number_first; auto].
  - destruct T as (b & -> & Hb & N). cbn [app]. rewrite <- app_assoc. cbn [app]. rewrite lex_cons. change (white 34) with false. change (34 =? 47) with false. cbv iota. change (s_token 34) with (s_string Normal false). destruct (string_ok b Hb false (34 :: s)) as (e & -> & P). cbn [s_string]. change (34 =? 34) with true. cbv iota. destruct e; [exfalso; apply N; destruct (proj1 P eq_refl); [discriminate|assumption]|reflexivity].
  - destruct T as (b & -> & Hb & N). cbn [app]. rewrite <- app_assoc. cbn [app]. rewrite lex_cons. change (white 34) with false. change (34 =? 47) with false. cbv iota. change (s_token 34) with (s_string Normal false). destruct (string_ok b Hb false (34 :: s)) as (e & -> & P). cbn [s_string]. change (34 =? 34) with true. cbv iota. rewrite (proj2 P (or_intror N)). reflexivity.
Qed.
Lemma token_inv c s tok r : s_token c s = (tok, r) -> tok <> tok_eof -> tok <> tok_error -> exists t, c :: s = t ++ r /\ tok_text tok t.
Proof.
  unfold s_token. intros E N1 N2.
  destruct (Z.eqb_spec c 123) as [-> | ]; [injection E as <- <-; exists [123]; split; reflexivity|].
  destruct (Z.eqb_spec c 125) as [-> | ]; [injection E as <- <-; exists [125]; split; reflexivity|].
  destruct (Z.eqb_spec c 91) as [-> | ]; [injection E as <- <-; exists [91]; split; reflexivity|].
  destruct (Z.eqb_spec c 93) as [-> | ]; [injection E as <- <-; exists [93]; split; reflexivity|].
  destruct (Z.eqb_spec c 44) as [-> | ]; [injection E as <- <-; exists [44]; split; reflexivity|].
  destruct (Z.eqb_spec c 58) as [-> | ]; [injection E as <- <-; exists [58]; split; reflexivity|].
  destruct (Z.eqb_spec c 116) as [-> | ]; [destruct (word_inv _ _ _ _ _ E N1 N2) as (-> & ->); exists [116; 114; 117; 101]; split; [reflexivity|now left]|].
  destruct (Z.eqb_spec c 102) as [-> | ]; [destruct (word_inv _ _ _ _ _ E N1 N2) as (-> & ->); exists [102; 97; 108; 115; 101]; split; [reflexivity|now right]|].
  destruct (Z.eqb_spec c 110) as [-> | ]; [destruct (word_inv _ _ _ _ _ E N1 N2) as (-> & ->); exists [110; 117; 108; 108]; split; reflexivity|].
  destruct (Z.eqb_spec c 34) as [-> | ].
  { destruct (string_inv _ _ _ _ E N2) as [(b & e & -> & Hb & -> & P) | (Q & _)]; [|contradiction]. exists (34 :: b ++ [34]). split; [cbn [app]; rewrite <- app_assoc; reflexivity|]. destruct e; exists b; (split; [reflexivity|]; split; [exact Hb|]).
    - destruct (proj1 P eq_refl); [discriminate|assumption].
    - intros H. discriminate (proj2 P (or_intror H)). }
  destruct ((c =? 45) || isdigit c); [|congruence]. destruct (number_inv _ _ _ E N1 N2) as (t & Et & [(-> & H) | (-> & H)]); exists t; auto.
Qed.
Lemma lex_sound s tok st r : s_lex s = (tok, st, r) -> tok <> tok_eof -> tok <> tok_error -> exists w t, s = w ++ t ++ r /\ gap w /\ st = t ++ r /\ tok_text tok t.
Proof.
  intros E N1 N2. pose proof (lex_split s) as H. rewrite E in H. destruct H as (w & -> & G & H). destruct st as [|c s']; [contradiction|]. destruct H as (Wc & H). destruct (Z.eqb_spec c 47) as [-> | ].
  - exfalso. destruct H as (H & Nc). destruct (comment_tok _ _ _ H) as [? | [? | ?]]; contradiction.
  - destruct (token_inv _ _ _ _ H N1 N2) as (t & Et & T). exists w, t. rewrite Et. auto.
Qed.
Lemma gap_app a b : gap a -> gap b -> gap (a ++ b).
Proof. induction 1 as [|c s Hc G IH|t s N G IH|t s N G IH]; intros Gb; cbn [app]; [exact Gb|apply gap_white; auto| |]; rewrite <- app_assoc; cbn [app]; [apply gap_line|apply gap_block]; auto. Qed.
Lemma gap_last x : gap (x ++ [32]) -> gap x.
Proof.
  intros G. remember (x ++ [32]) as y eqn:E. revert x E. induction G as [|c s Hc G IH|t s N G IH|t s N G IH]; intros x E.
  - destruct x; discriminate E.
  - destruct x as [|d x]; [constructor|]. cbn [app] in E. injection E as -> ->. constructor; [exact Hc|]. now apply IH.
  - destruct s as [|d s _] using rev_ind; [exfalso; change (47 :: 47 :: t ++ [10]) with ((47 :: 47 :: t) ++ [10]) in E; apply app_inj_tail in E; destruct E as (_ & E); discriminate E|].
    replace (47 :: 47 :: t ++ 10 :: s ++ [d]) with ((47 :: 47 :: t ++ 10 :: s) ++ [d]) in E by (cbn [app]; rewrite <- app_assoc; reflexivity). apply app_inj_tail in E. destruct E as (<- & ->). apply gap_line; [exact N|]. now apply IH.
  - destruct s as [|d s _] using rev_ind; [exfalso; replace (47 :: 42 :: t ++ [42; 47]) with ((47 :: 42 :: t ++ [42]) ++ [47]) in E by (cbn [app]; rewrite <- app_assoc; reflexivity); apply app_inj_tail in E; destruct E as (_ & E); discriminate E|].
    replace (47 :: 42 :: t ++ 42 :: 47 :: s ++ [d]) with ((47 :: 42 :: t ++ 42 :: 47 :: s) ++ [d]) in E by (cbn [app]; rewrite <- app_assoc; reflexivity). apply app_inj_tail in E. destruct E as (<- & ->). apply gap_block; [exact N|]. now apply IH.
Qed.
Lemma no_end_front a b : no_end (a ++ b) -> no_end a.
Proof. intros H x y E. apply (H x (y ++ b)). rewrite E, <- !app_assoc. reflexivity. Qed.
(** The end: nothing more than a gap and an open comment or string. *)
Lemma lex_open s : fst (fst (s_lex (s ++ [32]))) = tok_eof <-> exists w e, s = w ++ e /\ gap w /\ open_end e.
Proof.
  split.
  - intros E. pose proof (lex_split (s ++ [32])) as H. destruct (s_lex (s ++ [32])) as ((tok, st), r). cbn [fst] in E. subst tok. destruct H as (w & Es & G & H). destruct st as [|c st].
    { rewrite app_nil_r in Es. subst w. exists s, []. rewrite app_nil_r. split; [reflexivity|]. split; [now apply gap_last|constructor]. }
    destruct H as (Wc & H). destruct (exists_last (l := c :: st) ltac:(discriminate)) as (e & x & Ee). rewrite Ee, app_assoc in Es. apply app_inj_tail in Es. destruct Es as (-> & <-). exists w, e. split; [reflexivity|]. split; [exact G|].
    destruct e as [|d e]; [injection Ee as -> ->; discriminate Wc|]. cbn [app] in Ee. injection Ee as <- ->. destruct (Z.eqb_spec c 47) as [-> | N].
    + destruct H as (H & _). unfold s_comment in H. destruct e as [|d e]; cbn [app s_next] in H; [discriminate H|]. destruct (Z.eqb_spec d 47) as [-> | ].
      * constructor. assert (Q : ~ In 10 (e ++ [32])) by (apply line_open; now rewrite H). intros I. apply Q, in_or_app. now left.
      * destruct (Z.eqb_spec d 42) as [-> | ]; [|discriminate H]. constructor. apply (no_end_front e [32]). apply (block_open (e ++ [32]) false). now rewrite H.
    + unfold s_token in H. repeat match type of H with (if ?b then (_, _) else _) = _ => destruct b; [discriminate H|] end.
      destruct (c =? 116); [exfalso; apply (word_space [114; 117; 101] tok_bool ltac:(cbn; lia) ltac:(discriminate) e); now rewrite H|].
      destruct (c =? 102); [exfalso; apply (word_space [97; 108; 115; 101] tok_bool ltac:(cbn; lia) ltac:(discriminate) e); now rewrite H|].
      destruct (c =? 110); [exfalso; apply (word_space [117; 108; 108] tok_null ltac:(cbn; lia) ltac:(discriminate) e); now rewrite H|].
      destruct (Z.eqb_spec c 34) as [-> | ].
      * destruct (string_inv _ _ _ _ H ltac:(discriminate)) as [(b & e' & _ & _ & Q & _) | (_ & Q)]; [destruct e'; discriminate Q|]. constructor. now apply Q.
      * destruct ((c =? 45) || isdigit c); [|discriminate H]. exfalso. apply (number_space (c :: e)). cbn [app]. now rewrite H.
  - intros (w & e & -> & G & O). rewrite <- app_assoc, (lex_gap w _ G). destruct O as [|t N|t N|b Hb]; cbn [app].
    + reflexivity.
    + rewrite lex_cons. change (white 47) with false. change (47 =? 47) with true. cbv iota. unfold s_comment. cbn [s_next]. change (47 =? 47) with true. cbv iota. assert (Q : fst (s_line (t ++ [32])) = tok_eof) by (apply line_open; intros I; apply in_app_or in I; destruct I as [I | [I | []]]; [contradiction|discriminate]). destruct (s_line (t ++ [32])) as (tok, r). cbn [fst] in Q. subst tok. reflexivity.
    + rewrite lex_cons. change (white 47) with false. change (47 =? 47) with true. cbv iota. unfold s_comment. cbn [s_next]. change (42 =? 47) with false. change (42 =? 42) with true. cbv iota. assert (Q : fst (s_block false (t ++ [32])) = tok_eof).
      { apply block_open. split; [|discriminate]. intros x y E. destruct (exists_last (l := [42; 47] ++ y) ltac:(discriminate)) as (y' & z & Ey). rewrite Ey, app_assoc in E. apply app_inj_tail in E. destruct E as (-> & <-). destruct y' as [|p [|q y']]; cbn [app] in Ey; [discriminate Ey|injection Ey as <- Q; discriminate Q|]. injection Ey as <- <- _. now apply (N x y'). }
      destruct (s_block false (t ++ [32])) as (tok, r). cbn [fst] in Q. subst tok. reflexivity.
    + rewrite lex_cons. change (white 34) with false. change (34 =? 47) with false. cbv iota. change (s_token 34) with (s_string Normal false). pose proof (string_open b Hb false) as Q. destruct (s_string Normal false (b ++ [32])) as (tok, r). cbn [fst] in *. exact Q.
Qed.
