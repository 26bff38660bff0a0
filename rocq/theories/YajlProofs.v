(** The lexer of YajlModel.v works on the stream of buffered and new characters; what it does
    with a stream does not depend on how the stream is cut into chunks. *)
From Coq Require Import ZArith List Bool Lia Arith.
From Verif Require Import Base CsvModel JsonModel YajlModel.
Import ListNotations.
Open Scope Z_scope.
#[local] Ltac Zify.zify_post_hook ::= idtac.

(** * The lexer on a stream *)
Definition res := (yajl_tok * list Z)%type.
Definition s_next (s : list Z) (k : Z -> list Z -> res) : res := match s with [] => (tok_eof, []) | c :: s => k c s end.
(** Inside a string: between characters, after a backslash, before [S k] digits, before [S k] continuation bytes. *)
Inductive mode := Normal | Esc | Hex (k : nat) | Cont (k : nat).
Definition hexm (k : nat) := match k with O => Normal | S k => Hex k end.
Definition contm (k : nat) := match k with O => Normal | S k => Cont k end.
Fixpoint s_string (m : mode) (esc : bool) (s : list Z) : res :=
  match s with
  | [] => (tok_eof, [])
  | c :: r =>
      match m with
      | Normal =>
          if c =? 34 then (if esc then tok_string_with_escapes else tok_string, r)
          else if c =? 92 then s_string Esc true r
          else if IJC c then (tok_error, s)
          else if c <=? 127 then s_string Normal esc r
          else if Z.shiftr c 5 =? 6 then s_string (Cont 0) esc r
          else if Z.shiftr c 4 =? 14 then s_string (Cont 1) esc r
          else if Z.shiftr c 3 =? 30 then s_string (Cont 2) esc r
          else (tok_error, r)
      | Esc => if c =? 117 then s_string (Hex 3) esc r else if VEC c then s_string Normal esc r else (tok_error, s)
      | Hex k => if VHC c then s_string (hexm k) esc r else (tok_error, s)
      | Cont k => if Z.shiftr c 6 =? 2 then s_string (contm k) esc r else (tok_error, r)
      end
  end.
Fixpoint s_digits (s : list Z) (k : Z -> list Z -> res) : res :=
  match s with [] => (tok_eof, []) | c :: s => if isdigit c then s_digits s k else k c s end.
Definition s_exponent (tok : yajl_tok) (c : Z) (s : list Z) : res :=
  if (c =? 101) || (c =? 69) then
    s_next s (fun c s =>
      let go c s := if isdigit c then s_digits s (fun c s => (tok_double, c :: s)) else (tok_error, c :: s) in
      if (c =? 43) || (c =? 45) then s_next s go else go c s)
  else (tok, c :: s).
Definition s_fraction (c : Z) (s : list Z) : res :=
  if c =? 46 then s_next s (fun c s => if isdigit c then s_digits s (s_exponent tok_double) else (tok_error, c :: s))
  else s_exponent tok_integer c s.
Definition s_int (c : Z) (s : list Z) : res :=
  if c =? 48 then s_next s s_fraction else if isdigit c then s_digits s s_fraction else (tok_error, c :: s).
Definition s_number (s : list Z) : res := s_next s (fun c s => if c =? 45 then s_next s s_int else s_int c s).
Fixpoint s_line (s : list Z) : res := match s with [] => (tok_eof, []) | c :: s => if c =? 10 then (tok_comment, s) else s_line s end.
Fixpoint s_block (star : bool) (s : list Z) : res :=
  match s with [] => (tok_eof, []) | c :: s => if star && (c =? 47) then (tok_comment, s) else s_block (c =? 42) s end.
Definition s_comment (s : list Z) : res := s_next s (fun c s => if c =? 47 then s_line s else if c =? 42 then s_block false s else (tok_error, s)).
Fixpoint s_word (want : list Z) (tok : yajl_tok) (s : list Z) : res :=
  match want with [] => (tok, s) | w :: want => s_next s (fun c s => if c =? w then s_word want tok s else (tok_error, c :: s)) end.
(** The token that starts with [c], except comments. *)
Definition s_token (c : Z) (s : list Z) : res :=
  if c =? 123 then (tok_left_bracket, s)
  else if c =? 125 then (tok_right_bracket, s)
  else if c =? 91 then (tok_left_brace, s)
  else if c =? 93 then (tok_right_brace, s)
  else if c =? 44 then (tok_comma, s)
  else if c =? 58 then (tok_colon, s)
  else if c =? 116 then s_word [114; 117; 101] tok_bool s
  else if c =? 102 then s_word [97; 108; 115; 101] tok_bool s
  else if c =? 110 then s_word [117; 108; 108] tok_null s
  else if c =? 34 then s_string Normal false s
  else if (c =? 45) || isdigit c then s_number (c :: s)
  else (tok_error, s).
(** Token, the stream at its start and the stream behind it. *)
Fixpoint s_lexf (fuel : nat) (s : list Z) : yajl_tok * list Z * list Z :=
  match fuel, s with
  | O, _ | _, [] => (tok_eof, [], [])
  | S fuel, c :: r =>
      if white c then s_lexf fuel r
      else if c =? 47 then match s_comment r with (tok_comment, r) => s_lexf fuel r | (tok, r) => (tok, s, r) end
      else let (tok, r) := s_token c r in (tok, s, r)
  end.
Definition s_lex (s : list Z) := s_lexf (S (length s)) s.

(** * Properties of the stream functions *)
(** What is left is not longer; a result other than the end stays the same when more follows; after
    an end, more text is needed. *)
Definition good1 (n : nat) (f : list Z -> res) (s : list Z) : Prop :=
  (length (snd (f s)) <= n + length s)%nat /\
  (fst (f s) = tok_eof -> snd (f s) = []) /\
  (forall t, fst (f s) <> tok_eof -> f (s ++ t) = (fst (f s), snd (f s) ++ t)) /\
  (forall t, fst (f s) = tok_eof -> (length (snd (f (s ++ t))) <= length t)%nat).
Definition good (f : list Z -> res) : Prop := forall s, good1 0 f s.
Definition goodk (k : Z -> list Z -> res) : Prop := forall c s, good1 1 (k c) s.

Lemma good_next k : goodk k -> good (fun s => s_next s k).
Proof.
  intros K s. destruct s as [|c s]; cbn [s_next app].
  - unfold good1. cbn [s_next app]. repeat split; cbn [fst snd length]; try lia; try congruence.
    intros t _. destruct t as [|c t]; cbn [s_next snd length]; [lia|]. destruct (K c t) as (A & _). lia.
  - destruct (K c s) as (A & B & C & D). unfold good1. cbn [s_next app length]. repeat split; auto; lia.
Qed.
Lemma good_digits k : goodk k -> good (fun s => s_digits s k).
Proof.
  intros K s. induction s as [|c s IH].
  - unfold good1. cbn [s_digits app fst snd length]. repeat split; try lia; try congruence.
    intros t _. induction t as [|c t IH]; cbn [s_digits snd length]; [lia|]. destruct (isdigit c); [cbn [length]; lia|]. destruct (K c t) as (A & _). lia.
  - unfold good1. cbn [s_digits app]. destruct (isdigit c) eqn:E.
    + destruct IH as (A & B & C & D). repeat split; auto; cbn [length]; lia.
    + destruct (K c s) as (A & B & C & D). repeat split; auto; cbn [length]; lia.
Qed.
Lemma good_k f : (forall c, good (f c)) -> goodk f.
Proof. intros G c s. destruct (G c s) as (A & B & C & D). repeat split; auto; lia. Qed.
Lemma goodk_unread tok : tok <> tok_eof -> goodk (fun c s => (tok, c :: s)).
Proof. intros N c s. unfold good1. cbn [fst snd length app]. repeat split; try lia; try congruence. Qed.
Lemma good_ret tok : tok <> tok_eof -> good (fun s => (tok, s)).
Proof. intros N s. unfold good1. cbn [fst snd length app]. repeat split; try lia; try congruence. Qed.
Lemma goodk_if (p : Z -> bool) f g : goodk f -> goodk g -> goodk (fun c s => if p c then f c s else g c s).
Proof. intros F G c s. specialize (F c s). specialize (G c s). unfold good1 in *. cbv beta in *. destruct (p c); assumption. Qed.
Lemma goodk_exponent tok : tok <> tok_eof -> goodk (s_exponent tok).
Proof.
  intros N. unfold s_exponent. set (go := fun c s => if isdigit c then s_digits s (fun c s => (tok_double, c :: s)) else (tok_error, c :: s)).
  assert (G : goodk go). { apply (goodk_if isdigit (fun c s => s_digits s (fun c s => (tok_double, c :: s)))); [apply good_k; intros _; apply good_digits; now apply goodk_unread|now apply goodk_unread]. }
  apply (goodk_if (fun c => (c =? 101) || (c =? 69)) (fun c s => s_next s _) (fun c s => (tok, c :: s))); [|now apply goodk_unread].
  apply good_k. intros _. apply good_next. apply (goodk_if (fun c => (c =? 43) || (c =? 45)) (fun c s => s_next s go) go); [|exact G]. apply good_k. intros _. now apply good_next.
Qed.
Lemma goodk_fraction : goodk s_fraction.
Proof.
  unfold s_fraction. apply (goodk_if (fun c => c =? 46) (fun c s => s_next s _)); [|now apply goodk_exponent].
  apply good_k. intros _. apply good_next. apply (goodk_if isdigit (fun c s => s_digits s (s_exponent tok_double))); [|now apply goodk_unread].
  apply good_k. intros _. apply good_digits. now apply goodk_exponent.
Qed.
Lemma goodk_int : goodk s_int.
Proof.
  unfold s_int. apply (goodk_if (fun c => c =? 48) (fun c s => s_next s s_fraction)); [apply good_k; intros _; apply good_next, goodk_fraction|].
  apply (goodk_if isdigit (fun c s => s_digits s s_fraction)); [apply good_k; intros _; apply good_digits, goodk_fraction|now apply goodk_unread].
Qed.
Lemma good_word want tok : tok <> tok_eof -> good (s_word want tok).
Proof.
  intros N. induction want as [|w want IH]; cbn [s_word]; [now apply good_ret|].
  apply good_next. apply (goodk_if (fun c => c =? w) (fun c s => s_word want tok s)); [now apply good_k|now apply goodk_unread].
Qed.
Lemma good_line : good s_line.
Proof.
  intros s. induction s as [|c s IH]; unfold good1; cbn [s_line app fst snd length].
  - repeat split; try lia; try congruence. intros t _. induction t as [|c t IH]; cbn [s_line snd length]; [lia|]. destruct (c =? 10); cbn [snd]; lia.
  - destruct (c =? 10); cbn [fst snd]; [repeat split; try lia; congruence|]. destruct IH as (A & B & C & D). repeat split; auto; lia.
Qed.
Lemma block_len s : forall star, (length (snd (s_block star s)) <= length s)%nat.
Proof. induction s as [|c s IH]; intros star; cbn [s_block snd length]; [lia|]. destruct (star && (c =? 47)); cbn [snd]; [lia|]. specialize (IH (c =? 42)). lia. Qed.
Lemma good_block star : good (s_block star).
Proof.
  intros s. revert star. induction s as [|c s IH]; intros star; unfold good1; cbn [s_block app fst snd length].
  - repeat split; try lia; try congruence. intros t _. apply block_len.
  - destruct (star && (c =? 47)); cbn [fst snd]; [repeat split; try lia; congruence|]. destruct (IH (c =? 42)) as (A & B & C & D). repeat split; auto; lia.
Qed.
Lemma good_comment : good s_comment.
Proof.
  unfold s_comment. apply good_next. apply (goodk_if (fun c => c =? 47) (fun c s => s_line s)); [apply good_k; intros _; apply good_line|].
  apply (goodk_if (fun c => c =? 42) (fun c s => s_block false s)); [apply good_k; intros _; apply good_block|apply good_k; intros _; now apply good_ret].
Qed.
Lemma string_len s : forall m esc, (length (snd (s_string m esc s)) <= length s)%nat.
Proof.
  induction s as [|c s IH]; intros m esc; cbn [s_string]; [cbn; lia|].
  destruct m; repeat match goal with |- context [if ?b then _ else _] => destruct b end; cbn [snd length]; try lia;
    match goal with |- context [s_string ?m ?e s] => specialize (IH m e); lia end.
Qed.
Lemma good_string m esc : good (s_string m esc).
Proof.
  intros s. revert m esc. induction s as [|c s IH]; intros m esc; unfold good1.
  - cbn [s_string app fst snd length]. repeat split; try lia; try congruence. intros t _. apply string_len.
  - cbn [s_string app]. assert (G : forall m esc, good1 1 (s_string m esc) s) by (intros m' e'; destruct (IH m' e') as (A & B & C & D); repeat split; auto; lia).
    destruct m; repeat match goal with |- context [if ?b then _ else _] => destruct b end;
      try (match goal with |- context [s_string ?m ?e s] => exact (G m e) end);
      cbn [fst snd length app]; repeat split; try lia; try congruence.
Qed.
Lemma good_token c : good (s_token c).
Proof.
  unfold s_token. repeat match goal with |- context [if ?b then _ else _] => destruct b eqn:? end; try (now apply good_ret); try (now apply good_word); try apply good_string.
  intros s. assert (G : good1 0 (fun s => if c =? 45 then s_next s s_int else s_int c s) s); [|exact G].
  destruct (c =? 45); [apply good_next, goodk_int|]. cbn [orb] in *. unfold s_int. destruct (c =? 48); [apply good_next, goodk_fraction|].
  match goal with H : isdigit c = true |- _ => rewrite H end. apply good_digits, goodk_fraction.
Qed.

(** ** s_lex *)
Lemma lexf_fuel n : forall m s, (length s < n)%nat -> (length s < m)%nat -> s_lexf n s = s_lexf m s.
Proof.
  induction n as [|n IH]; intros [|m] s Hn Hm; try lia. destruct s as [|c s]; cbn [s_lexf]; [reflexivity|]. cbn [length] in *.
  destruct (white c); [apply IH; lia|]. destruct (c =? 47); [|reflexivity]. pose proof (good_comment s) as (A & _). destruct (s_comment s) as (tok & r). cbn [snd] in A.
  destruct tok; try reflexivity. apply IH; lia.
Qed.
Lemma lex_cons c s : s_lex (c :: s) =
  if white c then s_lex s
  else if c =? 47 then match s_comment s with (tok_comment, r) => s_lex r | (tok, r) => (tok, c :: s, r) end
  else let (tok, r) := s_token c s in (tok, c :: s, r).
Proof.
  unfold s_lex. cbn [length]. change (s_lexf (S (S (length s))) (c :: s)) with
   (if white c then s_lexf (S (length s)) s else if c =? 47 then match s_comment s with (tok_comment, r) => s_lexf (S (length s)) r | (tok, r) => (tok, c :: s, r) end
    else let (tok, r) := s_token c s in (tok, c :: s, r)).
  destruct (white c); [reflexivity|]. destruct (c =? 47); [|reflexivity]. pose proof (good_comment s) as (A & _). destruct (s_comment s) as (tok & r). cbn [snd] in A.
  destruct tok; try reflexivity. apply lexf_fuel; lia.
Qed.
Lemma lex_ind (P : list Z -> Prop) : (forall s, (forall r, (length r < length s)%nat -> P r) -> P s) -> forall s, P s.
Proof. intros H. assert (G : forall n s, (length s < n)%nat -> P s) by (induction n; intros s Hs; [lia|apply H; intros r Hr; apply IHn; lia]). intros s. apply (G (S (length s))). lia. Qed.

(** The stream at the start of the token is a part; behind a token is less than before. *)
Lemma lex_len s : match s_lex s with (tok, st, r) => (length st <= length s)%nat /\ (length r <= length st)%nat /\ (tok <> tok_eof -> tok <> tok_error -> (length r < length st)%nat) end.
Proof.
  induction s as [s IH] using lex_ind. destruct s as [|c s]; [cbn; repeat split; try lia; congruence|]. rewrite lex_cons. destruct (white c).
  - specialize (IH s ltac:(cbn; lia)). destruct (s_lex s) as ((tok & st) & r). cbn [length]. intuition lia.
  - destruct (c =? 47).
    + pose proof (good_comment s) as (A & _). destruct (s_comment s) as (tok & r). cbn [snd] in A. destruct tok; try (cbn [length]; intuition lia).
      specialize (IH r ltac:(cbn; lia)). destruct (s_lex r) as ((tok & st) & r2). cbn [length]. intuition lia.
    + destruct (good_token c s) as (A & _). destruct (s_token c s) as (tok & r). cbn [snd length] in *. intuition lia.
Qed.
(** A token stays the same when more text follows; after an end the stream at the start of the
    unfinished token is all that matters. *)
Lemma lex_app s t : match s_lex s with (tok, st, r) =>
  match tok with tok_eof => s_lex (s ++ t) = s_lex (st ++ t) | _ => s_lex (s ++ t) = (tok, st ++ t, r ++ t) end end.
Proof.
  induction s as [s IH] using lex_ind. destruct s as [|c s]; [reflexivity|]. rewrite lex_cons. cbn [app]. rewrite lex_cons. destruct (white c) eqn:Wc.
  - apply IH. cbn; lia.
  - destruct (c =? 47) eqn:E47.
    + destruct (good_comment s) as (A & B & C & D). specialize (C t). destruct (s_comment s) as (tok & r). cbn [fst snd] in *.
      assert (Q : tok = tok_eof \/ tok <> tok_eof) by (destruct tok; (now left) || (right; discriminate)). destruct Q as [-> | Q].
      * cbn [app]. rewrite lex_cons, Wc, E47. reflexivity.
      * rewrite (C Q). destruct tok; try reflexivity; [contradiction|]. apply IH. cbn; lia.
    + destruct (good_token c s) as (A & B & C & D). specialize (C t). destruct (s_token c s) as (tok & r). cbn [fst snd] in *.
      assert (Q : tok = tok_eof \/ tok <> tok_eof) by (destruct tok; (now left) || (right; discriminate)). destruct Q as [-> | Q].
      * cbn [app]. rewrite lex_cons, Wc, E47. reflexivity.
      * rewrite (C Q). destruct tok; try reflexivity. contradiction.
Qed.
(** An unfinished token: [s] is the stream from its start. *)
Definition pending (s : list Z) : Prop := s_lex s = (tok_eof, s, []).
Lemma lex_pending s : match s_lex s with (tok, st, r) => tok = tok_eof -> pending st /\ r = [] end.
Proof.
  induction s as [s IH] using lex_ind. destruct s as [|c s]; [cbn; intros _; split; reflexivity|]. rewrite lex_cons. destruct (white c) eqn:Wc; [apply IH; cbn; lia|].
  destruct (c =? 47) eqn:E47.
  - destruct (good_comment s) as (A & B & _). destruct (s_comment s) as (tok & r) eqn:E. cbn [fst snd] in *. destruct tok; try (intros; discriminate).
    + intros _. rewrite (B eq_refl). split; [|reflexivity]. unfold pending. now rewrite lex_cons, Wc, E47, E, (B eq_refl).
    + apply IH. cbn; lia.
  - destruct (good_token c s) as (A & B & _). destruct (s_token c s) as (tok & r) eqn:E. cbn [fst snd] in *. intros ->. rewrite (B eq_refl). split; [|reflexivity].
    unfold pending. now rewrite lex_cons, Wc, E47, E, (B eq_refl).
Qed.
Lemma pending_nil : pending [].
Proof. reflexivity. Qed.
Lemma pending_cons c s : pending (c :: s) -> white c = false /\ (c =? 47 = true -> fst (s_comment s) = tok_eof) /\ (c =? 47 = false -> fst (s_token c s) = tok_eof).
Proof.
  unfold pending. rewrite lex_cons. destruct (white c).
  - intros H. pose proof (lex_len s) as L. rewrite H in L. cbn [length] in L. lia.
  - intros H. split; [reflexivity|]. destruct (c =? 47).
    + split; [|discriminate]. intros _. destruct (good_comment s) as (A & _). destruct (s_comment s) as (tok & r). cbn [snd] in A. destruct tok; try discriminate; [reflexivity|]. pose proof (lex_len r) as L. rewrite H in L. cbn [length] in L. lia.
    + split; [discriminate|]. intros _. destruct (s_token c s) as (tok & r). cbn [fst]. congruence.
Qed.

(** * The lexer follows the stream *)
Section Sim.
Variable use : bool.
Variable buf txt : list Z.
Hypothesis txt_ne : (0 < length txt)%nat.
Notation readChar := (readChar use buf txt).
Notation next := (next use buf txt).
Definition rest (p : pos) : list Z := (if use then skipn (bo p) buf else []) ++ skipn (off p) txt.
(** The text is read after the buffer. *)
Definition at_pos (p : pos) (s : list Z) : Prop :=
  s = rest p /\ (off p <= length txt)%nat /\ (use = true -> (bo p <= length buf)%nat /\ ((bo p < length buf)%nat -> off p = O)).
Definition sim (r : option (yajl_tok * pos)) (t : res) : Prop := exists p, r = Some (fst t, p) /\ at_pos p (snd t).
Lemma sim_ret tok p s : at_pos p s -> sim (Some (tok, p)) (tok, s).
Proof. intros H. exists p. split; [reflexivity|exact H]. Qed.
Lemma skipn_skipn {A} x : forall y (l : list A), skipn x (skipn y l) = skipn (y + x) l.
Proof. intros y. induction y as [|y IH]; intros l; [reflexivity|]. destruct l as [|a l]; cbn [skipn Nat.add]; [apply skipn_nil|apply IH]. Qed.
Lemma skipn_cons {A} n (l : list A) x : nth_error l n = Some x -> skipn n l = x :: skipn (S n) l.
Proof. revert n. induction l as [|y l IH]; intros [|n]; cbn [nth_error skipn]; try discriminate; [congruence|]. intros H. rewrite (IH _ H). reflexivity. Qed.
Lemma eof_iff p s : at_pos p s -> at_eof txt p = true <-> s = [].
Proof.
  intros (-> & H1 & H2). unfold at_eof, rest. rewrite Nat.leb_le. split.
  - intros H. rewrite (skipn_all2 txt) by lia. rewrite app_nil_r. destruct use; [|reflexivity]. destruct (H2 eq_refl) as (A & B). apply skipn_all2. destruct (Nat.eq_dec (bo p) (length buf)); [lia|]. rewrite B in H by lia. lia.
  - intros H. apply app_eq_nil in H. destruct H as (_ & H). apply (f_equal (@length Z)) in H. rewrite skipn_length in H. cbn in H. lia.
Qed.
Lemma read_at p c s : at_pos p (c :: s) -> exists p', readChar p = Some (c, p') /\ at_pos p' s /\ unreadChar p' = p.
Proof.
  intros (E & H1 & H2). unfold YajlModel.readChar. unfold rest in E. destruct use eqn:U; cbn [andb].
  - destruct (H2 eq_refl) as (A & B). destruct (Nat.ltb_spec (bo p) (length buf)) as [L | L].
    + destruct (nth_error buf (bo p)) as [x|] eqn:N; [|apply nth_error_None in N; lia]. rewrite (skipn_cons _ _ _ N) in E. cbn [app] in E. injection E as <- E.
      exists (Pos (S (bo p)) (off p)). split; [reflexivity|]. specialize (B L). split.
      * unfold at_pos, rest. rewrite U. cbn [bo off]. split; [exact E|]. split; [exact H1|]. intros _. split; [lia|]. intros _. exact B.
      * unfold unreadChar. cbn [bo off]. rewrite B. cbn [Nat.ltb Nat.leb]. destruct p as [x y]. cbn [bo off] in *. subst y. f_equal. lia.
    + rewrite skipn_all2 in E by lia. cbn [app] in E. destruct (nth_error txt (off p)) as [x|] eqn:N.
      * rewrite (skipn_cons _ _ _ N) in E. injection E as <- E. exists (Pos (bo p) (S (off p))). split; [reflexivity|].
        assert ((off p < length txt)%nat) by (apply nth_error_Some; congruence). split.
        -- unfold at_pos, rest. rewrite U. cbn [bo off]. split; [rewrite skipn_all2 by lia; exact E|]. split; [lia|]. intros _. split; [lia|]. lia.
        -- unfold unreadChar. cbn [bo off Nat.ltb Nat.leb]. destruct p as [x y]. cbn [bo off]. f_equal. lia.
      * apply nth_error_None in N. rewrite skipn_all2 in E by lia. discriminate.
  - cbn [app] in E. destruct (nth_error txt (off p)) as [x|] eqn:N.
    + rewrite (skipn_cons _ _ _ N) in E. injection E as <- E. exists (Pos (bo p) (S (off p))). split; [reflexivity|].
      assert ((off p < length txt)%nat) by (apply nth_error_Some; congruence). split.
      * unfold at_pos, rest. rewrite U. cbn [bo off]. split; [exact E|]. split; [lia|]. discriminate.
      * unfold unreadChar. cbn [bo off Nat.ltb Nat.leb]. destruct p as [x y]. cbn [bo off]. f_equal. lia.
    + apply nth_error_None in N. rewrite skipn_all2 in E by lia. discriminate.
Qed.
Lemma sim_next p s k ks : at_pos p s ->
  (forall c r p', s = c :: r -> at_pos p' r -> at_pos (unreadChar p') (c :: r) -> sim (k c p') (ks c r)) -> sim (next p k) (s_next s ks).
Proof.
  intros R H. unfold YajlModel.next. pose proof (eof_iff p s R) as Q. destruct s as [|c s]; cbn [s_next].
  - destruct (at_eof txt p); [now apply sim_ret|]. destruct Q as (_ & Q). discriminate (Q eq_refl).
  - destruct (at_eof txt p); [destruct Q as (Q & _); discriminate (Q eq_refl)|]. destruct (read_at p c s R) as (p' & E & A & B). rewrite E. apply H; [reflexivity|exact A|now rewrite B].
Qed.
(** As [sim_next] with the rest of the stream at hand. *)
Lemma sim_next' p c s k t : at_pos p (c :: s) -> (forall p', at_pos p' s -> at_pos (unreadChar p') (c :: s) -> sim (k c p') t) -> sim (next p k) t.
Proof. intros R H. change t with (s_next (c :: s) (fun _ _ => t)). apply (sim_next p _ k _ R). intros c' r p' E. injection E as <- <-. apply H. Qed.
Lemma sim_next_eof p k : at_pos p [] -> sim (next p k) (tok_eof, []).
Proof. intros R. change (tok_eof, []) with (s_next [] (fun _ _ => (tok_eof, @nil Z))). apply (sim_next p _ k _ R). discriminate. Qed.

Definition again (F : pos -> option (yajl_tok * pos)) (r : option (yajl_tok * pos)) := match r with Some (tok_string, p) => F p | _ => r end.
Lemma sim_hex k : forall p s F, at_pos p s ->
  (forall p' s', at_pos p' s' -> (length s' <= length s)%nat -> sim (F p') (s_string Normal true s')) ->
  sim (again F (lex_hex use buf txt k p)) (s_string (hexm k) true s).
Proof.
  induction k as [|k IH]; intros p s F R H; cbn [lex_hex hexm]; [now apply H|]. destruct s as [|c s].
  - destruct (sim_next_eof p (fun c p => if VHC c then lex_hex use buf txt k p else Some (tok_error, unreadChar p)) R) as (p' & E & A). rewrite E. cbn [fst snd s_string again] in *. now apply sim_ret.
  - unfold YajlModel.next. pose proof (eof_iff p _ R) as Q. destruct (at_eof txt p); [destruct Q as (Q & _); discriminate (Q eq_refl)|].
    destruct (read_at p c s R) as (p' & E & A & B). rewrite E. cbn [s_string]. destruct (VHC c).
    + apply IH; [exact A|]. intros p2 s2 R2 L. apply H; [exact R2|cbn [length]; lia].
    + apply sim_ret. now rewrite B.
Qed.
Lemma sim_cont k : forall p s F esc, at_pos p s ->
  (forall p' s', at_pos p' s' -> (length s' <= length s)%nat -> sim (F p') (s_string Normal esc s')) ->
  sim (again F (continuation use buf txt k p)) (s_string (contm k) esc s).
Proof.
  induction k as [|k IH]; intros p s F esc R H; cbn [continuation contm]; [now apply H|]. destruct s as [|c s].
  - destruct (sim_next_eof p (fun c p => if Z.shiftr c 6 =? 2 then continuation use buf txt k p else Some (tok_error, p)) R) as (p' & E & A). rewrite E. cbn [fst snd s_string again] in *. now apply sim_ret.
  - unfold YajlModel.next. pose proof (eof_iff p _ R) as Q. destruct (at_eof txt p); [destruct Q as (Q & _); discriminate (Q eq_refl)|].
    destruct (read_at p c s R) as (p' & E & A & B). rewrite E. cbn [s_string]. destruct (Z.shiftr c 6 =? 2).
    + apply IH; [exact A|]. intros p2 s2 R2 L. apply H; [exact R2|cbn [length]; lia].
    + now apply sim_ret.
Qed.
Lemma scan_split s : Forall (fun c => plain c = true) (firstn (yajl_string_scan s) s) /\ (yajl_string_scan s <= length s)%nat.
Proof. induction s as [|c s (IH & L)]; cbn [yajl_string_scan firstn length]; [split; [constructor|lia]|]. destruct (plain c) eqn:E; cbn [firstn]; split; try (constructor; assumption); try lia. Qed.
Lemma string_plain a s esc : Forall (fun c => plain c = true) a -> s_string Normal esc (a ++ s) = s_string Normal esc s.
Proof.
  induction a as [|c a IH]; intros F; [reflexivity|]. inversion F as [|? ? Hc Fa]; subst. cbn [app s_string]. unfold plain in Hc. apply andb_prop in Hc. destruct Hc as (H1 & H2). apply negb_true_iff in H1. pose proof H1 as H3. unfold IJC in H1.
  apply orb_false_iff in H1. destruct H1 as (H1 & H4). apply orb_false_iff in H1. destruct H1 as (H1 & H5). rewrite H5, H4, H3. apply Z.ltb_lt in H2. destruct (Z.leb_spec c 127); [now apply IH|lia].
Qed.
Lemma jump_at p s : at_pos p s -> exists a s', s = a ++ s' /\ Forall (fun c => plain c = true) a /\ at_pos (jump use buf txt p) s'.
Proof.
  intros (E & H1 & H2). unfold jump. unfold rest in E. destruct (use && (bo p <? length buf)%nat) eqn:U.
  - apply andb_prop in U. destruct U as (U & L). apply Nat.ltb_lt in L. rewrite U in *. destruct (H2 eq_refl) as (A & B). specialize (B L).
    destruct (scan_split (skipn (bo p) buf)) as (F & Ls). set (n := yajl_string_scan (skipn (bo p) buf)) in *. exists (firstn n (skipn (bo p) buf)), (skipn n (skipn (bo p) buf) ++ skipn (off p) txt).
    split; [rewrite app_assoc, firstn_skipn; exact E|]. split; [exact F|]. rewrite skipn_length in Ls. unfold at_pos, rest. rewrite U. cbn [bo off]. split; [now rewrite skipn_skipn|]. split; [exact H1|]. intros _. split; [lia|]. intros _. exact B.
  - destruct (Nat.ltb_spec (off p) (length txt)) as [L | L].
    + destruct (scan_split (skipn (off p) txt)) as (F & Ls). set (n := yajl_string_scan (skipn (off p) txt)) in *. rewrite skipn_length in Ls.
      assert (E' : s = skipn (off p) txt). { rewrite E. destruct use; [|reflexivity]. cbn [andb] in U. apply Nat.ltb_ge in U. now rewrite skipn_all2 by lia. }
      exists (firstn n (skipn (off p) txt)), (skipn n (skipn (off p) txt)). split; [now rewrite firstn_skipn|]. split; [exact F|]. unfold at_pos, rest. cbn [bo off]. split; [|split; [lia|]].
      * rewrite skipn_skipn. destruct use; [|reflexivity]. cbn [andb] in U. apply Nat.ltb_ge in U. rewrite (skipn_all2 buf) by lia. reflexivity.
      * intros ->. cbn [andb] in U. apply Nat.ltb_ge in U. destruct (H2 eq_refl). split; lia.
    + exists [], s. split; [reflexivity|]. split; [constructor|]. split; [exact E|]. split; [exact H1|exact H2].
Qed.
Lemma sim_string n : forall p s esc, at_pos p s -> (length s < n)%nat -> sim (yajl_lex_string use buf txt n esc p) (s_string Normal esc s).
Proof.
  induction n as [|n IH]; intros p s esc R L; [lia|]. cbn [yajl_lex_string]. destruct (jump_at p s R) as (a & s' & -> & Fa & R'). rewrite (string_plain a s' esc Fa). rewrite app_length in L.
  destruct s' as [|c s']; [now apply sim_next_eof|]. cbn [length] in L. apply (sim_next' _ c s' _ _ R'). intros p1 A B. cbn [s_string]. destruct (c =? 34); [now apply sim_ret|]. destruct (c =? 92).
  - destruct s' as [|d s']; [now apply sim_next_eof|]. cbn [length] in L. apply (sim_next' _ d s' _ _ A). intros p2 A2 B2. cbn [s_string]. destruct (d =? 117).
    + apply (sim_hex 4 p2 s' (fun p => yajl_lex_string use buf txt n true p) A2). intros p' s2 R2 L2. apply IH; [exact R2|lia].
    + destruct (VEC d); [apply IH; [exact A2|lia]|]. now apply sim_ret.
  - destruct (IJC c); [now apply sim_ret|]. unfold yajl_lex_utf8_char. destruct (c <=? 127); [apply IH; [exact A|lia]|].
    assert (G : forall k, sim (again (yajl_lex_string use buf txt n esc) (continuation use buf txt k p1)) (s_string (contm k) esc s')).
    { intros k. apply (sim_cont k p1 s' (fun p => yajl_lex_string use buf txt n esc p) esc A). intros p' s2 R2 L2. apply IH; [exact R2|lia]. }
    destruct (Z.shiftr c 5 =? 6); [apply (G 1%nat)|]. destruct (Z.shiftr c 4 =? 14); [apply (G 2%nat)|]. destruct (Z.shiftr c 3 =? 30); [apply (G 3%nat)|]. now apply sim_ret.
Qed.
Definition simk (N : nat) (k : Z -> pos -> option (yajl_tok * pos)) (ks : Z -> list Z -> res) : Prop :=
  forall c p s, (length s < N)%nat -> at_pos p s -> at_pos (unreadChar p) (c :: s) -> sim (k c p) (ks c s).
Lemma sim_digits N k ks n : forall p s, simk N k ks -> at_pos p s -> (length s < n)%nat -> (length s <= N)%nat -> sim (lex_digits use buf txt n p k) (s_digits s ks).
Proof.
  induction n as [|n IH]; intros p s K R L L'; [lia|]. cbn [lex_digits]. destruct s as [|c s]; [now apply sim_next_eof|]. cbn [length] in *. apply (sim_next' _ c s _ _ R). intros p1 A B. cbn [s_digits]. destruct (isdigit c).
  - apply IH; auto; lia.
  - apply K; auto.
Qed.
Lemma sim_exponent N n tok : (N <= n)%nat -> simk N (lex_exponent use buf txt n tok) (s_exponent tok).
Proof.
  intros Hn c p s L R U. unfold lex_exponent, s_exponent. destruct ((c =? 101) || (c =? 69)); [|now apply sim_ret].
  assert (G : forall d p s, (length s < N)%nat -> at_pos p s -> at_pos (unreadChar p) (d :: s) -> sim (if isdigit d then lex_digits use buf txt n p (fun _ p => Some (tok_double, unreadChar p)) else Some (tok_error, unreadChar p))
    (if isdigit d then s_digits s (fun c s => (tok_double, c :: s)) else (tok_error, d :: s))).
  { intros d p' s' L' R' U'. destruct (isdigit d); [|now apply sim_ret]. apply (sim_digits N); [|exact R'|lia|lia]. intros d2 p2 s2 L2 R2 U2. now apply sim_ret. }
  apply (sim_next _ _ _ _ R). intros d r p' -> A B. cbn [length] in L. destruct ((d =? 43) || (d =? 45)); [|apply G; auto; lia].
  apply (sim_next _ _ _ _ A). intros d2 r2 p2 -> A2 B2. cbn [length] in L. apply G; auto; lia.
Qed.
Lemma sim_fraction N n : (N <= n)%nat -> simk N (lex_fraction use buf txt n) s_fraction.
Proof.
  intros Hn c p s L R U. unfold lex_fraction, s_fraction. destruct (c =? 46); [|now apply (sim_exponent N)].
  apply (sim_next _ _ _ _ R). intros d r p' -> A B. cbn [length] in L. destruct (isdigit d); [|now apply sim_ret]. apply (sim_digits N); [now apply sim_exponent|exact A|lia|lia].
Qed.
Lemma sim_number n p s : at_pos p s -> (length s <= n)%nat -> sim (yajl_lex_number use buf txt n p) (s_number s).
Proof.
  intros R L. unfold yajl_lex_number, s_number.
  assert (G : simk (length s) (fun c p => if c =? 48 then next p (lex_fraction use buf txt n) else if isdigit c then lex_digits use buf txt n p (lex_fraction use buf txt n) else Some (tok_error, unreadChar p)) s_int).
  { intros c p' s' L' A B. unfold s_int. destruct (c =? 48).
    - apply (sim_next _ _ _ _ A). intros d r p2 -> A2 B2. cbn [length] in L'. apply (sim_fraction (length s)); auto; lia.
    - destruct (isdigit c); [|now apply sim_ret]. apply (sim_digits (length s)); [now apply sim_fraction|exact A|lia|lia]. }
  apply (sim_next _ _ _ _ R). intros c r p' -> A B. cbn [length] in *. destruct (c =? 45); [|apply G; auto; lia]. apply (sim_next _ _ _ _ A). intros d r2 p2 -> A2 B2. cbn [length] in *. apply G; auto; cbn [length]; lia.
Qed.
Lemma sim_line n : forall p s, at_pos p s -> (length s < n)%nat -> sim (lex_line use buf txt n p) (s_line s).
Proof.
  induction n as [|n IH]; intros p s R L; [lia|]. cbn [lex_line]. destruct s as [|c s]; [now apply sim_next_eof|]. cbn [length] in *. apply (sim_next' _ c s _ _ R). intros p1 A B. cbn [s_line]. destruct (c =? 10); [now apply sim_ret|]. apply IH; [exact A|lia].
Qed.
Lemma sim_block n : forall p s, at_pos p s -> (length s < n)%nat -> sim (lex_block use buf txt n p) (s_block false s).
Proof.
  induction n as [|n IH]; intros p s R L; [lia|]. cbn [lex_block]. destruct s as [|c s]; [now apply sim_next_eof|]. cbn [length] in *. apply (sim_next' _ c s _ _ R). intros p1 A B. cbn [s_block andb]. destruct (c =? 42) eqn:E.
  - destruct s as [|d s]; [now apply sim_next_eof|]. cbn [length] in *. apply (sim_next' _ d s _ _ A). intros p2 A2 B2. cbn [s_block andb]. destruct (d =? 47) eqn:E2; [now apply sim_ret|].
    specialize (IH _ _ B2 ltac:(cbn [length]; lia)). cbn [s_block andb] in IH. exact IH.
  - apply IH; [exact A|lia].
Qed.
Lemma sim_comment n p s : at_pos p s -> (length s < n)%nat -> sim (yajl_lex_comment use buf txt n p) (s_comment s).
Proof.
  intros R L. unfold yajl_lex_comment, s_comment. apply (sim_next _ _ _ _ R). intros c r p' -> A B. cbn [length] in *. destruct (c =? 47); [apply sim_line; [exact A|lia]|]. destruct (c =? 42); [apply sim_block; [exact A|lia]|now apply sim_ret].
Qed.
Lemma sim_word want tok : forall p s, at_pos p s -> sim (lex_word use buf txt want tok p) (s_word want tok s).
Proof.
  induction want as [|w want IH]; intros p s R; cbn [lex_word s_word]; [now apply sim_ret|]. apply (sim_next _ _ _ _ R). intros c r p' -> A B. destruct (c =? w); [now apply IH|now apply sim_ret].
Qed.
(** The characters not yet read are not more than all. *)
Lemma at_len p s : at_pos p s -> (length s <= (if use then length buf else 0) + length txt)%nat.
Proof. intros (-> & _). unfold rest. rewrite app_length, skipn_length. destruct use; rewrite ?skipn_length; cbn [length]; lia. Qed.
End Sim.
Definition eb (lx : lexer) : list Z := if l_use lx then l_buf lx else [].
(** The position [start] of the token being read. *)
Definition head (lx : lexer) (txt : list Z) (start : nat) (p : pos) (s : list Z) : Prop :=
  at_pos (l_use lx) (l_buf lx) txt p s /\
  (eb lx = [] /\ start = off p \/ eb lx <> [] /\ pending (eb lx) /\ bo p = O /\ off p = O /\ start = O).
Definition done (lx : lexer) (txt : list Z) (start : nat) (p : pos) (st r : list Z) : Prop :=
  r = skipn (off p) txt /\ (start <= off p <= length txt)%nat /\ st = eb lx ++ skipn start txt.
Lemma head_stream lx txt start p s : head lx txt start p s -> s = eb lx ++ skipn start txt.
Proof.
  intros ((-> & H1 & H2) & H). unfold rest, eb in *. destruct H as [(E & ->) | (N & _ & B & O & ->)].
  - destruct (l_use lx); [|reflexivity]. rewrite E. now rewrite skipn_nil.
  - rewrite B, O. destruct (l_use lx); reflexivity.
Qed.
(** A token started in the buffer ends in the text. *)
Lemma done_at lx txt start p s p' r : head lx txt start p s -> at_pos (l_use lx) (l_buf lx) txt p' r -> (length r <= length s)%nat ->
  (eb lx <> [] -> (length r <= length txt)%nat) -> done lx txt start p' s r.
Proof.
  intros Hd R L L'. pose proof (head_stream _ _ _ _ _ Hd) as E. destruct Hd as (R0 & Hd). destruct R as (-> & H1 & H2).
  assert (Er : rest (l_use lx) (l_buf lx) txt p' = skipn (off p') txt).
  { unfold rest, eb in *. destruct (l_use lx); [|reflexivity]. destruct (H2 eq_refl) as (A & B). destruct Hd as [(N & _) | (N & _)]; [now rewrite N, skipn_nil|]. specialize (L' N). rewrite app_length, !skipn_length in L'.
    destruct (Nat.eq_dec (bo p') (length (l_buf lx))); [rewrite skipn_all2 by lia; reflexivity|]. rewrite B in L' by lia. lia. }
  rewrite Er in L |- *. split; [reflexivity|]. split; [|exact E]. split; [|exact H1]. destruct Hd as [(N & ->) | (_ & _ & _ & _ & ->)]; [|lia].
  rewrite E, N in L. cbn [app] in L. rewrite !skipn_length in L. destruct R0 as (_ & R0 & _). lia.
Qed.
Lemma loop_sim txt : (0 < length txt)%nat -> forall n lx start p s, (length s < n)%nat -> head lx txt start p s ->
  match s_lex s with (tok, st, r) => exists lx' start' p', lex_loop n lx txt start p = Some (tok, lx', start', p') /\ done lx' txt start' p' st r end.
Proof.
  intros T. induction n as [|n IH]; intros lx start p s L Hd; [lia|]. cbn [lex_loop]. pose proof Hd as (R & Hs). pose proof (eof_iff _ _ _ T _ _ R) as Q. destruct s as [|c s].
  - destruct (at_eof txt p); [|destruct Q as (_ & Q); discriminate (Q eq_refl)]. cbn. exists lx, start, p. split; [reflexivity|]. apply (done_at lx txt start p [] p [] Hd R); cbn [length]; lia.
  - destruct (at_eof txt p); [destruct Q as (Q & _); discriminate (Q eq_refl)|]. destruct (read_at _ _ _ T _ _ _ R) as (p1 & E & A & B). rewrite E. cbn [length] in L.
    pose proof (at_len _ _ _ T _ _ A) as La. set (N := S (length (l_buf lx) + length txt)). assert (LN : (length s < N)%nat) by (unfold N; destruct (l_use lx); lia). clearbody N. clear La.
    pose proof (head_stream _ _ _ _ _ Hd) as Es.
    (* Text that follows an unfinished token. *)
    assert (Sp : eb lx <> [] -> white c = false /\ (c =? 47 = true -> (length (snd (s_comment s)) <= length txt)%nat) /\ (c =? 47 = false -> (length (snd (s_token c s)) <= length txt)%nat)).
    { intros Ne. destruct Hs as [(Hs & _) | (_ & P & _ & _ & ->)]; [contradiction|]. destruct (eb lx) as [|c' b]; [contradiction|]. cbn [app skipn] in Es. injection Es as -> ->. destruct (pending_cons _ _ P) as (P1 & P2 & P3). split; [exact P1|]. split.
      - intros H. destruct (good_comment b) as (_ & _ & _ & G). apply G. auto.
      - intros H. destruct (good_token c' b) as (_ & _ & _ & G). apply G. auto. }
    rewrite lex_cons.
    assert (Fin : forall t, sim (l_use lx) (l_buf lx) txt t (s_token c s) -> c =? 47 = false ->
      match (let (tok, r) := s_token c s in (tok, c :: s, r)) with (tok, st, r) => exists lx' start' p', match t with None => None | Some (tok, p) => Some (tok, lx, start, p) end = Some (tok, lx', start', p') /\ done lx' txt start' p' st r end).
    { intros t (p' & -> & R') H. pose proof (good_token c s) as (G & _). destruct (s_token c s) as (tok, r) eqn:Et. cbn [fst snd] in *. exists lx, start, p'. split; [reflexivity|]. apply (done_at lx txt start p _ p' r Hd R'); [cbn [length]; lia|]. intros Ne. now apply Sp. }
    assert (Tok : forall tok, s_token c s = (tok, s) -> c =? 47 = false -> match (let (tok, r) := s_token c s in (tok, c :: s, r)) with (tok', st, r) => exists lx' start' p', Some (tok, lx, start, p1) = Some (tok', lx', start', p') /\ done lx' txt start' p' st r end).
    { intros tok Et H. apply (Fin (Some (tok, p1))); [rewrite Et; now apply sim_ret|exact H]. }
    assert (W : forall x, c =? x = true -> white c = white x) by (intros x H; apply Z.eqb_eq in H; now subst). assert (C47 : forall x, c =? x = true -> (c =? 47) = (x =? 47)) by (intros x H; apply Z.eqb_eq in H; now subst).
    assert (Tk : s_token c s = s_token c s) by reflexivity. unfold s_token in Tk at 2.
    Ltac simple_tok W C47 Tok Tk H := rewrite (W _ H), (C47 _ H); cbn; apply Tok; [exact Tk|rewrite (C47 _ H); reflexivity].
    destruct (c =? 123) eqn:H1; [simple_tok W C47 Tok Tk H1|]. destruct (c =? 125) eqn:H2; [simple_tok W C47 Tok Tk H2|]. destruct (c =? 91) eqn:H3; [simple_tok W C47 Tok Tk H3|].
    destruct (c =? 93) eqn:H4; [simple_tok W C47 Tok Tk H4|]. destruct (c =? 44) eqn:H5; [simple_tok W C47 Tok Tk H5|]. destruct (c =? 58) eqn:H6; [simple_tok W C47 Tok Tk H6|].
    destruct (white c) eqn:Wc.
    + assert (Ee : eb lx = []). { destruct (eb lx) eqn:Ee; [reflexivity|]. destruct Sp as (X & _); [discriminate|]. congruence. }
      apply IH; [lia|]. split; [exact A|]. left. split; [exact Ee|]. destruct Hs as [(_ & ->) | (Ne & _)]; [|congruence]. rewrite <- B. unfold unreadChar. destruct (Nat.ltb_spec 0 (off p1)); cbn [off]; [lia|]. exfalso.
      destruct A as (A & A1 & A2). destruct R as (R & R1 & R2). unfold rest, eb in *. rewrite <- B in R. unfold unreadChar in R. destruct (Nat.ltb_spec 0 (off p1)); [lia|]. cbn [bo off] in R. apply (f_equal (@length Z)) in A. apply (f_equal (@length Z)) in R. destruct (l_use lx); [rewrite Ee in *; rewrite !skipn_nil in *|]; cbn [app length] in *; lia.
    + destruct (c =? 47) eqn:H47.
      * assert (C : forall x, x <> 47 -> c =? x = false) by (intros x Hx; apply Z.eqb_eq in H47; subst c; apply Z.eqb_neq; lia).
        rewrite !C by lia. cbn [orb]. assert (isdigit c = false) as -> by (apply Z.eqb_eq in H47; subst c; reflexivity).
        destruct (sim_comment _ _ _ T N p1 s A LN) as (p2 & Ec & R2). rewrite Ec. pose proof (good_comment s) as (G & _).
        assert (Dn : done lx txt start p2 (c :: s) (snd (s_comment s))). { apply (done_at lx txt start p _ p2 _ Hd R2); [cbn [length]; lia|]. intros Ne. now apply Sp. }
        destruct (s_comment s) as (tok, r). cbn [fst snd] in *.
        destruct tok; try (exists lx, start, p2; split; [reflexivity|exact Dn]).
        apply IH; [lia|]. destruct Dn as (D1 & D2 & D3). split; [|left; split; reflexivity]. cbn [l_use l_buf]. unfold at_pos, rest. split; [exact D1|]. split; [lia|discriminate].
      * destruct (c =? 116); [apply Fin; [rewrite Tk; now apply sim_word|reflexivity]|]. destruct (c =? 102); [apply Fin; [rewrite Tk; now apply sim_word|reflexivity]|]. destruct (c =? 110); [apply Fin; [rewrite Tk; now apply sim_word|reflexivity]|].
        destruct (c =? 34); [apply Fin; [rewrite Tk; now apply sim_string|reflexivity]|].
        destruct ((c =? 45) || isdigit c); [apply Fin; [rewrite Tk; apply sim_number; [exact T|now rewrite B|cbn [length]; lia]|reflexivity]|].
        apply Tok; [exact Tk|reflexivity].
Qed.

(** The lexer between two calls. *)
Definition lexer_ok (lx : lexer) : Prop := l_use lx = true -> l_off lx = O /\ pending (l_buf lx).
Lemma lex_spec lx txt offset : (0 < length txt)%nat -> (offset <= length txt)%nat -> lexer_ok lx -> (eb lx <> [] -> offset = O) ->
  match s_lex (eb lx ++ skipn offset txt) with (tok, st, r) =>
    match tok with
    | tok_eof => yajl_lex_lex lx txt offset = Some (tok_eof, [], Lexer st true 0, length txt)
    | _ => exists lx' o, yajl_lex_lex lx txt offset = Some (tok, firstn (length st - length r) st, lx', o) /\ l_use lx' = false /\ (o <= length txt)%nat /\ r = skipn o txt
    end end.
Proof.
  intros T Ho Ok Hz. unfold yajl_lex_lex. set (s := eb lx ++ skipn offset txt).
  assert (Hd : head lx txt offset (Pos (l_off lx) offset) s).
  { unfold s, head, at_pos, rest, eb in *. cbn [bo off]. split; [split; [|split; [exact Ho|]]|].
    - destruct (l_use lx) eqn:U; [|reflexivity]. destruct (Ok U) as (-> & _). reflexivity.
    - intros U. destruct (Ok U) as (-> & _). split; [lia|]. intros H. apply Hz. rewrite U. destruct (l_buf lx); [cbn in H; lia|discriminate].
    - destruct (l_use lx) eqn:U; [|left; auto]. destruct (Ok U) as (-> & P). destruct (l_buf lx) eqn:Eb; [left; auto|]. right. rewrite Hz by discriminate. repeat split; [discriminate|exact P]. }
  assert (L : (length s < S (length (l_buf lx) + length txt))%nat) by (unfold s, eb; rewrite app_length, skipn_length; destruct (l_use lx); cbn [length]; lia).
  pose proof (loop_sim txt T _ lx offset _ s L Hd) as H. pose proof (lex_pending s) as Pn. destruct (s_lex s) as ((tok, st), r). destruct H as (lx' & start & p & E & (Er & (D1 & D2) & Es)). rewrite E.
  destruct (Nat.ltb_spec (off p) start); [lia|].
  assert (Out : eb lx' ++ firstn (off p - start) (skipn start txt) = firstn (length st - length r) st).
  { rewrite Es, Er, app_length, !skipn_length. replace (length (eb lx') + (length txt - start) - (length txt - off p))%nat with (length (eb lx') + (off p - start))%nat by lia. now rewrite firstn_app_2. }
  assert (NE : tok <> tok_eof -> exists lx0 o, (if l_use lx' then Some (tok, l_buf lx' ++ firstn (off p - start) (skipn start txt), Lexer (l_buf lx' ++ firstn (off p - start) (skipn start txt)) false 0, off p) else Some (tok, firstn (off p - start) (skipn start txt), Lexer (l_buf lx') false (bo p), off p)) = Some (tok, firstn (length st - length r) st, lx0, o) /\ l_use lx0 = false /\ (o <= length txt)%nat /\ r = skipn o txt).
  { intros _. unfold eb in Out. destruct (l_use lx') eqn:U.
    - rewrite Out. eexists _, _. split; [reflexivity|]. auto.
    - cbn [app] in Out. rewrite Out. eexists _, _. split; [reflexivity|]. auto. }
  destruct tok; try (apply NE; discriminate). destruct (Pn eq_refl) as (_ & Rn). assert (Eo : off p = length txt). { rewrite Er in Rn. apply (f_equal (@length Z)) in Rn. rewrite skipn_length in Rn. cbn in Rn. lia. }
  f_equal. f_equal; [|exact Eo]. f_equal. f_equal. fold (eb lx'). rewrite Out, Rn. cbn [length]. rewrite Nat.sub_0_r. apply firstn_all.
Qed.
Lemma lex_nothing lx offset : yajl_lex_lex lx [] offset = Some (tok_eof, [], Lexer (eb lx) true 0, offset).
Proof. unfold yajl_lex_lex. cbn [lex_loop length]. rewrite Nat.add_0_r. cbn [lex_loop]. unfold at_eof. cbn [length off Nat.leb]. rewrite Nat.ltb_irrefl, Nat.sub_diag. cbn [firstn]. now rewrite app_nil_r. Qed.
