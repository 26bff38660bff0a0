(** No text leads the parser into undefined behaviour, apart from escaped surrogates and long
    numbers. *)
From Coq Require Import ZArith List Bool Lia Arith.
From Verif Require Import Base CsvModel CsvProofs JsonModel YajlModel YajlProofs YajlParse YajlText.
Import ListNotations.
Open Scope Z_scope.
#[local] Ltac Zify.zify_post_hook ::= idtac.

(** * What is left of a stream is its end *)
Definition suffix (r s : list Z) : Prop := exists a, s = a ++ r.
Lemma sfx_refl s : suffix s s. Proof. now exists []. Qed.
Lemma sfx_cons c r s : suffix r s -> suffix r (c :: s). Proof. intros (a & ->). now exists (c :: a). Qed.
Lemma sfx_trans a b c : suffix a b -> suffix b c -> suffix a c.
Proof. intros (x & ->) (y & ->). exists (y ++ x). now rewrite app_assoc. Qed.
Lemma sfx_nil s : suffix [] s. Proof. exists s. now rewrite app_nil_r. Qed.
Lemma sfx_digits k : (forall c s, suffix (snd (k c s)) (c :: s)) -> forall s, suffix (snd (s_digits s k)) s.
Proof. intros K. induction s as [|c s IH]; cbn [s_digits]; [apply sfx_nil|]. destruct (isdigit c); [now apply sfx_cons|apply K]. Qed.
Lemma sfx_next k : (forall c s, suffix (snd (k c s)) (c :: s)) -> forall s, suffix (snd (s_next s k)) s.
Proof. intros K [|c s]; [apply sfx_nil|apply K]. Qed.
Lemma sfx_exponent tok c s : suffix (snd (s_exponent tok c s)) (c :: s).
Proof.
  unfold s_exponent. destruct ((c =? 101) || (c =? 69)); [|apply sfx_refl]. apply sfx_cons.
  assert (G : forall c s, suffix (snd (if isdigit c then s_digits s (fun c s => (tok_double, c :: s)) else (tok_error, c :: s))) (c :: s)).
  { intros d r. destruct (isdigit d); [|apply sfx_refl]. apply sfx_cons, sfx_digits. intros. apply sfx_refl. }
  apply sfx_next. intros d r. destruct ((d =? 43) || (d =? 45)); [apply sfx_cons, sfx_next; apply G|apply G].
Qed.
Lemma sfx_fraction c s : suffix (snd (s_fraction c s)) (c :: s).
Proof. unfold s_fraction. destruct (c =? 46); [|apply sfx_exponent]. apply sfx_cons, sfx_next. intros d r. destruct (isdigit d); [apply sfx_cons, sfx_digits, sfx_exponent|apply sfx_refl]. Qed.
Lemma sfx_int c s : suffix (snd (s_int c s)) (c :: s).
Proof. unfold s_int. destruct (c =? 48); [apply sfx_cons, sfx_next, sfx_fraction|]. destruct (isdigit c); [apply sfx_cons, sfx_digits, sfx_fraction|apply sfx_refl]. Qed.
Lemma sfx_number s : suffix (snd (s_number s)) s.
Proof. unfold s_number. apply sfx_next. intros c r. destruct (c =? 45); [apply sfx_cons, sfx_next, sfx_int|apply sfx_int]. Qed.
Lemma sfx_line s : suffix (snd (s_line s)) s.
Proof. induction s as [|c s IH]; cbn [s_line]; [apply sfx_nil|]. destruct (c =? 10); [apply sfx_cons, sfx_refl|now apply sfx_cons]. Qed.
Lemma sfx_block s : forall b, suffix (snd (s_block b s)) s.
Proof. induction s as [|c s IH]; intros b; cbn [s_block]; [apply sfx_nil|]. destruct (b && (c =? 47)); [apply sfx_cons, sfx_refl|apply sfx_cons, IH]. Qed.
Lemma sfx_comment s : suffix (snd (s_comment s)) s.
Proof. unfold s_comment. apply sfx_next. intros c r. destruct (c =? 47); [apply sfx_cons, sfx_line|]. destruct (c =? 42); [apply sfx_cons, sfx_block|apply sfx_cons, sfx_refl]. Qed.
Lemma sfx_word w tok : forall s, suffix (snd (s_word w tok s)) s.
Proof. induction w as [|x w IH]; intros s; cbn [s_word]; [apply sfx_refl|]. apply sfx_next. intros c r. destruct (c =? x); [apply sfx_cons, IH|apply sfx_refl]. Qed.
Lemma sfx_string s : forall m esc, suffix (snd (s_string m esc s)) s.
Proof.
  induction s as [|c s IH]; intros m esc; cbn [s_string]; [apply sfx_nil|].
  destruct m; repeat match goal with |- context [if ?b then _ else _] => destruct b end; cbn [snd]; try apply sfx_refl; try (apply sfx_cons, sfx_refl); apply sfx_cons, IH.
Qed.
Lemma sfx_token c s : suffix (snd (s_token c s)) (c :: s).
Proof.
  unfold s_token. repeat match goal with |- context [if ?b then _ else _] => destruct b end; cbn [snd]; try (apply sfx_cons, sfx_refl); try (apply sfx_cons, sfx_word); try (apply sfx_cons, sfx_string). apply sfx_number.
Qed.
Lemma sfx_lex s : match s_lex s with (_, st, r) => suffix st s /\ suffix r st end.
Proof.
  induction s as [s IH] using lex_ind. destruct s as [|c s]; [cbn; split; apply sfx_nil|]. rewrite lex_cons. destruct (white c).
  { specialize (IH s ltac:(cbn; lia)). destruct (s_lex s) as ((tok, st), r). destruct IH. split; [now apply sfx_cons|assumption]. }
  destruct (c =? 47).
  - pose proof (sfx_comment s) as S. pose proof (good_comment s) as (L & _). destruct (s_comment s) as (tok, r). cbn [snd] in *.
    assert (suffix (c :: s) (c :: s) /\ suffix r (c :: s)) by (split; [apply sfx_refl|now apply sfx_cons]). destruct tok; try assumption.
    specialize (IH r ltac:(cbn in *; lia)). destruct (s_lex r) as ((tok, st), r'). destruct IH. split; [|assumption]. eapply sfx_trans; [eassumption|]. now apply sfx_cons.
  - pose proof (sfx_token c s) as S. destruct (s_token c s) as (tok, r). cbn [snd] in *. split; [apply sfx_refl|exact S].
Qed.

(** * Strings *)
(** The text of a string that the lexer has accepted, read in a mode. *)
Inductive lexed : mode -> list Z -> Prop :=
| lx_nil : lexed Normal []
| lx_char c m s : c <> 34 -> c <> 92 -> (m = Normal \/ exists k, m = Cont k) -> lexed m s -> lexed Normal (c :: s)
| lx_esc s : lexed Esc s -> lexed Normal (92 :: s)
| lx_u s : lexed (Hex 3) s -> lexed Esc (117 :: s)
| lx_vec c s : VEC c = true -> lexed Normal s -> lexed Esc (c :: s)
| lx_hex k c s : VHC c = true -> lexed (hexm k) s -> lexed (Hex k) (c :: s)
| lx_cont k c s : Z.shiftr c 6 = 2 -> lexed (contm k) s -> lexed (Cont k) (c :: s).
Lemma string_lexed s : forall m esc tok r, s_string m esc s = (tok, r) -> tok <> tok_eof -> tok <> tok_error -> exists body, s = body ++ 34 :: r /\ lexed m body.
Proof.
  induction s as [|c s IH]; intros m esc tok r E N1 N2; cbn [s_string] in E; [congruence|].
  assert (G : forall m' esc', s_string m' esc' s = (tok, r) -> (forall b, lexed m' b -> lexed m (c :: b)) -> exists body, c :: s = body ++ 34 :: r /\ lexed m body).
  { intros m' esc' E' H. destruct (IH m' esc' tok r E' N1 N2) as (b & -> & L). exists (c :: b). split; [reflexivity|auto]. }
  destruct m as [| |k|k].
  - destruct (Z.eqb_spec c 34) as [-> | C1]. { injection E as <- <-. exists []. split; [reflexivity|constructor]. }
    destruct (Z.eqb_spec c 92) as [-> | C2]. { apply (G Esc true E). intros b L. now constructor. }
    destruct (IJC c); [congruence|]. destruct (c <=? 127); [apply (G Normal esc E); intros b L; apply (lx_char c Normal); auto|].
    assert (K : forall k b, lexed (Cont k) b -> lexed Normal (c :: b)) by (intros k b L; apply (lx_char c (Cont k)); eauto).
    destruct (Z.shiftr c 5 =? 6); [apply (G _ _ E), K|]. destruct (Z.shiftr c 4 =? 14); [apply (G _ _ E), K|]. destruct (Z.shiftr c 3 =? 30); [apply (G _ _ E), K|]. congruence.
  - destruct (Z.eqb_spec c 117) as [-> | C1]; [apply (G _ _ E); intros b L; now constructor|]. destruct (VEC c) eqn:V; [apply (G _ _ E); intros b L; now constructor|congruence].
  - destruct (VHC c) eqn:V; [apply (G _ _ E); intros b L; now constructor|congruence].
  - destruct (Z.eqb_spec (Z.shiftr c 6) 2) as [V | V]; [apply (G _ _ E); intros b L; now constructor|congruence].
Qed.
(** A high surrogate: backslash, u, D or d, 8 to B. *)
Definition no_surrogates (s : list Z) : Prop := forall a x y b, s = a ++ [92; 117; x; y] ++ b -> In x [68; 100] -> In y [56; 57; 65; 66; 97; 98] -> False.
Lemma hex_value c : VHC c = true -> exists d, hex_digit c = Some d /\ 0 <= d < 16 /\ (d = 13 -> In c [68; 100]) /\ (8 <= d < 12 -> In c [56; 57; 65; 66; 97; 98]).
Proof.
  unfold VHC. intros H. assert (In c (map Z.of_nat (seq 48 10) ++ map Z.of_nat (seq 65 6) ++ map Z.of_nat (seq 97 6))).
  { apply orb_prop in H. destruct H as [H | H]; [apply orb_prop in H; destruct H as [H | H]|]; apply andb_prop in H; destruct H as (H1 & H2); apply Z.leb_le in H1; apply Z.leb_le in H2; rewrite !in_app_iff, !in_map_iff.
    - left. exists (Z.to_nat c). rewrite in_seq. lia.
    - right. left. exists (Z.to_nat c). rewrite in_seq. lia.
    - right. right. exists (Z.to_nat c). rewrite in_seq. lia. }
  vm_compute in H0. repeat (destruct H0 as [<- | H0]; [match goal with |- exists _, hex_digit ?c = _ /\ _ => let d := eval vm_compute in (match hex_digit c with Some d => d | None => 0 end) in exists d end; split; [reflexivity|split; [lia|split; intros; cbn; lia]]|]). contradiction.
Qed.
Lemma lor_add a d : 0 <= a -> 0 <= d < 16 -> Z.lor (Z.shiftl a 4) d = a * 16 + d.
Proof.
  intros Ha Hd. rewrite Z.shiftl_mul_pow2 by lia. change (2 ^ 4) with 16. assert (N : Z.land (a * 16) d = 0); [|rewrite <- Z.lxor_lor by exact N; now rewrite <- Z.add_nocarry_lxor]. apply Z.bits_inj'. intros k Hk. rewrite Z.land_spec, Z.bits_0. destruct (Z.ltb_spec k 4).
  - change 16 with (2 ^ 4). rewrite Z.mul_pow2_bits_low by lia. reflexivity.
  - destruct (Z.eq_dec d 0) as [-> | Nz]; [rewrite Z.bits_0; apply andb_false_r|]. rewrite (Z.bits_above_log2 d k); [apply andb_false_r|lia|]. assert (Z.log2 d < 4) by (apply Z.log2_lt_pow2; lia). lia.
Qed.
Lemma hex_step k v s c d : hex_digit c = Some d -> 0 <= v < 2 ^ 28 -> 0 <= d < 16 -> hexToDigit (S k) v (c :: s) = hexToDigit k (v * 16 + d) s.
Proof.
  intros E Hv Hd. cbn [hexToDigit]. rewrite E. f_equal. replace (u32 (Z.shiftl v 4)) with (Z.shiftl v 4); [apply lor_add; lia|]. unfold u32. rewrite Z.shiftl_mul_pow2 by lia. symmetry. apply Z.mod_small. change (2 ^ 4) with 16. lia.
Qed.
Lemma hex_four x y z w s : VHC x = true -> VHC y = true -> VHC z = true -> VHC w = true ->
  exists v, hexToDigit 4 0 (x :: y :: z :: w :: s) = Some v /\ (Z.land v 64512 = 55296 -> In x [68; 100] /\ In y [56; 57; 65; 66; 97; 98]).
Proof.
  intros Hx Hy Hz Hw. destruct (hex_value x Hx) as (dx & Ex & Rx & Px & _). destruct (hex_value y Hy) as (dy & Ey & Ry & _ & Py). destruct (hex_value z Hz) as (dz & Ez & Rz & _). destruct (hex_value w Hw) as (dw & Ew & Rw & _).
  rewrite (hex_step _ _ _ _ _ Ex), (hex_step _ _ _ _ _ Ey), (hex_step _ _ _ _ _ Ez), (hex_step _ _ _ _ _ Ew) by lia. cbn [hexToDigit]. eexists. split; [reflexivity|]. set (v := (((0 * 16 + dx) * 16 + dy) * 16 + dz) * 16 + dw). intros L.
  assert (Q : Z.shiftr (Z.land v 64512) 10 = Z.shiftr v 10). { rewrite Z.shiftr_land. change (Z.shiftr 64512 10) with (Z.ones 6). rewrite Z.land_ones by lia. apply Z.mod_small. rewrite Z.shiftr_div_pow2 by lia. split; [apply Z.div_pos; lia|apply Z.div_lt_upper_bound; lia]. }
  rewrite L in Q. change (Z.shiftr 55296 10) with 54 in Q. rewrite Z.shiftr_div_pow2 in Q by lia. change (2 ^ 10) with 1024 in Q. pose proof (Z.div_mod v 1024 ltac:(lia)) as DM. rewrite <- Q in DM. pose proof (Z.mod_pos_bound v 1024 ltac:(lia)) as MB. assert (dx = 13) by lia. subst dx. split; [auto|]. apply Py. lia.
Qed.
Lemma decode_total n : forall m pre body, m = Normal \/ (exists k, m = Cont k) -> lexed m body -> no_surrogates body -> (length body < n)%nat ->
  string_decode n (pre ++ body ++ [34]) (length pre + length body) (length pre) <> None.
Proof.
  induction n as [|n IH]; intros m pre body Hm L Ns Hn; [lia|].
  assert (Go : forall m p b, m = Normal \/ (exists k, m = Cont k) -> body = p ++ b -> p <> [] -> lexed m b -> string_decode n (pre ++ body ++ [34]) (length pre + length body) (length pre + length p) <> None).
  { clear m Hm L. intros m p b Hm Eb Np Lm. subst body. rewrite app_length in *. specialize (IH m (pre ++ p) b Hm Lm). rewrite app_length, <- !app_assoc in IH. rewrite <- app_assoc, Nat.add_assoc. apply IH; [|destruct p; [contradiction|cbn in *; lia]].
    intros a x y r E Hx Hy. apply (Ns (p ++ a) x y r); [rewrite E, <- app_assoc; reflexivity|exact Hx|exact Hy]. }
  assert (More : forall out e, string_decode n (pre ++ body ++ [34]) (length pre + length body) e <> None -> match string_decode n (pre ++ body ++ [34]) (length pre + length body) e with Some r => Some (out ++ r) | None => None end <> None).
  { intros out e H. destruct (string_decode n _ _ e); [discriminate|contradiction]. }
  cbn [string_decode]. destruct (Nat.leb_spec (length pre + length body) (length pre)) as [Z0 | Z0]; [discriminate|].
  assert (Char : forall c b m', body = c :: b -> c <> 92 -> m' = Normal \/ (exists k, m' = Cont k) -> lexed m' b ->
    match nth_error (pre ++ body ++ [34]) (length pre) with Some c => negb (c =? 92) = true | None => False end /\ string_decode n (pre ++ body ++ [34]) (length pre + length body) (S (length pre)) <> None).
  { intros c b m' Eb Nc Hm' Lb. split; [rewrite Eb; cbn [app]; rewrite nth_here; destruct (Z.eqb_spec c 92); [contradiction|reflexivity]|]. replace (S (length pre)) with (length pre + length [c])%nat by (cbn; lia). apply (Go m' [c] b Hm'); [exact Eb|discriminate|exact Lb]. }
  assert (Case : (exists c b m', body = c :: b /\ c <> 92 /\ (m' = Normal \/ (exists k, m' = Cont k)) /\ lexed m' b) \/ (exists b, body = 92 :: b /\ lexed Esc b)).
  { inversion L as [E0 E|c m' s C1 C2 Hm' Ls E0 E|s Le E0 E|s Ls E0 E|c s V Ls E0 E|k c s V Ls E0 E|k c s V Ls E0 E]; subst.
    - cbn in Z0. lia.
    - left. exists c, s, m'. auto.
    - right. exists s. auto.
    - destruct Hm as [Hm | (k & Hm)]; discriminate Hm.
    - destruct Hm as [Hm | (k & Hm)]; discriminate Hm.
    - destruct Hm as [Hm | (k' & Hm)]; discriminate Hm.
    - left. exists c, s, (contm k). split; [reflexivity|]. split; [intros ->; discriminate V|]. split; [destruct k; [now left|right; eexists; reflexivity]|exact Ls]. }
  destruct Case as [(c & b & m' & Eb & Nc & Hm' & Lb) | (b & Eb & Lb)].
  - destruct (Char c b m' Eb Nc Hm' Lb) as (Nt & D). destruct (nth_error (pre ++ body ++ [34]) (length pre)) as [c'|]; [|contradiction]. rewrite Nt. now apply More.
  - assert (nth_error (pre ++ body ++ [34]) (length pre) = Some 92) as -> by (rewrite Eb; cbn [app]; apply nth_here). change (negb (92 =? 92)) with false. cbv iota.
    inversion Lb as [E0 E|c m' s C1 C2 Hm' Ls E0 E|s Le E0 E|s Ls E0 E|c s V Ls E0 E|k c s V Ls E0 E|k c s V Ls E0 E]; subst b.
    + assert (nth_error (pre ++ body ++ [34]) (S (length pre)) = Some 117) as -> by (rewrite Eb; cbn [app]; apply nth_next).
      change (117 =? 114) with false. change (117 =? 110) with false. change (117 =? 92) with false. change (117 =? 47) with false. change (117 =? 34) with false. change (117 =? 102) with false. change (117 =? 98) with false. change (117 =? 116) with false. change (117 =? 117) with true. cbv iota.
      inversion Ls as [| | | | |k x s1 V1 L1|]; subst. cbn [hexm] in L1. inversion L1 as [| | | | |k y s2 V2 L2|]; subst. cbn [hexm] in L2. inversion L2 as [| | | | |k z s3 V3 L3|]; subst. cbn [hexm] in L3. inversion L3 as [| | | | |k w s4 V4 L4|]; subst. cbn [hexm] in L4.
      destruct (hex_four x y z w (s4 ++ [34]) V1 V2 V3 V4) as (v & Ev & Hv).
      replace (S (S (length pre))) with (length pre + 2)%nat by lia. rewrite skipn_past. cbn [app skipn]. rewrite Ev. destruct (Z.eqb_spec (Z.land v 64512) 55296) as [Sg | Sg].
      { exfalso. destruct (Hv Sg) as (Ix & Iy). apply (Ns [] x y (z :: w :: s4)); [reflexivity|exact Ix|exact Iy]. }
      apply More. replace (S (S (length pre) + 4))%nat with (length pre + length [92%Z; 117%Z; x; y; z; w])%nat by (cbn; lia). apply (Go Normal _ s4); [now left|reflexivity|discriminate|exact L4].
    + assert (nth_error (pre ++ body ++ [34]) (S (length pre)) = Some c) as -> by (rewrite Eb; cbn [app]; apply nth_next).
      assert (D : string_decode n (pre ++ body ++ [34]) (length pre + length body) (S (S (length pre))) <> None).
      { replace (S (S (length pre))) with (length pre + length [92%Z; c])%nat by (cbn; lia). apply (Go Normal _ s); [now left|exact Eb|discriminate|exact Ls]. }
      unfold VEC in V. cbn [existsb] in V.
      destruct (c =? 114); [now apply More|]. destruct (c =? 110); [now apply More|]. destruct (c =? 92); [now apply More|]. destruct (c =? 47); [now apply More|]. destruct (c =? 34); [now apply More|]. destruct (c =? 102); [now apply More|]. destruct (c =? 98); [now apply More|]. destruct (c =? 116); [now apply More|]. discriminate V.
Qed.
Lemma decode_safe body : lexed Normal body -> no_surrogates body -> yajl_string_decode body <> None.
Proof. intros L N. unfold yajl_string_decode. apply (decode_total (S (length body)) Normal [] body); [now left|exact L|exact N|lia]. Qed.

(** * Numbers *)
(** At most 18 digits in a row. *)
Definition no_long_numbers (s : list Z) : Prop := forall a ds b, s = a ++ ds ++ b -> alldigits ds -> (length ds <= 18)%nat.
Lemma digits_split k tok r : (forall c s, k c s = (tok, r) -> tok <> tok_eof -> r = c :: s) -> tok <> tok_eof -> forall s, s_digits s k = (tok, r) -> exists ds, s = ds ++ r /\ alldigits ds.
Proof.
  intros K N. induction s as [|c s IH]; cbn [s_digits]; [congruence|]. destruct (isdigit c) eqn:D.
  - intros E. destruct (IH E) as (ds & -> & A). exists (c :: ds). split; [reflexivity|]. constructor; assumption.
  - intros E. apply K in E; [|exact N]. exists []. split; [now rewrite E|constructor].
Qed.
Lemma exponent_int c s r : s_exponent tok_integer c s = (tok_integer, r) -> r = c :: s.
Proof.
  unfold s_exponent. destruct ((c =? 101) || (c =? 69)); [|congruence].
  assert (D : forall s r, s_digits s (fun c s => (tok_double, c :: s)) <> (tok_integer, r)) by (induction s0 as [|x s0 IH]; intros r0; cbn [s_digits]; [discriminate|destruct (isdigit x); [apply IH|discriminate]]).
  destruct s as [|d s]; cbn [s_next]; [discriminate|]. destruct ((d =? 43) || (d =? 45)).
  - destruct s as [|e s]; cbn [s_next]; [discriminate|]. destruct (isdigit e); [intros E; now apply D in E|discriminate].
  - destruct (isdigit d); [intros E; now apply D in E|discriminate].
Qed.
Lemma double_digits s r : s_digits s (s_exponent tok_double) <> (tok_integer, r).
Proof.
  assert (D : forall s r, s_digits s (fun c s => (tok_double, c :: s)) <> (tok_integer, r)) by (induction s0 as [|x s0 IH]; intros r0; cbn [s_digits]; [discriminate|destruct (isdigit x); [apply IH|discriminate]]).
  induction s as [|c s IH]; cbn [s_digits]; [discriminate|]. destruct (isdigit c); [exact IH|]. unfold s_exponent. destruct ((c =? 101) || (c =? 69)); [|discriminate].
  destruct s as [|d s]; cbn [s_next]; [discriminate|]. destruct ((d =? 43) || (d =? 45)).
  - destruct s as [|e s]; cbn [s_next]; [discriminate|]. destruct (isdigit e); [apply D|discriminate].
  - destruct (isdigit d); [apply D|discriminate].
Qed.
Lemma fraction_int c s r : s_fraction c s = (tok_integer, r) -> r = c :: s.
Proof.
  unfold s_fraction. destruct (c =? 46); [|apply exponent_int]. destruct s as [|d s]; cbn [s_next]; [discriminate|]. destruct (isdigit d); [intros E; now apply double_digits in E|discriminate].
Qed.
Lemma int_split s r : s_next s s_int = (tok_integer, r) -> exists ds, s = ds ++ r /\ alldigits ds.
Proof.
  destruct s as [|c s]; cbn [s_next]; [discriminate|]. unfold s_int. destruct (Z.eqb_spec c 48) as [-> | Nc].
  - destruct s as [|d s]; cbn [s_next]; [discriminate|]. intros E. apply fraction_int in E. subst r. exists [48]. split; [reflexivity|repeat constructor].
  - destruct (isdigit c) eqn:D; [|discriminate]. intros E. destruct (digits_split s_fraction tok_integer r (fun c s E _ => fraction_int c s r E) ltac:(discriminate) s E) as (ds & -> & A). exists (c :: ds). split; [reflexivity|constructor; assumption].
Qed.
Lemma number_split s r : s_number s = (tok_integer, r) -> exists sign ds, s = sign ++ ds ++ r /\ (sign = [] \/ sign = [45]) /\ alldigits ds.
Proof.
  unfold s_number. destruct s as [|c s]; cbn [s_next]; [discriminate|]. destruct (Z.eqb_spec c 45) as [-> | Nc].
  - intros E. destruct (int_split s r E) as (ds & -> & A). exists [45], ds. auto.
  - intros E. destruct (int_split (c :: s) r E) as (ds & -> & A). exists [], ds. auto.
Qed.
Lemma digits_small ds : alldigits ds -> forall x, 0 <= x -> (x + 1) * 10 ^ Z.of_nat (length ds) <= 10 ^ 18 -> parse_digits ds x <> None.
Proof.
  intros A x Hx L. pose proof (digits_bound ds A x Hx) as (_ & B). rewrite parse_digits_ok; [discriminate|exact A|exact Hx|]. assert (10 ^ 18 <= LLONG_MAX) by (now vm_compute). lia.
Qed.
Lemma integer_safe sign ds : (sign = [] \/ sign = [45]) -> alldigits ds -> (length ds <= 18)%nat -> yajl_parse_integer (sign ++ ds) <> None.
Proof.
  intros S A L. unfold yajl_parse_integer.
  assert (P : parse_digits ds 0 <> None). { apply digits_small; [exact A|lia|]. rewrite Z.mul_1_l. apply Z.pow_le_mono_r; lia. }
  assert (N43 : match ds with c :: r => if c =? 43 then r else ds | [] => ds end = ds) by (destruct ds as [|c r]; [reflexivity|]; apply Forall_cons_iff in A as (Hc & _); destruct (Z.eqb_spec c 43) as [-> | ]; [discriminate Hc|reflexivity]).
  assert (N45 : match ds with c :: r => if c =? 45 then (-1, r) else (1, ds) | [] => (1, ds) end = (1, ds)) by (destruct ds as [|c r]; [reflexivity|]; apply Forall_cons_iff in A as (Hc & _); destruct (Z.eqb_spec c 45) as [-> | ]; [discriminate Hc|reflexivity]).
  destruct S as [-> | ->]; cbn [app].
  - rewrite N45, N43. destruct (parse_digits ds 0) as [[|]|]; [discriminate|discriminate|contradiction].
  - change (45 =? 45) with true. cbv iota. rewrite N43. destruct (parse_digits ds 0) as [[|]|]; [discriminate|discriminate|contradiction].
Qed.

(** * Tokens *)
Lemma lex_token_of s : match s_lex s with (tok, st, r) => tok = tok_eof \/ exists c s', st = c :: s' /\ (c <> 47 -> s_token c s' = (tok, r)) /\ (c = 47 -> s_comment s' = (tok, r)) end.
Proof.
  induction s as [s IH] using lex_ind. destruct s as [|c s]; [now left|]. rewrite lex_cons. destruct (white c); [apply IH; cbn; lia|]. destruct (Z.eqb_spec c 47) as [-> | Nc].
  - pose proof (good_comment s) as (L & _). destruct (s_comment s) as (tok, r) eqn:E. cbn [snd] in L. destruct tok; try (right; exists 47, s; repeat split; [congruence|auto]).
    apply IH. cbn. lia.
  - destruct (s_token c s) as (tok, r) eqn:E. right. exists c, s. repeat split; [auto|congruence].
Qed.
Lemma word_tok w t s tok r : s_word w t s = (tok, r) -> tok = t \/ tok = tok_error \/ tok = tok_eof.
Proof. revert s. induction w as [|x w IH]; intros s; cbn [s_word]; [intros E; left; congruence|]. destruct s as [|c s]; cbn [s_next]; [intros E; right; right; congruence|]. destruct (c =? x); [apply IH|]. intros E. right. left. congruence. Qed.
Lemma comment_tok s tok r : s_comment s = (tok, r) -> tok = tok_comment \/ tok = tok_error \/ tok = tok_eof.
Proof.
  unfold s_comment. destruct s as [|c s]; cbn [s_next]; [intros E; right; right; congruence|]. destruct (c =? 47); [|destruct (c =? 42)].
  - revert r. induction s as [|d s IH]; intros r; cbn [s_line]; [intros E; right; right; congruence|]. destruct (d =? 10); [intros E; left; congruence|apply IH].
  - revert r. generalize false. induction s as [|d s IH]; intros b r; cbn [s_block]; [intros E; right; right; congruence|]. destruct (b && (d =? 47)); [intros E; left; congruence|apply IH].
  - intros E. right. left. congruence.
Qed.
Lemma string_tok s m esc tok r : s_string m esc s = (tok, r) -> tok = tok_string \/ tok = tok_string_with_escapes \/ tok = tok_error \/ tok = tok_eof.
Proof.
  revert m esc. induction s as [|c s IH]; intros m esc; cbn [s_string]; [intros E; repeat right; congruence|].
  destruct m; repeat match goal with |- context [if ?b then _ else _] => destruct b end; intros E; try (eapply IH; exact E); first [left; congruence | right; left; congruence | right; right; left; congruence].
Qed.
Lemma number_tok s tok r : s_number s = (tok, r) -> tok = tok_integer \/ tok = tok_double \/ tok = tok_error \/ tok = tok_eof.
Proof.
  set (Q := fun tok => tok = tok_integer \/ tok = tok_double \/ tok = tok_error \/ tok = tok_eof).
  assert (Qe : Q tok_eof /\ Q tok_error /\ Q tok_double /\ Q tok_integer) by (unfold Q; auto 6). destruct Qe as (Q1 & Q2 & Q3 & Q4).
  assert (Dg : forall k s, (forall c s, Q (fst (k c s))) -> Q (fst (s_digits s k))) by (intros k; induction s0 as [|c s0 IH]; intros K; cbn [s_digits]; [exact Q1|destruct (isdigit c); [now apply IH|apply K]]).
  assert (Nx : forall k s, (forall c s, Q (fst (k c s))) -> Q (fst (s_next s k))) by (intros k [|c s0] K; [exact Q1|apply K]).
  assert (Ex : forall t c s, Q t -> Q (fst (s_exponent t c s))).
  { intros t c s0 T. unfold s_exponent. destruct ((c =? 101) || (c =? 69)); [|exact T]. apply Nx. intros d r0.
    assert (G : forall c s, Q (fst (if isdigit c then s_digits s (fun c s => (tok_double, c :: s)) else (tok_error, c :: s)))) by (intros x y; destruct (isdigit x); [apply Dg; intros; exact Q3|exact Q2]).
    destruct ((d =? 43) || (d =? 45)); [apply Nx, G|apply G]. }
  assert (Fr : forall c s, Q (fst (s_fraction c s))) by (intros c s0; unfold s_fraction; destruct (c =? 46); [apply Nx; intros d r0; destruct (isdigit d); [apply Dg; intros; now apply Ex|exact Q2]|now apply Ex]).
  assert (It : forall c s, Q (fst (s_int c s))) by (intros c s0; unfold s_int; destruct (c =? 48); [now apply Nx|]; destruct (isdigit c); [now apply Dg|exact Q2]).
  intros E. change tok with (fst (tok, r)). rewrite <- E. unfold s_number. apply Nx. intros c s0. destruct (c =? 45); [now apply Nx|apply It].
Qed.
(** A string token has both quotes; an integer token is a sign and digits. *)
Lemma string_out s : match s_lex s with (tok, st, r) => tok = tok_string \/ tok = tok_string_with_escapes -> exists body, st = 34 :: body ++ 34 :: r /\ lexed Normal body end.
Proof.
  pose proof (lex_token_of s) as T. destruct (s_lex s) as ((tok, st), r). intros H. destruct T as [-> | (c & s' & -> & T1 & T2)]; [destruct H; discriminate|].
  destruct (Z.eq_dec c 47) as [-> | Nc]; [specialize (T2 eq_refl); apply comment_tok in T2; destruct T2 as [-> | [-> | ->]]; destruct H; discriminate|]. specialize (T1 Nc). clear T2.
  unfold s_token in T1. destruct (c =? 123); [destruct H; subst; congruence|]. destruct (c =? 125); [destruct H; subst; congruence|]. destruct (c =? 91); [destruct H; subst; congruence|]. destruct (c =? 93); [destruct H; subst; congruence|]. destruct (c =? 44); [destruct H; subst; congruence|]. destruct (c =? 58); [destruct H; subst; congruence|].
  destruct (c =? 116); [apply word_tok in T1; destruct T1 as [-> | [-> | ->]]; destruct H; discriminate|]. destruct (c =? 102); [apply word_tok in T1; destruct T1 as [-> | [-> | ->]]; destruct H; discriminate|]. destruct (c =? 110); [apply word_tok in T1; destruct T1 as [-> | [-> | ->]]; destruct H; discriminate|].
  destruct (Z.eqb_spec c 34) as [-> | ].
  - destruct (string_lexed s' Normal false tok r T1) as (body & -> & L); [destruct H; subst; discriminate|destruct H; subst; discriminate|]. exists body. auto.
  - destruct ((c =? 45) || isdigit c); [|destruct H; subst; congruence]. apply number_tok in T1. destruct T1 as [-> | [-> | [-> | ->]]]; destruct H; discriminate.
Qed.
Lemma integer_out s : match s_lex s with (tok, st, r) => tok = tok_integer -> exists sign ds, st = sign ++ ds ++ r /\ (sign = [] \/ sign = [45]) /\ alldigits ds end.
Proof.
  pose proof (lex_token_of s) as T. destruct (s_lex s) as ((tok, st), r). intros ->. destruct T as [T | (c & s' & -> & T1 & T2)]; [discriminate|].
  destruct (Z.eq_dec c 47) as [-> | Nc]; [specialize (T2 eq_refl); apply comment_tok in T2; destruct T2 as [T | [T | T]]; discriminate|]. specialize (T1 Nc). clear T2.
  unfold s_token in T1. destruct (c =? 123); [congruence|]. destruct (c =? 125); [congruence|]. destruct (c =? 91); [congruence|]. destruct (c =? 93); [congruence|]. destruct (c =? 44); [congruence|]. destruct (c =? 58); [congruence|].
  destruct (c =? 116); [apply word_tok in T1; destruct T1 as [T | [T | T]]; discriminate|]. destruct (c =? 102); [apply word_tok in T1; destruct T1 as [T | [T | T]]; discriminate|]. destruct (c =? 110); [apply word_tok in T1; destruct T1 as [T | [T | T]]; discriminate|].
  destruct (c =? 34); [apply string_tok in T1; destruct T1 as [T | [T | [T | T]]]; discriminate|]. destruct ((c =? 45) || isdigit c); [|congruence]. now apply number_split.
Qed.

(** * The parser *)
(** Arrays and objects that are open, above the state of the whole text. *)
Definition inner (st : yajl_state) : bool := match st with state_map_start | state_map_sep | state_map_need_val | state_map_got_val | state_map_need_key | state_array_start | state_array_got_val | state_array_need_val => true | _ => false end.
Definition nested (stack : list yajl_state) : Prop := exists a b, stack = a ++ [b] /\ forallb inner a = true /\ (b = state_start \/ b = state_parse_complete).
Section Safe.
Context {C : Type}.
Variable full : bool.
Variable callback : C -> event -> option (C * bool).
Variable strtod : list Z -> option Z.
Hypothesis callback_total : forall c e, callback c e <> None.
Notation sp := (sp full callback strtod).
Notation action_of := (action_of full strtod).
Definition harmless (s : list Z) : Prop := full = true -> no_surrogates s /\ no_long_numbers s.
Lemma harmless_sfx r s : suffix r s -> harmless s -> harmless r.
Proof.
  intros (a & ->) H F. destruct (H F) as (H1 & H2). split.
  - intros x c d b -> I J. apply (H1 (a ++ x) c d b); [now rewrite <- app_assoc|exact I|exact J].
  - intros x ds b -> A. apply (H2 (a ++ x) ds b); [now rewrite <- app_assoc|exact A].
Qed.
Lemma action_defined st s : harmless s -> match s_lex s with (tok, start, r) => action_of st tok (firstn (length start - length r) start) <> Undefined end.
Proof.
  intros H. pose proof (string_out s) as So. pose proof (integer_out s) as Io. pose proof (sfx_lex s) as Sf. destruct (s_lex s) as ((tok, start), r). destruct Sf as (S1 & _). apply (harmless_sfx _ _ S1) in H. clear S1.
  assert (Sv : tok = tok_string \/ tok = tok_string_with_escapes -> forall esc, string_value full esc (firstn (length start - length r) start) <> None).
  { intros T esc. destruct (So T) as (body & -> & L). replace (firstn (length (34 :: body ++ 34 :: r) - length r) (34 :: body ++ 34 :: r)) with (34 :: body ++ [34]).
    2: { replace (34 :: body ++ 34 :: r) with ((34 :: body ++ [34]) ++ r) by (cbn [app]; rewrite <- app_assoc; reflexivity). rewrite app_length, Nat.add_sub, firstn_app, Nat.sub_diag, firstn_all. cbn [firstn]. now rewrite app_nil_r. }
    unfold string_value, unquote. destruct (body ++ [34]) eqn:Q; [destruct body; discriminate Q|]. rewrite <- Q, removelast_last. destruct (full && esc) eqn:Fe; [|discriminate]. apply andb_prop in Fe. destruct Fe as (Fu & _). destruct (H Fu) as (H1 & _). apply decode_safe; [exact L|].
    intros a x y b E. apply (H1 (34 :: a) x y (b ++ 34 :: r)). rewrite E. cbn [app]. rewrite <- app_assoc. reflexivity. }
  assert (Iv : tok = tok_integer -> full = true -> yajl_parse_integer (firstn (length start - length r) start) <> None).
  { intros T Fu. destruct (Io T) as (sign & ds & -> & Sg & A). replace (firstn (length (sign ++ ds ++ r) - length r) (sign ++ ds ++ r)) with (sign ++ ds).
    2: { rewrite (app_assoc sign). rewrite app_length, Nat.add_sub, firstn_app, Nat.sub_diag, firstn_all. cbn [firstn]. now rewrite app_nil_r. }
    apply integer_safe; [exact Sg|exact A|]. destruct (H Fu) as (_ & H2). apply (H2 sign ds r); [reflexivity|exact A]. }
  set (out := firstn (length start - length r) start) in *. clearbody out.
  assert (Va : value_action full strtod st tok out <> Undefined).
  { unfold value_action. destruct tok; try discriminate.
    - destruct st; discriminate.
    - destruct full eqn:Fu; [|discriminate]. specialize (Iv eq_refl eq_refl). destruct (yajl_parse_integer out) as [[|]|]; [discriminate|discriminate|contradiction].
    - destruct full; [|discriminate]. destruct (strtod out); discriminate.
    - specialize (Sv ltac:(auto) false). destruct (string_value full false out); [discriminate|contradiction].
    - specialize (Sv ltac:(auto) true). destruct (string_value full true out); [discriminate|contradiction]. }
  assert (Ka : key_action full st tok out <> Undefined).
  { unfold key_action. destruct tok; try discriminate.
    - destruct st; discriminate.
    - specialize (Sv ltac:(auto) false). destruct (string_value full false out); [discriminate|contradiction].
    - specialize (Sv ltac:(auto) true). destruct (string_value full true out); [discriminate|contradiction]. }
  destruct st; cbn [YajlModel.action_of]; try exact Va; try exact Ka; try discriminate; destruct tok; discriminate.
Qed.
Lemma value_move st tok out e l : value_action full strtod st tok out = Move e l -> exists a, forallb inner a = true /\ (l = a ++ [after_value st] \/ (st = state_array_start /\ l = [])).
Proof.
  unfold value_action. intros V. destruct tok; try discriminate V;
    try (exists []; split; [reflexivity|left; cbn [app]; congruence]); try (eexists [_]; split; [|left; injection V as _ <-; reflexivity]; reflexivity).
  - destruct st; try discriminate V. exists []. split; [reflexivity|]. right. split; [reflexivity|congruence].
  - exists []. split; [reflexivity|]. left. destruct full; [destruct (yajl_parse_integer out) as [[|]|]; try discriminate V|]; cbn [app]; congruence.
  - exists []. split; [reflexivity|]. left. destruct full; [destruct (strtod out); try discriminate V|]; cbn [app]; congruence.
  - exists []. split; [reflexivity|]. left. destruct (string_value full false out); [|discriminate V]. cbn [app]. congruence.
  - exists []. split; [reflexivity|]. left. destruct (string_value full true out); [|discriminate V]. cbn [app]. congruence.
Qed.
Lemma key_move st tok out e l : key_action full st tok out = Move e l -> forallb inner l = true.
Proof.
  unfold key_action. intros K. destruct tok; try discriminate K.
  - destruct st; try discriminate K. injection K as _ <-. reflexivity.
  - destruct (string_value full false out); [|discriminate K]. injection K as _ <-. reflexivity.
  - destruct (string_value full true out); [|discriminate K]. injection K as _ <-. reflexivity.
Qed.
Lemma inner_move st tok out e l : inner st = true -> action_of st tok out = Move e l -> forallb inner l = true.
Proof.
  intros Hi A.
  assert (V : inner (after_value st) = true -> value_action full strtod st tok out = Move e l -> forallb inner l = true).
  { intros Ha V. apply value_move in V. destruct V as (a & Fa & [-> | (_ & ->)]); [|reflexivity]. rewrite forallb_app, Fa. cbn [forallb]. now rewrite Ha. }
  destruct st; try discriminate Hi; cbn [YajlModel.action_of] in A; try (exact (V eq_refl A)); try (exact (key_move _ _ _ _ _ A)); destruct tok; try discriminate A; injection A as _ <-; reflexivity.
Qed.
Lemma move_nested st stk tok out e l : nested (st :: stk) -> action_of st tok out = Move e l -> nested (l ++ stk).
Proof.
  intros (a & b & E & Ha & Hb) A. destruct a as [|x a]; cbn [app] in E.
  - assert (st = b) by congruence. assert (stk = []) by congruence. subst st stk. rewrite app_nil_r. destruct Hb as [-> | ->]; [|discriminate A].
    apply value_move in A. destruct A as (a & Fa & [-> | (X & _)]); [|discriminate X]. exists a, state_parse_complete. auto.
  - assert (st = x) by congruence. assert (stk = a ++ [b]) by congruence. subst x stk. cbn [forallb] in Ha. apply andb_prop in Ha. destruct Ha as (Hx & Ha). exists (l ++ a), b. rewrite <- app_assoc. split; [reflexivity|]. split; [|exact Hb]. rewrite forallb_app, Ha. rewrite (inner_move _ _ _ _ _ Hx A). reflexivity.
Qed.
Lemma nested_head stack : nested stack -> exists st stk, stack = st :: stk /\ errored st = false.
Proof.
  intros (a & b & -> & Ha & Hb). destruct a as [|x a].
  - exists b, []. split; [reflexivity|]. destruct Hb as [-> | ->]; reflexivity.
  - exists x, (a ++ [b]). split; [reflexivity|]. cbn [forallb] in Ha. apply andb_prop in Ha. destruct Ha as (Hx & _). destruct x; try discriminate Hx; reflexivity.
Qed.
Lemma sp_safe s : forall stack c, nested stack -> harmless s -> exists o, sp stack c s = Some o /\ match o with Stop _ => True | More stack' _ pend => nested stack' /\ suffix pend s end.
Proof.
  induction s as [s IH] using lex_ind. intros stack c Ns Hs. destruct (nested_head _ Ns) as (st & stk & -> & Er). rewrite (sp_eq' _ _ _ _ _ _ _ Er).
  pose proof (lex_len s) as L. pose proof (sfx_lex s) as Sf. pose proof (action_defined st s Hs) as Ad. destruct (s_lex s) as ((tok, start), r). destruct L as (L1 & L2 & L3). destruct Sf as (S1 & S2).
  destruct (match tok with tok_eof => true | _ => false end) eqn:T; [eexists; split; [reflexivity|]; split; assumption|].
  destruct (action_of st tok _) as [| |e l] eqn:A; [contradiction|eexists; split; [reflexivity|exact I]|].
  assert (Lr : (length r < length s)%nat). { assert (tok <> tok_eof) by (intros ->; discriminate T). assert (tok <> tok_error) by (intros ->; rewrite error_action in A; discriminate A). specialize (L3 H H0). lia. }
  assert (Sr : suffix r s) by (eapply sfx_trans; eassumption).
  assert (Next : forall c, exists o, sp (l ++ stk) c r = Some o /\ match o with Stop _ => True | More stack' _ pend => nested stack' /\ suffix pend s end).
  { intros c'. destruct (IH r Lr (l ++ stk) c' (move_nested _ _ _ _ _ _ Ns A) (harmless_sfx _ _ Sr Hs)) as (o & -> & Ho). exists o. split; [reflexivity|]. destruct o; [|exact I]. destruct Ho as (H1 & H2). split; [exact H1|]. eapply sfx_trans; eassumption. }
  destruct e as [e|]; [|apply Next]. pose proof (callback_total c e) as Ct. destruct (callback c e) as [(c', [|])|]; [apply Next|eexists; split; [reflexivity|exact I]|contradiction].
Qed.
Lemma harmless_space s : harmless s -> harmless (s ++ [32]).
Proof.
  intros H F. destruct (H F) as (H1 & H2). split.
  - intros a x y b E Hx Hy. destruct (exists_last (l := [92; 117; x; y] ++ b) ltac:(discriminate)) as (b' & z & Eb).
    rewrite Eb, app_assoc in E. apply app_inj_tail in E. destruct E as (E & <-). destruct b as [|t b] using rev_ind.
    + cbn [app] in Eb. change [92; 117; x; y] with ([92; 117; x] ++ [y]) in Eb. apply app_inj_tail in Eb. destruct Eb as (_ & ->). cbn in Hy. lia.
    + rewrite app_assoc in Eb. apply app_inj_tail in Eb. destruct Eb as (Eb & _). apply (H1 a x y b); [now rewrite Eb|exact Hx|exact Hy].
  - intros a ds b E A. destruct b as [|t b _] using rev_ind.
    + destruct ds as [|t ds _] using rev_ind; [cbn; lia|]. rewrite app_nil_r, app_assoc in E. apply app_inj_tail in E. destruct E as (_ & <-). apply Forall_app in A. destruct A as (_ & A). apply Forall_cons_iff in A. destruct A as (A & _). discriminate A.
    + rewrite !app_assoc in E. apply app_inj_tail in E. destruct E as (E & _). rewrite <- app_assoc in E. apply (H2 a ds b E A).
Qed.
Theorem run_safe c chunks : harmless (concat chunks) -> yajl_run full callback strtod c chunks <> None.
Proof.
  intros H. rewrite run_eq. assert (Ns : nested [state_start]) by (exists [], state_start; auto).
  destruct (sp_safe (concat chunks) [state_start] c Ns H) as (o & -> & Ho). destruct o as [stack c' pend|c']; [|discriminate]. destruct Ho as (N' & Sf). cbn [finish].
  pose proof (harmless_space _ (harmless_sfx _ _ Sf H)) as H'. destruct (sp_safe (pend ++ [32]) stack c' N' H') as (o & -> & Ho). destruct o as [stack2 c2 pend2|c2]; [|discriminate]. destruct Ho as (N2 & _). destruct (nested_head _ N2) as (st & stk & -> & _). destruct st; discriminate.
Qed.
End Safe.
