(** Strings and numbers: what the generator prints is one token and is read back. *)
From Coq Require Import ZArith List Bool Lia Arith.
From Verif Require Import Base CsvModel CsvProofs JsonModel YajlModel YajlProofs YajlParse.
Import ListNotations.
Open Scope Z_scope.
#[local] Ltac Zify.zify_post_hook ::= idtac.

(** * Strings *)
Definition byte (c : Z) : Prop := 0 <= c < 256.
Lemma encode_cases c : byte c ->
  (encode_byte c = [c] /\ c <> 92 /\ c <> 34 /\ 32 <= c) \/
  (exists x, encode_byte c = [92; x] /\ VEC x = true /\ (x =? 117) = false /\ forall (A : Type) (a b e d f g h i z : A),
     (if x =? 114 then a else if x =? 110 then b else if x =? 92 then e else if x =? 47 then d else if x =? 34 then f else if x =? 102 then g else if x =? 98 then h else if x =? 116 then i else z) =
     (if c =? 13 then a else if c =? 10 then b else if c =? 92 then e else if c =? 47 then d else if c =? 34 then f else if c =? 12 then g else if c =? 8 then h else if c =? 9 then i else z) /\ In c [13; 10; 92; 34; 12; 8; 9]) \/
  (0 <= c < 32 /\ exists x y, encode_byte c = [92; 117; 48; 48; x; y] /\ VHC x = true /\ VHC y = true /\ forall r, hexToDigit 4 0 (48 :: 48 :: x :: y :: r) = Some c).
Proof.
  intros H. unfold byte in H. destruct (Z_lt_dec c 32) as [L | L].
  - right. assert (In c (map Z.of_nat (seq 0 32))). { apply in_map_iff. exists (Z.to_nat c). rewrite Z2Nat.id by lia. split; [reflexivity|]. apply in_seq. lia. }
    cbn [map seq] in H0.
    repeat (destruct H0 as [<- | H0]); try contradiction.
    all: try (right; split; [lia|]; eexists _, _; split; [reflexivity|]; split; [reflexivity|]; split; [reflexivity|]; intros r; reflexivity).
    all: left; eexists; split; [reflexivity|]; split; [reflexivity|]; split; [reflexivity|]; intros; split; [reflexivity|cbn; tauto].
  - destruct (Z.eq_dec c 92) as [-> | N1]; [right; left; eexists; split; [reflexivity|]; split; [reflexivity|]; split; [reflexivity|]; intros; split; [reflexivity|cbn; tauto]|].
    destruct (Z.eq_dec c 34) as [-> | N2]; [right; left; eexists; split; [reflexivity|]; split; [reflexivity|]; split; [reflexivity|]; intros; split; [reflexivity|cbn; tauto]|].
    left. split; [|lia]. unfold encode_byte. repeat match goal with |- context [if ?b then _ else _] => destruct b eqn:? end; try reflexivity; exfalso; try (apply Z.eqb_eq in Heqb; lia); try (apply Z.ltb_lt in Heqb6; lia);
    repeat match goal with H : (_ =? _) = true |- _ => apply Z.eqb_eq in H end; lia.
Qed.
(** Well-formed UTF-8 (without checks for shortest forms and surrogates). *)
Definition cont (b : Z) : Prop := 128 <= b < 192.
Inductive utf8 : list Z -> Prop :=
| utf8_nil : utf8 []
| utf8_1 a s : 0 <= a < 128 -> utf8 s -> utf8 (a :: s)
| utf8_2 a b s : 192 <= a < 224 -> cont b -> utf8 s -> utf8 (a :: b :: s)
| utf8_3 a b c s : 224 <= a < 240 -> cont b -> cont c -> utf8 s -> utf8 (a :: b :: c :: s)
| utf8_4 a b c d s : 240 <= a < 248 -> cont b -> cont c -> cont d -> utf8 s -> utf8 (a :: b :: c :: d :: s).
Lemma utf8_bytes s : utf8 s -> Forall byte s.
Proof. induction 1; unfold cont, byte in *; repeat constructor; try lia; assumption. Qed.
Lemma enc_high c : 127 < c -> encode_byte c = [c].
Proof. intros H. unfold encode_byte. repeat match goal with |- context [if ?b then _ else _] => destruct b eqn:? end; try reflexivity; exfalso; repeat match goal with H : (_ =? _) = true |- _ => apply Z.eqb_eq in H | H : (_ <? _) = true |- _ => apply Z.ltb_lt in H end; lia. Qed.
Lemma shift_range c k q : 0 <= k -> q * 2 ^ k <= c < (q + 1) * 2 ^ k -> Z.shiftr c k = q.
Proof. intros K H. rewrite Z.shiftr_div_pow2 by lia. symmetry. apply (Z.div_unique c (2 ^ k) q (c - q * 2 ^ k)); [left; lia|lia]. Qed.
Lemma cont_step k esc b s : cont b -> s_string (Cont k) esc (b :: s) = s_string (contm k) esc s.
Proof. intros H. cbn [s_string]. rewrite (shift_range b 6 2) by (unfold cont in H; lia). reflexivity. Qed.
Lemma lead_step esc a s k : 192 <= a < 248 -> k = (if a <? 224 then 0%nat else if a <? 240 then 1%nat else 2%nat) -> s_string Normal esc (a :: s) = s_string (Cont k) esc s.
Proof.
  intros H ->. cbn [s_string]. unfold IJC. destruct (Z.eqb_spec a 34); [lia|]. destruct (Z.eqb_spec a 92); [lia|]. destruct (Z.ltb_spec a 32); [lia|]. cbn [orb]. destruct (Z.leb_spec a 127); [lia|].
  destruct (Z.ltb_spec a 224). { rewrite (shift_range a 5 6) by lia. reflexivity. }
  replace (Z.shiftr a 5) with 7 by (symmetry; apply shift_range; lia). cbn [Z.eqb Pos.eqb]. destruct (Z.ltb_spec a 240). { rewrite (shift_range a 4 14) by lia. reflexivity. }
  replace (Z.shiftr a 4) with 15 by (symmetry; apply shift_range; lia). cbn [Z.eqb Pos.eqb]. rewrite (shift_range a 3 30) by lia. reflexivity.
Qed.
Lemma string_lexes s rest : utf8 s -> forall esc : bool, exists esc' : bool, s_string Normal esc (yajl_string_encode s ++ 34 :: rest) = (if esc' then tok_string_with_escapes else tok_string, rest) /\ (esc' = false -> esc = false /\ yajl_string_encode s = s).
Proof.
  induction 1 as [|a s Ha H IH|a b s Ha Hb H IH|a b c s Ha Hb Hc H IH|a b c d s Ha Hb Hc Hd H IH]; intros esc.
  - exists esc. split; [reflexivity|auto].
  - change (yajl_string_encode (a :: s)) with (encode_byte a ++ yajl_string_encode s). rewrite <- app_assoc. destruct (encode_cases a) as [(E & N1 & N2 & L) | [(x & E & V & U & _) | (_ & x & y & E & V1 & V2 & _)]]; [unfold byte; lia| | |]; rewrite E.
    + destruct (IH esc) as (e & Q & R). exists e. split; [|intros X; destruct (R X) as (? & ->); split; [assumption|reflexivity]]. cbn [app s_string]. rewrite <- Q. unfold IJC. destruct (Z.eqb_spec a 34); [lia|]. destruct (Z.eqb_spec a 92); [lia|]. destruct (Z.ltb_spec a 32); [lia|]. cbn [orb]. destruct (Z.leb_spec a 127); [reflexivity|lia].
    + destruct (IH true) as (e & Q & R). exists e. split; [|intros X; destruct (R X); discriminate]. cbn [app s_string]. change (92 =? 34) with false. change (92 =? 92) with true. cbv iota. rewrite U, V. exact Q.
    + destruct (IH true) as (e & Q & R). exists e. split; [|intros X; destruct (R X); discriminate]. cbn [app s_string]. change (92 =? 34) with false. change (92 =? 92) with true. change (117 =? 117) with true. cbv iota. change (VHC 48) with true. cbn [hexm]. cbv iota. rewrite V1, V2. exact Q.
  - destruct (IH esc) as (e & Q & R). exists e. unfold cont in *. split; [|intros X; destruct (R X) as (? & Es); split; [assumption|]; unfold yajl_string_encode in *; cbn [flat_map]; rewrite !enc_high by lia; cbn [app]; now rewrite Es].
    unfold yajl_string_encode in *. cbn [flat_map]. rewrite !enc_high by lia. cbn [app]. rewrite (lead_step esc a _ 0) by (try lia; destruct (Z.ltb_spec a 224); lia). rewrite cont_step by assumption. exact Q.
  - destruct (IH esc) as (e & Q & R). exists e. unfold cont in *. split; [|intros X; destruct (R X) as (? & Es); split; [assumption|]; unfold yajl_string_encode in *; cbn [flat_map]; rewrite !enc_high by lia; cbn [app]; now rewrite Es].
    unfold yajl_string_encode in *. cbn [flat_map]. rewrite !enc_high by lia. cbn [app]. rewrite (lead_step esc a _ 1) by (first [lia | destruct (Z.ltb_spec a 224); destruct (Z.ltb_spec a 240); lia]). repeat (rewrite cont_step by assumption; cbn [contm]). exact Q.
  - destruct (IH esc) as (e & Q & R). exists e. unfold cont in *. split; [|intros X; destruct (R X) as (? & Es); split; [assumption|]; unfold yajl_string_encode in *; cbn [flat_map]; rewrite !enc_high by lia; cbn [app]; now rewrite Es].
    unfold yajl_string_encode in *. cbn [flat_map]. rewrite !enc_high by lia. cbn [app]. rewrite (lead_step esc a _ 2) by (first [lia | destruct (Z.ltb_spec a 224); destruct (Z.ltb_spec a 240); lia]). repeat (rewrite cont_step by assumption; cbn [contm]). exact Q.
Qed.
(** The decoder reads from position [length a]. *)
Lemma nth_here {A} (a : list A) x b : nth_error (a ++ x :: b) (length a) = Some x.
Proof. rewrite nth_error_app2 by lia. now rewrite Nat.sub_diag. Qed.
Lemma decode_step n a x b len : (length a < len)%nat -> x <> 92 -> string_decode (S n) (a ++ x :: b) len (length a) =
  match string_decode n ((a ++ [x]) ++ b) len (length (a ++ [x])) with None => None | Some r => Some (x :: r) end.
Proof.
  intros L N. cbn [string_decode]. destruct (Nat.leb_spec len (length a)); [lia|]. rewrite nth_here. destruct (Z.eqb_spec x 92); [contradiction|]. cbn [negb app]. rewrite <- app_assoc. cbn [app]. rewrite app_length. cbn [length]. replace (length a + 1)%nat with (S (length a)) by lia. reflexivity.
Qed.
Lemma nth_next {A} (a : list A) x y b : nth_error (a ++ x :: y :: b) (S (length a)) = Some y.
Proof. rewrite nth_error_app2 by lia. replace (S (length a) - length a)%nat with 1%nat by lia. reflexivity. Qed.
Lemma skipn_past {A} (a b : list A) k : skipn (length a + k) (a ++ b) = skipn k b.
Proof. induction a; [reflexivity|exact IHa]. Qed.
Lemma decode_tail s : Forall byte s -> forall a n, (length (yajl_string_encode s) < n)%nat ->
  string_decode n (a ++ yajl_string_encode s ++ [34]) (length a + length (yajl_string_encode s)) (length a) = Some s.
Proof.
  induction 1 as [|c s Hc Hs IH]; intros a n L; (destruct n as [|n]; [lia|]).
  - cbn [string_decode]. destruct (Nat.leb_spec (length a + length (yajl_string_encode [])) (length a)) as [|G]; [reflexivity|]. cbn in G. lia.
  - change (yajl_string_encode (c :: s)) with (encode_byte c ++ yajl_string_encode s) in *. rewrite app_length in *. rewrite <- app_assoc.
    assert (Go : forall pre m, (length (yajl_string_encode s) < m)%nat -> string_decode m (a ++ pre ++ yajl_string_encode s ++ [34]) (length a + (length pre + length (yajl_string_encode s))) (length a + length pre) = Some s).
    { intros pre m Lm. specialize (IH (a ++ pre) m Lm). rewrite app_length, <- app_assoc in IH. rewrite Nat.add_assoc. exact IH. }
    destruct (encode_cases c Hc) as [(E & N1 & N2 & L1) | [(x & E & V & U & X) | (Lc & x & y & E & V1 & V2 & D)]]; rewrite E in *; cbn [length] in L.
    + specialize (Go [c] n ltac:(lia)). cbn [app length] in Go |- *. rewrite decode_step; [|lia|exact N1]. rewrite <- app_assoc, app_length. cbn [app length]. rewrite Go. reflexivity.
    + specialize (Go [92; x] n ltac:(lia)). cbn [app length] in Go |- *. cbn [string_decode]. destruct (Nat.leb_spec (length a + (2 + length (yajl_string_encode s))) (length a)); [lia|]. rewrite nth_here, nth_next. change (92 =? 92) with true. cbn [negb].
      replace (length a + 2)%nat with (S (S (length a))) in Go by lia. rewrite Go. destruct (X (list Z) [13] [10] [92] [47] [34] [12] [8] [9] []) as (_ & I).
      rewrite U. match goal with |- ?t = _ => assert (T : t = Some ((if c =? 13 then [13] else if c =? 10 then [10] else if c =? 92 then [92] else if c =? 47 then [47] else if c =? 34 then [34] else if c =? 12 then [12] else if c =? 8 then [8] else if c =? 9 then [9] else []) ++ s)) end.
      { destruct (X (option (list Z)) (Some ([13] ++ s)) (Some ([10] ++ s)) (Some ([92] ++ s)) (Some ([47] ++ s)) (Some ([34] ++ s)) (Some ([12] ++ s)) (Some ([8] ++ s)) (Some ([9] ++ s)) None) as (Q & _). rewrite Q. clear Q X.
        cbn in I. repeat (destruct I as [<- | I]; [reflexivity|]). contradiction. }
      rewrite T. cbn in I. repeat (destruct I as [<- | I]; [reflexivity|]). contradiction.
    + specialize (Go [92; 117; 48; 48; x; y] n ltac:(lia)). cbn [app length] in Go |- *. cbn [string_decode]. destruct (Nat.leb_spec (length a + (6 + length (yajl_string_encode s))) (length a)); [lia|]. rewrite nth_here, nth_next. change (92 =? 92) with true. cbn [negb].
      change (117 =? 114) with false. change (117 =? 110) with false. change (117 =? 92) with false. change (117 =? 47) with false. change (117 =? 34) with false. change (117 =? 102) with false. change (117 =? 98) with false. change (117 =? 116) with false. change (117 =? 117) with true. cbv iota.
      replace (S (S (length a))) with (length a + 2)%nat by lia. rewrite skipn_past. cbn [skipn]. rewrite D.
      assert (Z.land c 64512 = 0) as -> by (destruct (Z.eq_dec c 0) as [-> | Nz]; [reflexivity|]; change 64512 with (Z.shiftl 63 10); apply Z.bits_inj'; intros k Hk; rewrite Z.land_spec, Z.bits_0; destruct (Z.ltb_spec k 10); [rewrite Z.shiftl_spec_low by lia; apply andb_false_r|]; rewrite (Z.bits_above_log2 c k); [reflexivity|lia|]; assert (Z.log2 c < 5) by (apply Z.log2_lt_pow2; lia); lia).
      change (0 =? 55296) with false. cbv iota. replace (S (S (length a) + 4))%nat with (length a + 6)%nat by lia. rewrite Go. unfold Utf32toUtf8. destruct (Z.ltb_spec c 128); [reflexivity|lia].
Qed.
Lemma decode_encode s : Forall byte s -> yajl_string_decode (yajl_string_encode s) = Some s.
Proof. intros H. unfold yajl_string_decode. apply (decode_tail s H []). lia. Qed.

(** * Numbers *)
Lemma digits_bound ds : alldigits ds -> forall x, 0 <= x -> x <= digits_val ds x < (x + 1) * 10 ^ Z.of_nat (length ds).
Proof.
  induction ds as [|c ds IH]; intros A x Hx; cbn [digits_val length]; [rewrite Z.pow_0_r; lia|]. apply Forall_cons_iff in A as (Hc & A). rewrite Hc. apply isdigit_spec in Hc. specialize (IH A (x * 10 + (c - 48)) ltac:(lia)). rewrite Nat2Z.inj_succ, Z.pow_succ_r by lia.
  set (p := 10 ^ Z.of_nat (length ds)) in *. assert (0 < p) by (apply Z.pow_pos_nonneg; lia). nia.
Qed.
Lemma parse_digits_ok ds : alldigits ds -> forall x, 0 <= x -> digits_val ds x <= LLONG_MAX -> parse_digits ds x = Some (Some (digits_val ds x)).
Proof.
  induction ds as [|c ds IH]; intros A x Hx L; cbn [digits_val parse_digits] in *; [reflexivity|]. apply Forall_cons_iff in A as (Hc & A). rewrite Hc in *. apply isdigit_spec in Hc. pose proof (digits_bound ds A (x * 10 + (c - 48)) ltac:(lia)) as (B & _).
  assert (M : MAX_VALUE_TO_MULTIPLY = 922337203685477587) by reflexivity. rewrite M. unfold LLONG_MAX in *. change (2 ^ 63) with 9223372036854775808 in *.
  destruct (Z.ltb_spec 922337203685477587 x); [lia|]. destruct (Z.ltb_spec (9223372036854775808 - 1) (x * 10)); [lia|]. destruct (Z.ltb_spec (9223372036854775808 - 1 - x * 10) (c - 48)); [lia|]. destruct (Z.ltb_spec c 48); [lia|]. destruct (Z.ltb_spec 57 c); [lia|]. cbn [orb]. apply IH; [exact A|lia|exact L].
Qed.
(** A number without superfluous zeros. *)
Definition whole_digits (ds : list Z) : Prop := ds = [48] \/ exists c r, ds = c :: r /\ alldigits ds /\ c <> 48.
Lemma print_int_shape z : - LLONG_MAX <= z <= LLONG_MAX -> exists sign ds, print_int z = sign ++ ds /\ (sign = [] \/ sign = [45]) /\ whole_digits ds /\ alldigits ds /\ ds <> [] /\ digits_val ds 0 = Z.abs z /\ (sign = [45] <-> z < 0).
Proof.
  intros H. unfold LLONG_MAX in H. assert (P19 : 2 ^ 63 - 1 < 10 ^ 19) by (now vm_compute). assert (P20 : 10 ^ 19 < 10 ^ 20) by (now vm_compute).
  destruct (digits_ok 20 (Z.abs z) []) as (ds & E & N & A & V & _ & W); [change (Z.of_nat 20) with 20; lia|lia|]. rewrite app_nil_r in E.
  assert (Wd : whole_digits ds).
  { destruct ds as [|c r]; [contradiction|]. destruct (Z.eq_dec c 48) as [-> | Nc]; [|right; exists c, r; auto]. left. destruct r as [|d r]; [reflexivity|]. exfalso. apply Forall_cons_iff in A as (_ & A). cbn [digits_val] in V. change (isdigit 48) with true in V. cbv iota in V. change (0 * 10 + (48 - 48)) with 0 in V. destruct (digits_bound _ A 0 ltac:(lia)) as (_ & B). cbn [digits_val] in B. rewrite V in B. specialize (W (length (d :: r)) ltac:(lia) ltac:(cbn; lia)). cbn [length] in W. lia. }
  unfold print_int. destruct (Z.ltb_spec z 0).
  - exists [45], ds. rewrite <- (Z.abs_neq z) by lia. rewrite E. repeat split; auto.
  - exists [], ds. rewrite Z.abs_eq in E by lia. rewrite E. repeat split; auto; try lia. discriminate.
Qed.
Lemma parse_print z : - LLONG_MAX <= z <= LLONG_MAX -> yajl_parse_integer (print_int z) = Some (Some z).
Proof.
  intros H. destruct (print_int_shape z H) as (sign & ds & -> & S & _ & A & N & V & Sg). unfold yajl_parse_integer. destruct ds as [|c r]; [contradiction|]. pose proof A as A'. apply Forall_cons_iff in A' as (Hc & _). apply isdigit_spec in Hc.
  assert (Pd : parse_digits (c :: r) 0 = Some (Some (Z.abs z))). { rewrite parse_digits_ok; [now rewrite V|exact A|lia|rewrite V; lia]. }
  destruct S as [-> | ->]; cbn [app].
  - destruct (Z.eqb_spec c 45); [lia|]. destruct (Z.eqb_spec c 43); [lia|]. rewrite Pd. f_equal. f_equal. assert (~ z < 0) by (intros X; apply Sg in X; discriminate). lia.
  - change (45 =? 45) with true. cbv iota. destruct (Z.eqb_spec c 43); [lia|]. rewrite Pd. f_equal. f_equal. assert (z < 0) by (now apply Sg). lia.
Qed.
(** What may follow a number. *)
Definition delim (s : list Z) : Prop := exists c r, s = c :: r /\ isdigit c = false /\ c <> 46 /\ c <> 101 /\ c <> 69.
Lemma digits_skip ds s k : alldigits ds -> s_digits (ds ++ s) k = s_digits s k.
Proof. induction ds as [|c ds IH]; intros A; [reflexivity|]. apply Forall_cons_iff in A as (Hc & A). cbn [app s_digits]. rewrite Hc. now apply IH. Qed.
Lemma int_delim c r tok : isdigit c = false -> c <> 46 -> c <> 101 -> c <> 69 -> s_exponent tok c r = (tok, c :: r).
Proof. intros. unfold s_exponent. destruct (Z.eqb_spec c 101); [lia|]. destruct (Z.eqb_spec c 69); [lia|]. reflexivity. Qed.
Lemma whole_lexes ds c r : whole_digits ds -> isdigit c = false -> s_next (ds ++ c :: r) s_int = s_fraction c r.
Proof.
  intros [-> | (d & ds' & -> & A & N)] Hc; cbn [app s_next]; unfold s_int.
  - reflexivity.
  - destruct (Z.eqb_spec d 48); [contradiction|]. apply Forall_cons_iff in A as (Hd & A). rewrite Hd, digits_skip by exact A. cbn [s_digits]. now rewrite Hc.
Qed.
Lemma number_head sign ds c r : (sign = [] \/ sign = [45]) -> whole_digits ds -> isdigit c = false -> s_number (sign ++ ds ++ c :: r) = s_fraction c r.
Proof.
  intros S W Hc. unfold s_number. destruct S as [-> | ->]; cbn [app s_next].
  - pose proof (whole_lexes ds c r W Hc) as Q. destruct W as [-> | (d & ds' & -> & A & N)]; cbn [app s_next] in *; [exact Q|]. apply Forall_cons_iff in A as (Hd & A). apply isdigit_spec in Hd. destruct (Z.eqb_spec d 45); [lia|]. exact Q.
  - change (45 =? 45) with true. cbv iota. now apply whole_lexes.
Qed.
(** A decimal fraction. *)
Definition decimal (s : list Z) : Prop := exists sign ds c fs, s = sign ++ ds ++ 46 :: c :: fs /\ (sign = [] \/ sign = [45]) /\ whole_digits ds /\ alldigits (c :: fs).
Lemma int_lexes sign ds s : (sign = [] \/ sign = [45]) -> whole_digits ds -> delim s -> s_number (sign ++ ds ++ s) = (tok_integer, s).
Proof. intros S W (c & r & -> & H1 & H2 & H3 & H4). rewrite number_head by assumption. unfold s_fraction. destruct (Z.eqb_spec c 46); [contradiction|]. now apply int_delim. Qed.
Lemma decimal_lexes t s : decimal t -> delim s -> s_number (t ++ s) = (tok_double, s).
Proof.
  intros (sign & ds & c & fs & -> & S & W & A) (d & r & -> & H1 & H2 & H3 & H4). rewrite <- !app_assoc. cbn [app]. rewrite number_head by (assumption || reflexivity). unfold s_fraction. change (46 =? 46) with true. cbv iota. cbn [s_next]. apply Forall_cons_iff in A as (Hc & A). rewrite Hc, digits_skip by exact A. cbn [s_digits]. rewrite H1. now apply int_delim.
Qed.
(** A number token. *)
Lemma lex_number t s tok : s_number (t ++ s) = (tok, s) -> (exists c r, t = c :: r /\ ((c =? 45) || isdigit c) = true) -> s_lex (t ++ s) = (tok, t ++ s, s).
Proof.
  intros E (c & r & -> & H). cbn [app] in *. rewrite lex_cons.
  assert (forall x, c =? x = true -> ((x =? 45) || isdigit x) = true) as G by (intros x X; apply Z.eqb_eq in X; now subst).
  assert (45 <= c <= 57) as Rc by (apply orb_prop in H; destruct H as [H | H]; [apply Z.eqb_eq in H; lia|apply isdigit_spec in H; lia]).
  assert (white c = false) as -> by (unfold white; cbn [existsb]; repeat match goal with |- context [c =? ?x] => destruct (Z.eqb_spec c x); [lia|] | |- context [?x <=? c] => destruct (Z.leb_spec x c) | |- context [c <=? ?x] => destruct (Z.leb_spec c x) end; try lia; reflexivity).
  destruct (c =? 47) eqn:C47; [discriminate (G _ C47)|]. unfold s_token.
  repeat match goal with |- context [if c =? ?x then _ else _] => let E := fresh in destruct (c =? x) eqn:E; [discriminate (G _ E)|] end. rewrite H, E. reflexivity.
Qed.
Lemma whole_first sign ds s : (sign = [] \/ sign = [45]) -> whole_digits ds -> exists c r, sign ++ ds ++ s = c :: r /\ ((c =? 45) || isdigit c) = true.
Proof.
  intros [-> | ->] W; cbn [app]; [|eexists _, _; split; reflexivity]. destruct W as [-> | (d & ds' & -> & A & _)]; cbn [app]; eexists _, _; (split; [reflexivity|]); [reflexivity|]. apply Forall_cons_iff in A as (-> & _). apply orb_true_r.
Qed.
Lemma lex_int z s : - LLONG_MAX <= z <= LLONG_MAX -> delim s -> s_lex (print_int z ++ s) = (tok_integer, print_int z ++ s, s).
Proof.
  intros H D. destruct (print_int_shape z H) as (sign & ds & E & S & W & _). apply lex_number.
  - rewrite E, <- app_assoc. now apply int_lexes.
  - rewrite E. destruct (whole_first sign ds [] S W) as (c & r & Q & Hc). rewrite app_nil_r in Q. exists c, r. auto.
Qed.
Lemma lex_decimal t s : decimal t -> delim s -> s_lex (t ++ s) = (tok_double, t ++ s, s).
Proof.
  intros Ht D. apply lex_number; [now apply decimal_lexes|]. destruct Ht as (sign & ds & c & fs & -> & S & W & A). destruct (whole_first sign ds (46 :: c :: fs) S W) as (x & r & Q & Hc). exists x, r. auto.
Qed.
Definition quoted (s : list Z) : list Z := 34 :: yajl_string_encode s ++ [34].
Lemma lex_string s rest : utf8 s -> exists esc : bool, s_lex (quoted s ++ rest) = ((if esc then tok_string_with_escapes else tok_string), quoted s ++ rest, rest) /\ forall full, string_value full esc (quoted s) = Some (if full && esc then s else if esc then yajl_string_encode s else s).
Proof.
  intros U. destruct (string_lexes s rest U false) as (esc & E & P). exists esc. split.
  - unfold quoted. cbn [app]. rewrite <- app_assoc. cbn [app]. rewrite lex_cons. change (white 34) with false. change (34 =? 47) with false. cbv iota. change (s_token 34) with (s_string Normal false). rewrite E. reflexivity.
  - intros full. unfold string_value, quoted, unquote. destruct (yajl_string_encode s ++ [34]) eqn:Q; [destruct (yajl_string_encode s); discriminate Q|]. rewrite <- Q, removelast_last. destruct esc; [rewrite andb_true_r; destruct full; [apply decode_encode, utf8_bytes, U|reflexivity]|]. rewrite andb_false_r. destruct (P eq_refl) as (_ & ->). reflexivity.
Qed.
