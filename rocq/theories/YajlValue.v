(** The values that the decoder and the integer parser give to the texts of the grammar. *)
From Coq Require Import ZArith List Bool Lia Arith.
From Verif Require Import Base CsvModel CsvProofs JsonModel JsonProofs YajlModel YajlProofs YajlParse YajlText YajlSafe YajlGrammar.
Import ListNotations.
Open Scope Z_scope.
#[local] Ltac Zify.zify_post_hook ::= idtac.

Lemma hexval_digit c x : hexval c = Some x -> hex_digit c = Some x /\ 0 <= x < 16.
Proof.
  intros E. assert (V : VHC c = true) by (apply VHC_hexval; eauto).
  assert (H : In c (map Z.of_nat (seq 48 10 ++ seq 65 6 ++ seq 97 6))).
  { unfold VHC in V. apply in_map_iff. exists (Z.to_nat c). assert (0 <= c) by (destruct (Z.leb_spec 0 c); [lia|]; destruct (Z.leb_spec 48 c); [lia|]; destruct (Z.leb_spec 65 c); [lia|]; destruct (Z.leb_spec 97 c); [lia|]; discriminate V). split; [lia|]. rewrite !in_app_iff, !in_seq.
    apply orb_prop in V. destruct V as [V | V]; [apply orb_prop in V; destruct V as [V | V]|]; apply andb_prop in V; destruct V as (V1 & V2); apply Z.leb_le in V1; apply Z.leb_le in V2; lia. }
  vm_compute in H. repeat (destruct H as [<- | H]; [vm_compute in E; injection E as <-; split; [reflexivity|lia]|]). contradiction.
Qed.
Lemma hex4_value h cp s : hex4 h cp -> hexToDigit 4 0 (h ++ s) = Some cp /\ 0 <= cp < 65536 /\ length h = 4%nat.
Proof.
  intros (a & b & c & d & x & y & z & w & -> & Ha & Hb & Hc & Hd & ->). apply hexval_digit in Ha, Hb, Hc, Hd. destruct Ha as (Ha & ?), Hb as (Hb & ?), Hc as (Hc & ?), Hd as (Hd & ?). cbn [app].
  rewrite (hex_step _ _ _ _ _ Ha), (hex_step _ _ _ _ _ Hb), (hex_step _ _ _ _ _ Hc), (hex_step _ _ _ _ _ Hd) by lia. cbn [hexToDigit]. split; [f_equal; lia|]. split; [lia|reflexivity].
Qed.
Lemma lor_high k a d : 0 <= k -> 0 <= a -> 0 <= d < 2 ^ k -> Z.lor (a * 2 ^ k) d = a * 2 ^ k + d.
Proof.
  intros Hk Ha Hd. assert (N : Z.land (a * 2 ^ k) d = 0); [|rewrite <- Z.lxor_lor by exact N; now rewrite <- Z.add_nocarry_lxor]. apply Z.bits_inj'. intros n Hn. rewrite Z.land_spec, Z.bits_0. destruct (Z.ltb_spec n k).
  - rewrite Z.mul_pow2_bits_low by lia. reflexivity.
  - destruct (Z.eq_dec d 0) as [-> | Nz]; [rewrite Z.bits_0; apply andb_false_r|]. rewrite (Z.bits_above_log2 d n); [apply andb_false_r|lia|]. assert (Z.log2 d < k) by (apply Z.log2_lt_pow2; lia). lia.
Qed.
Lemma utf8_ok cp : 0 <= cp < 1114112 -> Utf32toUtf8 cp = utf8_of cp.
Proof.
  intros H. unfold Utf32toUtf8, utf8_of. assert (Cont : forall k, 0 <= k -> Z.lor (Z.land (Z.shiftr cp k) 63) 128 = 128 + cp / 2 ^ k mod 64).
  { intros k Hk. change 63 with (Z.ones 6). rewrite Z.land_ones by lia. rewrite Z.shiftr_div_pow2 by lia. change (2 ^ 6) with 64. rewrite Z.lor_comm. change 128 with (2 * 2 ^ 6). rewrite lor_high; [reflexivity|lia|lia|]. apply Z.mod_pos_bound. lia. }
  assert (C0 := Cont 0 ltac:(lia)). rewrite Z.pow_0_r, Z.div_1_r in C0. assert (C6 := Cont 6 ltac:(lia)). change (2 ^ 6) with 64 in C6. assert (C12 := Cont 12 ltac:(lia)). change (2 ^ 12) with 4096 in C12.
  destruct (Z.ltb_spec cp 128); [reflexivity|].
  assert (Lead : forall k q m, 0 <= k -> 0 <= m -> cp < 2 ^ (k + m) -> 0 <= q -> Z.lor (Z.shiftr cp k) (q * 2 ^ m) = q * 2 ^ m + cp / 2 ^ k).
  { intros k q m Hk Hm Hc Hq. rewrite Z.shiftr_div_pow2, Z.lor_comm by lia. rewrite lor_high; [reflexivity|lia|lia|]. assert (0 < 2 ^ k) by (apply Z.pow_pos_nonneg; lia). split; [apply Z.div_pos; lia|]. apply Z.div_lt_upper_bound; [lia|]. rewrite <- Z.pow_add_r by lia. exact Hc. }
  destruct (Z.ltb_spec cp 2048). { rewrite C0. f_equal. change 192 with (6 * 2 ^ 5) at 1. rewrite Lead; [reflexivity|lia|lia| |lia]. change (2 ^ (6 + 5)) with 2048. lia. }
  destruct (Z.ltb_spec cp 65536). { rewrite C0, C6. f_equal. change 224 with (14 * 2 ^ 4) at 1. rewrite Lead; [reflexivity|lia|lia| |lia]. change (2 ^ (12 + 4)) with 65536. lia. }
  destruct (Z.ltb_spec cp 2097152); [|lia]. rewrite C0, C6, C12. f_equal. change 240 with (30 * 2 ^ 3) at 1. rewrite Lead; [reflexivity|lia|lia| |lia]. change (2 ^ (18 + 3)) with 2097152. lia.
Qed.
Lemma land_high v : 0 <= v < 65536 -> Z.land v 64512 = v / 1024 * 1024.
Proof.
  intros H. change 64512 with (Z.shiftl 63 10). assert (Z.land v (Z.shiftl 63 10) = Z.shiftl (Z.land (Z.shiftr v 10) 63) 10) as ->.
  { apply Z.bits_inj'. intros n Hn. rewrite Z.land_spec. destruct (Z.ltb_spec n 10); [rewrite !Z.shiftl_spec_low by lia; apply andb_false_r|]. rewrite !Z.shiftl_spec by lia. rewrite Z.land_spec, Z.shiftr_spec by lia. now replace (n - 10 + 10) with n by lia. }
  change 63 with (Z.ones 6). rewrite Z.land_ones, Z.shiftr_div_pow2, Z.shiftl_mul_pow2 by lia. change (2 ^ 10) with 1024. rewrite Z.mod_small; [reflexivity|]. split; [apply Z.div_pos; lia|]. apply Z.div_lt_upper_bound; lia.
Qed.
Lemma high_test v : 0 <= v < 65536 -> (Z.land v 64512 =? 55296) = true <-> 55296 <= v < 56320.
Proof. intros H. rewrite land_high by exact H. rewrite Z.eqb_eq. pose proof (Z.div_mod v 1024 ltac:(lia)). pose proof (Z.mod_pos_bound v 1024 ltac:(lia)). lia. Qed.
Lemma pair_value c1 c2 : 55296 <= c1 < 56320 -> 56320 <= c2 < 57344 ->
  Z.lor (Z.lor (Z.shiftl (Z.land c1 63) 10) (Z.shiftl (Z.land (Z.shiftr c1 6) 15 + 1) 16)) (Z.land c2 1023) = 65536 + 1024 * (c1 - 55296) + (c2 - 56320).
Proof.
  intros H1 H2. change 63 with (Z.ones 6). change 15 with (Z.ones 4). change 1023 with (Z.ones 10). rewrite !Z.land_ones, Z.shiftr_div_pow2, !Z.shiftl_mul_pow2 by lia. change (2 ^ 6) with 64. change (2 ^ 4) with 16.
  assert (M : c1 mod 64 = (c1 - 55296) mod 64) by (replace c1 with ((c1 - 55296) + 864 * 64) at 1 by lia; apply Z.mod_add; lia).
  assert (D : c1 / 64 mod 16 = (c1 - 55296) / 64). { replace c1 with ((c1 - 55296) + 864 * 64) at 1 by lia. rewrite Z.div_add by lia. replace 864 with (54 * 16) by lia. rewrite Z.mod_add by lia. apply Z.mod_small. split; [apply Z.div_pos; lia|apply Z.div_lt_upper_bound; lia]. }
  assert (L : c2 mod 2 ^ 10 = c2 - 56320) by (replace c2 with ((c2 - 56320) + 55 * 2 ^ 10) at 1 by (change (2 ^ 10) with 1024; lia); rewrite Z.mod_add by (change (2 ^ 10) with 1024; lia); apply Z.mod_small; change (2 ^ 10) with 1024; lia).
  rewrite M, D, L. set (x := c1 - 55296) in *. pose proof (Z.div_mod x 64 ltac:(lia)) as E. pose proof (Z.mod_pos_bound x 64 ltac:(lia)) as B. assert (0 <= x / 64) by (apply Z.div_pos; lia). set (q := x / 64) in *. set (m := x mod 64) in *.
  rewrite (Z.lor_comm (m * 2 ^ 10)), lor_high by (change (2 ^ 10) with 1024; change (2 ^ 16) with 65536; lia).
  replace ((q + 1) * 2 ^ 16 + m * 2 ^ 10) with (((q + 1) * 64 + m) * 2 ^ 10) by (change (2 ^ 10) with 1024; change (2 ^ 16) with 65536; lia). rewrite lor_high by (change (2 ^ 10) with 1024; lia). change (2 ^ 10) with 1024. lia.
Qed.

(** * Strings *)
(** From any position on, the body is decoded to the value. *)
Definition decodes (b v : list Z) : Prop := forall pre n, (length b < n)%nat -> string_decode n (pre ++ b ++ [34]) (length pre + length b) (length pre) = Some v.
Lemma decodes_after p b v pre n e : decodes b v -> (length b < n)%nat -> e = (length pre + length p)%nat -> string_decode n (pre ++ (p ++ b) ++ [34]) (length pre + length (p ++ b)) e = Some v.
Proof. intros D L ->. specialize (D (pre ++ p) n L). rewrite app_length, <- !app_assoc in D. rewrite app_length, <- app_assoc, Nat.add_assoc. exact D. Qed.
Lemma decodes_char c b v : c <> 92 -> decodes b v -> decodes (c :: b) (c :: v).
Proof.
  intros N D pre [|n] L; [cbn in L; lia|]. cbn [length] in L. cbn [string_decode app]. destruct (Nat.leb_spec (length pre + length (c :: b)) (length pre)) as [Q | _]; [cbn in Q; lia|]. rewrite nth_here. destruct (Z.eqb_spec c 92); [contradiction|]. cbn [negb].
  pose proof (decodes_after [c] b v pre n (S (length pre)) D) as Q. cbn [app] in Q. rewrite Q; [reflexivity|lia|cbn; lia].
Qed.
Lemma decodes_esc c x b v : In (c, x) escapes -> decodes b v -> decodes (92 :: c :: b) (x :: v).
Proof.
  intros I D pre [|n] L; [cbn in L; lia|]. cbn [length] in L. cbn [string_decode app]. destruct (Nat.leb_spec (length pre + length (92%Z :: c :: b)) (length pre)) as [Q | _]; [cbn in Q; lia|]. rewrite nth_here. change (negb (92 =? 92)) with false. cbv iota. rewrite nth_next.
  pose proof (decodes_after [92; c] b v pre n (S (S (length pre))) D) as Q. cbn [app] in Q. rewrite Q by (cbn; lia). unfold escapes in I. cbn [In] in I. repeat (destruct I as [[= <- <-] | I]; [reflexivity|]). contradiction.
Qed.
Lemma decodes_u h cp b v : hex4 h cp -> ~ (55296 <= cp < 56320) -> decodes b v -> decodes (92 :: 117 :: h ++ b) (utf8_of cp ++ v).
Proof.
  intros Hh Nh D pre [|n] L; [cbn in L; lia|]. cbn [string_decode]. destruct (Nat.leb_spec (length pre + length (92%Z :: 117%Z :: h ++ b)) (length pre)) as [Q | _]; [cbn in Q; lia|]. cbn [app]. rewrite nth_here. change (negb (92 =? 92)) with false. cbv iota. rewrite nth_next.
  change (117 =? 114) with false. change (117 =? 110) with false. change (117 =? 92) with false. change (117 =? 47) with false. change (117 =? 34) with false. change (117 =? 102) with false. change (117 =? 98) with false. change (117 =? 116) with false. change (117 =? 117) with true. cbv iota.
  replace (S (S (length pre))) with (length pre + 2)%nat by lia. rewrite skipn_past. cbn [skipn]. rewrite <- app_assoc. destruct (hex4_value h cp (b ++ [34]) Hh) as (-> & R & Lh). destruct (Z.land cp 64512 =? 55296) eqn:T; [apply high_test in T; [contradiction|exact R]|].
  pose proof (decodes_after (92 :: 117 :: h) b v pre n (S (S (length pre) + 4)) D) as Q. cbn [app] in Q. rewrite <- app_assoc in Q. rewrite Q; [now rewrite utf8_ok by lia|cbn [length] in L; rewrite app_length in L; lia|cbn [length]; lia].
Qed.
Lemma decodes_pair h c1 k c2 b v : hex4 h c1 -> 55296 <= c1 < 56320 -> hex4 k c2 -> 56320 <= c2 < 57344 -> decodes b v ->
  decodes (92 :: 117 :: h ++ 92 :: 117 :: k ++ b) (utf8_of (65536 + 1024 * (c1 - 55296) + (c2 - 56320)) ++ v).
Proof.
  intros Hh R1 Hk R2 D pre [|n] L; [cbn in L; lia|]. cbn [string_decode]. destruct (Nat.leb_spec (length pre + length (92%Z :: 117%Z :: h ++ 92%Z :: 117%Z :: k ++ b)) (length pre)) as [Q | _]; [cbn in Q; lia|]. cbn [app]. rewrite nth_here. change (negb (92 =? 92)) with false. cbv iota. rewrite nth_next.
  change (117 =? 114) with false. change (117 =? 110) with false. change (117 =? 92) with false. change (117 =? 47) with false. change (117 =? 34) with false. change (117 =? 102) with false. change (117 =? 98) with false. change (117 =? 116) with false. change (117 =? 117) with true. cbv iota.
  destruct (hex4_value h c1 ((92 :: 117 :: k ++ b) ++ [34]) Hh) as (Eh & B1 & Lh). destruct (hex4_value k c2 (b ++ [34]) Hk) as (Ek & B2 & Lk).
  assert (N0 : skipn (S (S (length pre))) (pre ++ 92 :: 117 :: h ++ (92 :: 117 :: k ++ b) ++ [34]) = h ++ (92 :: 117 :: k ++ b) ++ [34]) by (replace (S (S (length pre))) with (length pre + 2)%nat by lia; rewrite skipn_past; reflexivity).
  rewrite <- app_assoc, N0, Eh. rewrite (proj2 (high_test c1 B1) R1).
  set (e1 := S (S (length pre) + 4)). assert (Le : e1 = length (pre ++ 92 :: 117 :: h)) by (rewrite app_length; cbn [length]; unfold e1; lia).
  assert (Es : pre ++ 92 :: 117 :: h ++ (92 :: 117 :: k ++ b) ++ [34] = (pre ++ 92 :: 117 :: h) ++ 92 :: 117 :: k ++ b ++ [34]) by (cbn [app]; rewrite <- !app_assoc; cbn [app]; reflexivity).
  assert (N1 : nth_error (pre ++ 92 :: 117 :: h ++ (92 :: 117 :: k ++ b) ++ [34]) e1 = Some 92) by (rewrite Es, Le; apply nth_here).
  assert (N2 : nth_error (pre ++ 92 :: 117 :: h ++ (92 :: 117 :: k ++ b) ++ [34]) (S e1) = Some 117) by (rewrite Es, Le; apply nth_next).
  assert (N3 : skipn (S (S e1)) (pre ++ 92 :: 117 :: h ++ (92 :: 117 :: k ++ b) ++ [34]) = k ++ b ++ [34]) by (rewrite Es; replace (S (S e1)) with (length (pre ++ 92%Z :: 117%Z :: h) + 2)%nat by (rewrite <- Le; lia); rewrite skipn_past; reflexivity).
  rewrite N1, N2, N3, Ek. change (negb (92 =? 92)) with false. change (negb (117 =? 117)) with false. cbv iota. rewrite pair_value by assumption.
  pose proof (decodes_after (92 :: 117 :: h ++ 92 :: 117 :: k) b v pre n (e1 + 6) D) as Q. cbn [length app] in L. repeat (rewrite app_length in L; cbn [length] in L). repeat first [rewrite <- app_assoc in Q | progress cbn [app] in Q]. repeat first [rewrite <- app_assoc | progress cbn [app]]. rewrite Q; [now rewrite utf8_ok by lia|lia|]. cbn [length]. rewrite app_length. cbn [length]. unfold e1. lia.
Qed.
Lemma high_plain u : high u -> Forall (fun c => c <> 92) u.
Proof. unfold cont. destruct 1; unfold cont in *; repeat constructor; lia. Qed.
Lemma decodes_text b v : str_text b v -> decodes b v.
Proof.
  induction 1 as [|c b v Hc N1 N2 H IH|u b v Hu H IH|c x b v Hc H IH|h cp b v Hh Nh H IH|h c1 k c2 b v Hh R1 Hk R2 H IH].
  - intros pre [|n] L; [cbn in L; lia|]. cbn [string_decode length]. rewrite Nat.add_0_r. now rewrite Nat.leb_refl.
  - apply decodes_char; [exact N2|exact IH].
  - apply high_plain in Hu. clear H. induction Hu as [|c u Hc Hu IHu]; [exact IH|]. cbn [app]. apply decodes_char; [exact Hc|exact IHu].
  - now apply decodes_esc.
  - now apply decodes_u.
  - now apply decodes_pair.
Qed.
Lemma decode_text b v : str_text b v -> yajl_string_decode b = Some v.
Proof. intros H. unfold yajl_string_decode. apply (decodes_text b v H [] (S (length b))). lia. Qed.
Lemma text_ok b v : str_text b v -> str_ok b.
Proof. induction 1; [constructor|now constructor|now constructor|eapply so_esc; eassumption|eapply so_u; eassumption|]. eapply so_u; [eassumption|]. eapply so_u; eassumption. Qed.
Lemma text_plain b v : str_text b v -> ~ In 92 b -> v = b.
Proof.
  induction 1; intros N.
  - reflexivity.
  - f_equal. apply IHstr_text. intros I. apply N. now right.
  - f_equal. apply IHstr_text. intros I. apply N, in_or_app. now right.
  - exfalso. apply N. now left.
  - exfalso. apply N. now left.
  - exfalso. apply N. now left.
Qed.
Lemma ok_text b : str_ok b -> no_surrogates b -> exists v, str_text b v.
Proof.
  assert (Sub : forall p b, no_surrogates (p ++ b) -> no_surrogates b) by (intros p c H a x y r E; apply (H (p ++ a) x y r); rewrite E, <- app_assoc; reflexivity).
  induction 1 as [|c b Hc N1 N2 H IH|u b Hu H IH|c x b Hc H IH|h cp b Hh H IH]; intros Ns.
  - exists []. constructor.
  - destruct IH as (v & Hv); [now apply (Sub [c])|]. exists (c :: v). now constructor.
  - destruct IH as (v & Hv); [now apply (Sub u)|]. exists (u ++ v). now constructor.
  - destruct IH as (v & Hv); [now apply (Sub [92; c])|]. exists (x :: v). now constructor.
  - destruct IH as (v & Hv); [now apply (Sub (92 :: 117 :: h))|]. exists (utf8_of cp ++ v). constructor; [exact Hh| |exact Hv].
    intros R. destruct Hh as (p & q & r & s & x & y & z & w & -> & Hp & Hq & Hr & Hs & ->). apply hexval_digit in Hr, Hs. assert (Hp' := proj2 (hexval_digit _ _ Hp)). assert (Hq' := proj2 (hexval_digit _ _ Hq)). assert (x = 13) by lia. subst x.
    apply (Ns [] p q (r :: s :: b)); [reflexivity| |].
    + unfold hexval in Hp. destruct ((48 <=? p) && (p <=? 57)) eqn:E1; [assert (p - 48 = 13) by congruence; apply andb_prop in E1; destruct E1 as (E1 & E2); apply Z.leb_le in E2; lia|]. destruct ((65 <=? p) && (p <=? 70)); [assert (p - 55 = 13) by congruence; left; lia|]. destruct ((97 <=? p) && (p <=? 102)); [assert (p - 87 = 13) by congruence; right; left; lia|discriminate Hp].
    + assert (8 <= y < 12) by lia. unfold hexval in Hq. cbn [In]. destruct ((48 <=? q) && (q <=? 57)) eqn:E1; [assert (q - 48 = y) by congruence; apply andb_prop in E1; destruct E1 as (E1 & E2); apply Z.leb_le in E2; lia|]. destruct ((65 <=? q) && (q <=? 70)) eqn:E3; [assert (q - 55 = y) by congruence; apply andb_prop in E3; destruct E3 as (E3 & E4); apply Z.leb_le in E3; lia|]. destruct ((97 <=? q) && (q <=? 102)) eqn:E5; [assert (q - 87 = y) by congruence; apply andb_prop in E5; destruct E5 as (E5 & E6); apply Z.leb_le in E5; lia|discriminate Hq].
Qed.

(** * Integers *)
Lemma parse_digits_inv ds : alldigits ds -> forall x v, 0 <= x <= LLONG_MAX -> parse_digits ds x = Some (Some v) -> v = digits_val ds x /\ v <= LLONG_MAX.
Proof.
  induction ds as [|c ds IH]; intros A x v Hx E; cbn [parse_digits digits_val] in *; [injection E as <-; lia|]. apply Forall_cons_iff in A as (Hc & A). rewrite Hc. apply isdigit_spec in Hc.
  destruct (MAX_VALUE_TO_MULTIPLY <? x); [discriminate|]. destruct (Z.ltb_spec LLONG_MAX (x * 10)); [discriminate|]. destruct (Z.ltb_spec (LLONG_MAX - x * 10) (c - 48)); [discriminate|]. destruct ((c <? 48) || (57 <? c)); [discriminate|]. apply (IH A (x * 10 + (c - 48)) v ltac:(lia) E).
Qed.
Lemma whole_all ds : whole_digits ds -> alldigits ds.
Proof. intros [-> | (c & r & -> & A & _)]; [repeat constructor|exact A]. Qed.
Lemma parse_sign t ds : whole_digits ds -> yajl_parse_integer (t ++ ds) = match t with [] => match parse_digits ds 0 with None => None | Some None => Some None | Some (Some r) => Some (Some (1 * r)) end | [45] => match parse_digits ds 0 with None => None | Some None => Some None | Some (Some r) => Some (Some (-1 * r)) end | _ => yajl_parse_integer (t ++ ds) end.
Proof.
  intros W. assert (D : exists d r, ds = d :: r /\ isdigit d = true) by (pose proof (whole_all ds W) as A; destruct W as [-> | (c & r & -> & _ & _)]; [exists 48, []; auto|]; apply Forall_cons_iff in A; exists c, r; tauto).
  destruct D as (d & r & -> & Hd). apply isdigit_spec in Hd. unfold yajl_parse_integer. destruct t as [|x [|y t]].
  - cbn [app]. destruct (Z.eqb_spec d 45); [lia|]. destruct (Z.eqb_spec d 43); [lia|]. reflexivity.
  - cbn [app]. destruct (Z.eq_dec x 45) as [-> | N].
    + change (45 =? 45) with true. cbv iota. destruct (Z.eqb_spec d 43); [lia|]. reflexivity.
    + destruct x as [|p|p]; try reflexivity. repeat (destruct p as [p|p|]; try reflexivity). contradiction.
  - destruct x as [|p|p]; try reflexivity. repeat (destruct p as [p|p|]; try reflexivity).
Qed.
Lemma int_value_ok t z : int_value t z -> int_text t /\ yajl_parse_integer t = Some (Some z).
Proof.
  intros (ds & W & L & [(-> & ->) | (-> & ->)]).
  - split; [exists [], ds; auto|]. pose proof (parse_sign [] ds W) as Q. cbn [app] in Q. rewrite Q, parse_digits_ok by (first [now apply whole_all | lia]). now rewrite Z.mul_1_l.
  - split; [exists [45], ds; auto|]. pose proof (parse_sign [45] ds W) as Q. cbn [app] in Q. rewrite Q, parse_digits_ok by (first [now apply whole_all | lia]). replace (-1 * digits_val ds 0) with (- digits_val ds 0) by lia. reflexivity.
Qed.
Lemma int_value_inv t z : int_text t -> yajl_parse_integer t = Some (Some z) -> int_value t z.
Proof.
  intros (sign & ds & -> & Hs & W) E. rewrite parse_sign in E by exact W. assert (Lm : 0 <= 0 <= LLONG_MAX) by (unfold LLONG_MAX; lia).
  destruct Hs as [-> | ->]; destruct (parse_digits ds 0) as [[v|]|] eqn:P; try discriminate E; destruct (parse_digits_inv ds (whole_all ds W) 0 v Lm P) as (Ev & B); exists ds; (split; [exact W|]; split; [lia|]).
  - left. split; [reflexivity|]. assert (z = 1 * v) by congruence. lia.
  - right. split; [reflexivity|]. assert (z = -1 * v) by congruence. lia.
Qed.
