(** Properties C68 and C69: the parameters of a dserve request and who may make it. *)
From Coq Require Import ZArith List Bool Lia Arith.
From Coq Require String Ascii.
From Verif Require Import DserveModel DserveProofs.
Import ListNotations.
Import String.StringSyntax.
Open Scope Z_scope.

(** The bytes of a text, for the examples. *)
Definition B (s : String.string) : list Z :=
  map (fun c => Z.of_nat (Ascii.nat_of_ascii c)) (String.list_ascii_of_string s).
Arguments B _%string_scope.

(** ** C68 *)

(** Names and values encoded with percent signs and upper case digits, joined by [=] and
    [&], come back as they were: [ps] are the parameters meant, [es] their encoded forms. The
    last [&] may be left out unless the last value is empty. Nothing behind the query is touched. *)
Theorem C68_roundtrip : forall ps es q post,
  Forall2 (fun p e => pct 61 (fst p) (fst e) /\ pct 38 (snd p) (snd e)) ps es ->
  (length ps <= 100)%nat ->
  q = concat (map (fun e => fst e ++ 61 :: snd e ++ [38]) es) \/
  (q ++ [38] = concat (map (fun e => fst e ++ 61 :: snd e ++ [38]) es) /\ snd (last es ([], [])) <> []) ->
  exists b pv, parse_query (q ++ 0 :: post) (length q) = Some (PQ_ok b pv) /\
    Forall2 (fun x p => cstr_at b (fst x) = Some (fst p) /\ cstr_at b (snd x) = Some (snd p)) pv ps /\
    length b = length (q ++ 0 :: post) /\ skipn (S (length q)) b = post.
Proof.
  intros ps es q post A N Q.
  assert (Ln : length es = length ps) by (clear - A; induction A; cbn [length]; congruence).
  assert (Pl : Forall plain es).
  { clear - A. induction A as [|p e ps es [H1 H2] A I]; constructor; [|assumption].
    split; [eapply pct_avoid; [now left|exact H1]|eapply pct_avoid; [now right|exact H2]]. }
  assert (Te : Forall (fun e => text (fst e) /\ text (snd e)) es).
  { clear - A. induction A as [|p e ps es [H1 H2] A I]; constructor; [|assumption].
    split; [exact (proj2 (pct_text _ _ _ H1))|exact (proj2 (pct_text _ _ _ H2))]. }
  assert (Tq' : text (query_text es)).
  { clear - Te. unfold text in *. induction Te as [|e es [T1 T2] Te I]; cbn [query_text map concat]; [constructor|].
    unfold line. apply Forall_app. split; [|exact I]. apply Forall_app. split; [assumption|]. constructor; [lia|].
    apply Forall_app. split; [assumption|]. constructor; [lia|constructor]. }
  change (concat (map (fun e : list Z * list Z => fst e ++ 61 :: snd e ++ [38]) es)) with (query_text es) in Q.
  assert (Tq : text q).
  { destruct Q as [->|[Q _]]; [exact Tq'|]. unfold text in *. rewrite <- Q in Tq'. apply Forall_app in Tq'. apply Tq'. }
  assert (R : qread (S (length q)) q 0 = Some es).
  { destruct Q as [->|[Q L]]; [apply qread_join; [assumption|unfold MAXPARAMS; lia|lia]|].
    destruct es as [|e0 es0] eqn:Ee using rev_ind; [destruct q; discriminate Q|].
    rewrite last_last in L. destruct e0 as [k v]. cbn [snd] in L.
    assert (Eq : q = query_text es0 ++ k ++ 61 :: v).
    { unfold query_text in *. rewrite map_app, concat_app in Q. cbn [map concat] in Q. unfold line in Q at 2. cbn [fst snd] in Q.
      rewrite app_nil_r in Q.
      replace (concat (map line es0) ++ k ++ 61 :: v ++ [38]) with ((concat (map line es0) ++ k ++ 61 :: v) ++ [38]) in Q
        by (rewrite <- !app_assoc; cbn [app]; reflexivity).
      apply app_inj_tail in Q. apply Q. }
    apply Forall_app in Pl. destruct Pl as [P1 P2]. inversion P2; subst.
    apply (qread_join_last es0 _ k v); try assumption; try reflexivity; try lia.
    rewrite app_length in Ln. cbn [length] in Ln. unfold MAXPARAMS. lia. }
  pose proof (parse_query_ok q post Tq) as P. rewrite R in P. destruct P as (b1 & pv & E & Lb & H).
  exists (b1 ++ post), pv. split; [exact E|]. split; [|split].
  - clear - H A. revert ps A. induction H as [|x e pv es [H1 H2] H I]; intros ps A; inversion A as [|p ? ps' ? [A1 A2] A']; subst; constructor.
    + split; apply cstr_stable; [rewrite H1|rewrite H2]; f_equal.
      * rewrite (dec_pct _ _ _ A1). apply cut0_text. exact (proj1 (pct_text _ _ _ A1)).
      * rewrite (dec_pct _ _ _ A2). apply cut0_text. exact (proj1 (pct_text _ _ _ A2)).
    + now apply I.
  - rewrite !app_length. cbn [length]. lia.
  - rewrite skipn_app, Lb, Nat.sub_diag. rewrite skipn_all2 by lia. reflexivity.
Qed.
Print Assumptions C68_roundtrip.

(** [field] = 1 with a comparison value holding all the special characters. *)
Example C68_roundtrip_ex :
  let q := B "field=1&value=a%26b%3D%25&op=count" in
  exists b pv, parse_query (q ++ [0]) (length q) = Some (PQ_ok b pv) /\
    map (fun x => (cstr_at b (fst x), cstr_at b (snd x))) pv =
      [(Some (B "field"), Some (B "1")); (Some (B "value"), Some (B "a&b=%")); (Some (B "op"), Some (B "count"))].
Proof. eexists _, _. split; [vm_compute; reflexivity|vm_compute; reflexivity]. Qed.
Example C68_roundtrip_hyp : pct 38 (B "a&b=") (B "a%26b%3D").
Proof.
  cbn. apply pct_lit; [lia|lia|lia|]. apply (pct_esc 38 2 6); [lia|left; lia|left; lia|]. apply pct_lit; [lia|lia|lia|].
  apply (pct_esc 38 3 13); [lia|left; lia|right; lia|]. constructor.
Qed.

(** Every query without 0 bytes is handled inside its buffer: no access outside, no endless loop,
    and the bytes behind its end stay. Every pointer stored is the start of a string. *)
Theorem C68_safe : forall q post, Forall (fun c => 0 < c < 256) q ->
  parse_query (q ++ 0 :: post) (length q) = Some PQ_err \/
  exists b pv, parse_query (q ++ 0 :: post) (length q) = Some (PQ_ok b pv) /\
    length b = length (q ++ 0 :: post) /\ skipn (S (length q)) b = post /\ (length pv <= 100)%nat /\
    Forall (fun x => (fst x < snd x <= length q)%nat /\ cstr_at b (fst x) <> None /\ cstr_at b (snd x) <> None) pv.
Proof.
  intros q post T. pose proof (parse_query_ok q post T) as P.
  destruct (qread (S (length q)) q 0) as [ps|] eqn:R; [|now left]. right.
  destruct P as (b1 & pv & E & Lb & H). exists (b1 ++ post), pv.
  assert (Ln : length pv = length ps) by (clear - H; induction H; cbn [length]; congruence).
  pose proof (qread_form _ _ _ _ R) as (_ & N & _).
  split; [exact E|]. split; [rewrite !app_length; cbn [length]; lia|].
  split; [rewrite skipn_app, Lb, Nat.sub_diag, skipn_all2 by lia; reflexivity|].
  split; [destruct N as [->|N]; [cbn in Ln; lia|unfold MAXPARAMS in N; lia]|].
  assert (O : Forall (fun x => (fst x < snd x)%nat) pv).
  { clear - E. unfold parse_query in E.
    enough (G : forall fuel b ql i acc b' pv, parse_loop fuel b ql i acc = Some (PQ_ok b' pv) ->
      Forall (fun x : nat * nat => (fst x < snd x)%nat) acc -> Forall (fun x => (fst x < snd x)%nat) pv)
      by (eapply G; [exact E|constructor]).
    clear. assert (Sp : forall fuel b ch i ql b' j, split_at fuel b ch i ql = Some (b', j) -> (i <= j)%nat).
    { induction fuel as [|fuel IH]; intros b ch i ql b' j E; cbn [split_at] in E; [discriminate|].
      destruct (Nat.ltb i ql); [|inversion E; lia]. destruct (rd b i); [|discriminate].
      destruct (z =? ch); [destruct (wr b i 0); inversion E; lia|]. apply IH in E. lia. }
    induction fuel as [|fuel IH]; intros b ql i acc b' pv E A; cbn [parse_loop] in E; [discriminate|].
    destruct (Nat.ltb i ql); [|inversion E; subst; assumption].
    destruct (split_at (S ql) b 61 i ql) as [[b1 j]|] eqn:E1; [|discriminate]. apply Sp in E1.
    destruct (Nat.leb ql (S j)); [discriminate|].
    destruct (split_at (S ql) b1 38 (S j) ql) as [[b2 j2]|]; [|discriminate].
    destruct (Nat.leb MAXPARAMS (length acc)); [discriminate|].
    destruct (urldecode b2 i) as [b3|]; [|discriminate]. destruct (urldecode b3 (S j)) as [b4|]; [|discriminate].
    apply IH in E; [exact E|]. apply Forall_app. split; [assumption|]. constructor; [cbn; lia|constructor]. }
  apply Forall_forall. intros x I. rewrite Forall_forall in O. specialize (O x I).
  assert (C : exists kv, holds b1 x kv).
  { clear - H I. induction H as [|a kv pv ps Ha H IH]; [destruct I|]. destruct I as [->|I]; [now exists kv|now apply IH]. }
  destruct C as [kv [C1 C2]].
  assert (Bv : (snd x <= length q)%nat).
  { unfold cstr_at in C2. destruct (strlen_from b1 (snd x)) as [n|] eqn:En; [|discriminate]. apply strlen_bound in En. lia. }
  split; [lia|]. split; intros X; [rewrite (cstr_stable _ _ _ post C1) in X|rewrite (cstr_stable _ _ _ post C2) in X]; discriminate.
Qed.
Print Assumptions C68_safe.

Example C68_safe_ex :
  parse_query (B "a&b=%4&%=%zz%4" ++ [0; 7]) 14 =
    Some (PQ_ok (B "a&b" ++ [0] ++ B "%4" ++ [0] ++ B "%" ++ [0] ++ B "%zz%4" ++ [0; 7]) [(0, 4)%nat; (7, 9)%nat]) /\
  parse_query (B "abc" ++ [0]) 3 = Some PQ_err.
Proof. split; vm_compute; reflexivity. Qed.

(** The accepted queries are exactly the lists of at most 100 pairs name=value, names without
    [=], values without [&], joined by [&], where a last value that is empty needs an [&] after it. *)
Theorem C68_accepted : forall q post, Forall (fun c => 0 < c < 256) q ->
  ((exists b pv, parse_query (q ++ 0 :: post) (length q) = Some (PQ_ok b pv)) <->
   exists es, (length es <= 100)%nat /\ Forall (fun e => ~ In 61 (fst e) /\ ~ In 38 (snd e)) es /\
     (q = concat (map (fun e => fst e ++ 61 :: snd e ++ [38]) es) \/
      (q ++ [38] = concat (map (fun e => fst e ++ 61 :: snd e ++ [38]) es) /\ snd (last es ([], [])) <> []))).
Proof.
  intros q post T. pose proof (parse_query_ok q post T) as P.
  assert (F : forall es, concat (map (fun e : list Z * list Z => fst e ++ 61 :: snd e ++ [38]) es) = query_text es) by reflexivity.
  destruct (qread (S (length q)) q 0) as [ps|] eqn:R.
  - destruct P as (b1 & pv & E & Lb & H). split; [intros _|intros _; now exists (b1 ++ post), pv].
    apply qread_form in R. destruct R as (A & N & C). exists ps.
    split; [destruct N as [->|N]; [cbn; lia|unfold MAXPARAMS in N; lia]|]. split; [exact A|].
    rewrite F. destruct C as [->|(ps' & k & v & -> & Nv & ->)]; [now left|]. right. split.
    + unfold query_text. rewrite map_app, concat_app. cbn [map concat]. unfold line at 3. cbn [fst snd].
      rewrite app_nil_r, <- !app_assoc. reflexivity.
    + now rewrite last_last.
  - split; [intros (b & pv & E); rewrite P in E; discriminate|]. intros (es & N & A & C). exfalso. rewrite F in C.
    destruct C as [->|[C L]].
    + rewrite qread_join in R; [discriminate|exact A|unfold MAXPARAMS; lia|lia].
    + destruct es as [|[k v] es0] using rev_ind; [destruct q; discriminate C|]. rewrite last_last in L. cbn [snd] in L.
      apply Forall_app in A. destruct A as [A1 A2]. inversion A2; subst. rewrite app_length in N. cbn [length] in N.
      rewrite (qread_join_last es0 q k v) in R; try assumption; try lia; [discriminate|unfold MAXPARAMS; lia|].
      unfold query_text in *. rewrite map_app, concat_app in C. cbn [map concat] in C. unfold line in C at 2. cbn [fst snd] in C.
      rewrite app_nil_r in C.
      replace (concat (map line es0) ++ k ++ 61 :: v ++ [38]) with ((concat (map line es0) ++ k ++ 61 :: v) ++ [38]) in C
        by (rewrite <- !app_assoc; cbn [app]; reflexivity).
      apply app_inj_tail in C. apply C.
Qed.
Print Assumptions C68_accepted.

(** An empty value is taken in the middle but not at the end. *)
Example C68_accepted_ex :
  (exists b pv, parse_query (B "value=&op=count" ++ [0]) 15 = Some (PQ_ok b pv)) /\
  parse_query (B "op=count&value=" ++ [0]) 15 = Some PQ_err.
Proof. split; [eexists _, _; vm_compute; reflexivity|vm_compute; reflexivity]. Qed.

(** FINDING (Server/dserve_util.c l.140, l.143): digits a-f in lower case are decoded to other
    characters, although they are accepted; RFC 3986 section 2.1 makes them equivalent to A-F. *)
Theorem C68_lowercase_refuted :
  ~ (forall h l hc lc, 0 < 16 * h + l ->
       (uphex h hc \/ (10 <= h < 16 /\ hc = 87 + h)) -> (uphex l lc \/ (10 <= l < 16 /\ lc = 87 + l)) ->
       exists b pv, parse_query ([118; 61; 37; hc; lc] ++ [0]) 5 = Some (PQ_ok b pv) /\
         map (fun x => cstr_at b (snd x)) pv = [Some [16 * h + l]]).
Proof.
  intros H. destruct (H 2 15 50 102) as (b & pv & E & V); [lia|left; left; lia|right; lia|].
  vm_compute in E. injection E as <- <-. vm_compute in V. discriminate V.
Qed.
Print Assumptions C68_lowercase_refuted.
(** [value=a%2fb] asks for the string [avb]. *)
Example C68_lowercase_case :
  exists b pv, parse_query (B "value=a%2fb" ++ [0]) 11 = Some (PQ_ok b pv) /\ map (fun x => cstr_at b (snd x)) pv = [Some (B "avb")].
Proof. eexists _, _. split; [vm_compute; reflexivity|vm_compute; reflexivity]. Qed.

(** Taking over the query: within bounds for all lengths but one. *)
Theorem C68_copy : forall isserver q, isserver = true \/ length q <> Z.to_nat 2000 ->
  (length q <= Z.to_nat 2000)%nat ->
  exists b, take_query isserver q = Some (Some (q ++ 0 :: b, length q)).
Proof.
  intros sv q N L. unfold take_query. change MAXQUERYLEN with (Z.to_nat 2000).
  destruct (Nat.ltb_spec (Z.to_nat 2000) (length q)); [lia|].
  destruct sv; [exists []; reflexivity|]. destruct N as [N|N]; [discriminate|].
  destruct (Nat.leb_spec (S (length q)) (Z.to_nat 2000)); [|lia].
  eexists. rewrite <- ?app_assoc. reflexivity.
Qed.
Print Assumptions C68_copy.
Example C68_copy_ex : exists b, take_query false (B "op=count") = Some (Some (B "op=count" ++ 0 :: b, 8%nat)).
Proof. apply C68_copy; [right; vm_compute; discriminate|]. apply Nat.leb_le. vm_compute. reflexivity. Qed.
(** FINDING (Server/dserve.c l.442, l.445): a query of exactly 2000 characters passes the length
    check, and the copy with its terminating 0 writes one byte behind the array. *)
Theorem C68_copy_refuted : ~ (forall q, take_query false q <> None).
Proof. intros H. apply (H (repeat 97 (Z.to_nat 2000))). vm_compute. reflexivity. Qed.
Print Assumptions C68_copy_refuted.

(** Decimal notation: the text of 10 n + d is the text of n followed by the digit d. *)
Inductive decimal : list Z -> Z -> Prop :=
| dec_digit : forall d, 0 <= d < 10 -> decimal [48 + d] d
| dec_more : forall s n d, decimal s n -> 0 <= d < 10 -> decimal (s ++ [48 + d]) (10 * n + d).
Lemma decimal_digits : forall s n, decimal s n -> Forall (fun c => isdigit c = true) s /\ digits_value s = n.
Proof.
  intros s n H. induction H as [d R|s n d H [I1 I2] R].
  - assert (X : isdigit (48 + d) = true) by (unfold isdigit; destruct (Z.leb_spec 48 (48 + d)), (Z.leb_spec (48 + d) 57); try lia; reflexivity).
    split; [constructor; [exact X|constructor]|]. unfold digits_value. cbn [fold_left]. lia.
  - assert (X : isdigit (48 + d) = true) by (unfold isdigit; destruct (Z.leb_spec 48 (48 + d)), (Z.leb_spec (48 + d) 57); try lia; reflexivity).
    split; [apply Forall_app; split; [assumption|constructor; [exact X|constructor]]|].
    unfold digits_value in *. rewrite fold_left_app, I2. cbn [fold_left]. lia.
Qed.
Lemma isint_ok : forall s, isint s = true <-> Forall (fun c => isdigit c = true) s.
Proof.
  induction s as [|c s IH]; cbn [isint]; [split; [constructor|reflexivity]|].
  destruct (isdigit c) eqn:E; [rewrite IH; split; [now constructor|intros H; now inversion H]|].
  split; [discriminate|intros H; inversion H; congruence].
Qed.
Lemma isdbl_chars : forall s c, isdbl_loop s c = true -> Forall (fun x => isdigit x = true \/ x = 46) s.
Proof.
  induction s as [|x s IH]; intros c H; cbn [isdbl_loop] in H; [constructor|].
  destruct (isdigit x) eqn:E; [constructor; [now left|now apply IH in H]|].
  destruct (Z.eqb_spec x 46) as [->|]; [|discriminate]. destruct (1 <? c + 1); [discriminate|].
  constructor; [now right|now apply IH in H].
Qed.

(** A value without a type: a number up to 2147483647 in decimal is that integer, and a text with
    some other character than digits and periods is that string. *)
Theorem C68_value : forall s,
  (forall n, decimal s n -> n <= 2147483647 ->
     encode_invalue (Some s) T_any = Some (V_int n) /\ encode_invalue (Some s) T_int = Some (V_int n)) /\
  (Exists (fun c => ~ (48 <= c <= 57) /\ c <> 46) s ->
     encode_invalue (Some s) T_any = Some (V_str s) /\ encode_invalue (Some s) T_int = Some V_illegal /\
     encode_invalue (Some s) T_double = Some V_illegal).
Proof.
  intros s. split.
  - intros n D L. apply decimal_digits in D. destruct D as [D V]. apply isint_ok in D. unfold encode_invalue, atoi. rewrite D, V.
    destruct (Z.leb_spec n 2147483647); [split; reflexivity|lia].
  - intros X.
    assert (I : isint s = false).
    { destruct (isint s) eqn:I; [|reflexivity]. apply isint_ok in I. apply Exists_exists in X. destruct X as (c & Ic & N & _).
      rewrite Forall_forall in I. specialize (I c Ic). unfold isdigit in I. apply andb_true_iff in I. destruct I as [I1 I2].
      apply Z.leb_le in I1. apply Z.leb_le in I2. exfalso. apply N. lia. }
    assert (J : isdbl s = false).
    { destruct (isdbl s) eqn:J; [|reflexivity]. apply isdbl_chars in J. apply Exists_exists in X. destruct X as (c & Ic & N & M).
      rewrite Forall_forall in J. destruct (J c Ic) as [J1|J1]; [|contradiction]. unfold isdigit in J1. apply andb_true_iff in J1.
      destruct J1 as [I1 I2]. apply Z.leb_le in I1. apply Z.leb_le in I2. exfalso. apply N. lia. }
    unfold encode_invalue. rewrite I, J. repeat split.
Qed.
Print Assumptions C68_value.
Example C68_value_ex :
  encode_invalue (Some (B "120")) T_any = Some (V_int 120) /\ encode_invalue (Some (B "12:0")) T_any = Some (V_str (B "12:0")).
Proof.
  split; [apply (C68_value (B "120"))|apply (C68_value (B "12:0"))].
  - change (B "120") with (([48 + 1] ++ [48 + 2]) ++ [48 + 0]). change 120 with (10 * (10 * 1 + 2) + 0).
    repeat constructor; lia.
  - lia.
  - apply Exists_cons_tl. apply Exists_cons_tl. apply Exists_cons_hd. cbn. lia.
Qed.
(** FINDING (Server/dserve_util.c l.74, l.86, l.163-170): no text is a number too: the empty value is the
    integer 0, and a number that does not fit makes atoi undefined. *)
Theorem C68_value_refuted :
  encode_invalue (Some []) T_any = Some (V_int 0) /\ ~ (exists n, decimal [] n) /\ encode_invalue (Some (B "4294967296")) T_any = None.
Proof.
  split; [reflexivity|]. split; [|reflexivity]. intros [n H].
  inversion H as [|s m d H1 R E E2]. now destruct s.
Qed.
Print Assumptions C68_value_refuted.

(** ** C69 *)

(** The lists of a level and the stronger ones. *)
Definition ip_lists (lv : level) (c : conf) : list (list (list Z)) :=
  match lv with
  | ADMIN_LEVEL => [admin_ips c]
  | WRITE_LEVEL => [admin_ips c; write_ips c]
  | READ_LEVEL => [admin_ips c; write_ips c; read_ips c]
  end.
Definition token_lists (lv : level) (c : conf) : list (list (list Z)) :=
  match lv with
  | ADMIN_LEVEL => [admin_tokens c]
  | WRITE_LEVEL => [admin_tokens c; write_tokens c]
  | READ_LEVEL => [admin_tokens c; write_tokens c; read_tokens c]
  end.

(** A remote request is allowed exactly when the database is listed (or there is no list), the
    address starts with an entry of a list of this or a stronger level, the token equals an entry of
    such a list; a list left out admits everybody. *)
Theorem C69_rule : forall lv ip c database token,
  authorize lv true ip c database token = true <->
  (forall d, database = Some d -> dbases c = [] \/ (d <> [] /\ In d (dbases c))) /\
  (exists l, In l (ip_lists lv c) /\ (l = [] \/ exists p r, In p l /\ ip = Some (p ++ r) /\ p ++ r <> [])) /\
  (exists l, In l (token_lists lv c) /\ (l = [] \/ exists t, In t l /\ token = Some t /\ t <> [])).
Proof.
  intros lv ip c database token.
  assert (Pip : forall l, authorize_aux ip l false = true <-> (l = [] \/ exists p r, In p l /\ ip = Some (p ++ r) /\ p ++ r <> [])).
  { intros l. rewrite aux_pre. split; (intros [H|H]; [now left|right]).
    - destruct H as (t & p & r & -> & N & I & ->). exists p, r. auto.
    - destruct H as (p & r & I & -> & N). exists (p ++ r), p, r. auto. }
  assert (Ptk : forall l, authorize_aux token l true = true <-> (l = [] \/ exists t, In t l /\ token = Some t /\ t <> [])).
  { intros l. rewrite aux_eq. split; (intros [H|H]; [now left|right]).
    - destruct H as (t & -> & N & I). exists t. auto.
    - destruct H as (t & I & -> & N). exists t. auto. }
  assert (Pdb : match database with None => false | Some _ => negb (authorize_aux database (dbases c) true) end = false <->
    (forall d, database = Some d -> dbases c = [] \/ (d <> [] /\ In d (dbases c)))).
  { destruct database as [d|]; [|split; [intros _ d H; discriminate H|reflexivity]].
    rewrite negb_false_iff, aux_eq. split.
    - intros H d' E. injection E as <-. destruct H as [H|(t & E & N & I)]; [now left|]. injection E as <-. right. auto.
    - intros H. destruct (H d eq_refl) as [H'|[N I]]; [now left|]. right. exists d. auto. }
  unfold authorize. cbn [negb].
  destruct (match database with None => false | Some _ => negb (authorize_aux database (dbases c) true) end) eqn:Ed.
  { split; [discriminate|]. intros [H _]. apply Pdb in H. discriminate H. }
  rewrite <- Pdb.
  assert (XI : forall ls, (exists l, In l ls /\ (l = [] \/ exists p r, In p l /\ ip = Some (p ++ r) /\ p ++ r <> [])) <->
    existsb (fun l => authorize_aux ip l false) ls = true).
  { intros ls. rewrite existsb_exists. split; intros (l & I & H); exists l; (split; [assumption|]); now apply Pip. }
  assert (XT : forall ls, (exists l, In l ls /\ (l = [] \/ exists t, In t l /\ token = Some t /\ t <> [])) <->
    existsb (fun l => authorize_aux token l true) ls = true).
  { intros ls. rewrite existsb_exists. split; intros (l & I & H); exists l; (split; [assumption|]); now apply Ptk. }
  rewrite XI, XT.
  destruct lv; cbn [ip_lists token_lists existsb];
    repeat match goal with |- context [authorize_aux ?a ?b ?e] => destruct (authorize_aux a b e) end; cbn; intuition congruence.
Qed.
Print Assumptions C69_rule.

Definition conf_ex : conf :=
  Conf [B "1000"; B "1001"] [B "127.0.0.1"] [B "10.0."] [B "10."] [B "boss"] [B "clerk"] [B "guest"].
Example C69_rule_ex :
  authorize READ_LEVEL true (Some (B "10.1.2.3")) conf_ex (Some (B "1001")) (Some (B "guest")) = true /\
  authorize WRITE_LEVEL true (Some (B "10.0.2.3")) conf_ex (Some (B "1001")) (Some (B "guest")) = false /\
  authorize WRITE_LEVEL true (Some (B "10.0.2.3")) conf_ex (Some (B "1001")) (Some (B "boss")) = true /\
  authorize READ_LEVEL true (Some (B "10.0.2.3")) conf_ex (Some (B "1002")) (Some (B "boss")) = false /\
  authorize READ_LEVEL true (Some (B "10.0.2.3")) conf_ex (Some (B "1001")) None = false.
Proof. repeat split. Qed.

(** Who may do more may do less. *)
Theorem C69_levels : forall remote ip c database token,
  (authorize ADMIN_LEVEL remote ip c database token = true -> authorize WRITE_LEVEL remote ip c database token = true) /\
  (authorize WRITE_LEVEL remote ip c database token = true -> authorize READ_LEVEL remote ip c database token = true).
Proof.
  intros remote ip c database token. destruct remote; [|split; intros _; reflexivity].
  split; intros H; apply C69_rule in H; apply C69_rule; destruct H as (H1 & (l & H2 & H3) & (t & H4 & H5)); (split; [exact H1|]);
    (split; [exists l|exists t]); (split; [|assumption]); cbn [ip_lists token_lists In] in *; intuition.
Qed.
Print Assumptions C69_levels.
Example C69_levels_ex :
  authorize ADMIN_LEVEL true (Some (B "127.0.0.1")) conf_ex (Some (B "1000")) (Some (B "boss")) = true /\
  authorize READ_LEVEL true (Some (B "10.0.0.9")) conf_ex (Some (B "1000")) (Some (B "guest")) = true /\
  authorize WRITE_LEVEL true (Some (B "10.0.0.9")) conf_ex (Some (B "1000")) (Some (B "guest")) = false.
Proof. repeat split. Qed.

(** Longer lists on other people's side do not take rights away: replacing a non-empty list of one
    level by a longer one keeps what was allowed. *)
Theorem C69_grow : forall lv ip c c' database token,
  authorize lv true ip c database token = true ->
  (dbases c = [] -> dbases c' = []) -> incl (dbases c) (dbases c') ->
  Forall2 (fun l l' => (l = [] -> l' = []) /\ incl l l') (ip_lists READ_LEVEL c ++ token_lists READ_LEVEL c)
    (ip_lists READ_LEVEL c' ++ token_lists READ_LEVEL c') ->
  authorize lv true ip c' database token = true.
Proof.
  intros lv ip c c' database token H D1 D2 F. apply C69_rule in H. apply C69_rule. destruct H as (H1 & (l & H2 & H3) & (t & H4 & H5)).
  cbn [ip_lists token_lists app] in F.
  inversion F as [|? ? ? ? F1 F']; subst. inversion F' as [|? ? ? ? F2 F'']; subst. inversion F'' as [|? ? ? ? F3 F3']; subst.
  inversion F3' as [|? ? ? ? F4 F4']; subst. inversion F4' as [|? ? ? ? F5 F5']; subst. inversion F5' as [|? ? ? ? F6 _]; subst.
  split; [|split].
  - intros d E. destruct (H1 d E) as [Z|[N I]]; [left; auto|right; split; [assumption|now apply D2]].
  - assert (G : exists l', In l' (ip_lists lv c') /\ (l = [] -> l' = []) /\ incl l l').
    { clear H3. destruct lv; cbn [ip_lists In] in *; repeat (destruct H2 as [H2|H2]; [subst l; eexists; (split; [|eassumption]); tauto|]); contradiction. }
    destruct G as (l' & G1 & G2 & G3). exists l'. split; [assumption|].
    destruct H3 as [H3|(p & r & Ip & Hp)]; [left; auto|right; exists p, r; auto].
  - assert (G : exists l', In l' (token_lists lv c') /\ (t = [] -> l' = []) /\ incl t l').
    { clear H5. destruct lv; cbn [token_lists In] in *; repeat (destruct H4 as [H4|H4]; [subst t; eexists; (split; [|eassumption]); tauto|]); contradiction. }
    destruct G as (l' & G1 & G2 & G3). exists l'. split; [assumption|].
    destruct H5 as [H5|(p & Ip & Hp)]; [left; auto|right; exists p; auto].
Qed.
Print Assumptions C69_grow.
Example C69_grow_ex :
  authorize READ_LEVEL true (Some (B "10.1.2.3"))
    (Conf [B "1000"; B "1001"] [B "127.0.0.1"] [B "10.0."; B "10.9."] [B "10."] [B "boss"] [B "clerk"] [B "guest"; B "visitor"])
    (Some (B "1001")) (Some (B "guest")) = true.
Proof.
  apply (C69_grow READ_LEVEL (Some (B "10.1.2.3")) conf_ex); try reflexivity; cbn [dbases conf_ex].
  - discriminate.
  - apply incl_refl.
  - cbn [ip_lists token_lists app conf_ex admin_ips write_ips read_ips admin_tokens write_tokens read_tokens].
    repeat (apply Forall2_cons; [split; [discriminate|intros x [<-|[]]; now left]|]). constructor.
Qed.

(** Entries for addresses are prefixes (Server/dserve_util.c l.877-878); Server/conf_example.txt says so. An
    address given in full therefore is no exact limit: 127.0.0.1, which that file gives for localhost, lets in
    127.0.0.12 as well, and there is no way to write the end of an address. *)
Theorem C69_address_refuted :
  ~ (forall c ip a tok, admin_ips c = [a] -> authorize ADMIN_LEVEL true (Some ip) c None tok = true -> ip = a).
Proof.
  intros H. specialize (H conf_ex (B "127.0.0.12") (B "127.0.0.1") (Some (B "boss")) eq_refl eq_refl). discriminate H.
Qed.
Print Assumptions C69_address_refuted.
(** FINDING (conf_example.txt names it): tokens set for readers only do not keep anybody out. *)
Theorem C69_readers_refuted :
  ~ (forall c ip t, read_tokens c = [t] -> authorize READ_LEVEL true ip c None None = false).
Proof. intros H. specialize (H (Conf [] [] [] [] [] [] [B "guest"]) None (B "guest") eq_refl). discriminate H. Qed.
Print Assumptions C69_readers_refuted.
