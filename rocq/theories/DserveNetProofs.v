(** Proofs for C75 and C76: the connections of the server dserve. *)
From Coq Require Import ZArith List Bool Lia.
From Coq Require String.
From Verif Require Import DserveModel DserveConfModel DserveOpsModel DserveProofs DserveOpsProofs DserveNetModel.
Import ListNotations.
Import String.StringSyntax.
Open Scope Z_scope.

(** ** Lines *)
Lemma rl_line : forall s r k err acc, ~ In NL s -> (length s < k)%nat -> readlineb k (s ++ NL :: r) err acc = L_line (acc ++ s ++ [NL]) r.
Proof.
  induction s as [|c s IH]; intros r k err acc N L; (destruct k as [|k]; [cbn [length] in L; lia|]); cbn [app readlineb].
  - rewrite Z.eqb_refl. reflexivity.
  - destruct (Z.eqb_spec c NL) as [E|E]; [exfalso; apply N; now left|].
    rewrite IH; [|intros X; apply N; now right|cbn [length] in L; lia]. now rewrite <- app_assoc.
Qed.
Lemma rl_cases : forall k input err acc,
  match readlineb k input err acc with
  | L_line s rest => exists m, s = acc ++ m /\ input = m ++ rest /\ (length m <= k)%nat /\ ~ In NL (removelast m) /\ (last m 0 = NL \/ length m = k \/ (rest = [] /\ err = false)) /\ (0 < k -> s <> [])%nat
  | L_eof => input = [] /\ err = false /\ acc = []
  | L_error s => err = true /\ s = acc ++ input /\ ~ In NL input
  end.
Proof.
  induction k as [|k IH]; intros input err acc; cbn [readlineb].
  - exists []. rewrite app_nil_r. do 4 (split; [reflexivity || (cbn; lia) || (intros [])|]). split; [right; left; reflexivity|lia].
  - destruct input as [|c r].
    + destruct err; [rewrite app_nil_r; repeat split; intros []|]. destruct acc as [|x acc]; [repeat split|].
      exists []. rewrite app_nil_r. do 4 (split; [reflexivity || (cbn; lia) || (intros [])|]). split; [right; right; auto|discriminate].
    + destruct (Z.eqb_spec c NL) as [->|E].
      * exists [NL]. do 4 (split; [reflexivity || (cbn; lia) || (intros [])|]). split; [left; reflexivity|]. intros _ X. now destruct acc.
      * specialize (IH r err (acc ++ [c])). destruct (readlineb k r err (acc ++ [c])) as [s rest| |s].
        -- destruct IH as (m & -> & -> & L & N & W & _). exists (c :: m). rewrite <- app_assoc. split; [reflexivity|]. split; [reflexivity|].
           split; [cbn [length]; lia|]. split; [|split].
           ++ destruct m as [|y m]; [intros []|]. change (removelast (c :: y :: m)) with (c :: removelast (y :: m)). intros [X|X]; [congruence|now apply N].
           ++ destruct W as [W|[W|W]]; [left|right; left; cbn [length]; lia|right; right; exact W]. destruct m; [discriminate W|exact W].
           ++ intros _ X. now destruct acc.
        -- destruct IH as (_ & _ & X). now destruct acc.
        -- destruct IH as (-> & -> & N). split; [reflexivity|]. split; [now rewrite <- app_assoc|]. intros [X|X]; [congruence|now apply N].
Qed.

(** ** The words of the request line *)
Lemma split_word : forall w a tail fuel i u v, ~ In 0 w -> ~ In SP w -> (i < 2)%nat ->
  split_line (length w + fuel) (a ++ w ++ tail) (length a) i u v = split_line fuel (a ++ w ++ tail) (length a + length w) i u v.
Proof.
  induction w as [|c w IH]; intros a tail fuel i u v Z0 S0 I2; cbn [length app Nat.add]; [now rewrite Nat.add_0_r|].
  cbn [split_line]. rewrite rd_app by reflexivity. cbn [nth_error].
  destruct (Z.eqb_spec c 0) as [E|_]; [exfalso; apply Z0; now left|].
  destruct (Nat.ltb_spec i 2); [|lia]. cbn [orb negb].
  destruct (Z.eqb_spec c SP) as [E|_]; [exfalso; apply S0; now left|].
  specialize (IH (a ++ [c]) tail fuel i u v). rewrite <- !app_assoc, app_length in IH. cbn [app length] in IH.
  replace (S (length a)) with (length a + 1)%nat by lia. rewrite IH; [f_equal; lia|intros X; apply Z0; now right|intros X; apply S0; now right|assumption].
Qed.
Lemma split_blank : forall a tail fuel i u v, (i < 2)%nat ->
  split_line (S fuel) (a ++ SP :: tail) (length a) i u v =
  if Nat.eqb i 0 then split_line fuel (a ++ 0 :: tail) (S (length a)) (S i) (Some (S (length a))) v else split_line fuel (a ++ 0 :: tail) (S (length a)) (S i) u (Some (S (length a))).
Proof.
  intros a tail fuel i u v I2. cbn [split_line]. rewrite rd_app by reflexivity. cbn [nth_error].
  change (SP =? 0) with false. destruct (Nat.ltb_spec i 2); [|lia]. cbn [orb negb]. change (SP =? SP) with true. cbv iota.
  rewrite wr_app by reflexivity. reflexivity.
Qed.
Lemma split_two : forall a c tail fuel u v, split_line (S fuel) (a ++ c :: tail) (length a) 2 u v = Some (a ++ c :: tail, u, v).
Proof. intros a c tail fuel u v. cbn [split_line]. rewrite rd_app by reflexivity. cbn [nth_error]. change (Nat.ltb 2 2) with false. cbn [negb]. now rewrite orb_true_r. Qed.
(** Both blanks are found. *)
Lemma split_all : forall m u s c tail fuel u0 v0, ~ In 0 m -> ~ In SP m -> ~ In 0 u -> ~ In SP u -> s = m ++ SP :: u ++ SP :: c :: tail -> (length s <= fuel)%nat ->
  split_line fuel s 0 0 u0 v0 = Some (m ++ 0 :: u ++ 0 :: c :: tail, Some (S (length m)), Some (S (S (length m + length u)))).
Proof.
  intros m u s c tail fuel u0 v0 Zm Sm Zu Su -> L. rewrite app_length in L. cbn [length] in L. rewrite app_length in L. cbn [length] in L.
  replace fuel with (length m + S (length u + S (S (fuel - length m - length u - 3))))%nat by lia.
  pose proof (split_word m [] (SP :: u ++ SP :: c :: tail) (S (length u + S (S (fuel - length m - length u - 3)))) 0 u0 v0 Zm Sm ltac:(lia)) as W1.
  cbn [app length Nat.add] in W1. rewrite W1. rewrite split_blank by lia. cbn [Nat.eqb].
  pose proof (split_word u (m ++ [0]) (SP :: c :: tail) (S (S (fuel - length m - length u - 3))) 1 (Some (S (length m))) v0 Zu Su ltac:(lia)) as W2.
  rewrite <- !app_assoc, !app_length in W2. cbn [app length] in W2. replace (length m + 1)%nat with (S (length m)) in W2 by lia. rewrite W2.
  replace (m ++ 0 :: u ++ SP :: c :: tail) with ((m ++ 0 :: u) ++ SP :: c :: tail) by (rewrite <- app_assoc; reflexivity).
  replace (S (length m) + length u)%nat with (length (m ++ 0 :: u)) by (rewrite app_length; cbn [length]; lia).
  rewrite split_blank by lia. cbn [Nat.eqb].
  replace ((m ++ 0 :: u) ++ 0 :: c :: tail) with (((m ++ 0 :: u) ++ [0]) ++ c :: tail) by (rewrite <- app_assoc; reflexivity).
  replace (S (length (m ++ 0 :: u))) with (length ((m ++ 0 :: u) ++ [0])) by (rewrite (app_length _ [0]); cbn [length]; lia).
  rewrite split_two. replace (length ((m ++ 0 :: u) ++ [0])) with (S (S (length m + length u))) by (rewrite !app_length; cbn [length]; lia).
  rewrite <- !app_assoc. reflexivity.
Qed.
(** A text that ends is always cut, and what stands before stays. *)
Lemma split_some : forall s a z fuel i u v, (length s < fuel)%nat -> exists b u' v', split_line fuel (a ++ s ++ 0 :: z) (length a) i u v = Some (a ++ b, u', v').
Proof.
  induction s as [|c s IH]; intros a z fuel i u v L; (destruct fuel as [|fuel]; [cbn [length] in L; lia|]); cbn [length] in L; cbn [app split_line]; rewrite rd_app by reflexivity; cbn [nth_error].
  - cbn [Z.eqb orb]. eauto.
  - destruct ((c =? 0) || negb (Nat.ltb i 2)); [eauto|].
    assert (R : forall x i' u' v', exists b u'' v'', split_line fuel (a ++ x :: s ++ 0 :: z) (S (length a)) i' u' v' = Some (a ++ b, u'', v'')).
    { intros x i' u' v'. destruct (IH (a ++ [x]) z fuel i' u' v' ltac:(lia)) as (b & u2 & v2 & E). rewrite app_length in E. cbn [length] in E.
      rewrite <- !app_assoc in E. cbn [app] in E. replace (length a + 1)%nat with (S (length a)) in E by lia. eauto. }
    destruct (c =? SP); [|apply R]. rewrite wr_app by reflexivity. destruct (Nat.eqb i 0); apply R.
Qed.

(** ** The query in the uri *)
Lemma find_word : forall w a tail fuel, ~ In 0 w -> ~ In QM w -> find_query (length w + fuel) (a ++ w ++ tail) (length a) = find_query fuel (a ++ w ++ tail) (length a + length w).
Proof.
  induction w as [|c w IH]; intros a tail fuel Z0 S0; cbn [length app Nat.add]; [now rewrite Nat.add_0_r|].
  cbn [find_query]. rewrite rd_app by reflexivity. cbn [nth_error].
  destruct (Z.eqb_spec c 0) as [E|_]; [exfalso; apply Z0; now left|]. destruct (Z.eqb_spec c QM) as [E|_]; [exfalso; apply S0; now left|].
  specialize (IH (a ++ [c]) tail fuel). rewrite <- !app_assoc, app_length in IH. cbn [app length] in IH.
  replace (S (length a)) with (length a + 1)%nat by lia. rewrite IH; [f_equal; lia|intros X; apply Z0; now right|intros X; apply S0; now right].
Qed.
Lemma find_yes : forall w a tail fuel, ~ In 0 w -> ~ In QM w -> (length w < fuel)%nat ->
  find_query fuel (a ++ w ++ QM :: tail) (length a) = Some (a ++ w ++ 0 :: tail, Some (S (length a + length w))).
Proof.
  intros w a tail fuel Z0 S0 L. replace fuel with (length w + S (fuel - length w - 1))%nat by lia. rewrite find_word by assumption.
  cbn [find_query]. rewrite app_assoc. rewrite rd_app by (rewrite app_length; reflexivity). cbn [nth_error]. change (QM =? 0) with false. change (QM =? QM) with true. cbv iota.
  rewrite wr_app by (rewrite app_length; reflexivity). now rewrite <- app_assoc.
Qed.
Lemma find_no : forall w a tail fuel, ~ In 0 w -> ~ In QM w -> (length w < fuel)%nat -> find_query fuel (a ++ w ++ 0 :: tail) (length a) = Some (a ++ w ++ 0 :: tail, None).
Proof.
  intros w a tail fuel Z0 S0 L. replace fuel with (length w + S (fuel - length w - 1))%nat by lia. rewrite find_word by assumption.
  cbn [find_query]. rewrite app_assoc. rewrite rd_app by (rewrite app_length; reflexivity). reflexivity.
Qed.
Lemma cut0_notin : forall s, ~ In 0 s -> cut0 s = s.
Proof. induction s as [|c s IH]; intros N; cbn [cut0]; [reflexivity|]. destruct (Z.eqb_spec c 0) as [E|_]; [exfalso; apply N; now left|]. rewrite IH; [reflexivity|]. intros X; apply N; now right. Qed.
Lemma cstr_word : forall a s z n, length a = n -> ~ In 0 s -> cstr_at (a ++ s ++ 0 :: z) n = Some s.
Proof. intros a s z n L N. rewrite cstr_here by assumption. now rewrite cut0_notin. Qed.

(** ** One connection *)
Lemma notin_app : forall (x : Z) a b, ~ In x a -> ~ In x b -> ~ In x (a ++ b).
Proof. intros x a b A B X. apply in_app_or in X. tauto. Qed.
Definition GETw : list Z := bytes "GET".
Definition POSTw : list Z := bytes "POST".
Lemma words_plain : (~ In 0 GETw /\ ~ In SP GETw /\ ~ In NL GETw) /\ (~ In 0 POSTw /\ ~ In SP POSTw /\ ~ In NL POSTw).
Proof. split; (split; [|split]); vm_compute; intuition discriminate. Qed.
Lemma notin_cons : forall (x c : Z) s, c <> x -> ~ In x s -> ~ In x (c :: s).
Proof. intros x c s A B [X|X]; [now apply A|now apply B]. Qed.

Lemma get_ok : forall t path q ver rest err junk parsed,
  ~ In 0 path -> ~ In SP path -> ~ In NL path -> ~ In QM path -> ~ In 0 q -> ~ In SP q -> ~ In NL q -> q <> [] -> ~ In NL ver ->
  (length path + length q + length ver + 7 < MAXLINE)%nat ->
  exists t', handle_http t (GETw ++ SP :: path ++ QM :: q ++ SP :: ver ++ NL :: rest) err junk parsed = Some (t', A_query q).
Proof.
  intros t path q ver rest err junk parsed Zp Sp Np Qp Zq Sq Nq Q0 Nv L.
  destruct words_plain as [(Zm & Sm & Nm) _].
  pose (s := GETw ++ SP :: path ++ QM :: q ++ SP :: ver).
  assert (E : readlineb (MAXLINE - 1) (GETw ++ SP :: path ++ QM :: q ++ SP :: ver ++ NL :: rest) err [] = L_line (s ++ [NL]) rest).
  { replace (GETw ++ SP :: path ++ QM :: q ++ SP :: ver ++ NL :: rest) with (s ++ NL :: rest) by (unfold s; repeat (rewrite <- !app_assoc; cbn [app]); reflexivity).
    rewrite rl_line; [reflexivity| |].
    - unfold s. repeat (assumption || apply notin_app || (apply notin_cons; [discriminate|])).
    - unfold s. change GETw with [71; 69; 84]. cbn [app length]. rewrite app_length. cbn [length]. rewrite app_length. cbn [length]. lia. }
  unfold handle_http. rewrite E. cbn [into left_over].
  set (z := skipn (S (length (s ++ [NL]))) (t_buf t)).
  set (b := (s ++ [NL]) ++ 0 :: z).
  assert (Eb : exists c tail, ver ++ NL :: 0 :: z = c :: tail) by (destruct ver; cbn [app]; eauto). destruct Eb as (c & tail & Eb).
  assert (B : b = GETw ++ SP :: (path ++ QM :: q) ++ SP :: c :: tail) by (unfold b, s; rewrite <- Eb; repeat (rewrite <- !app_assoc; cbn [app]); reflexivity).
  rewrite (split_all GETw (path ++ QM :: q) b c tail (S (length b)) (t_uri t) (t_version t) Zm Sm); try assumption; try lia;
    try (apply notin_app; [assumption|apply notin_cons; [discriminate|assumption]]).
  rewrite (cstr_word [] GETw _ 0%nat eq_refl Zm : cstr_at (GETw ++ 0 :: (path ++ QM :: q) ++ 0 :: c :: tail) 0 = Some GETw).
  change (streq GETw (bytes "GET")) with true. cbn [negb andb].
  replace (GETw ++ 0 :: (path ++ QM :: q) ++ 0 :: c :: tail) with ((GETw ++ [0]) ++ path ++ QM :: (q ++ 0 :: c :: tail)) by (rewrite <- !app_assoc; reflexivity).
  change (S (length GETw)) with (length (GETw ++ [0])) at 1.
  rewrite find_yes; [|assumption|assumption|rewrite !app_length; lia].
  cbn [query_text].
  replace ((GETw ++ [0]) ++ path ++ 0 :: q ++ 0 :: c :: tail) with (((GETw ++ [0]) ++ path ++ [0]) ++ q ++ 0 :: c :: tail) by (rewrite <- !app_assoc; reflexivity).
  rewrite cstr_word; [|rewrite !app_length; cbn [length]; lia|assumption].
  destruct q as [|c0 q0]; [now contradiction Q0|]. eauto.
Qed.

Lemma noquery_ok : forall t path ver rest err junk parsed, t_query t = Q_null ->
  ~ In 0 path -> ~ In SP path -> ~ In NL path -> ~ In QM path -> ~ In NL ver -> (length path + length ver + 6 < MAXLINE)%nat ->
  exists t', handle_http t (GETw ++ SP :: path ++ SP :: ver ++ NL :: rest) err junk parsed = Some (t', A_noquery_err) /\ t_query t' = Q_null.
Proof.
  intros t path ver rest err junk parsed TQ Zp Sp Np Qp Nv L.
  destruct words_plain as [(Zm & Sm & Nm) _].
  pose (s := GETw ++ SP :: path ++ SP :: ver).
  assert (E : readlineb (MAXLINE - 1) (GETw ++ SP :: path ++ SP :: ver ++ NL :: rest) err [] = L_line (s ++ [NL]) rest).
  { replace (GETw ++ SP :: path ++ SP :: ver ++ NL :: rest) with (s ++ NL :: rest) by (unfold s; repeat (rewrite <- !app_assoc; cbn [app]); reflexivity).
    rewrite rl_line; [reflexivity| |].
    - unfold s. repeat (assumption || apply notin_app || (apply notin_cons; [discriminate|])).
    - unfold s. change GETw with [71; 69; 84]. cbn [app length]. rewrite app_length. cbn [length]. lia. }
  unfold handle_http. rewrite E. cbn [into left_over].
  set (z := skipn (S (length (s ++ [NL]))) (t_buf t)).
  set (b := (s ++ [NL]) ++ 0 :: z).
  assert (Eb : exists c tail, ver ++ NL :: 0 :: z = c :: tail) by (destruct ver; cbn [app]; eauto). destruct Eb as (c & tail & Eb).
  assert (B : b = GETw ++ SP :: path ++ SP :: c :: tail) by (unfold b, s; rewrite <- Eb; repeat (rewrite <- !app_assoc; cbn [app]); reflexivity).
  rewrite (split_all GETw path b c tail (S (length b)) (t_uri t) (t_version t) Zm Sm); try assumption; try lia.
  rewrite (cstr_word [] GETw _ 0%nat eq_refl Zm : cstr_at (GETw ++ 0 :: path ++ 0 :: c :: tail) 0 = Some GETw).
  change (streq GETw (bytes "GET")) with true. cbn [negb andb].
  replace (GETw ++ 0 :: path ++ 0 :: c :: tail) with ((GETw ++ [0]) ++ path ++ 0 :: c :: tail) by (rewrite <- !app_assoc; reflexivity).
  change (S (length GETw)) with (length (GETw ++ [0])) at 1.
  rewrite find_no; [|assumption|assumption|rewrite !app_length; lia].
  rewrite TQ. cbn [query_text]. eexists. split; [reflexivity|]. reflexivity.
Qed.

Lemma method_ok : forall t w x rest err junk parsed, ~ In 0 w -> ~ In SP w -> ~ In NL w -> ~ In NL x -> w <> GETw -> w <> POSTw -> (length w + length x + 2 < MAXLINE)%nat ->
  exists t', handle_http t (w ++ SP :: x ++ NL :: rest) err junk parsed = Some (t', A_method_err).
Proof.
  intros t w x rest err junk parsed Zw Sw Nw Nx NG NP L.
  pose (s := w ++ SP :: x).
  assert (E : readlineb (MAXLINE - 1) (w ++ SP :: x ++ NL :: rest) err [] = L_line (s ++ [NL]) rest).
  { replace (w ++ SP :: x ++ NL :: rest) with (s ++ NL :: rest) by (unfold s; repeat (rewrite <- !app_assoc; cbn [app]); reflexivity).
    rewrite rl_line; [reflexivity| |].
    - unfold s. apply notin_app; [assumption|]. apply notin_cons; [discriminate|assumption].
    - unfold s. rewrite app_length. cbn [length]. lia. }
  unfold handle_http. rewrite E. cbn [into left_over].
  set (z := skipn (S (length (s ++ [NL]))) (t_buf t)).
  set (b := (s ++ [NL]) ++ 0 :: z).
  assert (B : b = w ++ SP :: (x ++ [NL]) ++ 0 :: z) by (unfold b, s; repeat (rewrite <- !app_assoc; cbn [app]); reflexivity).
  assert (Lb : (length b = length w + S (length x + 1 + S (length z)))%nat) by (rewrite B; rewrite app_length; cbn [length]; rewrite !app_length; cbn [length]; lia).
  replace (split_line (S (length b)) b 0 0 (t_uri t) (t_version t)) with (split_line (length w + S (S (length x + 1 + S (length z)))) b 0 0 (t_uri t) (t_version t)) by (f_equal; lia).
  pose proof (split_word w [] (SP :: (x ++ [NL]) ++ 0 :: z) (S (S (length x + 1 + S (length z)))) 0 (t_uri t) (t_version t) Zw Sw ltac:(lia)) as W.
  cbn [app length Nat.add] in W. rewrite <- B in W. rewrite W. rewrite B. rewrite split_blank by lia. cbn [Nat.eqb].
  destruct (split_some (x ++ [NL]) (w ++ [0]) z (S (length x + 1 + S (length z))) 1 (Some (S (length w))) (t_version t)) as (b' & u' & v' & R); [rewrite app_length; cbn [length]; lia|].
  rewrite app_length in R. cbn [length] in R. replace (length w + 1)%nat with (S (length w)) in R by lia.
  rewrite <- !app_assoc in R. cbn [app] in R. rewrite <- app_assoc. cbn [app]. rewrite R.
  rewrite (cstr_word [] w _ 0%nat eq_refl Zw : cstr_at (w ++ 0 :: b') 0 = Some w).
  destruct (streq w (bytes "GET")) eqn:G; [apply streq_eq in G; now contradiction NG|].
  destruct (streq w (bytes "POST")) eqn:P; [apply streq_eq in P; now contradiction NP|].
  cbn [negb andb]. eauto.
Qed.

(** ** Headers and data of a POST *)
Lemma pre_line : forall p l, ~ In NL p -> strpre p (l ++ [NL]) = true -> exists r, l = p ++ r.
Proof.
  induction p as [|c p IH]; intros l N E; [now exists l|]. destruct l as [|x l]; cbn [app strpre] in E.
  - apply andb_true_iff in E. destruct E as [E _]. apply Z.eqb_eq in E. exfalso. apply N. now left.
  - apply andb_true_iff in E. destruct E as [E1 E2]. apply Z.eqb_eq in E1. subst x. destruct (IH l) as (r & ->); [intros X; apply N; now right|exact E2|]. now exists r.
Qed.
(** A header line that is neither the length nor the end. *)
Definition other_line (l : list Z) : Prop :=
  ~ In NL l /\ (length l + 1 < MAXLINE)%nat /\ l <> [] /\ l <> [13] /\ (forall r, l <> bytes "Content-Length:" ++ r) /\ (forall r, l <> bytes "content-length:" ++ r).
Definition lines (ls : list (list Z)) : list Z := concat (map (fun l => l ++ [NL]) ls).
Lemma other_is : forall l, other_line l -> is_length (l ++ [NL]) = false /\ is_empty_line (l ++ [NL]) = false.
Proof.
  intros l (N & _ & E1 & E2 & C1 & C2). unfold is_length, is_empty_line. split.
  - destruct (strpre (bytes "Content-Length:") (l ++ [NL])) eqn:A.
    { apply pre_line in A; [destruct A as (r & A); now apply C1 in A|vm_compute; intuition discriminate]. }
    destruct (strpre (bytes "content-length:") (l ++ [NL])) eqn:B; [|reflexivity].
    apply pre_line in B; [destruct B as (r & B); now apply C2 in B|vm_compute; intuition discriminate].
  - destruct l as [|x l]; [now contradiction E1|]. cbn [app strpre].
    destruct (Z.eqb_spec 10 x) as [X|_]; [exfalso; apply N; left; now symmetry|]. cbn [andb]. rewrite orb_false_r.
    destruct (Z.eqb_spec 13 x) as [X|_]; [|reflexivity]. cbn [andb]. destruct l as [|y l]; [subst x; now contradiction E2|]. cbn [app strpre].
    destruct (Z.eqb_spec 10 y) as [Y|_]; [exfalso; apply N; right; left; now symmetry|reflexivity].
Qed.
Lemma headers_skip : forall ls n prev rest err len, Forall other_line ls ->
  exists prev', headers (length ls + n) prev (lines ls ++ rest) err len = headers n prev' rest err len /\ (ls <> [] -> exists l, other_line l /\ prev' = Some (l ++ [NL])).
Proof.
  induction ls as [|l ls IH]; intros n prev rest err len F; [exists prev; split; [reflexivity|intros X; now contradiction X]|]. inversion F as [|? ? Fl Fs]; subst.
  destruct (IH n (Some (l ++ [NL])) rest err len Fs) as (p & E & Q).
  assert (G : headers (length (l :: ls) + n) prev (lines (l :: ls) ++ rest) err len = headers (length ls + n) (Some (l ++ [NL])) (lines ls ++ rest) err len).
  { cbn [length Nat.add headers]. unfold lines. cbn [map concat]. fold (lines ls). rewrite <- !app_assoc. cbn [app].
    destruct Fl as (N & L & Fl). rewrite rl_line by (assumption || lia). cbn [app left_over].
    destruct (other_is l) as (A & B); [split; [exact N|split; [exact L|exact Fl]]|]. rewrite A, B. reflexivity. }
  destruct ls as [|l2 ls].
  - exists (Some (l ++ [NL])). split; [exact G|]. intros _. exists l. split; [exact Fl|reflexivity].
  - exists p. split; [rewrite G; exact E|]. intros _. apply Q. discriminate.
Qed.
(** The end of a line: a newline, maybe after a carriage return. *)
Definition eol (e : list Z) : Prop := e = [] \/ e = [13].
(** The two spellings of the name. *)
Definition length_name (nm : list Z) : Prop := nm = bytes "Content-Length:" \/ nm = bytes "content-length:".
Lemma headers_length : forall nm n prev d v e rest err len, length_name nm -> number d v -> eol e -> (length d + 18 < MAXLINE)%nat -> exists prev',
  headers (S n) prev (nm ++ SP :: d ++ e ++ NL :: rest) err len = headers n prev' rest err v.
Proof.
  intros nm n prev d v e rest err len NM (D0 & DF & DV & DR) EE L. exists (Some ((nm ++ SP :: d ++ e) ++ [NL])).
  assert (Le : (length e <= 1)%nat) by (destruct EE as [->| ->]; cbn; lia).
  assert (Ln : length nm = 15%nat) by (destruct NM as [->| ->]; reflexivity).
  cbn [headers]. replace (nm ++ SP :: d ++ e ++ NL :: rest) with ((nm ++ SP :: d ++ e) ++ NL :: rest) by (repeat (rewrite <- !app_assoc; cbn [app]); reflexivity).
  rewrite rl_line.
  - cbn [app left_over].
    replace (is_length ((nm ++ SP :: d ++ e) ++ [NL])) with true by (destruct NM as [->| ->]; reflexivity).
    replace (skipn 15 ((nm ++ SP :: d ++ e) ++ [NL])) with (32 :: d ++ e ++ [NL]) by (destruct NM as [->| ->]; repeat (rewrite <- !app_assoc; cbn [app]); reflexivity).
    replace (is_empty_line ((nm ++ SP :: d ++ e) ++ [NL])) with false by (destruct NM as [->| ->]; reflexivity).
    replace (atoi_text (32 :: d ++ e ++ [NL])) with (atoi_text (d ++ e ++ [NL])) by reflexivity.
    destruct d as [|x d]; [now contradiction D0|]. cbn [app].
    rewrite (atoi_digits x d (e ++ [NL]) v); [reflexivity|assumption| |assumption|lia].
    destruct EE as [->| ->]; [exact (take_digits_app (x :: d) NL [] DF eq_refl)|exact (take_digits_app (x :: d) 13 [NL] DF eq_refl)].
  - apply notin_app; [destruct NM as [->| ->]; vm_compute; intuition discriminate|]. apply notin_cons; [discriminate|]. apply notin_app.
    + intros X. rewrite Forall_forall in DF. apply DF in X. discriminate X.
    + destruct EE as [->| ->]; [intros []|intros [X|[]]; discriminate X].
  - rewrite !app_length. cbn [length]. rewrite app_length. lia.
Qed.
Lemma headers_end : forall n prev e rest err len, eol e -> (2 < MAXLINE)%nat -> headers (S n) prev (e ++ NL :: rest) err len = Some (Some (len, rest)).
Proof.
  intros n prev e rest err len EE L. cbn [headers]. rewrite rl_line.
  - cbn [app left_over]. destruct EE as [->| ->]; reflexivity.
  - destruct EE as [->| ->]; [intros []|intros [X|[]]; discriminate X].
  - destruct EE as [->| ->]; cbn [length]; lia.
Qed.
Lemma headers_ok : forall nm ls1 d v e ls2 e2 body err, length_name nm -> Forall other_line ls1 -> Forall other_line ls2 -> number d v -> eol e -> eol e2 ->
  (length d + 18 < MAXLINE)%nat -> (length ls1 + length ls2 + 2 <= MAXLINES)%nat ->
  headers MAXLINES None (lines ls1 ++ nm ++ SP :: d ++ e ++ NL :: lines ls2 ++ e2 ++ NL :: body) err 0 = Some (Some (v, body)).
Proof.
  intros nm ls1 d v e ls2 e2 body err NM F1 F2 D E1 E2 L M.
  replace MAXLINES with (length ls1 + S (length ls2 + S (MAXLINES - length ls1 - length ls2 - 2)))%nat by lia.
  destruct (headers_skip ls1 (S (length ls2 + S (MAXLINES - length ls1 - length ls2 - 2))) None (nm ++ SP :: d ++ e ++ NL :: lines ls2 ++ e2 ++ NL :: body) err 0 F1) as (p1 & -> & _).
  destruct (headers_length nm (length ls2 + S (MAXLINES - length ls1 - length ls2 - 2)) p1 d v e (lines ls2 ++ e2 ++ NL :: body) err 0 NM D E1 L) as (p2 & ->).
  destruct (headers_skip ls2 (S (MAXLINES - length ls1 - length ls2 - 2)) p2 (e2 ++ NL :: body) err v F2) as (p3 & -> & _).
  apply headers_end; [assumption|lia].
Qed.
Lemma headers_none : forall ls e body err, Forall other_line ls -> eol e -> (length ls + 1 <= MAXLINES)%nat -> headers MAXLINES None (lines ls ++ e ++ NL :: body) err 0 = Some (Some (0, body)).
Proof.
  intros ls e body err F E M. replace MAXLINES with (length ls + S (MAXLINES - length ls - 1))%nat by lia.
  destruct (headers_skip ls (S (MAXLINES - length ls - 1)) None (e ++ NL :: body) err 0 F) as (p & -> & _). apply headers_end; [assumption|unfold MAXLINE; lia].
Qed.
(** The data ends inside the headers. *)
Lemma headers_eof : forall n l err len, other_line l -> headers n (Some (l ++ [NL])) [] err len = Some None.
Proof.
  induction n as [|n IH]; intros l err len O; [reflexivity|]. cbn [headers].
  assert (M : exists k, (MAXLINE - 1 = S k)%nat) by (exists (MAXLINE - 2)%nat; unfold MAXLINE; lia). destruct M as (k & ->). cbn [readlineb].
  destruct err; [reflexivity|]. destruct (other_is l O) as (A & B). rewrite A, B. cbn [left_over]. apply IH. exact O.
Qed.
Lemma headers_cut : forall ls part err, Forall other_line ls -> (err = true /\ ~ In NL part /\ (length part + 1 < MAXLINE)%nat) \/ (err = false /\ part = [] /\ ls <> []) ->
  headers MAXLINES None (lines ls ++ part) err 0 = Some None.
Proof.
  intros ls part err F C. destruct (Nat.le_gt_cases MAXLINES (length ls)) as [G|G].
  - assert (K : forall n l p, Forall other_line l -> (n <= length l)%nat -> headers n p (lines l ++ part) err 0 = Some None).
    { induction n as [|n IH]; intros l p Fl Ln; [reflexivity|]. destruct l as [|x l]; [cbn in Ln; lia|]. inversion Fl as [|? ? Fx Fr]; subst.
      cbn [headers]. unfold lines. cbn [map concat]. fold (lines l). rewrite <- !app_assoc. cbn [app].
      destruct (other_is x Fx) as (A & B). destruct Fx as (N & L & Fx). rewrite rl_line by (assumption || lia). cbn [app left_over]. rewrite A, B. apply IH; [exact Fr|cbn in Ln; lia]. }
    apply K; assumption.
  - replace MAXLINES with (length ls + S (MAXLINES - length ls - 1))%nat by lia.
    destruct (headers_skip ls (S (MAXLINES - length ls - 1)) None part err 0 F) as (p & -> & Q). destruct C as [(-> & N & L)|(-> & -> & C)].
    + cbn [headers]. pose proof (rl_cases (MAXLINE - 1) part true []) as H. destruct (readlineb (MAXLINE - 1) part true []) as [s rest| |s]; [|destruct H as (_ & H & _); discriminate H|reflexivity].
      exfalso. destruct H as (m & -> & -> & Lm & _ & [W|[W|[_ W]]] & P); [| |discriminate W].
      * apply N. apply in_or_app. left. destruct m as [|x m]; [discriminate W|]. rewrite <- W.
        destruct (@exists_last _ (x :: m)) as (m' & y & E); [discriminate|]. rewrite E, last_last. apply in_or_app. right. now left.
      * rewrite app_length in L. lia.
    + destruct (Q C) as (l & O & ->). apply headers_eof. exact O.
Qed.

(** What a POST does with the outcome of get_post_data. *)
Lemma post_frame : forall t path ver hs err junk parsed, ~ In 0 path -> ~ In SP path -> ~ In NL path -> ~ In NL ver -> (length path + length ver + 7 < MAXLINE)%nat ->
  exists b u v, handle_http t (POSTw ++ SP :: path ++ SP :: ver ++ NL :: hs) err junk parsed =
    match get_post_data hs err junk with
    | None => None
    | Some P_null => Some (T b u v Q_null, A_noquery_err)
    | Some (P_block c) => match cstr_at c 0 with None => None | Some [] => Some (T b u v (Q_post c), A_noquery_err) | Some s => Some (T (parsed b) u v Q_freed, A_query s) end
    end.
Proof.
  intros t path ver hs err junk parsed Zp Sp Np Nv L.
  destruct words_plain as [_ (Zm & Sm & Nm)].
  pose (s := POSTw ++ SP :: path ++ SP :: ver).
  assert (E : readlineb (MAXLINE - 1) (POSTw ++ SP :: path ++ SP :: ver ++ NL :: hs) err [] = L_line (s ++ [NL]) hs).
  { replace (POSTw ++ SP :: path ++ SP :: ver ++ NL :: hs) with (s ++ NL :: hs) by (unfold s; repeat (rewrite <- !app_assoc; cbn [app]); reflexivity).
    rewrite rl_line; [reflexivity| |].
    - unfold s. repeat (assumption || apply notin_app || (apply notin_cons; [discriminate|])).
    - unfold s. change POSTw with [80; 79; 83; 84]. cbn [app length]. rewrite app_length. cbn [length]. lia. }
  unfold handle_http. rewrite E. cbn [into left_over].
  set (z := skipn (S (length (s ++ [NL]))) (t_buf t)).
  set (b := (s ++ [NL]) ++ 0 :: z).
  assert (Eb : exists c tail, ver ++ NL :: 0 :: z = c :: tail) by (destruct ver; cbn [app]; eauto). destruct Eb as (c & tail & Eb).
  assert (B : b = POSTw ++ SP :: path ++ SP :: c :: tail) by (unfold b, s; rewrite <- Eb; repeat (rewrite <- !app_assoc; cbn [app]); reflexivity).
  rewrite (split_all POSTw path b c tail (S (length b)) (t_uri t) (t_version t) Zm Sm); try assumption; try lia.
  rewrite (cstr_word [] POSTw _ 0%nat eq_refl Zm : cstr_at (POSTw ++ 0 :: path ++ 0 :: c :: tail) 0 = Some POSTw).
  change (streq POSTw (bytes "GET")) with false. change (streq POSTw (bytes "POST")) with true. cbn [negb andb].
  do 3 eexists. destruct (get_post_data hs err junk) as [[|c0]|]; cbn [query_text]; reflexivity.
Qed.
Lemma post_ok : forall nm t path ver ls1 d e ls2 e2 body more err j1 j2 parsed, length_name nm ->
  ~ In 0 path -> ~ In SP path -> ~ In NL path -> ~ In NL ver -> (length path + length ver + 7 < MAXLINE)%nat ->
  Forall other_line ls1 -> Forall other_line ls2 -> number d (Z.of_nat (length body)) -> eol e -> eol e2 ->
  (length d + 18 < MAXLINE)%nat -> (length ls1 + length ls2 + 2 <= MAXLINES)%nat -> ~ In 0 body -> ~ In 0 j1 -> Z.of_nat (length body) < MAX_MALLOC ->
  exists t', handle_http t (POSTw ++ SP :: path ++ SP :: ver ++ NL :: lines ls1 ++ nm ++ SP :: d ++ e ++ NL :: lines ls2 ++ e2 ++ NL :: body ++ more) err (j1 ++ 0 :: j2) parsed
    = Some (t', A_query (body ++ j1)) /\ t_query t' = Q_freed.
Proof.
  intros nm t path ver ls1 d e ls2 e2 body more err j1 j2 parsed NM Zp Sp Np Nv L F1 F2 D E1 E2 Ld Lm Zb Zj MM.
  destruct (post_frame t path ver (lines ls1 ++ nm ++ SP :: d ++ e ++ NL :: lines ls2 ++ e2 ++ NL :: body ++ more) err (j1 ++ 0 :: j2) parsed Zp Sp Np Nv L) as (b & u & v & ->).
  unfold get_post_data. rewrite (headers_ok nm ls1 d (Z.of_nat (length body)) e ls2 e2 (body ++ more) err NM F1 F2 D E1 E2 Ld Lm).
  destruct D as (_ & _ & _ & DR).
  destruct (Z.leb_spec (Z.of_nat (length body)) 0); [lia|]. destruct (Z.leb_spec MAX_MALLOC (Z.of_nat (length body))); [lia|]. cbn [orb].
  rewrite Nat2Z.id, app_length. destruct (Nat.ltb_spec (length body + length more) (length body)); [lia|].
  rewrite firstn_app, Nat.sub_diag, firstn_all. cbn [firstn]. rewrite app_nil_r.
  assert (K : cstr_at (body ++ j1 ++ 0 :: j2) 0 = Some (body ++ j1)).
  { replace (body ++ j1 ++ 0 :: j2) with ([] ++ (body ++ j1) ++ 0 :: j2) by (rewrite <- app_assoc; reflexivity). apply cstr_word; [reflexivity|now apply notin_app]. }
  rewrite K. destruct body as [|x body]; [cbn in DR; lia|]. cbn [app]. eexists. split; reflexivity.
Qed.
Lemma short_ok : forall nm t path ver ls1 d v e ls2 e2 body err junk parsed, length_name nm ->
  ~ In 0 path -> ~ In SP path -> ~ In NL path -> ~ In NL ver -> (length path + length ver + 7 < MAXLINE)%nat ->
  Forall other_line ls1 -> Forall other_line ls2 -> number d v -> eol e -> eol e2 ->
  (length d + 18 < MAXLINE)%nat -> (length ls1 + length ls2 + 2 <= MAXLINES)%nat -> Z.of_nat (length body) < v \/ MAX_MALLOC <= v ->
  exists t', handle_http t (POSTw ++ SP :: path ++ SP :: ver ++ NL :: lines ls1 ++ nm ++ SP :: d ++ e ++ NL :: lines ls2 ++ e2 ++ NL :: body) err junk parsed
    = Some (t', A_noquery_err) /\ t_query t' = Q_null.
Proof.
  intros nm t path ver ls1 d v e ls2 e2 body err junk parsed NM Zp Sp Np Nv L F1 F2 D E1 E2 Ld Lm MM.
  destruct (post_frame t path ver (lines ls1 ++ nm ++ SP :: d ++ e ++ NL :: lines ls2 ++ e2 ++ NL :: body) err junk parsed Zp Sp Np Nv L) as (b & u & w & ->).
  unfold get_post_data. rewrite (headers_ok nm ls1 d v e ls2 e2 body err NM F1 F2 D E1 E2 Ld Lm). destruct D as (_ & _ & _ & DR).
  destruct (Z.leb_spec v 0); [lia|]. destruct (Z.leb_spec MAX_MALLOC v); cbn [orb]; [eexists; split; reflexivity|].
  destruct (Nat.ltb_spec (length body) (Z.to_nat v)); [eexists; split; reflexivity|lia].
Qed.
Lemma cut_ok : forall t path ver ls part err junk parsed,
  ~ In 0 path -> ~ In SP path -> ~ In NL path -> ~ In NL ver -> (length path + length ver + 7 < MAXLINE)%nat -> Forall other_line ls ->
  (err = true /\ ~ In NL part /\ (length part + 1 < MAXLINE)%nat) \/ (err = false /\ part = [] /\ ls <> []) ->
  exists t', handle_http t (POSTw ++ SP :: path ++ SP :: ver ++ NL :: lines ls ++ part) err junk parsed = Some (t', A_noquery_err) /\ t_query t' = Q_null.
Proof.
  intros t path ver ls part err junk parsed Zp Sp Np Nv L F C.
  destruct (post_frame t path ver (lines ls ++ part) err junk parsed Zp Sp Np Nv L) as (b & u & w & ->).
  unfold get_post_data. rewrite (headers_cut ls part err F C). eexists; split; reflexivity.
Qed.
Lemma nolength_ok : forall t path ver ls e body err junk parsed,
  ~ In 0 path -> ~ In SP path -> ~ In NL path -> ~ In NL ver -> (length path + length ver + 7 < MAXLINE)%nat -> Forall other_line ls -> eol e -> (length ls + 1 <= MAXLINES)%nat ->
  exists t', handle_http t (POSTw ++ SP :: path ++ SP :: ver ++ NL :: lines ls ++ e ++ NL :: body) err junk parsed = Some (t', A_noquery_err) /\ t_query t' = Q_null.
Proof.
  intros t path ver ls e body err junk parsed Zp Sp Np Nv L F E M.
  destruct (post_frame t path ver (lines ls ++ e ++ NL :: body) err junk parsed Zp Sp Np Nv L) as (b & u & w & ->).
  unfold get_post_data. rewrite (headers_none ls e body err F E M). change (0 <=? 0) with true. cbn [orb]. eexists; split; reflexivity.
Qed.

(** ** The header of the answer *)
Lemma find_x_app : forall a b i, ~ In 88 a -> find_x (a ++ 88 :: b) i = Some (i + length a)%nat.
Proof.
  induction a as [|c a IH]; intros b i N; cbn [app find_x length]; [now rewrite Nat.add_0_r|].
  destruct (Z.eqb_spec c 88) as [E|_]; [exfalso; apply N; now left|]. rewrite IH; [f_equal; lia|intros X; apply N; now right].
Qed.
Lemma put_app : forall s a o c n, length a = n -> length o = length s -> Forall (fun x => 0 <= x < 256) s -> put (a ++ o ++ c) n s = Some (a ++ s ++ c).
Proof.
  induction s as [|x s IH]; intros a o c n L Lo F; (destruct o as [|y o]; [|]); cbn [length] in Lo; try lia; cbn [put app]; [reflexivity|].
  inversion F; subst. rewrite wr_app by reflexivity. rewrite Z.mod_small by assumption.
  specialize (IH (a ++ [x]) o c (S (length a))). rewrite <- !app_assoc in IH. cbn [app] in IH. apply IH; [rewrite app_length; cbn; lia|lia|assumption].
Qed.
Lemma blank_ok : forall k a y c fuel n, length a = n -> y <> 88 -> (k < fuel)%nat -> blank_x fuel (a ++ repeat 88 k ++ y :: c) n = Some (a ++ repeat 32 k ++ y :: c).
Proof.
  induction k as [|k IH]; intros a y c fuel n L Y F; (destruct fuel as [|fuel]; [lia|]); cbn [repeat app blank_x]; rewrite rd_app by assumption; cbn [nth_error].
  - destruct (Z.eqb_spec y 88); [contradiction|reflexivity].
  - rewrite Z.eqb_refl. rewrite wr_app by assumption. change (32 mod 256) with 32.
    specialize (IH (a ++ [32]) y c fuel (S n)). rewrite <- !app_assoc in IH. cbn [app] in IH. apply IH; [rewrite app_length; cbn; lia|assumption|lia].
Qed.
Lemma header_ok : forall d z, Forall (fun c => isdigit c = true) d -> (1 <= length d <= 10)%nat ->
  write_header_clen (header_template ++ 0 :: z) d = Some (header_start ++ d ++ repeat 32 (10 - length d) ++ header_end ++ 0 :: z).
Proof.
  intros d z F L. unfold write_header_clen, header_template.
  assert (NX : ~ In 88 header_start) by (vm_compute; intuition discriminate).
  remember header_start as hs eqn:HS. clear HS.
  change (repeat 88 10) with (88 :: repeat 88 9). replace ((hs ++ (88 :: repeat 88 9) ++ header_end) ++ 0 :: z) with (hs ++ 88 :: repeat 88 9 ++ header_end ++ 0 :: z) by (rewrite <- !app_assoc; reflexivity).
  rewrite find_x_app by exact NX. cbn [Nat.add].
  assert (FD : Forall (fun x => 0 <= x < 256) d).
  { eapply Forall_impl; [|exact F]. intros c H. unfold isdigit in H. apply andb_true_iff in H. destruct H as [H1 H2]. apply Z.leb_le in H1, H2. lia. }
  assert (FZ : Forall (fun x => 0 <= x < 256) (d ++ [0])) by (apply Forall_app; split; [exact FD|constructor; [lia|constructor]]).
  assert (HE : header_end = 32 :: 13 :: skipn 2 header_end) by reflexivity.
  remember (skipn 2 header_end) as he eqn:HX. clear HX. rewrite HE.
  assert (C : exists o x y c, 88 :: repeat 88 9 ++ (32 :: 13 :: he) ++ 0 :: z = o ++ x :: repeat 88 y ++ c :: skipn (S (length d + y + 1)) (88 :: repeat 88 9 ++ (32 :: 13 :: he) ++ 0 :: z) /\ length o = length d /\ c <> 88 /\
    32 :: repeat 32 y ++ c :: skipn (S (length d + y + 1)) (88 :: repeat 88 9 ++ (32 :: 13 :: he) ++ 0 :: z) = repeat 32 (10 - length d) ++ 32 :: 13 :: he ++ 0 :: z).
  { destruct (Nat.eq_dec (length d) 10) as [T|T].
    - exists (repeat 88 10), 32, 0%nat, 13. rewrite T. repeat split; [discriminate].
    - exists (repeat 88 (length d)), 88, (9 - length d)%nat, 32.
      assert (K : (length d = 1 \/ length d = 2 \/ length d = 3 \/ length d = 4 \/ length d = 5 \/ length d = 6 \/ length d = 7 \/ length d = 8 \/ length d = 9)%nat) by lia.
      destruct K as [K|[K|[K|[K|[K|[K|[K|[K|K]]]]]]]]; rewrite K; repeat split; discriminate. }
  destruct C as (o & x & y & c & C & Lo & Cx & R). remember (skipn (S (length d + y + 1)) (88 :: repeat 88 9 ++ (32 :: 13 :: he) ++ 0 :: z)) as w eqn:W. clear W.
  rewrite C. replace (o ++ x :: repeat 88 y ++ c :: w) with ((o ++ [x]) ++ repeat 88 y ++ c :: w) by (rewrite <- app_assoc; reflexivity).
  rewrite put_app; [|reflexivity|rewrite !app_length, Lo; reflexivity|exact FZ].
  rewrite <- !app_assoc. cbn [app].
  replace (hs ++ d ++ 0 :: repeat 88 y ++ c :: w) with ((hs ++ d) ++ 0 :: repeat 88 y ++ c :: w) by (rewrite <- app_assoc; reflexivity).
  rewrite wr_app by (rewrite app_length; reflexivity). change (32 mod 256) with 32.
  replace ((hs ++ d) ++ 32 :: repeat 88 y ++ c :: w) with (((hs ++ d) ++ [32]) ++ repeat 88 y ++ c :: w) by (rewrite <- app_assoc; reflexivity).
  rewrite blank_ok; [|rewrite !app_length; cbn [length]; lia|exact Cx|rewrite !app_length, repeat_length; cbn [length]; lia].
  rewrite <- !app_assoc. cbn [app]. f_equal. f_equal. f_equal. exact R.
Qed.

(** ** The queue of connections *)
(** The connections put in the queue, and those taken from it, in the order of the history. *)
Fixpoint queued (os : list pout) : list Z := match os with [] => [] | Queued c :: r => c :: queued r | _ :: r => queued r end.
Fixpoint taken (os : list pout) : list Z := match os with [] => [] | Taken c :: r => c :: taken r | _ :: r => taken r end.
(** What waits in the slots. *)
Definition waiting (p : pool) : list Z := map (fun k => nth ((q_head p + k) mod QUEUE_SIZE) (q_slots p) 0) (seq 0 (q_count p)).
Definition pool_ok (n : nat) (p : pool) : Prop :=
  length (q_slots p) = QUEUE_SIZE /\ (q_head p < QUEUE_SIZE)%nat /\ (q_count p <= QUEUE_SIZE)%nat /\ q_tail p = ((q_head p + q_count p) mod QUEUE_SIZE)%nat /\
  (p_idle p + p_wait p + p_busy p = n)%nat /\ (0 < p_wait p -> q_count p <= p_idle p)%nat.
Lemma Q_pos : QUEUE_SIZE <> 0%nat. Proof. discriminate. Qed.
Lemma set_len : forall l i c, (i < length l)%nat -> length (set_slot l i c) = length l.
Proof. intros l i c L. unfold set_slot. rewrite app_length, firstn_length. cbn [length]. rewrite skipn_length. lia. Qed.
Lemma set_nth : forall l i c k, (i < length l)%nat -> nth k (set_slot l i c) 0 = if Nat.eqb k i then c else nth k l 0.
Proof.
  induction l as [|x l IH]; intros i c k L; [cbn in L; lia|]. unfold set_slot. destruct i as [|i]; destruct k as [|k]; try reflexivity.
  cbn [firstn skipn app nth Nat.eqb]. cbn [length] in L. apply (IH i c k). lia.
Qed.
Lemma next_mod : forall t, (t < QUEUE_SIZE)%nat -> (if Nat.eqb (t + 1) QUEUE_SIZE then 0%nat else (t + 1)%nat) = ((t + 1) mod QUEUE_SIZE)%nat.
Proof.
  intros t L. destruct (Nat.eqb_spec (t + 1) QUEUE_SIZE) as [->|N]; [symmetry; apply Nat.mod_same, Q_pos|]. symmetry. apply Nat.mod_small. lia.
Qed.
Lemma mod_diff : forall h k n, (k < n)%nat -> (n < QUEUE_SIZE)%nat -> ((h + k) mod QUEUE_SIZE)%nat <> ((h + n) mod QUEUE_SIZE)%nat.
Proof.
  intros h k n K N E. pose proof (Nat.div_mod (h + k) QUEUE_SIZE Q_pos) as A. pose proof (Nat.div_mod (h + n) QUEUE_SIZE Q_pos) as B. rewrite E in A.
  revert A B. generalize ((h + n) mod QUEUE_SIZE)%nat ((h + k) / QUEUE_SIZE)%nat ((h + n) / QUEUE_SIZE)%nat. intros m a b A B. revert N A B. generalize QUEUE_SIZE. intros Q N A B.
  assert (X : (Q * b = Q * a + (n - k))%nat) by lia. destruct (Nat.le_gt_cases b a) as [C|C]; [assert (Q * b <= Q * a)%nat by (apply Nat.mul_le_mono_l; lia); lia|].
  assert (Q * (a + 1) <= Q * b)%nat by (apply Nat.mul_le_mono_l; lia). lia.
Qed.
Lemma pool_step_ok : forall n p e p' o, pool_ok n p -> pool_step p e = Some (p', o) ->
  pool_ok n p' /\ waiting p ++ queued [o] = taken [o] ++ waiting p' /\ (forall c, o = Dropped c -> e = P_accept c /\ q_count p = QUEUE_SIZE) /\ (forall c, e = P_accept c -> o = Queued c \/ o = Dropped c).
Proof.
  intros n p e p' o OK ST. destruct p as [s h t m i w b]. unfold pool_ok in OK. cbn [q_slots q_head q_tail q_count p_idle p_wait p_busy] in OK.
  destruct OK as (Ls & Lh & Lm & Et & Sum & Wk). cbn [pool_step] in ST.
  destruct e as [c| | |].
  - destruct (Nat.eqb_spec m QUEUE_SIZE) as [Em|Em].
    + injection ST as <- <-. cbn [queued taken app]. rewrite app_nil_r. split; [unfold pool_ok; cbn [q_slots q_head q_tail q_count p_idle p_wait p_busy]; repeat (split; [assumption|]); assumption|].
      split; [reflexivity|]. split; [|intros c0 X; injection X as <-; now right]. intros c0 X. injection X as <-. split; [reflexivity|exact Em].
    + assert (Lt : (t < QUEUE_SIZE)%nat) by (rewrite Et; apply Nat.mod_upper_bound, Q_pos).
      assert (Wt : forall i' w', waiting (Pool s h t m i w b) ++ [c] = waiting (Pool (set_slot s t c) h (if Nat.eqb (t + 1) QUEUE_SIZE then 0 else t + 1)%nat (m + 1) i' w' b)).
      { intros i' w'. unfold waiting. cbn [q_slots q_head q_count]. rewrite seq_app, map_app. cbn [seq map Nat.add]. f_equal.
        - apply map_ext_in. intros k K. apply in_seq in K. rewrite set_nth by lia. destruct (Nat.eqb_spec ((h + k) mod QUEUE_SIZE) t) as [X|_]; [|reflexivity].
          exfalso. rewrite Et in X. revert X. apply mod_diff; lia.
        - rewrite <- Et. rewrite set_nth by lia. now rewrite Nat.eqb_refl. }
      assert (Nt : (if Nat.eqb (t + 1) QUEUE_SIZE then 0 else t + 1)%nat = ((h + (m + 1)) mod QUEUE_SIZE)%nat).
      { rewrite next_mod by assumption. rewrite Et. rewrite Nat.add_mod_idemp_l by exact Q_pos. f_equal. lia. }
      destruct w as [|w]; injection ST as <- <-; (split; [|split; [cbn [queued taken app]; apply Wt|split; [intros c0 X; discriminate X|intros c0 X; injection X as <-; now left]]]);
        unfold pool_ok; cbn [q_slots q_head q_tail q_count p_idle p_wait p_busy]; rewrite set_len by lia; repeat (split; [assumption || lia|]); lia.
  - destruct i as [|i]; [discriminate ST|]. destruct (Nat.eqb_spec m 0) as [Em|Em].
    + injection ST as <- <-. cbn [queued taken app]. rewrite app_nil_r. split; [unfold pool_ok; cbn [q_slots q_head q_tail q_count p_idle p_wait p_busy]; repeat (split; [assumption || lia|]); lia|].
      split; [reflexivity|]. split; intros c X; discriminate X.
    + destruct (nth_error s h) as [c|] eqn:Nh; [|discriminate ST]. injection ST as <- <-. cbn [queued taken app]. rewrite app_nil_r.
      assert (Lh' : ((h + 1) mod QUEUE_SIZE < QUEUE_SIZE)%nat) by (apply Nat.mod_upper_bound, Q_pos).
      split; [unfold pool_ok; cbn [q_slots q_head q_tail q_count p_idle p_wait p_busy]; rewrite next_mod by assumption|].
      * split; [assumption|]. split; [exact Lh'|]. split; [lia|]. split; [|split; lia]. rewrite Nat.add_mod_idemp_l by exact Q_pos. rewrite Et. f_equal. lia.
      * split; [|split; intros c0 X; discriminate X]. unfold waiting. cbn [q_slots q_head q_count]. rewrite next_mod by assumption.
        replace m with (S (m - 1)) at 1 by lia. cbn [seq map]. f_equal.
        -- rewrite Nat.add_0_r, Nat.mod_small by assumption. now apply nth_error_nth.
        -- rewrite <- seq_shift, map_map. apply map_ext. intros k. rewrite Nat.add_mod_idemp_l by exact Q_pos. f_equal. f_equal. lia.
  - destruct w as [|w]; [discriminate ST|]. injection ST as <- <-. cbn [queued taken app]. rewrite app_nil_r.
    split; [unfold pool_ok; cbn [q_slots q_head q_tail q_count p_idle p_wait p_busy]; repeat (split; [assumption || lia|]); lia|]. split; [reflexivity|]. split; intros c X; discriminate X.
  - destruct b as [|b]; [discriminate ST|]. injection ST as <- <-. cbn [queued taken app]. rewrite app_nil_r.
    split; [unfold pool_ok; cbn [q_slots q_head q_tail q_count p_idle p_wait p_busy]; repeat (split; [assumption || lia|]); lia|]. split; [reflexivity|]. split; intros c X; discriminate X.
Qed.
Lemma queued_app : forall a b, queued (a ++ b) = queued a ++ queued b.
Proof. induction a as [|x a IH]; intros b; [reflexivity|]. destruct x; cbn [app queued]; now rewrite IH. Qed.
Lemma taken_app : forall a b, taken (a ++ b) = taken a ++ taken b.
Proof. induction a as [|x a IH]; intros b; [reflexivity|]. destruct x; cbn [app taken]; now rewrite IH. Qed.
Lemma pool_run_ok : forall es n p p' os, pool_ok n p -> pool_run p es = Some (p', os) ->
  pool_ok n p' /\ waiting p ++ queued os = taken os ++ waiting p'.
Proof.
  induction es as [|e es IH]; intros n p p' os OK R; cbn [pool_run] in R.
  - injection R as <- <-. cbn [queued taken]. now rewrite app_nil_r.
  - destruct (pool_step p e) as [[p1 o]|] eqn:ST; [|discriminate R]. destruct (pool_run p1 es) as [[p2 os']|] eqn:R2; [|discriminate R]. injection R as <- <-.
    destruct (pool_step_ok n p e p1 o OK ST) as (OK1 & W1 & _). destruct (IH n p1 p2 os' OK1 R2) as (OK2 & W2). split; [exact OK2|].
    change (o :: os') with ([o] ++ os'). rewrite queued_app, taken_app, app_assoc, W1, <- !app_assoc, W2. reflexivity.
Qed.
Lemma pool_start_ok : forall n, pool_ok n (pool_start n).
Proof. intros n. unfold pool_ok, pool_start. cbn [q_slots q_head q_tail q_count p_idle p_wait p_busy]. rewrite repeat_length.
  split; [reflexivity|]. split; [unfold QUEUE_SIZE; lia|]. split; [lia|]. split; [reflexivity|]. split; lia.
Qed.
(** Every connection is queued, or dropped while the queue is full. *)
Definition accepted (e : pev) : list Z := match e with P_accept c => [c] | _ => [] end.
Definition put_in (o : pout) : list Z := match o with Queued c => [c] | Dropped c => [c] | _ => [] end.
Lemma step_put : forall p e p' o, pool_step p e = Some (p', o) -> put_in o = accepted e.
Proof.
  intros [s h t m i w b] e p' o ST. cbn [pool_step] in ST. destruct e as [c| | |].
  - destruct (Nat.eqb m QUEUE_SIZE); [injection ST as <- <-; reflexivity|]. destruct w; injection ST as <- <-; reflexivity.
  - destruct i; [discriminate|]. destruct (Nat.eqb m 0); [injection ST as <- <-; reflexivity|]. destruct (nth_error s h); [|discriminate]. injection ST as <- <-; reflexivity.
  - destruct w; [discriminate|]. injection ST as <- <-; reflexivity.
  - destruct b; [discriminate|]. injection ST as <- <-; reflexivity.
Qed.
Lemma run_put : forall es p p' os, pool_run p es = Some (p', os) -> flat_map put_in os = flat_map accepted es.
Proof.
  induction es as [|e es IH]; intros p p' os R; cbn [pool_run] in R; [injection R as <- <-; reflexivity|].
  destruct (pool_step p e) as [[p1 o]|] eqn:ST; [|discriminate R]. destruct (pool_run p1 es) as [[p2 os']|] eqn:R2; [|discriminate R]. injection R as <- <-.
  cbn [flat_map]. rewrite (step_put _ _ _ _ ST). f_equal. eapply IH. exact R2.
Qed.
