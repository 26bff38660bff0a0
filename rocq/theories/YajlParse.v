(** The parser of YajlModel.v does the same with a text however it is cut into chunks. *)
From Coq Require Import ZArith List Bool Lia Arith.
From Verif Require Import Base CsvModel JsonModel YajlModel YajlProofs.
Import ListNotations.
Open Scope Z_scope.
#[local] Ltac Zify.zify_post_hook ::= idtac.

(** * The parser on a stream *)
Section StreamParse.
Context {C : Type}.
Variable full : bool.
Variable callback : C -> event -> option (C * bool).
Variable strtod : list Z -> option Z.
Notation action_of := (action_of full strtod).
Inductive outcome := More (stack : list yajl_state) (c : C) (pend : list Z) | Stop (c : C).
Definition is_complete (st : yajl_state) := match st with state_parse_complete => true | _ => false end.
Fixpoint spf (fuel : nat) (stack : list yajl_state) (c : C) (s : list Z) : option outcome :=
  match fuel with
  | O => None
  | S fuel =>
      match stack with
      | [] => None
      | state_lexical_error :: _ | state_parse_error :: _ => Some (Stop c)
      | st :: stk =>
          match s_lex s with (tok, start, r) =>
            if match tok with tok_eof => true | _ => false end then Some (More stack c start)
            else if match tok with tok_error => negb (is_complete st) | _ => false end then Some (Stop c)
            else match action_of st tok (firstn (length start - length r) start) with
            | Undefined => None
            | Fail => Some (Stop c)
            | Move None l => spf fuel (l ++ stk) c r
            | Move (Some e) l =>
                match callback c e with
                | None => None
                | Some (c, true) => spf fuel (l ++ stk) c r
                | Some (c, false) => Some (Stop c)
                end
            end
          end
      end
  end.
Definition sp (stack : list yajl_state) (c : C) (s : list Z) := spf (S (length s)) stack c s.
Lemma error_action st out : action_of st tok_error out = Fail.
Proof. destruct st; reflexivity. Qed.
Lemma spf_fuel n : forall m stack c s, (length s < n)%nat -> (length s < m)%nat -> spf n stack c s = spf m stack c s.
Proof.
  induction n as [|n IH]; intros [|m] stack c s Hn Hm; try lia. cbn [spf]. destruct stack as [|st stk]; [reflexivity|].
  pose proof (lex_len s) as L. destruct (s_lex s) as ((tok, start), r). destruct L as (L1 & L2 & L3). destruct tok; try (exfalso; congruence); try reflexivity; try (destruct st; reflexivity);
  (specialize (L3 ltac:(discriminate) ltac:(discriminate)); destruct (action_of st _ _) as [| |[e|] l]; try reflexivity; [destruct (callback c e) as [(c', [|])|]; try reflexivity|]; rewrite (IH m) by lia; reflexivity).
Qed.
Lemma sp_eq stack c s : sp stack c s =
  match stack with
  | [] => None
  | state_lexical_error :: _ | state_parse_error :: _ => Some (Stop c)
  | st :: stk =>
      match s_lex s with (tok, start, r) =>
        if match tok with tok_eof => true | _ => false end then Some (More stack c start)
        else if match tok with tok_error => negb (is_complete st) | _ => false end then Some (Stop c)
        else match action_of st tok (firstn (length start - length r) start) with
        | Undefined => None
        | Fail => Some (Stop c)
        | Move None l => sp (l ++ stk) c r
        | Move (Some e) l =>
            match callback c e with
            | None => None
            | Some (c, true) => sp (l ++ stk) c r
            | Some (c, false) => Some (Stop c)
            end
        end
      end
  end.
Proof.
  unfold sp at 1. cbn [spf]. destruct stack as [|st stk]; [reflexivity|].
  pose proof (lex_len s) as L. destruct (s_lex s) as ((tok, start), r). destruct L as (L1 & L2 & L3). destruct tok; try (exfalso; congruence); try reflexivity; try (rewrite error_action; destruct st; reflexivity);
  (specialize (L3 ltac:(discriminate) ltac:(discriminate)); destruct (action_of st _ _) as [| |[e|] l]; try reflexivity; [destruct (callback c e) as [(c', [|])|]; try reflexivity|]; unfold sp; rewrite (spf_fuel (length s) (S (length r))) by lia; reflexivity).
Qed.
Definition errored (st : yajl_state) := match st with state_lexical_error | state_parse_error => true | _ => false end.
Lemma sp_eq' st stk c s : errored st = false -> sp (st :: stk) c s =
      match s_lex s with (tok, start, r) =>
        if match tok with tok_eof => true | _ => false end then Some (More (st :: stk) c start)
        else match action_of st tok (firstn (length start - length r) start) with
        | Undefined => None
        | Fail => Some (Stop c)
        | Move None l => sp (l ++ stk) c r
        | Move (Some e) l =>
            match callback c e with
            | None => None
            | Some (c, true) => sp (l ++ stk) c r
            | Some (c, false) => Some (Stop c)
            end
        end
      end.
Proof.
  intros E. rewrite sp_eq. destruct st; try discriminate E; cbn [is_complete negb]; destruct (s_lex s) as (([] & start) & r); try rewrite error_action; reflexivity.
Qed.
Lemma sp_app s : forall stack c t, sp stack c (s ++ t) = match sp stack c s with Some (More stack' c' pend) => sp stack' c' (pend ++ t) | r => r end.
Proof.
  induction s as [s IH] using lex_ind. intros stack c t. destruct stack as [|st stk]; [reflexivity|]. destruct (errored st) eqn:Er; [destruct st; try discriminate Er; reflexivity|]. rewrite !(sp_eq' _ _ _ _ Er).
  pose proof (lex_app s t) as A. pose proof (lex_len s) as L. destruct (s_lex s) as ((tok, start), r). destruct L as (L1 & L2 & L3).
  assert (N : tok <> tok_eof -> s_lex (s ++ t) = (tok, start ++ t, r ++ t)) by (intros N; destruct tok; try exact A; contradiction).
  assert (O : firstn (length (start ++ t) - length (r ++ t)) (start ++ t) = firstn (length start - length r) start).
  { rewrite !app_length. replace (length start + length t - (length r + length t))%nat with (length start - length r)%nat by lia. rewrite firstn_app. replace (length start - length r - length start)%nat with O by lia. cbn [firstn]. apply app_nil_r. }
  destruct tok; try (rewrite N by discriminate; rewrite O; cbn [negb];
    try (rewrite error_action; reflexivity);
    (specialize (L3 ltac:(discriminate) ltac:(discriminate)); destruct (action_of st _ _) as [| |[e|] l]; try reflexivity; [destruct (callback c e) as [(c', [|])|]; try reflexivity|]; apply IH; lia)).
  rewrite A. rewrite (sp_eq' st stk c (start ++ t) Er). reflexivity.
Qed.

(** The parser does on a chunk what it does on the stream. *)
Definition agrees (r : option (yajl_status * lexer * list yajl_state * C)) (o : option outcome) : Prop :=
  match o with
  | None => r = None
  | Some (Stop c) => exists status lx stack, r = Some (status, lx, stack, c) /\ status <> status_ok
  | Some (More stack c pend) => exists lx, r = Some (status_ok, lx, stack, c) /\ lexer_ok lx /\ eb lx = pend
  end.
Lemma parse_sim txt n : forall lx stack c offset, (offset <= length txt)%nat -> lexer_ok lx -> (eb lx <> [] -> offset = O) ->
  (2 + (length txt - offset) + (if eb lx then 0 else 1) <= n)%nat ->
  agrees (do_parse full callback strtod n lx stack c txt offset) (sp stack c (eb lx ++ skipn offset txt)).
Proof.
  induction n as [|n IH]; intros lx stack c offset Ho Ok Hz Hn; [lia|]. cbn [do_parse]. destruct stack as [|st stk]; [reflexivity|].
  destruct (errored st) eqn:Er; [destruct st; try discriminate Er; eexists _, _, _; (split; [reflexivity|discriminate])|].
  assert (Cp : match st with state_parse_complete => true | _ => false end = is_complete st) by reflexivity. rewrite Cp. clear Cp.
  assert (G : agrees
    (if is_complete st && (offset =? length txt)%nat then Some (status_ok, lx, st :: stk, c)
     else match yajl_lex_lex lx txt offset with
          | None => None
          | Some (tok, out, lx, offset) =>
              if match tok with tok_eof => true | _ => false end then
                (if is_complete st then do_parse full callback strtod n lx (st :: stk) c txt offset else Some (status_ok, lx, st :: stk, c))
              else if match tok with tok_error => negb (is_complete st) | _ => false end then Some (status_error, lx, state_lexical_error :: stk, c)
              else match action_of st tok out with
              | Undefined => None
              | Fail => Some (status_error, lx, state_parse_error :: stk, c)
              | Move None l => do_parse full callback strtod n lx (l ++ stk) c txt offset
              | Move (Some e) l =>
                  match callback c e with
                  | None => None
                  | Some (c, true) => do_parse full callback strtod n lx (l ++ stk) c txt offset
                  | Some (c, false) => Some (status_client_canceled, lx, state_parse_error :: stk, c)
                  end
              end
          end) (sp (st :: stk) c (eb lx ++ skipn offset txt))).
  2: { destruct st; try discriminate Er; exact G. }
  assert (Pn : s_lex (eb lx) = (tok_eof, eb lx, [])). { unfold eb. destruct (l_use lx) eqn:U; [exact (proj2 (Ok U))|reflexivity]. }
  rewrite (sp_eq' _ _ _ _ Er). destruct (is_complete st && (offset =? length txt)%nat) eqn:Cm.
  - apply andb_prop in Cm. destruct Cm as (_ & Eo). apply Nat.eqb_eq in Eo. rewrite Eo, skipn_all, app_nil_r, Pn. exists lx. auto.
  - destruct (Nat.eq_dec (length txt) 0) as [Z0 | Z0].
    + assert (txt = []) by (destruct txt; [reflexivity|discriminate]). subst txt. cbn [length] in *. assert (offset = O) by lia. subst offset. rewrite lex_nothing. cbn [skipn]. rewrite app_nil_r, Pn.
      rewrite Nat.eqb_refl, andb_true_r in Cm. rewrite Cm. eexists. split; [reflexivity|]. split; [|reflexivity]. intros _. split; [reflexivity|exact Pn].
    + pose proof (lex_spec lx txt offset ltac:(lia) Ho Ok Hz) as Lx. pose proof (lex_len (eb lx ++ skipn offset txt)) as L. pose proof (lex_pending (eb lx ++ skipn offset txt)) as Pd.
      destruct (s_lex (eb lx ++ skipn offset txt)) as ((tok, start), r). destruct L as (L1 & L2 & L3).
      rewrite app_length, skipn_length in L1.
      assert (Ne : tok <> tok_eof -> agrees (match yajl_lex_lex lx txt offset with
          | None => None
          | Some (tok, out, lx, offset) =>
              if match tok with tok_eof => true | _ => false end then
                (if is_complete st then do_parse full callback strtod n lx (st :: stk) c txt offset else Some (status_ok, lx, st :: stk, c))
              else if match tok with tok_error => negb (is_complete st) | _ => false end then Some (status_error, lx, state_lexical_error :: stk, c)
              else match action_of st tok out with
              | Undefined => None
              | Fail => Some (status_error, lx, state_parse_error :: stk, c)
              | Move None l => do_parse full callback strtod n lx (l ++ stk) c txt offset
              | Move (Some e) l =>
                  match callback c e with
                  | None => None
                  | Some (c, true) => do_parse full callback strtod n lx (l ++ stk) c txt offset
                  | Some (c, false) => Some (status_client_canceled, lx, state_parse_error :: stk, c)
                  end
              end
          end)
        (match action_of st tok (firstn (length start - length r) start) with
        | Undefined => None
        | Fail => Some (Stop c)
        | Move None l => sp (l ++ stk) c r
        | Move (Some e) l =>
            match callback c e with
            | None => None
            | Some (c, true) => sp (l ++ stk) c r
            | Some (c, false) => Some (Stop c)
            end
        end)).
      { intros Nt. assert (Lx' : exists lx' o, yajl_lex_lex lx txt offset = Some (tok, firstn (length start - length r) start, lx', o) /\ l_use lx' = false /\ (o <= length txt)%nat /\ r = skipn o txt) by (destruct tok; try exact Lx; contradiction).
        destruct Lx' as (lx' & o & -> & U & Lo & Ro). destruct (match tok with tok_eof => true | _ => false end) eqn:Te; [destruct tok; try discriminate Te; contradiction|].
        assert (Eb' : eb lx' = []) by (unfold eb; now rewrite U).
        destruct (match tok with tok_error => negb (is_complete st) | _ => false end) eqn:Tr.
        { destruct tok; try discriminate Tr. rewrite error_action. eexists _, _, _. split; [reflexivity|discriminate]. }
        destruct (action_of st tok (firstn (length start - length r) start)) as [| |e l] eqn:Ac; [reflexivity| |].
        { eexists _, _, _. split; [reflexivity|discriminate]. }
        assert (Rec : forall c, agrees (do_parse full callback strtod n lx' (l ++ stk) c txt o) (sp (l ++ stk) c r)).
        { intros c'. assert (Er' : tok <> tok_error) by (intros ->; rewrite error_action in Ac; discriminate). specialize (L3 Nt Er').
          specialize (IH lx' (l ++ stk) c' o Lo). rewrite Eb' in IH. cbn [app] in IH. rewrite <- Ro in IH. apply IH.
          - unfold lexer_ok. rewrite U. discriminate.
          - intros X. congruence.
          - assert (length r = (length txt - o)%nat) by (rewrite Ro; apply skipn_length). destruct (eb lx) as [|b bs] eqn:Eb; cbn [length] in *; [lia|]. assert (offset = O) by (apply Hz; discriminate). lia. }
        destruct e as [e|]; [|apply Rec]. destruct (callback c e) as [(c', [|])|]; [apply Rec| |reflexivity]. eexists _, _, _. split; [reflexivity|discriminate]. }
      destruct tok; try (apply Ne; discriminate). rewrite Lx. destruct (Pd eq_refl) as (P & _).
      assert (Lok : lexer_ok (Lexer start true 0)) by (intros _; split; [reflexivity|exact P]).
      destruct (is_complete st) eqn:Ic; [|exists (Lexer start true 0); auto].
      destruct n as [|n]; [lia|]. cbn [do_parse]. destruct st; try discriminate Ic. rewrite Nat.eqb_refl. cbn [andb]. exists (Lexer start true 0). auto.
Qed.
Lemma do_parse_agrees lx stack c txt : lexer_ok lx -> agrees (yajl_do_parse full callback strtod lx stack c txt) (sp stack c (eb lx ++ txt)).
Proof. intros Ok. unfold yajl_do_parse. apply (parse_sim txt (3 + length txt) lx stack c 0); [lia|exact Ok|auto|destruct (eb lx); lia]. Qed.

(** The result for a stream. *)
Definition finish (o : option outcome) : option (C * bool) :=
  match o with
  | None => None
  | Some (Stop c) => Some (c, false)
  | Some (More stack c pend) =>
      match sp stack c (pend ++ [32]) with
      | None => None
      | Some (Stop c) => Some (c, false)
      | Some (More stack c _) =>
          match stack with
          | [] => None
          | state_got_value :: _ | state_parse_complete :: _ => Some (c, true)
          | _ => Some (c, false)
          end
      end
  end.
Lemma ended_stays chunks c : fold_left (feed full callback strtod) chunks (Some (Ended c)) = Some (Ended c).
Proof. induction chunks; [reflexivity|exact IHchunks]. Qed.
Lemma none_stays chunks : fold_left (feed full callback strtod) chunks (@None (@progress C)) = None.
Proof. induction chunks; [reflexivity|exact IHchunks]. Qed.
Lemma sp_pending st stk c s : errored st = false -> pending s -> sp (st :: stk) c s = Some (More (st :: stk) c s).
Proof. intros E P. rewrite (sp_eq' _ _ _ _ E). unfold pending in P. rewrite P. reflexivity. Qed.
Lemma eb_pending lx : lexer_ok lx -> pending (eb lx).
Proof. intros Ok. unfold eb. destruct (l_use lx) eqn:U; [exact (proj2 (Ok U))|reflexivity]. Qed.
Lemma feed_eq lx stack c txt res : yajl_do_parse full callback strtod lx stack c txt = res ->
  feed full callback strtod (Some (Going lx stack c)) txt = match res with None => None | Some (status_ok, lx, stack, c) => Some (Going lx stack c) | Some (_, _, _, c) => Some (Ended c) end.
Proof. intros <-. reflexivity. Qed.
Lemma complete_eq lx stack c res : yajl_do_parse full callback strtod lx stack c [32] = res ->
  complete full callback strtod (Some (Going lx stack c)) = match res with
  | None => None
  | Some (status_ok, _, stack, c) =>
      match stack with
      | [] => None
      | state_got_value :: _ | state_parse_complete :: _ => Some (c, true)
      | _ => Some (c, false)
      end
  | Some (_, _, _, c) => Some (c, false)
  end.
Proof. intros <-. reflexivity. Qed.
Lemma complete_agrees lx stack c : lexer_ok lx -> complete full callback strtod (Some (Going lx stack c)) = finish (sp stack c (eb lx)).
Proof.
  intros Ok. pose proof (do_parse_agrees lx stack c [32] Ok) as A. destruct (yajl_do_parse full callback strtod lx stack c [32]) as [(((status, lx'), stack'), c')|] eqn:E; rewrite (complete_eq _ _ _ _ E); clear E.
  - destruct stack as [|st stk]; [rewrite sp_eq in A; discriminate A|]. destruct (errored st) eqn:Er.
    + assert (Sx : forall s, sp (st :: stk) c s = Some (Stop c)) by (intros s; rewrite sp_eq; destruct st; try discriminate Er; reflexivity). rewrite Sx in A. rewrite Sx. cbn [agrees finish] in *.
      destruct A as (status2 & lx2 & stack2 & E & N). assert (status = status2) by congruence. assert (c' = c) by congruence. subst. destruct status2; [contradiction|reflexivity|reflexivity].
    + rewrite (sp_pending _ _ _ _ Er (eb_pending lx Ok)). cbn [finish]. destruct (sp (st :: stk) c (eb lx ++ [32])) as [[stack2 c2 pend | c2]|]; cbn [agrees] in A.
      * destruct A as (lx2 & E & _). assert (status = status_ok) by congruence. assert (stack' = stack2) by congruence. assert (c' = c2) by congruence. subst. reflexivity.
      * destruct A as (status2 & lx2 & stack2 & E & N). assert (status = status2) by congruence. assert (c' = c2) by congruence. subst. destruct status2; [contradiction|reflexivity|reflexivity].
      * discriminate A.
  - destruct stack as [|st stk]; [rewrite sp_eq; reflexivity|]. destruct (errored st) eqn:Er.
    + assert (Sx : forall s, sp (st :: stk) c s = Some (Stop c)) by (intros s; rewrite sp_eq; destruct st; try discriminate Er; reflexivity). rewrite Sx in A. cbn [agrees] in A. destruct A as (status2 & lx2 & stack2 & E & N). discriminate E.
    + rewrite (sp_pending _ _ _ _ Er (eb_pending lx Ok)). cbn [finish]. destruct (sp (st :: stk) c (eb lx ++ [32])) as [[stack2 c2 pend | c2]|]; cbn [agrees] in A.
      * destruct A as (lx2 & E & _). discriminate E.
      * destruct A as (status2 & lx2 & stack2 & E & N). discriminate E.
      * reflexivity.
Qed.
Lemma fold_cons {A B} (f : A -> B -> A) x l a : fold_left f (x :: l) a = fold_left f l (f a x).
Proof. reflexivity. Qed.
Lemma run_stream chunks : forall lx stack c, lexer_ok lx ->
  complete full callback strtod (fold_left (feed full callback strtod) chunks (Some (Going lx stack c))) = finish (sp stack c (eb lx ++ concat chunks)).
Proof.
  induction chunks as [|txt chunks IH]; intros lx stack c Ok.
  - cbn [concat]. rewrite app_nil_r. now apply complete_agrees.
  - pose proof (do_parse_agrees lx stack c txt Ok) as A. rewrite fold_cons, (feed_eq _ _ _ _ _ eq_refl). cbn [concat]. rewrite app_assoc, sp_app. destruct (sp stack c (eb lx ++ txt)) as [[stack' c' pend | c']|]; cbn [agrees] in A.
    + destruct A as (lx' & -> & Ok' & <-). apply IH. exact Ok'.
    + destruct A as (status & lx' & stack' & -> & N). destruct status; [contradiction| |]; rewrite ended_stays; reflexivity.
    + rewrite A, none_stays. reflexivity.
Qed.
Lemma run_eq c chunks : yajl_run full callback strtod c chunks = finish (sp [state_start] c (concat chunks)).
Proof. unfold yajl_run, yajl_alloc. rewrite run_stream; [reflexivity|]. intros H. discriminate H. Qed.
End StreamParse.
Arguments outcome : clear implicits.
