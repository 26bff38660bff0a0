(** Proofs about the output buffer of dserve. *)
From Coq Require Import ZArith List Bool Lia Arith.
From Verif Require Import Base CsvModel DserveModel DserveProofs DservePrintModel.
Import ListNotations.
Open Scope Z_scope.

Definition Inv (st : ost) : Prop :=
  s_freed st = false /\ (s_ptr st < length (s_buf st))%nat /\ 1000 <= Z.of_nat (length (s_buf st)).
Definition pre (st : ost) : list Z := firstn (s_ptr st) (s_buf st).
(** ** Texts of values *)
Lemma digits_text : forall f n acc, 0 <= n -> text acc -> text (digits f n acc) /\ (length (digits f n acc) <= f + length acc)%nat.
Proof.
  induction f as [|f IH]; intros n acc N T; cbn [digits]; [split; [assumption|lia]|].
  assert (M : 0 <= n mod 10 < 10) by (apply Z.mod_pos_bound; lia).
  assert (T' : text (48 + n mod 10 :: acc)) by (constructor; [lia|assumption]).
  destruct (n <? 10); [split; [assumption|cbn [length]; lia]|].
  destruct (IH (n / 10) (48 + n mod 10 :: acc)) as [I1 I2]; [apply Z.div_pos; lia|assumption|]. split; [assumption|]. cbn [length] in I2. lia.
Qed.
Lemma print_int_text : forall n, text (print_int n) /\ (length (print_int n) <= 21)%nat.
Proof.
  intros n. unfold print_int. destruct (Z.ltb_spec n 0).
  - destruct (digits_text 20 (- n) []) as [T L]; [lia|constructor|]. split; [constructor; [unfold MINUS; lia|assumption]|]. cbn [length] in *. lia.
  - destruct (digits_text 20 n []) as [T L]; [lia|constructor|]. cbn [length] in *. split; [assumption|lia].
Qed.
Lemma hexchar_pos : forall d, 0 <= d -> 0 < hexchar d.
Proof. intros d H. unfold hexchar. destruct (d <? 10); lia. Qed.
Definition pos (s : list Z) : Prop := Forall (fun c => 0 < c) s.
Lemma pos_text : forall s, text s -> pos s.
Proof. intros s H. eapply Forall_impl; [|exact H]. cbn. lia. Qed.
Lemma cut0_pos : forall s, pos s -> cut0 s = s.
Proof.
  induction s as [|x s IH]; intros H; [reflexivity|]. inversion H; subst. cbn [cut0].
  destruct (Z.eqb_spec x 0); [lia|]. now rewrite IH.
Qed.
Lemma urlesc_ok : forall c, 0 < c -> pos (urlesc c) /\ (length (urlesc c) <= 6)%nat.
Proof.
  intros c H. assert (0 <= c / 16) by (apply Z.div_pos; lia). assert (0 <= c mod 16) by (apply Z.mod_pos_bound; lia).
  unfold urlesc. destruct ((c <? 32) || (c =? 37) || (c =? 34) || (126 <? c)); cbn [length].
  - split; [|lia]. repeat (constructor; [try lia; now apply hexchar_pos|]). constructor.
  - split; [|lia]. constructor; [assumption|constructor].
Qed.
Lemma jsonesc_ok : forall c, 0 < c -> pos (jsonesc c) /\ (length (jsonesc c) <= 6)%nat.
Proof.
  intros c H. assert (0 <= c / 16) by (apply Z.div_pos; lia). assert (0 <= c mod 16) by (apply Z.mod_pos_bound; lia).
  unfold jsonesc.
  repeat match goal with |- context [if ?b then _ else _] => destruct b end; cbn [length];
    (split; [|lia]; repeat (constructor; [try lia; now apply hexchar_pos|]); constructor).
Qed.
Lemma esc_ok : forall e c, 0 < c -> pos (esc e c) /\ (length (esc e c) <= 6)%nat.
Proof.
  intros e c H. unfold esc. destruct (e =? 0); [split; [constructor; [assumption|constructor]|cbn; lia]|].
  destruct (e =? 3).
  - destruct (c =? 34); (split; [|cbn; lia]); repeat (constructor; [lia|]); constructor.
  - destruct (e =? 1); [now apply urlesc_ok|now apply jsonesc_ok].
Qed.
Lemma concat_esc : forall (f : Z -> list Z) s, (forall c, 0 < c -> pos (f c) /\ (length (f c) <= 6)%nat) -> pos s ->
  pos (concat (map f s)) /\ (length (concat (map f s)) <= 6 * length s)%nat.
Proof.
  intros f s H. induction s as [|c s IH]; intros P; cbn [map concat length]; [split; [constructor|lia]|].
  inversion P; subst. destruct (IH H3) as [I1 I2]. destruct (H c H2) as [J1 J2]. split; [now apply Forall_app|].
  rewrite app_length. lia.
Qed.
Lemma cstring_ok : forall s, Forall (fun c => 0 <= c) s -> pos (cstring s) /\ (length (cstring s) <= length s)%nat.
Proof.
  induction s as [|c s IH]; intros H; cbn [cstring]; [split; [constructor|lia]|]. inversion H; subst.
  destruct (Z.eqb_spec c 0); [split; [constructor|cbn; lia]|]. destruct (IH H3) as [I1 I2].
  split; [constructor; [lia|assumption]|]. cbn [length]. lia.
Qed.

(** What the code prints for a value (spec). *)
Definition quoted (t : list Z) : list Z := 34 :: t ++ [34].
Definition vtext (cf : pconf) (v : dval) : list Z :=
  match v with
  | D_null => if c_json cf then [91; 93] else []
  | D_rec enc => print_int (wrap32 enc)
  | D_int n => print_int (wrap32 n)
  | D_num t => t
  | D_str s _ => quoted (concat (map (esc (c_strenc cf)) s))
  | D_uri s None => quoted s
  | D_uri s (Some e) => quoted (e ++ 58 :: s)
  | D_xml s t => quoted (t ++ 58 :: s)
  | D_char c => quoted [c]
  | D_date t => quoted t
  | D_var n => quoted (63 :: print_int n)
  | D_blob s => quoted (concat (map urlesc (cstring s)))
  | D_other => quoted []
  end.
(** Values as the database gives them, with strings of which 150 bytes at most are printed. *)
Definition fits (v : dval) : Prop :=
  match v with
  | D_str s lang => pos s /\ zlen s + olen lang <= 150
  | D_uri s p => zlen s + olen p <= 150
  | D_xml s t => zlen s + zlen t <= 150
  | D_blob s => Forall (fun c => 0 <= c) s /\ zlen (cstring s) <= 150
  | _ => True
  end.
(** Values whose text is right: no language, no nested record, no final 0 in the text. *)
Definition regular (cf : pconf) (v : dval) : Prop :=
  match v with
  | D_rec _ => c_json cf = false \/ c_maxdepth cf <= c_depth cf
  | D_num t => pos t /\ (length t <= 99)%nat
  | D_str _ lang => lang = None
  | D_uri s p => pos s /\ match p with Some e => pos e | None => True end
  | D_xml s t => pos s /\ pos t
  | D_char c => 0 < c
  | D_date t => pos t /\ (length t <= 97)%nat
  | _ => True
  end.

Lemma quoted_pos : forall t, pos t -> pos (quoted t).
Proof. intros t H. constructor; [lia|]. apply Forall_app. split; [assumption|]. constructor; [lia|constructor]. Qed.

Lemma quoted_int_short : forall n, pos (quoted (63 :: print_int n)) /\ (length (quoted (63%Z :: print_int n)) <= 99)%nat.
Proof.
  intros n. destruct (print_int_text n) as [T L]. split; [apply quoted_pos; constructor; [lia|now apply pos_text]|].
  unfold quoted. cbn [length]. rewrite app_length. cbn [length]. lia.
Qed.

Definition ended (st : ost) : Prop := nth_error (s_buf st) (s_ptr st) = Some 0.
Lemma new_inv : Inv (str_new INITIAL_MALLOC) /\ pre (str_new INITIAL_MALLOC) = [].
Proof.
  split; [|reflexivity]. split; [reflexivity|]. unfold str_new, INITIAL_MALLOC. cbn [s_buf s_ptr]. rewrite app_length, repeat_length. cbn [length]. lia.
Qed.
Lemma ended_answer : forall st, Inv st -> ended st -> pos (pre st) -> answer (Good st) = Some (Some (pre st)).
Proof.
  intros st (If & Ip & Is) D P. cbn [answer]. unfold ended in D. apply nth_error_split in D. destruct D as (a & b & E & L).
  assert (Ep : pre st = a). { unfold pre. rewrite E. rewrite <- L, firstn_app, Nat.sub_diag. cbn [firstn]. rewrite app_nil_r. apply firstn_all. }
  rewrite Ep in *. rewrite E. change (a ++ 0 :: b) with ([] ++ a ++ 0 :: b). rewrite (cstr_here [] a b 0 eq_refl). now rewrite (cut0_pos a P).
Qed.

Section Pr.
(** That some record cannot be read. *)
Variable miss : Prop.
Definition pr (st : ost) (T : list Z -> Prop) (o : out) : Prop :=
  match o with
  | Good st' => Inv st' /\ exists t, T t /\ pre st' = pre st ++ t
  | Fail st' => Inv st' /\ (miss \/ MAX_MALLOC < 2 * Z.of_nat (length (s_buf st'))) /\ exists t, pre st' = pre st ++ t
  | Bad => False
  | Loop => True
  end.

Lemma pr_weak : forall st (T T' : list Z -> Prop) o, pr st T o -> (forall t, T t -> T' t) -> pr st T' o.
Proof. intros st T T' [s|s| |] H W; cbn in *; auto. destruct H as (I & t & Ht & E). split; [assumption|]. exists t. auto. Qed.
Lemma pr_bind : forall st (T1 T2 : list Z -> Prop) o f, pr st T1 o ->
  (forall st' t1, Inv st' -> T1 t1 -> pre st' = pre st ++ t1 -> pr st' T2 (f st')) ->
  pr st (fun t => exists t1 t2, t = t1 ++ t2 /\ T1 t1 /\ T2 t2) (bind o f).
Proof.
  intros st T1 T2 o f H F. destruct o as [s|s| |]; cbn [pr bind] in *; auto.
  destruct H as (I & t1 & Ht & E). specialize (F s t1 I Ht E). destruct (f s) as [s'|s'| |]; cbn [pr] in *; auto.
  - destruct F as (I' & t2 & Ht2 & E2). split; [assumption|]. exists (t1 ++ t2). split; [exists t1, t2; auto|]. rewrite E2, E. now rewrite app_assoc.
  - destruct F as (I' & W & t2 & E2). split; [assumption|]. split; [assumption|]. exists (t1 ++ t2). rewrite E2, E. now rewrite app_assoc.
Qed.
Lemma pr_good : forall st, Inv st -> pr st (fun t => t = []) (Good st).
Proof. intros st I. split; [assumption|]. exists []. split; [reflexivity|now rewrite app_nil_r]. Qed.

Section Space.
Variable alloc : Z -> bool.
Hypothesis alloc_ok : forall n, alloc n = true.

Lemma space_ok : forall needed st, Inv st -> 0 <= needed <= Z.of_nat (length (s_buf st)) ->
  match str_guarantee_space alloc needed st with
  | Good st' => Inv st' /\ pre st' = pre st /\ Z.of_nat (s_ptr st') + needed <= Z.of_nat (length (s_buf st'))
  | Fail st' => st' = st /\ MAX_MALLOC < 2 * Z.of_nat (length (s_buf st))
  | _ => False
  end.
Proof.
  intros needed st (If & Ip & Is) N. unfold str_guarantee_space.
  destruct (Z.ltb_spec (Z.of_nat (length (s_buf st)) - Z.of_nat (s_ptr st)) needed) as [L|G].
  - destruct (Z.ltb_spec (Z.of_nat (length (s_buf st)) * 2) needed) as [L2|G2]; [lia|].
    destruct (Z.ltb_spec MAX_MALLOC (Z.of_nat (length (s_buf st)) * 2)); [split; [reflexivity|lia]|]. rewrite alloc_ok.
    assert (Ln : Z.of_nat (length (s_buf st ++ repeat (-1) (Z.to_nat (Z.of_nat (length (s_buf st)) * 2 - Z.of_nat (length (s_buf st)) - 1)) ++ [0]))
                 = 2 * Z.of_nat (length (s_buf st))).
    { rewrite !app_length, repeat_length. cbn [length]. lia. }
    split; [|split].
    + split; [exact If|]. cbn [s_buf s_ptr]. split; lia.
    + unfold pre. cbn [s_buf s_ptr]. rewrite firstn_app. replace (s_ptr st - length (s_buf st))%nat with 0%nat by lia.
      cbn [firstn]. now rewrite app_nil_r.
    + cbn [s_buf s_ptr]. lia.
  - split; [|split]; [split; [|split]; assumption|reflexivity|lia].
Qed.

Lemma space_bind : forall needed st T f, Inv st -> 0 <= needed <= 1000 ->
  (forall st', Inv st' -> pre st' = pre st -> Z.of_nat (s_ptr st') + needed <= Z.of_nat (length (s_buf st')) -> pr st' T (f st')) ->
  pr st T (bind (str_guarantee_space alloc needed st) f).
Proof.
  intros needed st T f I N F. assert (N' : 0 <= needed <= Z.of_nat (length (s_buf st))) by (unfold Inv in I; lia).
  pose proof (space_ok needed st I N') as H.
  destruct (str_guarantee_space alloc needed st) as [s|s| |]; cbn [bind]; try contradiction.
  - destruct H as (I' & E & R). specialize (F s I' E R). destruct (f s); cbn [pr] in *; try rewrite <- E; auto.
  - destruct H as [-> H]. split; [assumption|]. split; [now right|]. exists []. now rewrite app_nil_r.
Qed.

Lemma store_ok : forall st p l, s_freed st = false -> (p + length l <= length (s_buf st))%nat ->
  exists b, store st p l = Some (Ost b (s_ptr st) false) /\ length b = length (s_buf st) /\
    firstn p b = firstn p (s_buf st) /\ skipn p b = l ++ skipn (p + length l) (s_buf st).
Proof.
  intros st p l F L. unfold store. rewrite F. destruct (Nat.leb_spec (p + length l) (length (s_buf st))); [|lia].
  eexists. split; [reflexivity|]. assert (Lp : length (firstn p (s_buf st)) = p) by (rewrite firstn_length; lia).
  split; [|split].
  - rewrite !app_length, Lp, skipn_length. lia.
  - rewrite firstn_app, Lp, Nat.sub_diag. cbn [firstn]. rewrite app_nil_r. rewrite firstn_firstn. f_equal. lia.
  - rewrite skipn_app, Lp, Nat.sub_diag. rewrite skipn_all2 by lia. reflexivity.
Qed.
Lemma strlen_split : forall b p, strlen_from b p = strlen_from (skipn p b) 0.
Proof.
  intros b p. destruct (le_lt_dec p (length b)) as [L|G].
  - rewrite <- (firstn_skipn p b) at 1. apply strlen_from_app. rewrite firstn_length. lia.
  - rewrite skipn_all2 by lia. revert p G. induction b as [|x b IH]; intros [|p] G; cbn [length strlen_from] in *; try lia; [reflexivity|].
    apply IH. lia.
Qed.
Lemma strlen_has0 : forall b, In 0 b -> exists n, strlen_from b 0 = Some n.
Proof.
  induction b as [|x b IH]; intros H; [destruct H|]. cbn [strlen_from]. destruct (Z.eqb_spec x 0) as [Ex|Ex]; [now exists 0%nat|].
  destruct H as [H|H]; [contradiction|]. destruct (IH H) as [n E]. rewrite E. now exists (S n).
Qed.
Lemma adv_ok : forall st b, Inv st -> length b = length (s_buf st) -> firstn (s_ptr st) b = pre st -> In 0 (skipn (s_ptr st) b) ->
  pr st (fun t => forall u r, skipn (s_ptr st) b = u ++ 0 :: r -> t = cut0 u) (adv (Some (Ost b (s_ptr st) false))).
Proof.
  intros st b (If & Ip & Is) L E H. destruct (strlen_has0 _ H) as [n En]. unfold adv. cbn [s_buf s_ptr].
  rewrite strlen_split, En. pose proof (strlen_bound _ _ _ En) as Bn. rewrite skipn_length in Bn.
  split; [split; [reflexivity|]; cbn [at_ptr s_buf s_ptr]; lia|].
  exists (firstn n (skipn (s_ptr st) b)). split.
  - intros u r Eu. rewrite Eu in En |- *. rewrite strlen_cut0 in En. injection En as <-. apply firstn_cut0.
  - unfold pre. cbn [at_ptr s_buf s_ptr]. fold (pre st). rewrite <- E.
    rewrite <- (firstn_skipn (s_ptr st) b) at 1. rewrite firstn_app. rewrite firstn_length.
    replace (Init.Nat.min (s_ptr st) (length b)) with (s_ptr st) by lia.
    rewrite firstn_firstn. f_equal; f_equal; lia.
Qed.
(** Text and a final 0 at bufptr, then bufptr moves to the 0. *)
Lemma text_ok : forall st t, Inv st -> Z.of_nat (s_ptr st) + Z.of_nat (length t) + 1 <= Z.of_nat (length (s_buf st)) ->
  pr st (fun u => u = cut0 t) (adv (store st (s_ptr st) (t ++ [0]))).
Proof.
  intros st t I L. pose proof I as (If & Ip & Is).
  destruct (store_ok st (s_ptr st) (t ++ [0]) If) as (b & E & Lb & F & K); [rewrite app_length; cbn; lia|].
  rewrite E. rewrite <- app_assoc in K. eapply pr_weak; [apply (adv_ok st b I Lb F)|].
  - rewrite K. apply in_or_app. right. now left.
  - intros u H. exact (H _ _ K).
Qed.
Lemma putc_ok : forall st c, Inv st -> Z.of_nat (s_ptr st) + 2 <= Z.of_nat (length (s_buf st)) -> pr st (fun t => t = [c]) (putc st c).
Proof.
  intros st c I L. pose proof I as (If & Ip & Is). unfold putc.
  destruct (store_ok st (s_ptr st) [c] If) as (b & E & Lb & F & K); [cbn; lia|]. rewrite E.
  split; [split; [reflexivity|]; cbn [at_ptr s_buf s_ptr]; lia|]. exists [c]. split; [reflexivity|].
  unfold pre. cbn [at_ptr s_buf s_ptr]. rewrite <- (firstn_skipn (s_ptr st) b) at 1. rewrite K.
  rewrite firstn_app. rewrite firstn_length. replace (Init.Nat.min (s_ptr st) (length b)) with (s_ptr st) by lia.
  replace (S (s_ptr st) - s_ptr st)%nat with 1%nat by lia. rewrite firstn_firstn.
  replace (Init.Nat.min (S (s_ptr st)) (s_ptr st)) with (s_ptr st) by lia. now rewrite F.
Qed.

Lemma fixed_ok : forall st t, Inv st ->
  pr st (fun u => pos t -> (length t <= 99)%nat -> u = t)
    (bind (str_guarantee_space alloc MIN_STRLEN st) (fun st => adv (snprintf st (s_ptr st) MIN_STRLEN t))).
Proof.
  intros st t I. apply space_bind; [assumption|unfold MIN_STRLEN; lia|]. intros st' I' E R.
  unfold snprintf. assert (Ln : (length (firstn (Z.to_nat (MIN_STRLEN - 1)) t) <= 99)%nat) by (rewrite firstn_length; unfold MIN_STRLEN; lia).
  eapply pr_weak; [apply text_ok; [assumption|unfold MIN_STRLEN in *; lia]|]. cbn beta. intros u Hu P L.
  rewrite Hu, firstn_all2 by (unfold MIN_STRLEN; lia). now apply cut0_pos.
Qed.
Lemma value_ok : forall cf rp v st, (forall e st, Inv st -> pr st (fun _ => True) (rp e st)) -> Inv st -> fits v ->
  pr st (fun u => regular cf v -> u = vtext cf v) (sprint_value alloc cf rp v st).
Proof.
  intros cf rp v st Rp I F. unfold sprint_value.
  destruct v as [|e|n|t|s lang|s p|s t|c|t|n|s|]; cbn [fits regular vtext] in *.
  - apply space_bind; [assumption|unfold MIN_STRLEN; lia|]. intros st' I' E R. destruct (c_json cf).
    + unfold snprintf. rewrite firstn_all2 by (unfold MIN_STRLEN; cbn [length]; lia).
      eapply pr_weak; [apply text_ok; [assumption|cbn [length]; unfold MIN_STRLEN in R; lia]|]. cbn beta. intros u -> _. reflexivity.
    + eapply pr_weak; [now apply pr_good|]. cbn beta. intros u -> _. reflexivity.
  - apply space_bind; [assumption|unfold MIN_STRLEN; lia|]. intros st' I' E R.
    destruct (negb (c_json cf) || (c_maxdepth cf <=? c_depth cf)) eqn:C.
    + unfold snprintf. destruct (print_int_text (wrap32 e)) as [T L].
      assert (Ln : (length (firstn (Z.to_nat (MIN_STRLEN - 1)) (print_int (wrap32 e))) <= 21)%nat) by (rewrite firstn_length; lia).
      eapply pr_weak; [apply text_ok; [assumption|unfold MIN_STRLEN in *; lia]|]. cbn beta. intros u -> _.
      rewrite firstn_all2 by (unfold MIN_STRLEN; lia). now apply cut0_text.
    + specialize (Rp e st' I'). destruct (rp e st') as [s|s| |]; cbn [pr] in Rp |- *; auto.
      1,2: assert (X : Inv s /\ exists t, pre s = pre st' ++ t) by (decompose record Rp; split; [assumption|eexists; eassumption]); clear Rp;
        destruct X as (Is & t & Et); pose proof Is as (If & Ip & Iz);
        destruct (store_ok s (s_ptr s) [0] If) as (b & Eb & Lb & Fb & Kb); [cbn; lia|]; rewrite Eb;
        (split; [split; [reflexivity|]; cbn [s_buf s_ptr]; lia|]); exists t;
        (split; [intros [J|J]; [rewrite J in C; discriminate C|];
                 apply orb_false_iff in C; destruct C as [_ C]; apply Z.leb_gt in C; lia|]);
        unfold pre in *; cbn [s_buf s_ptr]; rewrite Fb; exact Et.
  - eapply pr_weak; [now apply fixed_ok|]. cbn beta. intros u Hu _. destruct (print_int_text (wrap32 n)) as [T L].
    apply Hu; [now apply pos_text|lia].
  - eapply pr_weak; [now apply fixed_ok|]. cbn beta. intros u Hu [P L]. now apply Hu.
  - destruct F as [P L]. assert (0 <= zlen s) by (unfold zlen; lia). assert (0 <= olen lang) by (destruct lang; cbn; unfold zlen; lia).
    apply space_bind; [assumption|unfold MIN_STRLEN, STRLEN_FACTOR; lia|]. intros st' I' E R. unfold sprint_string.
    assert (Ef : firstn (length s + Z.to_nat (olen lang)) s = s) by (apply firstn_all2; lia). rewrite Ef.
    destruct (concat_esc (esc (c_strenc cf)) s (esc_ok _) P) as [Pc Lc]. set (body := concat (map (esc (c_strenc cf)) s)) in *.
    pose proof I' as (If & Ip & Iz). unfold zlen, MIN_STRLEN, STRLEN_FACTOR in *.
    destruct (store_ok st' (s_ptr st') (34 :: body ++ [34; 0]) If) as (b & Eb & Lb & Fb & Kb).
    { cbn [length]. rewrite app_length. cbn [length]. lia. }
    rewrite Eb. destruct lang as [e|].
    + cbn [s_ptr olen] in *. unfold zlen in *. unfold snprintf.
      set (t2 := firstn (Z.to_nat (100 - 1)) (64 :: e ++ [34])).
      assert (L2 : (length t2 <= 99 /\ length t2 <= length e + 2)%nat).
      { unfold t2. rewrite firstn_length. cbn [length]. rewrite app_length. cbn [length]. lia. }
      destruct (store_ok (Ost b (s_ptr st') false) (s_ptr st' + length s + 1) (t2 ++ [0]) eq_refl) as (b2 & Eb2 & Lb2 & Fb2 & Kb2).
      { cbn [s_buf]. rewrite app_length. cbn [length]. lia. }
      rewrite Eb2. cbn [s_ptr s_buf] in *. eapply pr_weak; [apply (adv_ok st' b2 I')|].
      * lia.
      * unfold pre. transitivity (firstn (s_ptr st') (firstn (s_ptr st' + length s + 1) b2)).
        { rewrite firstn_firstn. f_equal. lia. }
        rewrite Fb2, firstn_firstn. rewrite <- Fb. f_equal. lia.
      * rewrite <- (firstn_skipn (length s + 1) (skipn (s_ptr st') b2)). apply in_or_app. right.
        assert (Sk : skipn (length s + 1) (skipn (s_ptr st') b2) = skipn (s_ptr st' + length s + 1) b2).
        { clear. revert b2. generalize (s_ptr st') as p. induction p as [|p IH]; intros b2; [reflexivity|]. destruct b2 as [|x b2]; [now destruct (length s)|].
          cbn [skipn Nat.add]. apply IH. }
        rewrite Sk, Kb2. apply in_or_app. left. apply in_or_app. right. now left.
      * cbn beta. intros u _ X. discriminate X.
    + eapply pr_weak; [apply (adv_ok st' b I' Lb Fb)|].
      * rewrite Kb. right. apply in_or_app. left. apply in_or_app. right. right. now left.
      * cbn beta. intros u H1 _.
        replace ((34 :: body ++ [34; 0]) ++ skipn (s_ptr st' + length (34 :: body ++ [34; 0])) (s_buf st'))
          with (quoted body ++ 0 :: skipn (s_ptr st' + length (34 :: body ++ [34; 0])) (s_buf st')) in Kb
          by (unfold quoted; cbn [app]; rewrite <- !app_assoc; reflexivity).
        rewrite (H1 _ _ Kb). apply cut0_pos. now apply quoted_pos.
  - assert (0 <= zlen s) by (unfold zlen; lia). assert (0 <= olen p) by (destruct p; cbn; unfold zlen; lia).
    apply space_bind; [assumption|unfold MIN_STRLEN, STRLEN_FACTOR; lia|]. intros st' I' E R. unfold snprintf.
    set (t := 34 :: match p with None => s | Some e => e ++ 58 :: s end ++ [34]).
    eapply pr_weak; [apply text_ok; [assumption|rewrite firstn_length; unfold MIN_STRLEN, STRLEN_FACTOR in *; lia]|].
    cbn beta. intros u -> [P1 P2]. unfold t.
    assert (Lt : (length t <= Z.to_nat (MIN_STRLEN + STRLEN_FACTOR * (zlen s + olen p) - 1))%nat).
    { unfold t, MIN_STRLEN, STRLEN_FACTOR. destruct p as [e|]; cbn [length olen]; unfold zlen; rewrite !app_length; cbn [length]; lia. }
    rewrite firstn_all2 by (exact Lt). destruct p as [e|]; apply cut0_pos; apply quoted_pos; [|assumption].
    apply Forall_app. split; [assumption|]. constructor; [lia|assumption].
  - assert (0 <= zlen s) by (unfold zlen; lia). assert (0 <= zlen t) by (unfold zlen; lia).
    apply space_bind; [assumption|unfold MIN_STRLEN, STRLEN_FACTOR; lia|]. intros st' I' E R. unfold snprintf.
    eapply pr_weak; [apply text_ok; [assumption|rewrite firstn_length; unfold MIN_STRLEN, STRLEN_FACTOR in *; lia]|].
    cbn beta. intros u -> [P1 P2].
    rewrite firstn_all2 by (unfold MIN_STRLEN, STRLEN_FACTOR, zlen; cbn [length]; rewrite app_length; cbn [length]; rewrite app_length; cbn [length]; lia).
    replace (34 :: t ++ 58 :: s ++ [34]) with (quoted (t ++ 58 :: s)) by (unfold quoted; rewrite <- app_assoc; reflexivity).
    apply cut0_pos, quoted_pos. apply Forall_app. split; [assumption|]. constructor; [lia|assumption].
  - eapply pr_weak; [now apply fixed_ok|]. cbn beta. intros u Hu P. apply Hu; [|cbn; lia]. apply (quoted_pos [c]). constructor; [assumption|constructor].
  - eapply pr_weak; [now apply fixed_ok|]. cbn beta. intros u Hu [P L]. apply Hu; [now apply quoted_pos|]. cbn [length]. rewrite app_length. cbn [length]. lia.
  - eapply pr_weak; [now apply fixed_ok|]. cbn beta. intros u Hu _. destruct (quoted_int_short n) as [P L]. now apply Hu.
  - destruct F as [P L]. destruct (cstring_ok s P) as [Ps Ls]. assert (0 <= zlen (cstring s)) by (unfold zlen; lia).
    apply space_bind; [assumption|unfold MIN_STRLEN, STRLEN_FACTOR; lia|]. intros st' I' E R. unfold sprint_blob.
    rewrite firstn_all2 by lia. destruct (concat_esc urlesc (cstring s) urlesc_ok Ps) as [Pc Lc].
    replace (34 :: concat (map urlesc (cstring s)) ++ [34; 0]) with (quoted (concat (map urlesc (cstring s))) ++ [0])
      by (unfold quoted; cbn [app]; rewrite <- app_assoc; reflexivity).
    eapply pr_weak; [apply text_ok; [assumption|]|].
    + unfold quoted. cbn [length]. rewrite app_length. cbn [length]. unfold zlen, MIN_STRLEN, STRLEN_FACTOR in *. lia.
    + cbn beta. intros u -> _. now apply cut0_pos, quoted_pos.
  - eapply pr_weak; [now apply fixed_ok|]. cbn beta. intros u Hu _. apply Hu; [|cbn; lia]. repeat (constructor; [lia|]). constructor.
Qed.

(** ** Records *)
Fixpoint joined (cf : pconf) (sep : bool) (fs : list dval) : list Z :=
  match fs with
  | [] => []
  | v :: r => (if sep then [44] else []) ++ vtext cf v ++ joined cf true r
  end.
Definition rtext (cf : pconf) (enc : Z) (fs : list dval) : list Z :=
  (if c_json cf then [91] else []) ++ (if c_showid cf then print_int (wrap32 enc) else []) ++
  joined cf (c_showid cf) fs ++ (if c_json cf then [93] else []).

Lemma fields_ok : forall cf rp fs sep st, (forall e st, Inv st -> pr st (fun _ => True) (rp e st)) -> Inv st -> Forall fits fs ->
  pr st (fun u => Forall (regular cf) fs -> u = joined cf sep fs)
    (sprint_fields alloc (sprint_value alloc cf rp) fs sep st).
Proof.
  intros cf rp fs. induction fs as [|v fs IH]; intros sep st Rp I F; cbn [sprint_fields joined].
  - eapply pr_weak; [now apply pr_good|]. cbn beta. auto.
  - inversion F as [|? ? Fv Ff]; subst. apply space_bind; [assumption|unfold MIN_STRLEN; lia|]. intros st' I' E R.
    eapply pr_weak.
    { eapply (pr_bind st' (fun t => t = if sep then [44] else [])).
      - destruct sep; [apply putc_ok; [assumption|unfold MIN_STRLEN in R; lia]|now apply pr_good].
      - intros st2 t1 I2 _ _. apply (pr_bind st2 (fun u => regular cf v -> u = vtext cf v)
          (fun u => Forall (regular cf) fs -> u = joined cf true fs)); [now apply value_ok|].
        intros st3 t3 I3 _ _. now apply IH. }
    cbn beta. intros t (t1 & t2 & -> & -> & t3 & t4 & -> & H3 & H4) R'. inversion R'; subst. now rewrite H3, H4.
Qed.
Lemma pr_shift : forall st st2 t1 T o, pre st2 = pre st ++ t1 -> pr st2 T o -> pr st (fun t => exists t2, t = t1 ++ t2 /\ T t2) o.
Proof.
  intros st st2 t1 T [s|s| |] E H; cbn [pr] in *; auto.
  - destruct H as (I & t & Ht & Et). split; [assumption|]. exists (t1 ++ t). split; [now exists t|]. now rewrite Et, E, app_assoc.
  - destruct H as (I & W & t & Et). split; [assumption|]. split; [assumption|]. exists (t1 ++ t). now rewrite Et, E, app_assoc.
Qed.
Lemma open_ok : forall cf st, Inv st -> Z.of_nat (s_ptr st) + 100 <= Z.of_nat (length (s_buf st)) ->
  exists st2, (if c_json cf then putc st 91 else Good st) = Good st2 /\ Inv st2 /\
    pre st2 = pre st ++ (if c_json cf then [91] else []) /\ Z.of_nat (s_ptr st2) + 99 <= Z.of_nat (length (s_buf st2)).
Proof.
  intros cf st I R. destruct (c_json cf).
  - pose proof (putc_ok st 91 I ltac:(lia)) as H. unfold putc in *. destruct I as (If & Ip & Is).
    destruct (store_ok st (s_ptr st) [91] If) as (b & E & Lb & F & K); [cbn; lia|]. rewrite E in *. cbn [pr] in H.
    destruct H as (I2 & t & -> & Et). eexists. split; [reflexivity|]. split; [assumption|]. split; [assumption|]. cbn [at_ptr s_ptr s_buf]. lia.
  - exists st. split; [reflexivity|]. split; [assumption|]. split; [now rewrite app_nil_r|lia].
Qed.
Lemma record_ok : forall cf heap, (forall e fs, heap e = Some fs -> Forall fits fs) -> (forall e, heap e = None -> miss) -> forall fuel enc st, Inv st ->
  pr st (fun u => exists fs, heap enc = Some fs /\ (Forall (regular cf) fs -> u = rtext cf enc fs)) (sprint_record fuel alloc cf heap enc st).
Proof.
  intros cf heap Hf Hm. induction fuel as [|fuel IH]; intros enc st I; cbn [sprint_record]; [exact Logic.I|].
  apply space_bind; [assumption|unfold MIN_STRLEN; lia|]. intros st' I' E R. unfold MIN_STRLEN in R.
  destruct (open_ok cf st' I' R) as (st2 & E2 & I2 & P2 & R2). rewrite E2. cbn [bind].
  destruct (heap enc) as [fs|] eqn:Eh.
  2:{ split; [assumption|]. split; [left; now apply (Hm enc)|]. eexists. exact P2. }
  pose proof (Hf enc fs Eh) as Ff.
  assert (Rp : forall e st, Inv st -> pr st (fun _ => True) (sprint_record fuel alloc cf heap e st)).
  { intros e s Is. eapply pr_weak; [now apply IH|]. auto. }
  eapply pr_weak.
  { eapply (pr_shift st' st2 _ _ _ P2).
    apply (pr_bind st2 (fun t => t = if c_showid cf then print_int (wrap32 enc) else [])
      (fun t => exists t1 t2, t = t1 ++ t2 /\ (Forall (regular cf) fs -> t1 = joined cf (c_showid cf) fs) /\ t2 = if c_json cf then [93] else [])).
    - destruct (c_showid cf); [|now apply pr_good]. unfold snprintf. destruct (print_int_text (wrap32 enc)) as [Tt Lt].
      rewrite firstn_all2 by (unfold MIN_STRLEN; lia).
      eapply pr_weak; [apply text_ok; [assumption|lia]|]. cbn beta. intros u ->. now apply cut0_text.
    - intros st3 t3 I3 _ _. apply (pr_bind st3 (fun u => Forall (regular cf) fs -> u = joined cf (c_showid cf) fs) (fun t => t = if c_json cf then [93] else [])).
      + now apply fields_ok.
      + intros st4 t4 I4 _ _. destruct (c_json cf); [|now apply pr_good].
        apply space_bind; [assumption|unfold MIN_STRLEN; lia|]. intros st5 I5 _ R5. apply putc_ok; [assumption|unfold MIN_STRLEN in R5; lia]. }
  cbn beta. intros t (t2 & -> & t3 & t4 & -> & -> & t5 & t6 & -> & H5 & ->). exists fs. split; [reflexivity|].
  intros Rg. unfold rtext. now rewrite (H5 Rg).
Qed.

(** ** A whole answer; from here on the 0 after the text is followed as well. *)
Lemma all_ok : forall st t, Inv st -> Z.of_nat (s_ptr st) + 100 <= Z.of_nat (length (s_buf st)) -> (length t <= 99)%nat ->
  exists st', snprintf_all st t = Good st' /\ Inv st' /\ pre st' = pre st ++ t /\ ended st'.
Proof.
  intros st t (If & Ip & Is) R L. unfold snprintf_all, snprintf. rewrite firstn_all2 by (unfold MIN_STRLEN; lia).
  destruct (store_ok st (s_ptr st) (t ++ [0]) If) as (b & E & Lb & F & K); [rewrite app_length; cbn; lia|]. rewrite E.
  eexists. split; [reflexivity|]. cbn [at_ptr s_ptr s_buf s_freed].
  assert (Eb : b = pre st ++ t ++ 0 :: skipn (s_ptr st + length (t ++ [0])) (s_buf st)).
  { rewrite <- (firstn_skipn (s_ptr st) b), F, K. now rewrite <- app_assoc. }
  assert (Lp : length (pre st) = s_ptr st) by (unfold pre; rewrite firstn_length; lia).
  split; [split; [reflexivity|]; cbn [at_ptr s_ptr s_buf]; lia|]. split.
  - unfold pre at 1. cbn [at_ptr s_ptr s_buf]. rewrite Eb. rewrite app_assoc.
    rewrite firstn_app. rewrite app_length, Lp, Nat.sub_diag. cbn [firstn]. rewrite app_nil_r. apply firstn_all2. rewrite app_length. lia.
  - unfold ended. cbn [at_ptr s_ptr s_buf]. rewrite Eb, app_assoc, nth_error_app2 by (rewrite app_length; lia).
    replace (s_ptr st + length t - length (pre st ++ t))%nat with 0%nat by (rewrite app_length; lia). reflexivity.
Qed.
Lemma all_pr : forall st t, Inv st -> Z.of_nat (s_ptr st) + 100 <= Z.of_nat (length (s_buf st)) -> (length t <= 99)%nat ->
  pr st (fun u => u = t) (snprintf_all st t).
Proof. intros st t I R L. destruct (all_ok st t I R L) as (st' & -> & I' & P & _). split; [assumption|]. exists t. auto. Qed.

Definition start_text (cf : pconf) (jsonp : option (list Z)) : list Z :=
  if c_json cf then match jsonp with Some j => j ++ [40; 91; 10] | None => [91; 10] end else [].
Definition end_text (cf : pconf) (jsonp : option (list Z)) : list Z :=
  if c_json cf then match jsonp with Some j => [10; 93; 41; 59] | None => [10; 93] end else [].
Lemma start_ok : forall cf jsonp st, Inv st -> olen jsonp <= 96 ->
  pr st (fun u => u = start_text cf jsonp) (op_print_data_start alloc cf jsonp true st).
Proof.
  intros cf jsonp st I J. apply space_bind; [assumption|unfold MIN_STRLEN; lia|]. intros st' I' E R. unfold MIN_STRLEN in R. unfold start_text.
  destruct (c_json cf); [|now apply pr_good]. destruct jsonp as [j|]; cbn [olen] in J; unfold zlen in J.
  - apply all_pr; [assumption|assumption|]. rewrite app_length. cbn [length]. lia.
  - apply all_pr; [assumption|assumption|]. cbn. lia.
Qed.
Lemma end_ok : forall cf jsonp st, Inv st -> pr st (fun u => u = end_text cf jsonp) (op_print_data_end alloc cf jsonp true st).
Proof.
  intros cf jsonp st I. apply space_bind; [assumption|unfold MIN_STRLEN; lia|]. intros st' I' E R. unfold MIN_STRLEN in R. unfold end_text.
  destruct (c_json cf); [|now apply pr_good]. destruct jsonp as [j|]; (apply all_pr; [assumption|assumption|]; cbn; lia).
Qed.
Fixpoint records_text (cf : pconf) (heap : Z -> option (list dval)) (first : bool) (encs : list Z) : list Z :=
  match encs with
  | [] => []
  | e :: r =>
      (if negb first && c_json cf then [44; 10] else []) ++
      rtext cf e (match heap e with Some fs => fs | None => [] end) ++
      (if c_json cf then [] else [13; 10]) ++ records_text cf heap false r
  end.
Definition all_regular (cf : pconf) (heap : Z -> option (list dval)) (encs : list Z) : Prop :=
  forall e fs, In e encs -> heap e = Some fs -> Forall (regular cf) fs.
Lemma one_ok : forall cf heap, (forall e fs, heap e = Some fs -> Forall fits fs) -> (forall e, heap e = None -> miss) -> forall fuel first enc st, Inv st ->
  pr st (fun u => exists fs, heap enc = Some fs /\ (Forall (regular cf) fs ->
           u = (if negb first && c_json cf then [44; 10] else []) ++ rtext cf enc fs ++ (if c_json cf then [] else [13; 10])))
    (op_print_record fuel alloc cf heap first enc st).
Proof.
  intros cf heap Hf Hm fuel first enc st I. unfold op_print_record. apply space_bind; [assumption|unfold MIN_STRLEN; lia|].
  intros st' I' E R. unfold MIN_STRLEN in R. eapply pr_weak.
  { apply (pr_bind st' (fun t => t = if negb first && c_json cf then [44; 10] else [])
      (fun t => exists t1 t2, t = t1 ++ t2 /\ (exists fs, heap enc = Some fs /\ (Forall (regular cf) fs -> t1 = rtext cf enc fs)) /\ t2 = if c_json cf then [] else [13; 10])).
    - destruct (negb first && c_json cf); [apply all_pr; [assumption|assumption|cbn; lia]|now apply pr_good].
    - intros st2 t2 I2 _ _. eapply (pr_bind st2 _ (fun t => t = if c_json cf then [] else [13; 10])); [now apply record_ok|].
      intros st3 t3 I3 _ _. destruct (c_json cf); [now apply pr_good|].
      apply space_bind; [assumption|unfold MIN_STRLEN; lia|]. intros st4 I4 _ R4. apply all_pr; [assumption|assumption|cbn; lia]. }
  cbn beta. intros t (t1 & t2 & -> & -> & t3 & t4 & -> & (fs & Eh & H) & ->). exists fs. split; [assumption|].
  intros Rg. now rewrite (H Rg).
Qed.
Lemma records_ok : forall cf heap, (forall e fs, heap e = Some fs -> Forall fits fs) -> (forall e, heap e = None -> miss) -> forall fuel encs first st, Inv st ->
  pr st (fun u => all_regular cf heap encs -> u = records_text cf heap first encs) (print_records fuel alloc cf heap first encs st).
Proof.
  intros cf heap Hf Hm fuel. induction encs as [|e encs IH]; intros first st I; cbn [print_records records_text].
  - eapply pr_weak; [now apply pr_good|]. cbn beta. auto.
  - eapply pr_weak.
    { eapply (pr_bind st _ (fun u => all_regular cf heap encs -> u = records_text cf heap false encs)); [now apply one_ok|].
      intros st2 t2 I2 _ _. now apply IH. }
    cbn beta. intros t (t1 & t2 & -> & (fs & Eh & H1) & H2) Rg. rewrite Eh.
    rewrite H1 by (eapply Rg; [now left|exact Eh]). rewrite H2 by (intros x fx Ix; apply Rg; now right).
    now rewrite <- !app_assoc.
Qed.
Definition search_text (cf : pconf) (heap : Z -> option (list dval)) (jsonp : option (list Z)) (encs : list Z) : list Z :=
  start_text cf jsonp ++ records_text cf heap true encs ++ end_text cf jsonp.
Lemma search_ok : forall cf heap fuel jsonp encs, (forall e fs, heap e = Some fs -> Forall fits fs) -> (forall e, heap e = None -> miss) -> olen jsonp <= 96 ->
  pr (str_new INITIAL_MALLOC) (fun u => all_regular cf heap encs -> u = search_text cf heap jsonp encs)
    (print_search fuel alloc cf heap jsonp encs).
Proof.
  intros cf heap fuel jsonp encs Hf Hm J. destruct new_inv as [I0 _]. unfold print_search. eapply pr_weak.
  { apply (pr_bind _ (fun u => u = start_text cf jsonp) (fun t => exists t1 t2, t = t1 ++ t2 /\
      (all_regular cf heap encs -> t1 = records_text cf heap true encs) /\ t2 = end_text cf jsonp)); [now apply start_ok|].
    intros st t I _ _. eapply (pr_bind st _ (fun u => u = end_text cf jsonp)); [now apply records_ok|].
    intros st2 t2 I2 _ _. now apply end_ok. }
  cbn beta. intros t (t1 & t2 & -> & -> & t3 & t4 & -> & H & ->) Rg. unfold search_text. now rewrite (H Rg).
Qed.

(** The 0 after the text. *)
Definition fin (o : out) : Prop := match o with Good st => ended st | _ => True end.
Lemma bind_fin : forall o f, (forall st, o = Good st -> fin (f st)) -> fin (bind o f).
Proof. intros [s|s| |] f H; cbn; auto. Qed.
Lemma pr_inv : forall st T o st', pr st T o -> o = Good st' -> Inv st'.
Proof. intros st T o st' H ->. exact (proj1 H). Qed.
Lemma space_keeps : forall needed st st', Inv st -> str_guarantee_space alloc needed st = Good st' -> ended st -> ended st'.
Proof.
  intros needed st st' (If & Ip & Is) E D. unfold str_guarantee_space in E.
  repeat match type of E with context [if ?b then _ else _] => destruct b end; try discriminate E; injection E as <-; auto;
    unfold ended in *; cbn [s_buf s_ptr]; now rewrite nth_error_app1 by assumption.
Qed.
Lemma end_fin : forall cf jsonp st, Inv st -> (c_json cf = false -> ended st) -> fin (op_print_data_end alloc cf jsonp true st).
Proof.
  intros cf jsonp st I D. unfold op_print_data_end. apply bind_fin. intros st' E.
  assert (N : 0 <= MIN_STRLEN <= Z.of_nat (length (s_buf st))) by (unfold Inv, MIN_STRLEN in *; lia).
  pose proof (space_ok MIN_STRLEN st I N) as H. rewrite E in H. destruct H as (I' & _ & R). unfold MIN_STRLEN in R.
  destruct (c_json cf).
  - destruct jsonp as [j|].
    + destruct (all_ok st' [10; 93; 41; 59] I' R) as (st2 & -> & _ & _ & X); [cbn; lia|exact X].
    + destruct (all_ok st' [10; 93] I' R) as (st2 & -> & _ & _ & X); [cbn; lia|exact X].
  - cbn [fin]. eapply space_keeps; [exact I|exact E|now apply D].
Qed.
Lemma one_fin : forall cf heap, (forall e fs, heap e = Some fs -> Forall fits fs) -> (forall e, heap e = None -> miss) -> forall fuel first enc st, Inv st -> c_json cf = false ->
  fin (op_print_record fuel alloc cf heap first enc st).
Proof.
  intros cf heap Hf Hm fuel first enc st I C. unfold op_print_record. apply bind_fin. intros st1 E1.
  assert (N : 0 <= MIN_STRLEN <= Z.of_nat (length (s_buf st))) by (unfold Inv, MIN_STRLEN in *; lia).
  pose proof (space_ok MIN_STRLEN st I N) as H. rewrite E1 in H. destruct H as (I1 & _ & R1). rewrite C, andb_false_r. cbn [bind].
  apply bind_fin. intros st2 E2. pose proof (pr_inv _ _ _ _ (record_ok cf heap Hf Hm fuel enc st1 I1) E2) as I2.
  apply bind_fin. intros st3 E3.
  assert (N2 : 0 <= MIN_STRLEN <= Z.of_nat (length (s_buf st2))) by (unfold Inv, MIN_STRLEN in *; lia).
  pose proof (space_ok MIN_STRLEN st2 I2 N2) as H. rewrite E3 in H. destruct H as (I3 & _ & R3). unfold MIN_STRLEN in R3.
  destruct (all_ok st3 [13; 10] I3 R3) as (st4 & -> & _ & _ & X); [cbn; lia|exact X].
Qed.
Lemma records_fin : forall cf heap, (forall e fs, heap e = Some fs -> Forall fits fs) -> (forall e, heap e = None -> miss) -> forall fuel encs first st, Inv st -> c_json cf = false ->
  encs <> [] \/ ended st -> fin (print_records fuel alloc cf heap first encs st).
Proof.
  intros cf heap Hf Hm fuel. induction encs as [|e encs IH]; intros first st I C H; cbn [print_records].
  - destruct H as [H|H]; [now contradiction H|exact H].
  - apply bind_fin. intros st2 E2. pose proof (one_fin cf heap Hf Hm fuel first e st I C) as F. rewrite E2 in F.
    pose proof (pr_inv _ _ _ _ (one_ok cf heap Hf Hm fuel first e st I) E2) as I2. apply IH; auto.
Qed.
Lemma search_fin : forall cf heap fuel jsonp encs, (forall e fs, heap e = Some fs -> Forall fits fs) -> (forall e, heap e = None -> miss) -> olen jsonp <= 96 ->
  c_json cf = true \/ encs <> [] -> fin (print_search fuel alloc cf heap jsonp encs).
Proof.
  intros cf heap fuel jsonp encs Hf Hm J H. destruct new_inv as [I0 _]. unfold print_search. apply bind_fin. intros st1 E1.
  pose proof (pr_inv _ _ _ _ (start_ok cf jsonp _ I0 J) E1) as I1. apply bind_fin. intros st2 E2.
  pose proof (pr_inv _ _ _ _ (records_ok cf heap Hf Hm fuel encs true st1 I1) E2) as I2. apply end_fin; [assumption|].
  intros C. destruct H as [H|H]; [congruence|]. pose proof (records_fin cf heap Hf Hm fuel encs true st1 I1 C (or_introl H)) as F.
  rewrite E2 in F. exact F.
Qed.
End Space.
End Pr.
