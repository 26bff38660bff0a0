(** C70: the answer of dserve holds the values of the records, and printing stays in its buffer. *)
From Coq Require Import ZArith List Bool Lia Arith.
From Coq Require String Ascii.
From Verif Require Import Base CsvModel DserveModel DserveProofs DserveProps DservePrintModel DservePrintProofs.
Import ListNotations.
Import String.StringSyntax.
Open Scope Z_scope.
#[local] Ltac Zify.zify_post_hook ::= Z.div_mod_to_equations.

(** ** What a text says *)
Definition signed (t : list Z) (n : Z) : Prop := (0 <= n /\ decimal t n) \/ (n < 0 /\ exists u, t = 45 :: u /\ decimal u (- n)).
Definition hexdigit (d c : Z) : Prop := (0 <= d < 10 /\ c = 48 + d) \/ (10 <= d < 16 /\ (c = 87 + d \/ c = 55 + d)).
(** A string of json (RFC 8259, section 7) without its quotes. *)
Inductive json_str : list Z -> list Z -> Prop :=
| js_nil : json_str [] []
| js_plain : forall c s t, 32 <= c -> c <> 34 -> c <> 92 -> json_str s t -> json_str (c :: s) (c :: t)
| js_esc : forall c e s t, In (c, e) [(34, 34); (92, 92); (47, 47); (8, 98); (12, 102); (10, 110); (13, 114); (9, 116)] ->
    json_str s t -> json_str (c :: s) (92 :: e :: t)
| js_u : forall h l hc lc s t, hexdigit h hc -> hexdigit l lc -> json_str s t ->
    json_str (16 * h + l :: s) (92 :: 117 :: 48 :: 48 :: hc :: lc :: t).
(** A field of csv (RFC 4180) without its quotes. *)
Inductive csv_str : list Z -> list Z -> Prop :=
| cs_nil : csv_str [] []
| cs_plain : forall c s t, c <> 34 -> csv_str s t -> csv_str (c :: s) (c :: t)
| cs_quote : forall s t, csv_str s t -> csv_str (34 :: s) (34 :: 34 :: t).
(** Percent-encoding. *)
Inductive pct_str : list Z -> list Z -> Prop :=
| ps_nil : pct_str [] []
| ps_plain : forall c s t, 32 <= c <= 126 -> c <> 34 -> c <> 37 -> pct_str s t -> pct_str (c :: s) (c :: t)
| ps_esc : forall h l hc lc s t, hexdigit h hc -> hexdigit l lc -> pct_str s t -> pct_str (16 * h + l :: s) (37 :: hc :: lc :: t).
Definition str_shown (enc : Z) (s t : list Z) : Prop :=
  (enc = 0 /\ t = s) \/ (enc = 1 /\ pct_str s t) \/ (enc = 2 /\ json_str s t) \/ (enc = 3 /\ csv_str s t).
(** The text of a value. *)
Inductive shown (cf : pconf) : dval -> list Z -> Prop :=
| sh_null : shown cf D_null (if c_json cf then [91; 93] else [])
| sh_rec : forall e t, signed t e -> c_json cf = false \/ c_maxdepth cf <= c_depth cf -> shown cf (D_rec e) t
| sh_int : forall n t, signed t n -> shown cf (D_int n) t
| sh_num : forall t, shown cf (D_num t) t
| sh_str : forall s t, str_shown (c_strenc cf) s t -> shown cf (D_str s None) (34 :: t ++ [34])
| sh_uri : forall s, shown cf (D_uri s None) (34 :: s ++ [34])
| sh_urip : forall s e, shown cf (D_uri s (Some e)) (34 :: e ++ 58 :: s ++ [34])
| sh_xml : forall s e, shown cf (D_xml s e) (34 :: e ++ 58 :: s ++ [34])
| sh_char : forall c, shown cf (D_char c) [34; c; 34]
| sh_date : forall t, shown cf (D_date t) (34 :: t ++ [34])
| sh_var : forall n t, signed t n -> shown cf (D_var n) (34 :: 63 :: t ++ [34])
| sh_blob : forall s t, pct_str s t -> shown cf (D_blob s) (34 :: t ++ [34])
| sh_other : shown cf D_other [34; 34].
Fixpoint between (sep : list Z) (ts : list (list Z)) : list Z :=
  match ts with [] => [] | [t] => t | t :: r => t ++ sep ++ between sep r end.
(** The text of a record: its id if asked for and its fields, with commas between. *)
Definition rec_shown (cf : pconf) (enc : Z) (fs : list dval) (t : list Z) : Prop :=
  exists ids ts, (if c_showid cf then exists i, ids = [i] /\ signed i enc else ids = []) /\ Forall2 (shown cf) fs ts /\
    t = (if c_json cf then [91] else []) ++ between [44] (ids ++ ts) ++ (if c_json cf then [93] else []).

(** Values that are shown as they are: no zero bytes, ints of 32 bits, no language, no nested
    records, texts of numbers and dates as short as they really are. *)
Definition nonzero (s : list Z) : Prop := Forall (fun c => 0 < c < 256) s.
Definition int32 (n : Z) : Prop := - 2147483648 <= n <= 2147483647.
Definition plain_value (cf : pconf) (v : dval) : Prop :=
  match v with
  | D_rec e => int32 e /\ (c_json cf = false \/ c_maxdepth cf <= c_depth cf)
  | D_int n => int32 n
  | D_num t => nonzero t /\ (length t <= 99)%nat
  | D_str s lang => nonzero s /\ lang = None
  | D_uri s p => nonzero s /\ match p with Some e => nonzero e | None => True end
  | D_xml s t => nonzero s /\ nonzero t
  | D_char c => 0 < c < 256
  | D_date t => nonzero t /\ (length t <= 97)%nat
  | D_var n => int32 n
  | D_blob s => nonzero s
  | D_null | D_other => True
  end.
(** Values of at most 150 bytes. *)
Definition short_value (v : dval) : Prop :=
  match v with
  | D_str s lang => Forall (fun c => 0 < c) s /\ Z.of_nat (length s) + match lang with Some e => Z.of_nat (length e) | None => 0 end <= 150
  | D_uri s p => Z.of_nat (length s) + match p with Some e => Z.of_nat (length e) | None => 0 end <= 150
  | D_xml s t => Z.of_nat (length s) + Z.of_nat (length t) <= 150
  | D_blob s => Forall (fun c => 0 <= c) s /\ Z.of_nat (length s) <= 150
  | _ => True
  end.

(** ** The printed texts *)
Lemma digits_decimal : forall f n acc, 0 <= n < 10 ^ Z.of_nat (S f) -> exists s, digits (S f) n acc = s ++ acc /\ decimal s n.
Proof.
  induction f as [|f IH]; intros n acc H.
  - cbn [digits]. change (10 ^ Z.of_nat 1) with 10 in H. destruct (Z.ltb_spec n 10); [|lia]. exists [48 + n mod 10].
    split; [reflexivity|]. rewrite Z.mod_small by lia. now constructor.
  - cbn [digits]. destruct (Z.ltb_spec n 10).
    + exists [48 + n mod 10]. split; [reflexivity|]. rewrite Z.mod_small by lia. constructor. lia.
    + assert (P : 10 ^ Z.of_nat (S (S f)) = 10 * 10 ^ Z.of_nat (S f)) by (rewrite (Nat2Z.inj_succ (S f)), Z.pow_succ_r by lia; reflexivity).
      destruct (IH (n / 10) (48 + n mod 10 :: acc)) as (s & E & D).
      { rewrite P in H. split; [apply Z.div_pos; lia|]. apply Z.div_lt_upper_bound; lia. }
      exists (s ++ [48 + n mod 10]). split; [cbn [digits] in E; rewrite E, <- app_assoc; reflexivity|].
      rewrite (Z.div_mod n 10) at 2 by lia. constructor; [assumption|]. apply Z.mod_pos_bound. lia.
Qed.
Lemma print_int_signed : forall n, int32 n -> signed (print_int n) n.
Proof.
  intros n H. unfold int32 in H. unfold print_int.
  assert (P : 2147483648 < 10 ^ Z.of_nat 20) by (vm_compute; reflexivity).
  destruct (Z.ltb_spec n 0) as [L|L].
  - right. split; [assumption|]. destruct (digits_decimal 19 (- n) []) as (s & E & D); [lia|]. rewrite E, app_nil_r. exists s. split; [reflexivity|exact D].
  - left. split; [assumption|]. destruct (digits_decimal 19 n []) as (s & E & D); [lia|]. rewrite E, app_nil_r. exact D.
Qed.
Lemma wrap32_id : forall n, int32 n -> wrap32 n = n.
Proof. intros n H. unfold int32 in H. unfold wrap32. lia. Qed.
Lemma hexchar_digit : forall d, 0 <= d < 16 -> hexdigit d (hexchar d).
Proof. intros d H. unfold hexchar, hexdigit. destruct (Z.ltb_spec d 10); lia. Qed.
Lemma urlesc_shown : forall s, nonzero s -> pct_str s (concat (map urlesc s)).
Proof.
  intros s H. induction H as [|c s Hc Hs IH]; cbn [map concat]; [constructor|]. unfold urlesc.
  destruct (Z.ltb_spec c 32), (Z.eqb_spec c 37), (Z.eqb_spec c 34), (Z.ltb_spec 126 c); cbn [orb app];
    try (rewrite (Z.div_mod c 16) at 1 by lia; apply ps_esc; [apply hexchar_digit|apply hexchar_digit|assumption]; lia).
  apply ps_plain; [lia|assumption|assumption|assumption].
Qed.
Lemma jsonesc_shown : forall s, nonzero s -> json_str s (concat (map jsonesc s)).
Proof.
  intros s H. induction H as [|c s Hc Hs IH]; cbn [map concat]; [constructor|]. unfold jsonesc.
  destruct (Z.eqb_spec c 8) as [->|]; [apply js_esc; [cbn; tauto|assumption]|].
  destruct (Z.eqb_spec c 10) as [->|]; [apply js_esc; [cbn; tauto|assumption]|].
  destruct (Z.eqb_spec c 13) as [->|]; [apply js_esc; [cbn; tauto|assumption]|].
  destruct (Z.eqb_spec c 9) as [->|]; [apply js_esc; [cbn; tauto|assumption]|].
  destruct (Z.eqb_spec c 12) as [->|]; [apply js_esc; [cbn; tauto|assumption]|].
  destruct (Z.eqb_spec c 34) as [->|]; [apply js_esc; [cbn; tauto|assumption]|].
  destruct (Z.eqb_spec c 92) as [->|]; [apply js_esc; [cbn; tauto|assumption]|].
  destruct (Z.eqb_spec c 47) as [->|]; [apply js_esc; [cbn; tauto|assumption]|].
  destruct (Z.ltb_spec c 32).
  - rewrite (Z.div_mod c 16) at 1 by lia. cbn [app]. apply js_u; [apply hexchar_digit|apply hexchar_digit|assumption]; lia.
  - cbn [app]. now apply js_plain.
Qed.
Lemma esc_shown : forall e s, 0 <= e <= 3 -> nonzero s -> str_shown e s (concat (map (esc e) s)).
Proof.
  intros e s R H. unfold str_shown. assert (C : e = 0 \/ e = 1 \/ e = 2 \/ e = 3) by lia.
  destruct C as [C|[C|[C|C]]]; subst e.
  - left. split; [reflexivity|]. induction H as [|c s Hc Hs IH]; cbn [map concat]; [reflexivity|]. rewrite IH. reflexivity.
  - right; left. split; [reflexivity|]. now apply (urlesc_shown s).
  - right; right; left. split; [reflexivity|]. now apply (jsonesc_shown s).
  - right; right; right. split; [reflexivity|]. induction H as [|c s Hc Hs IH]; cbn [map concat]; [constructor|].
    unfold esc at 1. cbn [Z.eqb Pos.eqb]. destruct (Z.eqb_spec c 34) as [->|]; cbn [app]; constructor; assumption.
Qed.
Lemma cstring_nonzero : forall s, nonzero s -> cstring s = s.
Proof. intros s H. induction H as [|c s Hc Hs IH]; cbn [cstring]; [reflexivity|]. destruct (Z.eqb_spec c 0); [lia|]. now rewrite IH. Qed.
Lemma vtext_shown : forall cf v, 0 <= c_strenc cf <= 3 -> plain_value cf v -> shown cf v (vtext cf v).
Proof.
  intros cf v R H. destruct v as [|e|n|t|s lang|s p|s t|c|t|n|s|]; cbn [plain_value vtext] in *; unfold quoted.
  - constructor.
  - destruct H as [H D]. rewrite wrap32_id by assumption. constructor; [now apply print_int_signed|assumption].
  - rewrite wrap32_id by assumption. constructor. now apply print_int_signed.
  - constructor.
  - destruct H as [H ->]. constructor. now apply esc_shown.
  - destruct p as [e|]; [rewrite <- app_assoc; cbn [app]|]; constructor.
  - rewrite <- app_assoc. cbn [app]. constructor.
  - constructor.
  - constructor.
  - cbn [app]. constructor. now apply print_int_signed.
  - rewrite cstring_nonzero by assumption. constructor. now apply urlesc_shown.
  - constructor.
Qed.
Lemma nonzero_pos : forall s, nonzero s -> pos s.
Proof. intros s H. eapply Forall_impl; [|exact H]. cbn. lia. Qed.
Lemma plain_regular : forall cf v, plain_value cf v -> regular cf v.
Proof.
  intros cf v H. destruct v as [|e|n|t|s lang|s p|s t|c|t|n|s|]; cbn [plain_value regular] in *; auto; try tauto.
  - destruct H. split; [now apply nonzero_pos|assumption].
  - destruct H as [H1 H2]. split; [now apply nonzero_pos|]. destruct p; [now apply nonzero_pos|exact I].
  - destruct H. split; now apply nonzero_pos.
  - destruct H. split; [now apply nonzero_pos|assumption].
Qed.
Lemma short_fits : forall v, short_value v -> fits v.
Proof.
  intros v H. destruct v as [|e|n|t|s lang|s p|s t|c|t|n|s|]; cbn [short_value fits] in *; auto; unfold olen, zlen; try (destruct lang; exact H); try (destruct p; exact H).
  destruct H as [H1 H2]. split; [assumption|]. destruct (cstring_ok s H1). lia.
Qed.
Lemma joined_between : forall cf fs, joined cf true fs = concat (map (fun t => 44 :: t) (map (vtext cf) fs)).
Proof. intros cf fs. induction fs as [|v fs IH]; cbn [joined map concat app]; [reflexivity|]. now rewrite IH. Qed.
Lemma between_cons : forall sep t ts, between sep (t :: ts) = t ++ concat (map (fun u => sep ++ u) ts).
Proof.
  intros sep t ts. revert t. induction ts as [|u ts IH]; intros t; [cbn; now rewrite app_nil_r|].
  change (between sep (t :: u :: ts)) with (t ++ sep ++ between sep (u :: ts)). rewrite IH. cbn [map concat]. now rewrite !app_assoc.
Qed.
Lemma rtext_shown : forall cf e fs, 0 <= c_strenc cf <= 3 -> Forall (plain_value cf) fs -> (c_showid cf = true -> int32 e) ->
  rec_shown cf e fs (rtext cf e fs).
Proof.
  intros cf e fs R H I. exists (if c_showid cf then [print_int e] else []), (map (vtext cf) fs). split; [|split].
  - destruct (c_showid cf); [|reflexivity]. eexists. split; [reflexivity|]. apply print_int_signed. auto.
  - clear -R H. induction H as [|v fs Hv Hf IH]; cbn [map]; constructor; [now apply vtext_shown|assumption].
  - unfold rtext. f_equal. rewrite app_assoc. f_equal. destruct (c_showid cf).
    + rewrite wrap32_id by auto. cbn [app]. rewrite between_cons, joined_between. reflexivity.
    + cbn [app]. destruct fs as [|v fs]; [reflexivity|]. cbn [joined map app]. rewrite between_cons, joined_between. reflexivity.
Qed.
(** Texts have no 0. *)
Lemma vtext_pos : forall cf v, regular cf v -> fits v -> pos (vtext cf v).
Proof.
  intros cf v R F. destruct v as [|e|n|t|s lang|s p|s t|c|t|n|s|]; cbn [regular fits vtext] in *.
  - destruct (c_json cf); repeat constructor; lia.
  - apply pos_text, print_int_text.
  - apply pos_text, print_int_text.
  - tauto.
  - apply quoted_pos. now apply (concat_esc (esc (c_strenc cf)) s (esc_ok _)).
  - destruct R as [R1 R2]. destruct p as [e|]; apply quoted_pos; [apply Forall_app; split; [assumption|constructor; [lia|assumption]]|assumption].
  - destruct R as [R1 R2]. apply quoted_pos. apply Forall_app; split; [assumption|constructor; [lia|assumption]].
  - apply quoted_pos. constructor; [assumption|constructor].
  - apply quoted_pos. tauto.
  - apply (quoted_int_short n).
  - apply quoted_pos. destruct F as [F _]. destruct (cstring_ok s F) as [P _]. now apply (concat_esc urlesc _ urlesc_ok).
  - apply quoted_pos. constructor.
Qed.
Lemma joined_pos : forall cf fs sep, Forall (regular cf) fs -> Forall fits fs -> pos (joined cf sep fs).
Proof.
  intros cf fs. induction fs as [|v fs IH]; intros sep R F; cbn [joined]; [constructor|]. inversion R; inversion F; subst.
  apply Forall_app. split; [destruct sep; repeat constructor; lia|]. apply Forall_app. split; [now apply vtext_pos|now apply IH].
Qed.
Lemma rtext_pos : forall cf e fs, Forall (regular cf) fs -> Forall fits fs -> pos (rtext cf e fs).
Proof.
  intros cf e fs R F. unfold rtext. repeat (apply Forall_app; split).
  - destruct (c_json cf); repeat constructor; lia.
  - destruct (c_showid cf); [apply pos_text, print_int_text|constructor].
  - now apply joined_pos.
  - destruct (c_json cf); repeat constructor; lia.
Qed.
Lemma records_pos : forall cf heap, (forall e fs, heap e = Some fs -> Forall fits fs) -> forall encs first, all_regular cf heap encs ->
  pos (records_text cf heap first encs).
Proof.
  intros cf heap Hf. induction encs as [|e encs IH]; intros first R; cbn [records_text]; [constructor|].
  apply Forall_app; split; [|apply Forall_app; split; [|apply Forall_app; split]].
  - destruct (negb first && c_json cf); repeat constructor; lia.
  - destruct (heap e) as [fs|] eqn:E; apply rtext_pos; try constructor; [eapply R; [now left|exact E]|now apply (Hf e)].
  - destruct (c_json cf); repeat constructor; lia.
  - apply IH. intros x fx Ix. apply R. now right.
Qed.

(** ** C70 *)
(** Printing never leaves the buffer, whatever the records, the settings and their nesting, as long as no value
    takes more than 150 bytes, the name of the function of jsonp not more than 96, and realloc gives memory.
    It fails only because of a record that cannot be read or of a buffer above 50000000 bytes. *)
Theorem C70_safe_partial : forall fuel alloc cf heap jsonp encs,
  (forall n, alloc n = true) ->
  (forall e fs, heap e = Some fs -> Forall short_value fs) ->
  (forall j, jsonp = Some j -> (length j <= 96)%nat) ->
  match print_search fuel alloc cf heap jsonp encs with
  | Good st => s_freed st = false /\ (s_ptr st < length (s_buf st))%nat
  | Fail st => s_freed st = false /\ (s_ptr st < length (s_buf st))%nat /\
      ((exists e, heap e = None) \/ 50000000 < Z.of_nat (length (s_buf st)))
  | Bad => False
  | Loop => True
  end.
Proof.
  intros fuel alloc cf heap jsonp encs A H J.
  assert (Hf : forall e fs, heap e = Some fs -> Forall fits fs) by (intros e fs E; eapply Forall_impl; [apply short_fits|eapply H; exact E]).
  assert (Hj : olen jsonp <= 96) by (destruct jsonp as [j|]; cbn [olen]; [specialize (J j eq_refl); unfold zlen; lia|lia]).
  pose proof (search_ok (exists e, heap e = None) alloc A cf heap fuel jsonp encs Hf (fun e E => ex_intro _ e E) Hj) as P.
  destruct (print_search fuel alloc cf heap jsonp encs) as [s|s| |]; cbn [pr] in P; auto.
  - destruct P as ((F & L & _) & _). auto.
  - destruct P as ((F & L & _) & W & _). split; [assumption|]. split; [assumption|]. destruct W as [W|W]; [now left|right]. unfold MAX_MALLOC in W. lia.
Qed.
Print Assumptions C70_safe_partial.

(** The answer is the text of the records, in their order, when it is given at all. *)
Theorem C70_text : forall fuel alloc cf heap jsonp encs recs st,
  (forall n, alloc n = true) ->
  (forall e fs, heap e = Some fs -> Forall short_value fs) ->
  (forall j, jsonp = Some j -> (length j <= 96)%nat /\ nonzero j) ->
  0 <= c_strenc cf <= 3 -> c_json cf = true \/ encs <> [] ->
  Forall2 (fun e fs => heap e = Some fs /\ Forall (plain_value cf) fs /\ (c_showid cf = true -> int32 e)) encs recs ->
  print_search fuel alloc cf heap jsonp encs = Good st ->
  exists ts, Forall2 (fun x t => rec_shown cf (fst x) (snd x) t) (combine encs recs) ts /\
    answer (Good st) = Some (Some (
      if c_json cf
      then match jsonp with Some j => j ++ [40] | None => [] end ++ [91; 10] ++ between [44; 10] ts ++ [10; 93] ++
           match jsonp with Some _ => [41; 59] | None => [] end
      else concat (map (fun t => t ++ [13; 10]) ts))).
Proof.
  intros fuel alloc cf heap jsonp encs recs st A H J S3 N HR E.
  assert (Hf : forall e fs, heap e = Some fs -> Forall fits fs) by (intros e fs E1; eapply Forall_impl; [apply short_fits|eapply H; exact E1]).
  assert (Hj : olen jsonp <= 96) by (destruct jsonp as [j|]; cbn [olen]; [destruct (J j eq_refl); unfold zlen; lia|lia]).
  assert (Rg : all_regular cf heap encs).
  { clear -HR. intros e fs Ie Ee. induction HR as [|x y xs ys Hx Hxs IH]; [destruct Ie|]. destruct Ie as [->|Ie]; [|now apply IH].
    destruct Hx as (Hx & Hp & _). rewrite Hx in Ee. injection Ee as <-. eapply Forall_impl; [apply plain_regular|exact Hp]. }
  pose proof (search_ok (exists e, heap e = None) alloc A cf heap fuel jsonp encs Hf (fun e E => ex_intro _ e E) Hj) as P.
  pose proof (search_fin (exists e, heap e = None) alloc A cf heap fuel jsonp encs Hf (fun e E => ex_intro _ e E) Hj N) as F.
  rewrite E in P, F. cbn [pr fin] in P, F. destruct P as (I & u & Hu & Pu). rewrite (proj2 new_inv) in Pu. cbn [app] in Pu. rewrite (Hu Rg) in Pu. clear Hu u.
  assert (Ps : pos (pre st)).
  { rewrite Pu. unfold search_text. apply Forall_app. split; [|apply Forall_app; split; [now apply records_pos|]].
    - unfold start_text. destruct (c_json cf); [|constructor]. destruct jsonp as [j|]; [|repeat constructor; lia].
      apply Forall_app. split; [apply nonzero_pos; now apply J|repeat constructor; lia].
    - unfold end_text. destruct (c_json cf); [|constructor]. destruct jsonp as [j|]; repeat constructor; lia. }
  rewrite (ended_answer st I F Ps), Pu. clear E F I Pu Ps Rg.
  exists (map (fun x => rtext cf (fst x) (snd x)) (combine encs recs)). split.
  - clear -HR S3. induction HR as [|x y xs ys Hx Hxs IH]; cbn [combine map]; constructor; [|assumption].
    destruct Hx as (Hx & Hp & Hi). now apply rtext_shown.
  - f_equal. f_equal. unfold search_text.
    assert (Tl : forall xs ys, Forall2 (fun e fs => heap e = Some fs /\ Forall (plain_value cf) fs /\ (c_showid cf = true -> int32 e)) xs ys ->
      records_text cf heap false xs = concat (map (fun t => (if c_json cf then [44; 10] else []) ++ t ++ (if c_json cf then [] else [13; 10]))
        (map (fun x => rtext cf (fst x) (snd x)) (combine xs ys)))).
    { intros xs ys Hxy. induction Hxy as [|x y xs ys Hx Hxs IH]; [reflexivity|]. cbn [records_text combine map concat fst snd].
      destruct Hx as (Hx & _). rewrite Hx, IH. cbn [negb andb]. rewrite <- !app_assoc. reflexivity. }
    unfold start_text, end_text. destruct HR as [|x y xs ys Hx Hxs]; cbn [records_text combine map concat fst snd].
    + destruct (c_json cf); [|reflexivity]. destruct jsonp as [j|]; [rewrite <- !app_assoc|]; reflexivity.
    + destruct Hx as (Hx & _). rewrite Hx, (Tl xs ys Hxs). cbn [negb andb]. destruct (c_json cf).
      * rewrite between_cons. cbn [app].
        assert (Mp : forall l : list (list Z), map (fun t => [44; 10] ++ t ++ []) l = map (fun t => [44; 10] ++ t) l)
          by (intros l; apply map_ext; intros t; now rewrite app_nil_r).
        cbn [app] in Mp. rewrite Mp. destruct jsonp as [j|]; rewrite <- ?app_assoc; cbn [app]; rewrite <- ?app_assoc; reflexivity.
      * cbn [app]. rewrite app_nil_r, <- app_assoc. reflexivity.
Qed.
Print Assumptions C70_text.

(** Two records printed in both formats. *)
Definition heap_ex (e : Z) : option (list dval) :=
  if e =? 40 then Some [D_int (-7); D_str (B "a""b/") None; D_null]
  else if e =? 80 then Some [D_rec 40; D_char 120; D_uri (B "x") (Some (B "u"))]
  else None.
Definition json_ex : pconf := Pconf true true 100 3 2.
Definition csv_ex : pconf := Pconf false false 100 3 3.
Example C70_text_case :
  answer (print_search 3 (fun _ => true) json_ex heap_ex (Some (B "cb")) [40; 80]) =
    Some (Some (B "cb([" ++ [10] ++ B "[40,-7,""a\""b\/"",[]]" ++ [44; 10] ++ B "[80,40,""x"",""u:x""]" ++ [10] ++ B "]);")) /\
  answer (print_search 3 (fun _ => true) csv_ex heap_ex None [40; 80]) =
    Some (Some (B "-7,""a""""b/""," ++ [13; 10] ++ B "40,""x"",""u:x""" ++ [13; 10])).
Proof. split; vm_compute; reflexivity. Qed.
Lemma heap_ex_short : forall e fs, heap_ex e = Some fs -> Forall short_value fs.
Proof.
  intros e fs. unfold heap_ex.
  destruct (e =? 40); [|destruct (e =? 80); [|discriminate]]; intros E; injection E as <-;
    repeat (constructor; [cbn [short_value]; try exact I; try (split; [repeat (constructor; [vm_compute; reflexivity|]); constructor|]); vm_compute; discriminate|]);
    constructor.
Qed.
Example C70_text_hypotheses :
  Forall2 (fun e fs => heap_ex e = Some fs /\ Forall (plain_value json_ex) fs /\ (c_showid json_ex = true -> int32 e)) [40; 80]
    [[D_int (-7); D_str (B "a""b/") None; D_null]; [D_rec 40; D_char 120; D_uri (B "x") (Some (B "u"))]].
Proof.
  constructor; [|constructor; [|constructor]]; (split; [reflexivity|]); (split; [|intros _; unfold int32; lia]).
  - constructor; [cbn; unfold int32; lia|]. constructor; [cbn; split; [repeat (constructor; [lia|]); constructor|reflexivity]|].
    constructor; [exact I|constructor].
  - constructor; [cbn; unfold int32; split; [lia|right; lia]|]. constructor; [cbn; lia|].
    constructor; [cbn; split; repeat (constructor; [lia|]); constructor|]. constructor.
Qed.
(** Buffers grow on the way: 60 records, more than 1000 bytes. *)
Example C70_safe_case :
  match print_search 3 (fun _ => true) json_ex heap_ex None (repeat 40 (Z.to_nat 60)) with
  | Good st => length (s_buf st) = Z.to_nat 2000 /\ s_ptr st = Z.to_nat 1262
  | _ => False
  end.
Proof. vm_compute. split; reflexivity. Qed.

Lemma nonzero_b : forall s, forallb (fun c => (0 <? c) && (c <? 256)) s = true -> nonzero s.
Proof.
  intros s H. rewrite forallb_forall in H. apply Forall_forall. intros x Hx. specialize (H x Hx).
  apply andb_true_iff in H. destruct H as [H1 H2]. apply Z.ltb_lt in H1, H2. lia.
Qed.
(** FINDING (str_guarantee_space l.630-632): the new size does not count what is already in the buffer. A string of
    350 control characters after a string of 149 letters is written behind the end of the buffer. *)
Theorem C70_overflow_refuted :
  ~ (forall heap encs, print_search 2 (fun _ => true) json_ex heap None encs <> Bad).
Proof.
  intros H. apply (H (fun _ => Some [D_str (repeat 97 (Z.to_nat 149)) None; D_str (repeat 1 (Z.to_nat 350)) None]) [40]).
  vm_compute. reflexivity.
Qed.
Print Assumptions C70_overflow_refuted.
(** FINDING (sprint_value l.364): the language goes behind as many bytes as the string has, not behind its text. *)
Theorem C70_language_refuted :
  ~ (forall s lang, nonzero s -> nonzero lang -> exists t, json_str s t /\
       answer (print_search 2 (fun _ => true) (Pconf true false 100 3 2) (fun _ => Some [D_str s (Some lang)]) None [40]) =
         Some (Some (B "[" ++ [10] ++ B "[""" ++ t ++ [64] ++ lang ++ B """]" ++ [10] ++ B "]"))).
Proof.
  intros H. destruct (H (B "a""b") (B "en")) as (t & Ht & E); [apply nonzero_b; reflexivity|apply nonzero_b; reflexivity|].
  vm_compute in E. injection E as E. assert (L : length t = 3%nat).
  { apply (f_equal (@length Z)) in E. rewrite app_length in E. cbn [length] in E. lia. }
  destruct t as [|a [|b [|c [|d t]]]]; try discriminate L. injection E as E1 E2 E3. subst a b c.
  repeat match goal with X : json_str _ _ |- _ => inversion X; clear X; subst end; congruence.
Qed.
Print Assumptions C70_language_refuted.
(** FINDING (sprint_value l.377-381, l.393): a double quote in a URI or as a char is not escaped. *)
Theorem C70_quote_refuted :
  ~ (forall c, 0 < c < 256 -> exists t, json_str [c] t /\
       answer (print_search 2 (fun _ => true) (Pconf true false 100 3 2) (fun _ => Some [D_char c]) None [40]) =
         Some (Some (B "[" ++ [10] ++ B "[""" ++ t ++ B """]" ++ [10] ++ B "]"))).
Proof.
  intros H. destruct (H 34) as (t & Ht & E); [lia|]. vm_compute in E. injection E as E.
  assert (L : length t = 1%nat).
  { apply (f_equal (@length Z)) in E. rewrite app_length in E. cbn [length] in E. lia. }
  destruct t as [|a [|b t]]; try discriminate L. injection E as E1. subst a. inversion Ht; subst; congruence.
Qed.
Print Assumptions C70_quote_refuted.
(** FINDING (sprint_value l.339-343): integers are printed as C ints. *)
Theorem C70_int_refuted :
  ~ (forall n, - 2 ^ 62 <= n < 2 ^ 62 -> exists t, signed t n /\
       answer (print_search 2 (fun _ => true) (Pconf false false 100 3 2) (fun _ => Some [D_int n]) None [40]) = Some (Some (t ++ [13; 10]))).
Proof.
  intros H. destruct (H 4294967301) as (t & Ht & E); [lia|]. vm_compute in E. injection E as E.
  assert (L : length t = 1%nat).
  { apply (f_equal (@length Z)) in E. rewrite app_length in E. cbn [length] in E. lia. }
  destruct t as [|a [|b t]]; try discriminate L. injection E as E1. subst a.
  destruct Ht as [[_ D]|[D _]]; [|lia]. apply decimal_digits in D. destruct D as [_ D]. vm_compute in D. discriminate D.
Qed.
Print Assumptions C70_int_refuted.
(** FINDING (op_print_data_start l.1215-1217): bufptr moves by the length the text would have had, so with a name of
    more than 96 characters for jsonp the answer ends after 99 characters. *)
Theorem C70_jsonp_refuted :
  ~ (forall j, nonzero j -> (length j < 1000)%nat -> exists t,
       answer (print_search 2 (fun _ => true) json_ex heap_ex (Some j) [40]) = Some (Some (j ++ [40; 91] ++ t ++ [41; 59]))).
Proof.
  intros H. destruct (H (repeat 97 (Z.to_nat 98))) as (t & E).
  - apply Forall_forall. intros x Hx. apply repeat_spec in Hx. lia.
  - rewrite repeat_length. lia.
  - vm_compute in E. injection E as E. destruct t; discriminate E.
Qed.
Print Assumptions C70_jsonp_refuted.
(** FINDING (str_new l.598-607, op_print_data_end l.1231-1249): an empty result in csv is the content of a fresh
    buffer, bytes never written. *)
Theorem C70_empty_refuted :
  ~ (forall cf s, answer (print_search 2 (fun _ => true) cf heap_ex None []) = Some (Some s) -> Forall (fun c => 0 <= c) s).
Proof.
  intros H. specialize (H csv_ex _ eq_refl). vm_compute in H. inversion H as [|x l Hx Hl]. now apply Hx.
Qed.
Print Assumptions C70_empty_refuted.
(** FINDING (sprint_value l.327): the depth reached is never counted, so with a limit above the start value records are
    followed as deep as they go; a record that holds itself is printed until the stack is used up. *)
Theorem C70_depth_refuted :
  ~ (forall cf heap encs, print_search (Z.to_nat (c_maxdepth cf + 2)) (fun _ => true) cf heap None encs <> Loop).
Proof. intros H. apply (H (Pconf true false 100 101 2) (fun _ => Some [D_rec 40]) [40]). vm_compute. reflexivity. Qed.
Print Assumptions C70_depth_refuted.
(** FINDING (str_guarantee_space l.639-643, err_clear_detach_halt l.1019-1055): when realloc gives no memory the buffer is
    freed twice. *)
Theorem C70_realloc_refuted :
  ~ (forall alloc cf heap encs, answer (print_search 3 alloc cf heap None encs) <> None).
Proof. intros H. apply (H (fun _ => false) csv_ex heap_ex (repeat 40 (Z.to_nat 100))). vm_compute. reflexivity. Qed.
Print Assumptions C70_realloc_refuted.
(** FINDING: what dserve writes in percent-encoding (lower-case digits) it does not read itself. *)
Theorem C70_reread_refuted :
  ~ (forall s t, nonzero s ->
       answer (print_search 2 (fun _ => true) (Pconf false false 100 3 1) (fun _ => Some [D_str s None]) None [40]) =
         Some (Some (34 :: t ++ [34; 13; 10])) ->
       exists b pv, parse_query ([118; 61] ++ t ++ [0]) (2 + length t) = Some (PQ_ok b pv) /\
         map (fun x => cstr_at b (snd x)) pv = [Some s]).
Proof.
  intros H. destruct (H [10] (B "%0a")) as (b & pv & E & V); [repeat constructor; lia|vm_compute; reflexivity|].
  vm_compute in E. injection E as <- <-. vm_compute in V. discriminate V.
Qed.
Print Assumptions C70_reread_refuted.
