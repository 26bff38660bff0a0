(** Proofs about reading the configuration file of dserve. *)
From Coq Require Import ZArith List Bool Lia Arith.
From Verif Require Import DserveModel DserveProofs DserveConfModel.
Import ListNotations.
Open Scope Z_scope.

(** ** What a configuration says *)
(** A row: a key with its first value, a further value, or text without effect. [s1], [s2], [g] are the
    blanks around, [t] what follows the value in the row. *)
Inductive line :=
| Def (k s1 s2 v t : list Z)
| Cont (g v t : list Z)
| Skip (s : list Z).
Definition render (l : line) : list Z :=
  match l with
  | Def k s1 s2 v t => k ++ s1 ++ 61 :: s2 ++ v ++ t ++ [10]
  | Cont g v t => g ++ v ++ t ++ [10]
  | Skip s => s ++ [10]
  end.
Definition blank (c : Z) : Prop := c = 32 \/ c = 9 \/ c = 13.
Definition blanks (s : list Z) : Prop := Forall blank s.
Definition word (s : list Z) : Prop := Forall (fun c => 33 <= c < 256 /\ c <> 35) s.
(** Nothing, or a comment, or (after a value) a blank and any text. *)
Definition tail_ok (v t : list Z) : Prop :=
  ~ In 10 t /\ (t = [] \/ exists c u, t = c :: u /\ (c = 35 \/ (v <> [] /\ blank c))).
Definition indent (g : list Z) : Prop := exists c r, g = c :: r /\ (c = 32 \/ c = 9) /\ blanks r.
Definition skip_ok (s : list Z) : Prop :=
  ~ In 10 s /\
  (s = [] \/ s = [13] \/ (exists u, s = 35 :: u) \/ (exists u, s = 91 :: u) \/ indent s \/
   (exists g u, s = g ++ 35 :: u /\ indent g) \/
   (exists c u, s = c :: u /\ ~ blank c /\ c <> 91 /\ c <> 35 /\ ~ In 61 s)).
Definition line_ok (l : line) : Prop :=
  match l with
  | Def k s1 s2 v t => In k conf_keys /\ blanks s1 /\ blanks s2 /\ word v /\ tail_ok v t
  | Cont g v t => indent g /\ word v /\ v <> [] /\ tail_ok v t
  | Skip s => skip_ok s
  end.
(** The key in force and the values given so far. *)
Definition say (st : option (list Z) * list (list Z * list Z)) (l : line) : option (list Z) * list (list Z * list Z) :=
  match l with
  | Def k _ _ v _ => (Some k, snd st ++ match v with [] => [] | _ => [(k, v)] end)
  | Cont _ v _ => (fst st, snd st ++ match fst st with Some k => [(k, v)] | None => [] end)
  | Skip _ => st
  end.
Definition said (ls : list line) : list (list Z * list Z) := snd (fold_left say ls (None, [])).
Fixpoint values_of (k : list Z) (asg : list (list Z * list Z)) : list (list Z) :=
  match asg with
  | [] => []
  | (k', v) :: r => if list_eq_dec Z.eq_dec k k' then v :: values_of k r else values_of k r
  end.
Lemma values_of_app : forall k a b, values_of k (a ++ b) = values_of k a ++ values_of k b.
Proof. intros k a b. induction a as [|[k' v] a IH]; [reflexivity|]. cbn [app values_of]. destruct (list_eq_dec Z.eq_dec k k'); rewrite IH; reflexivity. Qed.

(** ** Scanning *)
Ltac norm := repeat (rewrite <- app_assoc || cbn [app]).
Lemma rd_here : forall A x B i, length A = i -> rd (A ++ x :: B) i = Some x.
Proof. intros A x B i L. rewrite (rd_app A (x :: B) i L). reflexivity. Qed.
Lemma scan_stop : forall p A x B i bend f, length A = i -> p x = false -> scan (S f) p (A ++ x :: B) i bend = Some i.
Proof. intros p A x B i bend f L P. cbn [scan]. destruct (Nat.ltb i bend); [|reflexivity]. rewrite (rd_here A x B i L). now rewrite P. Qed.
Lemma scan_ok : forall p s A x B i bend f, length A = i -> Forall (fun c => p c = true) s -> p x = false ->
  (i + length s < bend)%nat -> (length s < f)%nat -> scan f p (A ++ s ++ x :: B) i bend = Some (i + length s)%nat.
Proof.
  intros p s. induction s as [|c s IH]; intros A x B i bend f L P Px Lb Lf; (destruct f as [|f]; [cbn [length] in Lf; lia|]).
  - cbn [app length]. rewrite scan_stop by assumption. f_equal. lia.
  - inversion P as [|? ? Pc Ps]; subst. cbn [length app] in *. cbn [scan].
    destruct (Nat.ltb_spec (length A) bend); [|lia]. rewrite (rd_here A c _ _ eq_refl), Pc.
    replace (A ++ c :: s ++ x :: B) with ((A ++ [c]) ++ s ++ x :: B) by (norm; reflexivity).
    rewrite (IH (A ++ [c]) x B (S (length A)) bend f); [f_equal; lia|rewrite app_length; cbn; lia|assumption|assumption|lia|lia].
Qed.
Lemma scan_step : forall p A x B i bend f, length A = i -> p x = true -> (i < bend)%nat ->
  scan (S f) p (A ++ x :: B) i bend = scan f p (A ++ x :: B) (S i) bend.
Proof. intros p A x B i bend f L P Lb. cbn [scan]. destruct (Nat.ltb_spec i bend); [|lia]. rewrite (rd_here A x B i L). now rewrite P. Qed.
Lemma scan_fuel : forall p b bend f i r, scan f p b i bend = Some r -> forall f', (f <= f')%nat -> scan f' p b i bend = Some r.
Proof.
  intros p b bend. induction f as [|f IH]; intros i r E f' L; [discriminate E|]. destruct f' as [|f']; [lia|]. cbn [scan] in *.
  destruct (Nat.ltb i bend); [|exact E]. destruct (rd b i) as [c|]; [|exact E]. destruct (p c); [|exact E]. apply (IH _ _ E). lia.
Qed.
Lemma ws_blank : forall c, blank c -> ws c = true.
Proof. intros c [->|[->| ->]]; reflexivity. Qed.
Lemma ws_not : forall c, ~ blank c -> ws c = false.
Proof.
  intros c H. unfold ws. destruct (Z.eqb_spec c 32); [exfalso; apply H; now left|]. destruct (Z.eqb_spec c 9); [exfalso; apply H; now right; left|].
  destruct (Z.eqb_spec c 13); [exfalso; apply H; now right; right|]. reflexivity.
Qed.
Lemma blanks_ws : forall s, blanks s -> Forall (fun c => ws c = true) s.
Proof. intros s H. eapply Forall_impl; [|exact H]. exact ws_blank. Qed.
Lemma word_inval : forall s, word s -> Forall (fun c => inval c = true) s.
Proof.
  intros s H. eapply Forall_impl; [|exact H]. intros c [R N]. unfold inval. rewrite ws_not by (unfold blank; lia).
  destruct (Z.eqb_spec c 10); [lia|]. destruct (Z.eqb_spec c 35); [lia|]. reflexivity.
Qed.
Lemma nonl : forall s, ~ In 10 s -> Forall (fun c => notnl c = true) s.
Proof. intros s H. apply Forall_forall. intros c Hc. unfold notnl. destruct (Z.eqb_spec c 10); [subst; contradiction|reflexivity]. Qed.

(** The end of a value: [t] behind it, then the newline. *)
Definition ended_tail (t : list Z) : list Z := match t with [] => [0] | _ :: u => 0 :: u ++ [10] end.
Lemma end_value_ok : forall A t P i bend, length A = i -> ~ In 10 t -> (i + length t < bend)%nat ->
  exists bp, end_value (A ++ t ++ 10 :: P) i bend = Some (A ++ ended_tail t ++ P, bp) /\
    (bp = i + S (length t) \/ (S bp = i + S (length t) /\ t <> []))%nat.
Proof.
  intros A t P i bend L N Lb. unfold end_value. destruct t as [|x u].
  - cbn [app ended_tail length]. rewrite (rd_here A 10 P i L), (wr_app A 10 P i 0 L). cbn [Z.eqb Pos.eqb].
    change (0 mod 256) with 0. eexists. split; [reflexivity|]. left. lia.
  - cbn [app ended_tail length] in *. rewrite (rd_here A x _ i L), (wr_app A x _ i 0 L). change (0 mod 256) with 0.
    destruct (Z.eqb_spec x 10) as [->|Nx]; [exfalso; apply N; now left|].
    change (A ++ 0 :: u ++ 10 :: P) with (A ++ (0 :: u) ++ 10 :: P).
    rewrite (scan_ok notnl (0 :: u) A 10 P i bend (S bend) L).
    + exists (i + length (0%Z :: u))%nat. split; [do 2 f_equal; norm; reflexivity|]. right. cbn [length]. split; [lia|discriminate].
    + constructor; [reflexivity|]. apply nonl. intros H. apply N. now right.
    + reflexivity.
    + cbn [length]. lia.
    + cbn [length]. lia.
Qed.
Lemma ended_length : forall t, length (ended_tail t) = S (length t).
Proof. intros [|x u]; [reflexivity|]. cbn [ended_tail length]. rewrite app_length. cbn [length]. lia. Qed.
Lemma ended_zero : forall t, exists u, ended_tail t = 0 :: u.
Proof. intros [|x u]; cbn [ended_tail]; eexists; reflexivity. Qed.
Lemma ended_last : forall t, t <> [] -> exists u, ended_tail t = u ++ [10].
Proof. intros [|x u] H; [now contradiction H|]. exists (0 :: u). reflexivity. Qed.

Lemma trim_ok : forall A k c Z, ws c = false -> forall s n, blanks s -> n = (length A + length (k ++ [c]) + length s)%nat ->
  trim (A ++ (k ++ [c]) ++ s ++ Z) (length A) n = Some (A ++ (k ++ [c]) ++ repeat 0 (length s) ++ Z).
Proof.
  intros A k c Zr W s. revert Zr. induction s as [|x s IH] using rev_ind; intros Zr n Bs ->.
  - cbn [length repeat app]. rewrite app_length. cbn [length]. replace (length A + (length k + 1) + 0)%nat with (S (length A + length k))%nat by lia.
    cbn [trim]. destruct (Nat.ltb_spec (length A) (length A + length k)); [|reflexivity].
    replace (A ++ (k ++ [c]) ++ Zr) with ((A ++ k) ++ c :: Zr) by (norm; reflexivity).
    rewrite (rd_here (A ++ k) c Zr) by (rewrite app_length; lia). rewrite W. norm. reflexivity.
  - apply Forall_app in Bs. destruct Bs as [Bs Bx]. inversion Bx as [|? ? Hx _]; subst.
    rewrite !app_length. cbn [length]. replace (length A + (length k + 1) + (length s + 1))%nat with (S (length A + (length k + 1) + length s))%nat by lia.
    cbn [trim]. destruct (Nat.ltb_spec (length A) (length A + (length k + 1) + length s)); [|lia].
    replace (A ++ (k ++ [c]) ++ (s ++ [x]) ++ Zr) with ((A ++ (k ++ [c]) ++ s) ++ x :: Zr) by (norm; reflexivity).
    assert (Lx : length (A ++ (k ++ [c]) ++ s) = (length A + (length k + 1) + length s)%nat) by (rewrite !app_length; cbn [length]; lia).
    rewrite (rd_here _ x Zr _ Lx), (ws_blank x Hx), (wr_app _ x Zr _ 0 Lx). change (0 mod 256) with 0.
    replace ((A ++ (k ++ [c]) ++ s) ++ 0 :: Zr) with (A ++ (k ++ [c]) ++ s ++ 0 :: Zr) by (norm; reflexivity).
    rewrite (IH (0 :: Zr) _ Bs) by (rewrite app_length; cbn [length]; lia).
    f_equal. f_equal. f_equal. replace (length s + 1)%nat with (S (length s)) by lia.
    clear. induction (length s) as [|n IH]; [reflexivity|]. cbn [repeat app] in *. now rewrite IH.
Qed.

(** ** Keys *)
Lemma keys_ok : Forall (fun k => exists c r l d, k = c :: r /\ k = l ++ [d] /\ ~ blank c /\ c <> 91 /\ c <> 35 /\ ws d = false /\
    Forall (fun c => 32 < c < 256 /\ c <> 61 /\ c <> 10) k) conf_keys.
Proof.
  assert (H : forallb (fun k => match k with [] => false | c :: _ => negb (c =? 91) && negb (c =? 35) end &&
      forallb (fun c => (32 <? c) && (c <? 256) && negb (c =? 61) && negb (c =? 10)) k) conf_keys = true) by (vm_compute; reflexivity).
  rewrite forallb_forall in H. apply Forall_forall. intros k Hk. specialize (H k Hk). destruct k as [|c r]; [discriminate H|].
  apply andb_true_iff in H. destruct H as [H1 H2]. apply andb_true_iff in H1. destruct H1 as [H1 H1'].
  assert (F : Forall (fun c => 32 < c < 256 /\ c <> 61 /\ c <> 10) (c :: r)).
  { apply Forall_forall. rewrite forallb_forall in H2. intros x Hx. specialize (H2 x Hx).
    repeat (apply andb_true_iff in H2; destruct H2 as [H2 ?]). apply Z.ltb_lt in H2. apply Z.ltb_lt in H3.
    destruct (Z.eqb_spec x 61); [discriminate|]. destruct (Z.eqb_spec x 10); [discriminate|]. lia. }
  assert (E : c :: r <> []) by discriminate. destruct (exists_last E) as (l & d & El).
  exists c, r, l, d. split; [reflexivity|]. split; [exact El|].
  assert (Fc : 32 < c < 256) by (inversion F; tauto).
  assert (Fd : 32 < d < 256) by (rewrite El in F; apply Forall_app in F; destruct F as [_ F]; inversion F; tauto).
  split; [unfold blank; lia|]. split; [destruct (Z.eqb_spec c 91); [discriminate H1|assumption]|].
  split; [destruct (Z.eqb_spec c 35); [discriminate H1'|assumption]|]. split; [apply ws_not; unfold blank; lia|exact F].
Qed.
Lemma key_text : forall k, In k conf_keys -> text k.
Proof.
  intros k H. pose proof keys_ok as K. rewrite Forall_forall in K. destruct (K k H) as (c & r & l & d & _ & _ & _ & _ & _ & _ & F).
  eapply Forall_impl; [|exact F]. cbn. lia.
Qed.
Lemma key_visible : forall k, In k conf_keys -> empty_str k = false.
Proof.
  intros k H. pose proof keys_ok as K. rewrite Forall_forall in K. destruct (K k H) as (c & r & l & d & -> & _ & Nb & _ & _ & _ & F).
  inversion F as [|? ? Fc _]; subst. cbn [empty_str forallb]. unfold isspace. destruct (Z.eqb_spec c 32); [lia|].
  destruct (Z.leb_spec c 13); [lia|]. now rewrite andb_false_r.
Qed.
Lemma word_visible : forall v, word v -> v <> [] -> empty_str v = false.
Proof.
  intros [|c v] W N; [now contradiction N|]. inversion W as [|? ? [R _] _]; subst. cbn [empty_str forallb]. unfold isspace.
  destruct (Z.eqb_spec c 32); [lia|]. destruct (Z.leb_spec c 13); [lia|]. now rewrite andb_false_r.
Qed.
Lemma word_text : forall v, word v -> text v.
Proof. intros v H. eapply Forall_impl; [|exact H]. cbn. lia. Qed.

(** ** The lists *)
Definition size_ok (n : nat) (l : sl) : Prop :=
  (length (sl_vals l) <= n)%nat /\
  ((sl_size l = 0 /\ sl_vals l = []) \/
   (Z.of_nat (length (sl_vals l)) <= sl_size l /\ exists j, 1 <= j <= 19 /\ sl_size l = 2 ^ j)).
Definition holds (b : list Z) (asg : list (list Z * list Z)) (k : list Z) (l : sl) : Prop :=
  size_ok (length b) l /\ values b l = map Some (values_of k asg).
Definition lists_ok (b : list Z) (asg : list (list Z * list Z)) (ls : lists) : Prop := Forall2 (holds b asg) conf_keys ls.

Section Conf.
Variable alloc : Z -> bool.
Hypothesis alloc_ok : forall n, alloc n = true.

Lemma add_slval_ok : forall n l v, size_ok n l -> (n < Z.to_nat 512000)%nat -> exists l', add_slval alloc l v = Some l' /\ sl_vals l' = sl_vals l ++ [v] /\ size_ok (S n) l'.
Proof.
  intros n l v (N & H) Ln. unfold add_slval. rewrite !alloc_ok.
  destruct H as [[Hs Hv]|(Hu & j & Hj & Hs)].
  - rewrite Hs, Hv. cbn [length Z.of_nat Z.ltb Z.compare Z.eqb]. eexists. split; [reflexivity|]. split; [reflexivity|].
    split; [cbn; lia|]. right. split; [cbn; unfold CONF_VALS_SIZE; lia|]. exists 1. split; [lia|reflexivity].
  - assert (Pj : 2 ^ 1 <= 2 ^ j) by (apply Z.pow_le_mono_r; lia). change (2 ^ 1) with 2 in Pj.
    destruct (Z.ltb_spec (Z.of_nat (length (sl_vals l))) (sl_size l)) as [L|G].
    + eexists. split; [reflexivity|]. split; [reflexivity|]. split; [cbn [sl_vals]; rewrite app_length; cbn; lia|].
      right. cbn [sl_vals sl_size]. rewrite app_length. cbn [length]. split; [lia|]. exists j. now split.
    + destruct (Z.eqb_spec (sl_size l) 0); [lia|].
      assert (J18 : j <= 18). { destruct (Z_le_gt_dec j 18); [assumption|]. replace j with 19 in * by lia. change (2 ^ 19) with 524288 in *. lia. }
      assert (P18 : 2 ^ j <= 2 ^ 18) by (apply Z.pow_le_mono_r; lia). change (2 ^ 18) with 262144 in P18.
      unfold MAX_CONF_VALS_SIZE. destruct (Z.ltb_spec 1000000 (sl_size l * 2)); [lia|].
      eexists. split; [reflexivity|]. split; [reflexivity|]. split; [cbn [sl_vals]; rewrite app_length; cbn; lia|].
      right. cbn [sl_vals sl_size]. rewrite app_length. cbn [length]. split; [lia|]. exists (j + 1). split; [lia|]. rewrite Z.pow_add_r by lia. lia.
Qed.
Lemma size_more : forall n m l, size_ok n l -> (n <= m)%nat -> size_ok m l.
Proof. intros n m l (N & H) L. split; [lia|exact H]. Qed.
Lemma cstr_stable : forall b i s c, cstr_at b i = Some s -> cstr_at (b ++ c) i = Some s.
Proof.
  intros b i s c. unfold cstr_at. destruct (strlen_from b i) as [n|] eqn:E; [|discriminate]. intros H. injection H as <-.
  rewrite (strlen_stable b i n c E). f_equal. pose proof (strlen_bound b i n E) as L. rewrite skipn_app.
  rewrite firstn_app. rewrite skipn_length. replace (n - (length b - i))%nat with 0%nat by lia. cbn [firstn]. now rewrite app_nil_r.
Qed.
Lemma values_stable : forall b l c ts, values b l = map Some ts -> values (b ++ c) l = map Some ts.
Proof.
  intros b l c. unfold values. induction (sl_vals l) as [|i vs IH]; intros [|t ts] H; cbn [map] in *; try discriminate H; [reflexivity|].
  injection H as H1 H2. rewrite (cstr_stable _ _ _ c H1). f_equal. now apply IH.
Qed.
Lemma lists_stable : forall b asg ls c, lists_ok b asg ls -> lists_ok (b ++ c) asg ls.
Proof.
  intros b asg ls c H. unfold lists_ok in *. induction H as [|k l ks ls [H1 H2] _ IH]; constructor; [|exact IH].
  split; [eapply size_more; [exact H1|rewrite app_length; lia]|now apply values_stable].
Qed.
Lemma values_app : forall b l vs v ts t, values b l = map Some ts -> vs = sl_vals l ++ [v] -> cstr_at b v = Some t -> map (cstr_at b) vs = map Some (ts ++ [t]).
Proof. intros b l vs v ts t H -> E. rewrite !map_app. unfold values in H. rewrite H. cbn [map]. now rewrite E. Qed.
Lemma add_to_ok : forall b c asg k v t ls keys, NoDup keys -> In k keys -> Forall2 (holds b asg) keys ls -> cstr_at (b ++ c) v = Some t ->
  c <> [] -> (length (b ++ c) <= Z.to_nat 512000)%nat ->
  exists ls', add_to alloc keys ls k v = Some ls' /\ Forall2 (holds (b ++ c) (asg ++ [(k, t)])) keys ls'.
Proof.
  intros b c asg k v t ls keys Nd Ik H E Nc Lb. revert Nd Ik. rewrite app_length in Lb.
  assert (Lc : (0 < length c)%nat) by (destruct c; [now contradiction Nc|cbn; lia]).
  induction H as [|k' l keys ls [H1 H2] H IH]; intros Nd Ik; [destruct Ik|]. cbn [add_to].
  inversion Nd as [|? ? Nk Nd']; subst.
  assert (Rest : forall x, ~ In x keys -> x = k -> Forall2 (holds (b ++ c) (asg ++ [(k, t)])) keys ls).
  { intros x Nx ->. clear -H Nx Lc. induction H as [|k' l keys ls [H1 H2] H IH]; constructor; [|apply IH; intros I; apply Nx; now right].
    split; [eapply size_more; [exact H1|rewrite app_length; lia]|]. rewrite values_of_app. cbn [values_of].
    destruct (list_eq_dec Z.eq_dec k' k) as [->|_]; [exfalso; apply Nx; now left|]. rewrite app_nil_r. now apply values_stable. }
  destruct (streq k k') eqn:S.
  - apply streq_eq in S. subst k'. destruct (add_slval_ok _ l v H1) as (l' & El & Vl & Sl'); [lia|]. rewrite El.
    eexists. split; [reflexivity|]. constructor; [|now apply (Rest k)]. split.
    + eapply size_more; [exact Sl'|]. rewrite app_length. lia.
    + rewrite values_of_app. cbn [values_of]. destruct (list_eq_dec Z.eq_dec k k) as [_|X]; [|now contradiction X].
      unfold values. eapply values_app; [apply values_stable; exact H2|exact Vl|exact E].
  - assert (Nk' : k' <> k) by (intros ->; rewrite (proj2 (streq_eq k k) eq_refl) in S; discriminate S).
    destruct Ik as [->|Ik]; [now contradiction Nk'|]. destruct (IH Nd' Ik) as (ls' & El & Hl). rewrite El.
    eexists. split; [reflexivity|]. constructor; [|exact Hl].
    split; [eapply size_more; [exact H1|rewrite app_length; lia]|]. rewrite values_of_app. cbn [values_of].
    destruct (list_eq_dec Z.eq_dec k' k) as [X|_]; [contradiction|]. rewrite app_nil_r. now apply values_stable.
Qed.
Lemma keys_nodup : NoDup conf_keys.
Proof.
  assert (H : forall l : list (list Z), (fix nd l := match l with [] => true | x :: r => forallb (fun y => negb (streq x y)) r && nd r end) l = true -> NoDup l).
  { induction l as [|x l IH]; intros H; constructor; apply andb_true_iff in H; destruct H as [H1 H2].
    - intros I. rewrite forallb_forall in H1. specialize (H1 x I). rewrite (proj2 (streq_eq x x) eq_refl) in H1. discriminate H1.
    - now apply IH. }
  apply H. vm_compute. reflexivity.
Qed.

(** ** One row *)
Definition key_at (b : list Z) (key : option nat) (cur : option (list Z)) : Prop :=
  match key, cur with
  | None, None => True
  | Some i, Some k => cstr_at b i = Some k /\ In k conf_keys
  | _, _ => False
  end.
Lemma key_stable : forall b key cur c, key_at b key cur -> key_at (b ++ c) key cur.
Proof. intros b [i|] [k|] c H; cbn [key_at] in *; try contradiction; [|exact I]. destruct H as [H1 H2]. split; [now apply cstr_stable|exact H2]. Qed.
Definition state_ok (b : list Z) (key : option nat) (ls : lists) (st : option (list Z) * list (list Z * list Z)) : Prop :=
  key_at b key (fst st) /\ lists_ok b (snd st) ls.
Definition row_good (pre : list Z) (l : line) (post : list Z) (bend : nat) (st' : option (list Z) * list (list Z * list Z)) (r : option rowres) : Prop :=
  exists r' bp' key' ls', r = Some (Row (pre ++ r' ++ post) bp' key' ls') /\ length r' = length (render l) /\
    (bp' = length pre + length (render l) \/ (S bp' = length pre + length (render l) /\ exists u, r' = u ++ [10%Z]))%nat /\
    state_ok (pre ++ r') key' ls' st'.
Lemma state_stable : forall b key ls st c, state_ok b key ls st -> state_ok (b ++ c) key ls st.
Proof. intros b key ls st c [H1 H2]. split; [now apply key_stable|now apply lists_stable]. Qed.
Lemma add_key_ok : forall b c asg ls kp k vp v, lists_ok b asg ls -> In k conf_keys -> cstr_at (b ++ c) kp = Some k -> cstr_at (b ++ c) vp = Some v -> word v ->
  c <> [] -> (length (b ++ c) <= Z.to_nat 512000)%nat -> forall P,
  exists ls', add_conf_key_val alloc ((b ++ c) ++ P) ls kp vp = Some (Some ls') /\ lists_ok (b ++ c) (asg ++ match v with [] => [] | _ => [(k, v)] end) ls'.
Proof.
  intros b c asg ls kp k vp v H Ik Ek Ev W Nc Lb P. unfold add_conf_key_val.
  rewrite (cstr_stable _ _ _ P Ev), (cstr_stable _ _ _ P Ek). destruct v as [|x v].
  - cbn [empty_str forallb]. exists ls. split; [reflexivity|]. rewrite app_nil_r. now apply lists_stable.
  - rewrite (word_visible _ W) by discriminate.
    destruct (add_to_ok b c asg k vp (x :: v) ls conf_keys keys_nodup Ik H Ev Nc Lb) as (ls' & E & H').
    exists ls'. split; [now rewrite E|exact H'].
Qed.
Lemma word_stop : forall v t, tail_ok v t -> exists x u, t ++ [10] = x :: u /\ inval x = false.
Proof.
  intros v t [_ [->|(c & u & -> & H)]]; [exists 10, []; split; reflexivity|]. exists c, (u ++ [10]). split; [reflexivity|].
  unfold inval. destruct H as [->|[_ H]]; [reflexivity|]. rewrite (ws_blank c H). now rewrite andb_false_r.
Qed.

Lemma row_skip : forall s pre post bend key ls st, skip_ok s -> s <> [] -> s <> [13] -> (length pre + length (render (Skip s)) <= bend)%nat ->
  state_ok pre key ls st ->
  row_good pre (Skip s) post bend st (row alloc (pre ++ render (Skip s) ++ post) (length pre) bend key ls).
Proof.
  intros s pre post bend key ls st [N H] N1 N2 Lb St. unfold row_good. exists (s ++ [10]), (length pre + length s)%nat, key, ls.
  cbn [render] in *. rewrite app_length in *. cbn [length] in *.
  split; [|split; [reflexivity|split; [right; split; [lia|now exists s]|now apply state_stable]]].
  replace (pre ++ (s ++ [10]) ++ post) with (pre ++ s ++ 10 :: post) by (norm; reflexivity). unfold row.
  destruct H as [->|[->|[(u & ->)|[(u & ->)|[(c & r & -> & Hc & Hr)|[(g & u & -> & (c & r & -> & Hc & Hr))|(c & u & -> & Nb & N91 & N35 & N61)]]]]]]; try contradiction.
  - cbn [app]. rewrite rd_here by reflexivity. cbn [Z.eqb Pos.eqb orb negb].
    change (pre ++ 35 :: u ++ 10 :: post) with (pre ++ (35 :: u) ++ 10 :: post).
    rewrite (scan_ok notnl (35 :: u)); [reflexivity|reflexivity|now apply nonl|reflexivity|cbn [length] in *; lia|cbn [length] in *; lia].
  - cbn [app]. rewrite rd_here by reflexivity. cbn [Z.eqb Pos.eqb orb negb].
    change (pre ++ 91 :: u ++ 10 :: post) with (pre ++ (91 :: u) ++ 10 :: post).
    rewrite (scan_ok notnl (91 :: u)); [reflexivity|reflexivity|now apply nonl|reflexivity|cbn [length] in *; lia|cbn [length] in *; lia].
  - cbn [app]. rewrite rd_here by reflexivity.
    replace ((c =? 32) || (c =? 9)) with true by (destruct Hc as [->| ->]; reflexivity).
    change (pre ++ c :: r ++ 10 :: post) with (pre ++ (c :: r) ++ 10 :: post).
    assert (Bc : blank c) by (unfold blank; tauto).
    rewrite (scan_ok ws (c :: r)); [|reflexivity|apply blanks_ws; now constructor|reflexivity|cbn [length] in *; lia|cbn [length] in *; lia].
    replace (pre ++ (c :: r) ++ 10 :: post) with ((pre ++ c :: r) ++ 10 :: post) by (norm; reflexivity).
    rewrite rd_here by (rewrite app_length; reflexivity). cbn [Z.eqb Pos.eqb]. norm. reflexivity.
  - replace (pre ++ ((c :: r) ++ 35 :: u) ++ 10 :: post) with (pre ++ (c :: r) ++ 35 :: u ++ 10 :: post) by (norm; reflexivity).
    cbn [app]. rewrite rd_here by reflexivity.
    replace ((c =? 32) || (c =? 9)) with true by (destruct Hc as [->| ->]; reflexivity).
    change (pre ++ c :: r ++ 35 :: u ++ 10 :: post) with (pre ++ (c :: r) ++ 35 :: u ++ 10 :: post).
    assert (Bc : blank c) by (unfold blank; tauto). rewrite app_length in Lb. cbn [length] in Lb.
    rewrite (scan_ok ws (c :: r)); [|reflexivity|apply blanks_ws; now constructor|reflexivity|cbn [length] in *; lia|cbn [length] in *; lia].
    replace (pre ++ (c :: r) ++ 35 :: u ++ 10 :: post) with ((pre ++ c :: r) ++ (35 :: u) ++ 10 :: post) by (norm; reflexivity).
    cbn [app]. rewrite rd_here by (rewrite app_length; reflexivity). cbn [Z.eqb Pos.eqb].
    change ((pre ++ c :: r) ++ 35 :: u ++ 10 :: post) with ((pre ++ c :: r) ++ (35 :: u) ++ 10 :: post).
    rewrite (scan_ok notnl (35 :: u)).
    + norm. do 2 f_equal. cbn [length]. rewrite app_length. cbn [length]. lia.
    + rewrite app_length. reflexivity.
    + apply nonl. intros I. apply N. apply in_or_app. now right.
    + reflexivity.
    + cbn [length]. lia.
    + cbn [length]. lia.
  - cbn [app]. rewrite rd_here by reflexivity.
    replace ((c =? 32) || (c =? 9)) with false by (destruct (Z.eqb_spec c 32); [exfalso; apply Nb; now left|]; destruct (Z.eqb_spec c 9); [exfalso; apply Nb; now right; left|]; reflexivity).
    destruct (Z.eqb_spec c 91); [contradiction|]. destruct (Z.eqb_spec c 35); [contradiction|]. cbn [negb].
    change (pre ++ c :: u ++ 10 :: post) with (pre ++ (c :: u) ++ 10 :: post).
    rewrite (scan_ok _ (c :: u)); [|reflexivity| |reflexivity|cbn [length] in *; lia|cbn [length] in *; lia].
    + replace (pre ++ (c :: u) ++ 10 :: post) with ((pre ++ c :: u) ++ 10 :: post) by (norm; reflexivity).
      rewrite rd_here by (rewrite app_length; reflexivity). cbn [Z.eqb Pos.eqb]. norm. reflexivity.
    + apply Forall_forall. intros x Hx. unfold notnl. destruct (Z.eqb_spec x 10); [subst; contradiction|].
      destruct (Z.eqb_spec x 61); [subst; contradiction|]. reflexivity.
Qed.

Lemma row_cont : forall g v t pre post bend key ls st, line_ok (Cont g v t) -> (length pre + length (render (Cont g v t)) <= bend)%nat ->
  (bend <= Z.to_nat 512000)%nat -> state_ok pre key ls st ->
  row_good pre (Cont g v t) post bend (say st (Cont g v t)) (row alloc (pre ++ render (Cont g v t) ++ post) (length pre) bend key ls).
Proof.
  intros g v t pre post bend key ls st ((c & r & -> & Hc & Hr) & W & Nv & T) Lb Lm St. cbn [render say] in *.
  rewrite !app_length in Lb. cbn [length] in Lb.
  assert (Bc : blank c) by (unfold blank; tauto). destruct (word_stop v t T) as (x & u & Ex & Ix).
  destruct v as [|v0 v]; [now contradiction Nv|].
  assert (Iv : inval v0 = true) by (apply word_inval in W; now inversion W).
  assert (Nw : ws v0 = false) by (inversion W as [|? ? [R _] _]; subst; apply ws_not; unfold blank; lia).
  assert (V35 : v0 <> 35 /\ v0 <> 10) by (inversion W as [|? ? [R ?] _]; subst; lia).
  destruct T as [N10 _].
  set (A := pre ++ (c :: r) ++ (v0 :: v)).
  destruct (end_value_ok A t post (length A) bend eq_refl N10) as (bp & Ee & Hbp).
  { unfold A. rewrite !app_length. cbn [length] in *. lia. }
  assert (LA : length A = (length pre + length (c :: r) + length (v0 :: v))%nat) by (unfold A; rewrite !app_length; lia).
  assert (Er : row alloc (pre ++ ((c :: r) ++ (v0 :: v) ++ t ++ [10]) ++ post) (length pre) bend key ls =
    match key with
    | None => Some (Row (A ++ ended_tail t ++ post) bp key ls)
    | Some k => match cstr_at (A ++ ended_tail t ++ post) k with
       | None => None
       | Some ks => if empty_str ks then Some (Row (A ++ ended_tail t ++ post) bp key ls)
          else match add_conf_key_val alloc (A ++ ended_tail t ++ post) ls k (length pre + length (c :: r)) with
               | None => None | Some None => Some Row_exit | Some (Some ls) => Some (Row (A ++ ended_tail t ++ post) bp key ls) end
       end
    end).
  { unfold row. replace (pre ++ ((c :: r) ++ (v0 :: v) ++ t ++ [10]) ++ post) with (pre ++ (c :: r) ++ v0 :: v ++ t ++ 10 :: post) by (norm; reflexivity).
    cbn [app]. rewrite rd_here by reflexivity.
    replace ((c =? 32) || (c =? 9)) with true by (destruct Hc as [->| ->]; reflexivity).
    change (pre ++ c :: r ++ v0 :: v ++ t ++ 10 :: post) with (pre ++ (c :: r) ++ v0 :: v ++ t ++ 10 :: post).
    rewrite (scan_ok ws (c :: r)); [|reflexivity|apply blanks_ws; now constructor|exact Nw|cbn [length] in *; lia|cbn [length] in *; lia].
    replace (pre ++ (c :: r) ++ v0 :: v ++ t ++ 10 :: post) with ((pre ++ c :: r) ++ v0 :: v ++ t ++ 10 :: post) by (norm; reflexivity).
    rewrite rd_here by (rewrite app_length; reflexivity).
    destruct (Z.eqb_spec v0 35); [lia|]. destruct (Z.eqb_spec v0 10); [lia|].
    replace ((pre ++ c :: r) ++ v0 :: v ++ t ++ 10 :: post) with ((pre ++ c :: r ++ [v0]) ++ v ++ x :: (u ++ post)).
    2:{ norm. do 3 f_equal. change (x :: u ++ post) with ((x :: u) ++ post). rewrite <- Ex. norm. reflexivity. }
    rewrite (scan_ok inval v).
    - replace ((pre ++ c :: r ++ [v0]) ++ v ++ x :: u ++ post) with (A ++ t ++ 10 :: post).
      2:{ unfold A. norm. do 4 f_equal. change (x :: u ++ post) with ((x :: u) ++ post). rewrite <- Ex. norm. reflexivity. }
      replace (S (length pre + length (c :: r)) + length v)%nat with (length A) by (rewrite LA; cbn [length]; lia).
      rewrite Ee. reflexivity.
    - rewrite app_length. cbn [length]. rewrite app_length. cbn [length]. lia.
    - apply word_inval. now inversion W.
    - exact Ix.
    - cbn [length] in *. lia.
    - cbn [length] in *. lia. }
  unfold row_good. cbn [render]. rewrite Er. clear Er.
  pose proof (ended_length t) as Le. destruct (ended_zero t) as (u0 & Ez).
  set (R := (c :: r) ++ (v0 :: v) ++ ended_tail t).
  assert (EA : forall Q, A ++ ended_tail t ++ Q = (pre ++ R) ++ Q) by (intros Q; unfold A, R; norm; reflexivity).
  assert (LR : length R = length ((c :: r) ++ (v0 :: v) ++ t ++ [10])) by (unfold R; rewrite !app_length, Le; cbn [length]; lia).
  assert (Hb : (bp = length pre + length ((c :: r) ++ (v0 :: v) ++ t ++ [10%Z]) \/
      (S bp = length pre + length ((c :: r) ++ (v0 :: v) ++ t ++ [10%Z]) /\ exists u, R = u ++ [10%Z]))%nat).
  { rewrite <- LR. unfold R. rewrite !app_length, Le. destruct Hbp as [Hb|[Hb Nt]]; [left; lia|]. right. split; [lia|].
    destruct (ended_last t Nt) as (w & ->). exists ((c :: r) ++ (v0 :: v) ++ w). norm. reflexivity. }
  assert (Ev : cstr_at (pre ++ R) (length pre + length (c :: r)) = Some (v0 :: v)).
  { unfold R. rewrite Ez. replace (pre ++ (c :: r) ++ (v0 :: v) ++ 0 :: u0) with ((pre ++ c :: r) ++ (v0 :: v) ++ 0 :: u0) by (norm; reflexivity).
    rewrite cstr_here by (rewrite app_length; reflexivity). f_equal. apply cut0_text. now apply word_text. }
  assert (NR : R <> []) by discriminate.
  assert (LbR : (length (pre ++ R) <= Z.to_nat 512000)%nat).
  { rewrite app_length, LR, !app_length. cbn [length] in *. lia. }
  rewrite !EA. rewrite <- !app_assoc. destruct St as [Sk Sl].
  destruct key as [kp|], (fst st) as [k|] eqn:Ef; cbn [key_at] in Sk; try contradiction.
  - destruct Sk as [Ek Ik]. pose proof (cstr_stable _ _ _ R Ek) as Ek'. rewrite app_assoc.
    rewrite (cstr_stable _ _ _ post Ek'), (key_visible k Ik).
    destruct (add_key_ok pre R (snd st) ls kp k _ (v0 :: v) Sl Ik Ek' Ev W NR LbR post) as (ls' & Ea & Hl). rewrite Ea. rewrite <- app_assoc.
    exists R, bp, (Some kp), ls'. split; [reflexivity|]. split; [exact LR|]. split; [exact Hb|]. split; [cbn [fst key_at]; now split|exact Hl].
  - exists R, bp, None, ls. split; [reflexivity|]. split; [exact LR|]. split; [exact Hb|]. split; [exact I|]. cbn [snd]. rewrite app_nil_r. now apply lists_stable.
Qed.

Lemma row_def : forall k s1 s2 v t pre post bend key ls st, line_ok (Def k s1 s2 v t) -> (length pre + length (render (Def k s1 s2 v t)) <= bend)%nat ->
  (bend <= Z.to_nat 512000)%nat -> state_ok pre key ls st ->
  row_good pre (Def k s1 s2 v t) post bend (say st (Def k s1 s2 v t)) (row alloc (pre ++ render (Def k s1 s2 v t) ++ post) (length pre) bend key ls).
Proof.
  intros k s1 s2 v t pre post bend key ls st (Ik & B1 & B2 & W & T) Lb Lm St. cbn [render say] in *.
  repeat (rewrite app_length in Lb || cbn [length] in Lb).
  destruct (word_stop v t T) as (x & u & Ex & Ix).
  pose proof keys_ok as K. rewrite Forall_forall in K. destruct (K k Ik) as (c & r & l & d & Ek & Ed & Nb & N91 & N35 & Wd & F). clear K.
  assert (Ws : exists y w, v ++ x :: u = y :: w /\ ws y = false).
  { destruct v as [|v0 v]; [|exists v0, (v ++ x :: u); split; [reflexivity|]; inversion W as [|? ? [R _] _]; subst; apply ws_not; unfold blank; lia].
    exists x, u. split; [reflexivity|]. destruct T as [_ [->|(c0 & u' & -> & [->|[X _]])]]; [injection Ex as <- _; reflexivity|injection Ex as <- _; reflexivity|now contradiction X]. }
  destruct Ws as (y & w & Ey & Wy). destruct T as [N10 _].
  set (H := k ++ repeat 0 (length s1) ++ 0 :: s2). set (A := pre ++ H ++ v).
  assert (LH : length H = (length k + length s1 + 1 + length s2)%nat) by (unfold H; repeat (rewrite app_length || cbn [length]); rewrite repeat_length; lia).
  assert (LA : length A = (length pre + length H + length v)%nat) by (unfold A; rewrite !app_length; lia).
  destruct (end_value_ok A t post (length A) bend eq_refl N10) as (bp & Ee & Hbp); [lia|].
  assert (Er : row alloc (pre ++ (k ++ s1 ++ 61 :: s2 ++ v ++ t ++ [10]) ++ post) (length pre) bend key ls =
      match add_conf_key_val alloc (A ++ ended_tail t ++ post) ls (length pre) (length pre + length H) with
               | None => None | Some None => Some Row_exit | Some (Some ls) => Some (Row (A ++ ended_tail t ++ post) bp (Some (length pre)) ls) end).
  { unfold row. replace (pre ++ (k ++ s1 ++ 61 :: s2 ++ v ++ t ++ [10]) ++ post) with (pre ++ (k ++ s1) ++ 61 :: s2 ++ v ++ t ++ 10 :: post) by (norm; reflexivity).
    replace (rd (pre ++ (k ++ s1) ++ 61 :: s2 ++ v ++ t ++ 10 :: post) (length pre)) with (Some c) by (rewrite Ek; cbn [app]; now rewrite rd_here).
    replace ((c =? 32) || (c =? 9)) with false by (destruct (Z.eqb_spec c 32); [exfalso; apply Nb; now left|]; destruct (Z.eqb_spec c 9); [exfalso; apply Nb; now right; left|]; reflexivity).
    destruct (Z.eqb_spec c 91); [contradiction|]. destruct (Z.eqb_spec c 35); [contradiction|]. cbn [negb].
    rewrite (scan_ok _ (k ++ s1)); [|reflexivity| |reflexivity|rewrite app_length; lia|rewrite app_length; lia].
    2:{ apply Forall_app. split.
        - eapply Forall_impl; [|exact F]. intros z Hz. cbn beta in Hz. unfold notnl. destruct (Z.eqb_spec z 10); [lia|]. destruct (Z.eqb_spec z 61); [lia|]. reflexivity.
        - eapply Forall_impl; [|exact B1]. intros z [->|[->| ->]]; reflexivity. }
    assert (L1 : length (pre ++ (k ++ s1)) = (length pre + length (k ++ s1))%nat) by (rewrite app_length; lia).
    replace (pre ++ (k ++ s1) ++ 61 :: s2 ++ v ++ t ++ 10 :: post) with ((pre ++ (k ++ s1)) ++ 61 :: s2 ++ v ++ t ++ 10 :: post) by (norm; reflexivity).
    rewrite (rd_here _ _ _ _ L1). cbn [Z.eqb Pos.eqb]. rewrite (wr_app _ _ _ _ _ L1). change (0 mod 256) with 0.
    replace ((pre ++ k ++ s1) ++ 0 :: s2 ++ v ++ t ++ 10 :: post) with (pre ++ (l ++ [d]) ++ s1 ++ (0 :: s2 ++ v ++ t ++ 10 :: post)) by (rewrite Ed; norm; reflexivity).
    rewrite (trim_ok pre l d _ Wd s1 _ B1) by (rewrite <- Ed, app_length; lia). rewrite <- Ed.
    replace (pre ++ k ++ repeat 0 (length s1) ++ 0 :: s2 ++ v ++ t ++ 10 :: post) with ((pre ++ k ++ repeat 0 (length s1) ++ [0]) ++ s2 ++ y :: (w ++ post)).
    2:{ norm. do 5 f_equal. change (y :: w ++ post) with ((y :: w) ++ post). rewrite <- Ey, <- Ex. norm. reflexivity. }
    rewrite (scan_ok ws s2); [| |now apply blanks_ws|exact Wy|rewrite app_length; lia|lia].
    2:{ repeat (rewrite app_length || cbn [length]). rewrite repeat_length. lia. }
    replace ((pre ++ k ++ repeat 0 (length s1) ++ [0]) ++ s2 ++ y :: (w ++ post)) with ((pre ++ H) ++ v ++ x :: (u ++ post)).
    2:{ unfold H. norm. do 5 f_equal. change (y :: w ++ post) with ((y :: w) ++ post). rewrite <- Ey. norm. reflexivity. }
    replace (S (length pre + length (k ++ s1)) + length s2)%nat with (length pre + length H)%nat by (rewrite LH, app_length; lia).
    rewrite (scan_ok inval v); [|now rewrite app_length|now apply word_inval|exact Ix|lia|lia].
    replace ((pre ++ H) ++ v ++ x :: u ++ post) with (A ++ t ++ 10 :: post).
    2:{ unfold A. norm. do 3 f_equal. change (x :: u ++ post) with ((x :: u) ++ post). rewrite <- Ex. norm. reflexivity. }
    rewrite <- LA, Ee. reflexivity. }
  unfold row_good. cbn [render]. rewrite Er. clear Er.
  pose proof (ended_length t) as Le. destruct (ended_zero t) as (u0 & Ez).
  set (R := H ++ v ++ ended_tail t).
  assert (EA : forall Q, A ++ ended_tail t ++ Q = (pre ++ R) ++ Q) by (intros Q; unfold A, R; norm; reflexivity).
  assert (LR : length R = length (k ++ s1 ++ 61 :: s2 ++ v ++ t ++ [10])).
  { unfold R. rewrite !app_length, Le, LH. cbn [length]. rewrite !app_length. cbn [length]. lia. }
  assert (Hb : (bp = length pre + length (k ++ s1 ++ 61%Z :: s2 ++ v ++ t ++ [10%Z]) \/
      (S bp = length pre + length (k ++ s1 ++ 61%Z :: s2 ++ v ++ t ++ [10%Z]) /\ exists u, R = u ++ [10%Z]))%nat).
  { rewrite <- LR. unfold R. rewrite !app_length, Le. destruct Hbp as [Hb|[Hb Nt]]; [left; lia|]. right. split; [lia|].
    destruct (ended_last t Nt) as (q & ->). exists (H ++ v ++ q). norm. reflexivity. }
  assert (Ev : cstr_at (pre ++ R) (length pre + length H) = Some v).
  { unfold R. rewrite Ez. replace (pre ++ H ++ v ++ 0 :: u0) with ((pre ++ H) ++ v ++ 0 :: u0) by (norm; reflexivity).
    rewrite cstr_here by (rewrite app_length; reflexivity). f_equal. apply cut0_text. now apply word_text. }
  assert (Ekk : cstr_at (pre ++ R) (length pre) = Some k).
  { unfold R, H. assert (Z0 : exists q, repeat 0 (length s1) ++ 0 :: s2 = 0 :: q) by (destruct (length s1); cbn [repeat app]; eexists; reflexivity).
    destruct Z0 as (q & ->). replace (pre ++ (k ++ 0 :: q) ++ v ++ ended_tail t) with (pre ++ k ++ 0 :: (q ++ v ++ ended_tail t)) by (norm; reflexivity).
    rewrite cstr_here by reflexivity. f_equal. apply cut0_text. now apply key_text. }
  assert (NR : R <> []) by (unfold R, H; rewrite Ek; discriminate).
  assert (LbR : (length (pre ++ R) <= Z.to_nat 512000)%nat).
  { rewrite app_length. unfold R. rewrite !app_length, LH, Le. lia. }
  rewrite !EA. destruct St as [Sk Sl].
  destruct (add_key_ok pre R (snd st) ls _ k _ v Sl Ik Ekk Ev W NR LbR post) as (ls' & Ea & Hl). rewrite Ea.
  exists R, bp, (Some (length pre)), ls'. split; [now rewrite <- app_assoc|]. split; [exact LR|]. split; [exact Hb|]. split; [cbn [fst key_at]; now split|exact Hl].
Qed.

(** ** All rows *)
Definition crlf (c : Z) : bool := (c =? 13) || (c =? 10).
Lemma scan_irrel : forall p b bend f f' i, (bend - i < f)%nat -> (bend - i < f')%nat -> scan f p b i bend = scan f' p b i bend.
Proof.
  intros p b bend. induction f as [|f IH]; intros [|f'] i L L'; try lia. cbn [scan]. destruct (Nat.ltb_spec i bend); [|reflexivity].
  destruct (rd b i) as [c|]; [|reflexivity]. destruct (p c); [|reflexivity]. apply IH; lia.
Qed.
Lemma scan_next : forall p A x B bend, p x = true -> (length A < bend)%nat ->
  scan (S bend) p (A ++ x :: B) (length A) bend = scan (S bend) p ((A ++ [x]) ++ B) (length (A ++ [x])) bend.
Proof.
  intros p A x B bend P L. rewrite scan_step by (assumption || reflexivity). rewrite <- app_assoc. cbn [app]. rewrite app_length. cbn [length].
  replace (length A + 1)%nat with (S (length A)) by lia. apply scan_irrel; lia.
Qed.
Definition conf_text (lns : list line) : list Z := concat (map render lns).
Lemma render_nonempty : forall l, (0 < length (render l))%nat.
Proof. intros [k s1 s2 v t|g v t|s]; cbn [render]; repeat (rewrite app_length || cbn [length]); lia. Qed.
Definition starts (l : line) : Prop := exists c r, render l = c :: r /\ crlf c = false.
Lemma starts_or : forall l, line_ok l -> l = Skip [] \/ l = Skip [13] \/ starts l.
Proof.
  intros [k s1 s2 v t|g v t|s] H.
  - right; right. destruct H as [Ik _]. pose proof keys_ok as K. rewrite Forall_forall in K. destruct (K k Ik) as (c & r & _ & _ & -> & _ & _ & _ & _ & _ & F).
    exists c, (r ++ s1 ++ 61 :: s2 ++ v ++ t ++ [10]). split; [reflexivity|]. inversion F as [|? ? Fc _]; subst. unfold crlf.
    destruct (Z.eqb_spec c 13); [lia|]. destruct (Z.eqb_spec c 10); [lia|]. reflexivity.
  - right; right. destruct H as [(c & r & -> & Hc & _) _]. eexists c, _. split; [reflexivity|]. destruct Hc as [->| ->]; reflexivity.
  - destruct H as [N H]. destruct H as [->|[->|[(u & ->)|[(u & ->)|[(c & r & -> & Hc & Hr)|[(g & u & -> & (c & r & -> & Hc & Hr))|(c & u & -> & Nb & _)]]]]]].
    + now left.
    + right; now left.
    + right; right. eexists 35, _. split; reflexivity.
    + right; right. eexists 91, _. split; reflexivity.
    + right; right. eexists c, _. split; [reflexivity|]. destruct Hc as [->| ->]; reflexivity.
    + right; right. eexists c, _. split; [reflexivity|]. destruct Hc as [->| ->]; reflexivity.
    + right; right. eexists c, _. split; [reflexivity|]. unfold crlf. destruct (Z.eqb_spec c 13); [exfalso; apply Nb; unfold blank; lia|].
      destruct (Z.eqb_spec c 10); [subst; exfalso; apply N; now left|]. reflexivity.
Qed.
Lemma row_ok : forall l pre post bend key ls st, line_ok l -> starts l -> (length pre + length (render l) <= bend)%nat ->
  (bend <= Z.to_nat 512000)%nat -> state_ok pre key ls st ->
  row_good pre l post bend (say st l) (row alloc (pre ++ render l ++ post) (length pre) bend key ls).
Proof.
  intros [k s1 s2 v t|g v t|s] pre post bend key ls st H S Lb Lm St.
  - now apply row_def.
  - now apply row_cont.
  - apply row_skip; [exact H| | |assumption|assumption].
    + intros ->. destruct S as (c & r & E & X). injection E as <- _. discriminate X.
    + intros ->. destruct S as (c & r & E & X). injection E as <- _. discriminate X.
Qed.
Definition next_rows (fuel : nat) (b : list Z) (bp bend : nat) (key : option nat) (ls : lists) : option cres :=
  match scan (S bend) crlf b bp bend with
  | None => None
  | Some bp => rows fuel alloc b bp bend key ls
  end.
Lemma rows_ok : forall lns pre post bend fuel key ls st, Forall line_ok lns -> (length pre + length (conf_text lns) = bend)%nat ->
  (bend <= Z.to_nat 512000)%nat -> (length (conf_text lns) < fuel)%nat -> state_ok pre key ls st ->
  exists R ls' key', next_rows fuel (pre ++ conf_text lns ++ post) (length pre) bend key ls = Some (C_ok (pre ++ R ++ post) ls') /\
    length R = length (conf_text lns) /\ state_ok (pre ++ R) key' ls' (fold_left say lns st).
Proof.
  induction lns as [|l lns IH]; intros pre post bend fuel key ls st F Lb Lm Lf St.
  - change (conf_text []) with (@nil Z) in *. cbn [length] in *. exists [], ls, key. cbn [app fold_left length]. rewrite app_nil_r.
    split; [|split; [reflexivity|exact St]]. unfold next_rows. cbn [scan]. destruct (Nat.ltb_spec (length pre) bend); [lia|].
    destruct fuel as [|fuel]; [lia|]. cbn [rows]. destruct (Nat.leb_spec bend (length pre)); [reflexivity|lia].
  - inversion F as [|? ? Hl F']; subst x l0. change (conf_text (l :: lns)) with (render l ++ conf_text lns) in *. rewrite app_length in *.
    cbn [fold_left]. pose proof (render_nonempty l) as Pl.
    assert (Pass : forall x, (l = Skip x) -> Forall (fun c => crlf c = true) (render l) -> exists R ls' key',
      next_rows fuel (pre ++ (render l ++ conf_text lns) ++ post) (length pre) bend key ls = Some (C_ok (pre ++ R ++ post) ls') /\
      length R = (length (render l) + length (conf_text lns))%nat /\ state_ok (pre ++ R) key' ls' (fold_left say lns (say st l))).
    { intros x El Fx. destruct (IH (pre ++ render l) post bend fuel key ls st F') as (R & ls' & key' & E & LR & SR);
        [rewrite app_length; lia|exact Lm|lia|now apply state_stable|].
      exists (render l ++ R), ls', key'. split; [|split; [rewrite app_length; lia|rewrite El at 2; cbn [say]; now rewrite app_assoc]].
      replace (pre ++ (render l ++ R) ++ post) with ((pre ++ render l) ++ R ++ post) by (norm; reflexivity). rewrite <- E. unfold next_rows.
      assert (Sc : forall s A Q, Forall (fun c => crlf c = true) s -> (length A + length s <= bend)%nat ->
         scan (S bend) crlf (A ++ s ++ Q) (length A) bend = scan (S bend) crlf ((A ++ s) ++ Q) (length (A ++ s)) bend).
      { clear. induction s as [|c s IHs]; intros A Q Fs Ls; [cbn [app]; now rewrite app_nil_r|]. inversion Fs as [|? ? Pc Ps]; subst. cbn [length app] in *.
        rewrite scan_next by (assumption || lia). rewrite (IHs (A ++ [c]) Q Ps) by (rewrite app_length; cbn [length]; lia).
        rewrite <- !app_assoc. reflexivity. }
      replace (pre ++ (render l ++ conf_text lns) ++ post) with (pre ++ render l ++ conf_text lns ++ post) by (norm; reflexivity).
      rewrite (Sc (render l) pre _ Fx) by lia. rewrite <- !app_assoc. reflexivity. }
    destruct (starts_or l Hl) as [->|[->|Sl]].
    + apply (Pass []); [reflexivity|]. repeat constructor.
    + apply (Pass [13]); [reflexivity|]. repeat constructor.
    + clear Pass. pose proof Sl as S'. destruct S' as (c & r & Ec & Pc). destruct fuel as [|fuel]; [lia|].
      destruct (row_ok l pre (conf_text lns ++ post) bend key ls st Hl Sl) as (r' & bp' & key1 & ls1 & Er & Lr & Hbp & St1); [lia|exact Lm|exact St|].
      destruct (IH (pre ++ r') post bend fuel key1 ls1 (say st l) F') as (R & ls' & key' & E & LR & SR);
        [rewrite app_length; lia|exact Lm|lia|exact St1|].
      exists (r' ++ R), ls', key'. split; [|split; [rewrite app_length; lia|now rewrite app_assoc]].
      unfold next_rows at 1. replace (pre ++ (render l ++ conf_text lns) ++ post) with (pre ++ render l ++ conf_text lns ++ post) by (norm; reflexivity).
      rewrite Ec at 1. cbn [app]. rewrite scan_stop by (assumption || reflexivity). cbn [rows].
      destruct (Nat.leb_spec bend (length pre)); [lia|]. rewrite Er.
      replace (pre ++ (r' ++ R) ++ post) with ((pre ++ r') ++ R ++ post) by (norm; reflexivity). rewrite <- E. unfold next_rows.
      change (fun c : Z => (c =? 13) || (c =? 10)) with crlf.
      replace (scan (S bend) crlf (pre ++ r' ++ conf_text lns ++ post) bp' bend)
        with (scan (S bend) crlf ((pre ++ r') ++ conf_text lns ++ post) (length (pre ++ r')) bend); [now rewrite <- app_assoc|].
      destruct Hbp as [->|[Hb (u & Eu)]]; [rewrite app_length, Lr, <- app_assoc; reflexivity|].
      rewrite Eu. replace (pre ++ (u ++ [10]) ++ conf_text lns ++ post) with ((pre ++ u) ++ 10 :: conf_text lns ++ post) by (norm; reflexivity).
      replace bp' with (length (pre ++ u)) by (rewrite app_length; rewrite Eu, app_length in Lr; cbn [length] in Lr; lia).
      rewrite (scan_next crlf (pre ++ u)); [now rewrite <- !app_assoc|reflexivity|]. rewrite app_length. rewrite Eu, app_length in Lr. cbn [length] in Lr. lia.
Qed.
Lemma rows_start : forall lns post ls st, Forall line_ok lns -> (length (conf_text lns) <= Z.to_nat 512000)%nat ->
  state_ok [] None ls st ->
  exists b ls', rows (S (length (conf_text lns))) alloc (conf_text lns ++ post) 0 (length (conf_text lns)) None ls = Some (C_ok b ls') /\
    length b = (length (conf_text lns) + length post)%nat /\ lists_ok b (snd (fold_left say lns st)) ls'.
Proof.
  intros lns post ls st F Lm St.
  assert (Gen : lns = [] \/ (exists l r, lns = l :: r /\ starts l) -> exists b ls', rows (S (length (conf_text lns))) alloc (conf_text lns ++ post) 0 (length (conf_text lns)) None ls = Some (C_ok b ls') /\
    length b = (length (conf_text lns) + length post)%nat /\ lists_ok b (snd (fold_left say lns st)) ls').
  { intros G. destruct (rows_ok lns [] post (length (conf_text lns)) (S (length (conf_text lns))) None ls st F eq_refl Lm) as (R & ls' & key' & E & LR & [_ SR]); [lia|exact St|].
    exists (R ++ post), ls'. split; [|split; [rewrite app_length; lia|apply lists_stable; exact SR]].
    cbn [app length] in E. rewrite <- E. unfold next_rows. destruct G as [->|(l & r & -> & (c & u & Ec & Pc))]; [reflexivity|].
    change (conf_text (l :: r)) with (render l ++ conf_text r) in *. rewrite Ec. cbn [app].
    replace (scan _ crlf (c :: (u ++ conf_text r) ++ post) 0 _) with (Some 0%nat); [reflexivity|]. symmetry. exact (scan_stop crlf [] c _ 0 _ _ eq_refl Pc). }
  destruct lns as [|l lns]; [apply Gen; left; reflexivity|].
  inversion F as [|? ? Hl F']; subst. destruct (starts_or l Hl) as [->|[->|Sl]]; [| |apply Gen; right; exists l, lns; split; [reflexivity|exact Sl]]; clear Gen.
  - change (conf_text (Skip [] :: lns)) with ([10] ++ conf_text lns) in *. rewrite app_length in *. cbn [length] in *.
    destruct (rows_ok lns [10] post (S (length (conf_text lns))) (S (length (conf_text lns))) None ls st F' eq_refl Lm) as (R & ls' & key' & E & LR & [_ SR]);
      [lia|exact (state_stable [] None ls st [10] St)|].
    exists ([10] ++ R ++ post), ls'. split; [|split; [cbn [app length]; rewrite app_length; lia|rewrite app_assoc; apply lists_stable; exact SR]].
    rewrite <- E. rewrite <- app_assoc. unfold next_rows. cbn [length]. rewrite <- (scan_next crlf [] 10 (conf_text lns ++ post)) by (reflexivity || (cbn [length]; lia)).
    reflexivity.
  - change (conf_text (Skip [13] :: lns)) with ([13; 10] ++ conf_text lns) in *. rewrite app_length in *. cbn [length] in *.
    destruct (rows_ok lns [13; 10] post (S (S (length (conf_text lns)))) (S (S (length (conf_text lns)))) None ls st F' eq_refl Lm) as (R & ls' & key' & E & LR & [_ SR]);
      [lia|exact (state_stable [] None ls st [13; 10] St)|].
    exists ([13; 10] ++ R ++ post), ls'. split; [|split; [cbn [app length]; rewrite app_length; lia|rewrite app_assoc; apply lists_stable; exact SR]].
    rewrite <- E. rewrite <- app_assoc. unfold next_rows. rewrite <- (scan_next crlf [13] 10 (conf_text lns ++ post)) by (reflexivity || (cbn [length]; lia)).
    reflexivity.
Qed.
Lemma read_ok : forall len, 0 < len < 512000 -> exists size, read_loop 10 CONF_BUF_SIZE len = L_buf size /\ len < size.
Proof.
  intros len H. unfold CONF_BUF_SIZE. cbn [read_loop]. unfold MAX_CONF_BUF_SIZE.
  destruct (Z.leb_spec len 0); [lia|].
  repeat match goal with
  | |- context [if ?a <=? len then _ else _] => destruct (Z.leb_spec a len); [cbn -[Z.leb]|eexists; split; [reflexivity|assumption]]
  end; lia.
Qed.
Lemma start_ok : state_ok [] None empty_lists (None, []).
Proof.
  split; [exact I|]. unfold lists_ok, conf_keys, empty_lists. cbn [repeat fst snd].
  repeat (constructor; [split; [split; [cbn; lia|left; split; reflexivity]|reflexivity]|]). constructor.
Qed.
End Conf.

Theorem load_reads : forall alloc junk lns, (forall n, alloc n = true) -> Forall line_ok lns -> lns <> [] ->
  (length (conf_text lns) < Z.to_nat 512000)%nat ->
  exists b ls, load_configuration alloc junk (conf_text lns) empty_lists = Some (inr (C_ok b ls)) /\
    Forall2 (fun k l => values b l = map Some (values_of k (said lns))) conf_keys ls.
Proof.
  intros alloc junk lns Ha F Ne Lt. unfold load_configuration.
  assert (P : (0 < length (conf_text lns))%nat).
  { destruct lns as [|l lns]; [now contradiction Ne|]. change (conf_text (l :: lns)) with (render l ++ conf_text lns). rewrite app_length. pose proof (render_nonempty l). lia. }
  destruct (read_ok (Z.of_nat (length (conf_text lns)))) as (size & -> & Ls); [lia|].
  destruct (rows_start alloc Ha lns (firstn (Z.to_nat (size - Z.of_nat (length (conf_text lns)))) (junk size)) empty_lists (None, []) F) as (b & ls & E & _ & Hl); [lia|exact start_ok|].
  rewrite E. exists b, ls. split; [reflexivity|]. unfold said. unfold lists_ok in Hl. clear E.
  induction Hl as [|k l ks ls' [_ Hv] _ IH]; constructor; assumption.
Qed.

(** ** Memory safety for any bytes *)
(** [b'] is [b] with zeros put at some places below [n]. *)
Definition zeroed (n : nat) (b b' : list Z) : Prop :=
  length b' = length b /\ forall j, rd b' j = rd b j \/ (rd b' j = Some 0 /\ (j < n)%nat).
Lemma zeroed_refl : forall n b, zeroed n b b.
Proof. intros n b. split; [reflexivity|]. intros j. now left. Qed.
Lemma zeroed_trans : forall n m b b' b'', zeroed n b b' -> zeroed m b' b'' -> zeroed (Nat.max n m) b b''.
Proof.
  intros n m b b' b'' [L1 H1] [L2 H2]. split; [congruence|]. intros j. destruct (H2 j) as [E|[E L]].
  - rewrite E. destruct (H1 j) as [E'|[E' L']]; [now left|right; split; [exact E'|lia]].
  - right. split; [exact E|lia].
Qed.
Lemma zeroed_le : forall n m b b', zeroed n b b' -> (n <= m)%nat -> zeroed m b b'.
Proof. intros n m b b' [L H] Lm. split; [exact L|]. intros j. destruct (H j) as [E|[E Lj]]; [now left|right; split; [exact E|lia]]. Qed.
Lemma zeroed_zero : forall n b b' j, zeroed n b b' -> rd b j = Some 0 -> rd b' j = Some 0.
Proof. intros n b b' j [_ H] E. destruct (H j) as [E'|[E' _]]; congruence. Qed.
Lemma zeroed_at : forall n b b' j, zeroed n b b' -> (n <= j)%nat -> rd b' j = rd b j.
Proof. intros n b b' j [_ H] L. destruct (H j) as [E'|[_ L']]; [exact E'|lia]. Qed.
Lemma wr_zero : forall b i, (i < length b)%nat -> exists b', wr b i 0 = Some b' /\ zeroed (S i) b b' /\ rd b' i = Some 0.
Proof.
  induction b as [|x b IH]; intros i L; [cbn in L; lia|]. destruct i as [|i]; cbn [wr length] in *.
  - eexists. split; [reflexivity|]. change (0 mod 256) with 0. split; [|reflexivity]. split; [reflexivity|]. intros [|j]; [right; split; [reflexivity|lia]|now left].
  - destruct (IH i) as (b' & E & [Lb H] & R); [lia|]. rewrite E. eexists. split; [reflexivity|]. split; [|exact R]. split; [cbn [length]; lia|].
    intros [|j]; [now left|]. destruct (H j) as [E'|[E' L']]; [now left|right; split; [exact E'|lia]].
Qed.
Lemma rd_some : forall b i, (i < length b)%nat -> exists c, rd b i = Some c.
Proof. intros b i L. unfold rd. destruct (nth_error b i) as [c|] eqn:E; [now exists c|]. apply nth_error_None in E. lia. Qed.
Lemma scan_nl : forall p b bend e, p 10 = false -> rd b e = Some 10 -> (e < bend)%nat -> (bend <= length b)%nat -> forall f i, (i <= e)%nat -> (bend - i < f)%nat ->
  exists j, scan f p b i bend = Some j /\ (i <= j <= e)%nat.
Proof.
  intros p b bend e P E Le Lb. induction f as [|f IH]; intros i Li Lf; [lia|]. cbn [scan]. destruct (Nat.ltb_spec i bend); [|lia].
  destruct (rd_some b i) as (c & Ec); [lia|]. rewrite Ec. destruct (p c) eqn:Pc; [|exists i; split; [reflexivity|lia]].
  destruct (Nat.eq_dec i e) as [->|Ne]; [rewrite E in Ec; injection Ec as <-; congruence|].
  destruct (IH (S i)) as (j & Ej & Lj); [lia|lia|]. exists j. split; [exact Ej|lia].
Qed.
Lemma scan_end : forall p b bend, (bend <= length b)%nat -> forall f i, (i <= bend)%nat -> (bend - i < f)%nat ->
  exists j, scan f p b i bend = Some j /\ (i <= j <= bend)%nat.
Proof.
  intros p b bend Lb. induction f as [|f IH]; intros i Li Lf; [lia|]. cbn [scan]. destruct (Nat.ltb_spec i bend); [|exists i; split; [reflexivity|lia]].
  destruct (rd_some b i) as (c & Ec); [lia|]. rewrite Ec. destruct (p c); [|exists i; split; [reflexivity|lia]].
  destruct (IH (S i)) as (j & Ej & Lj); [lia|lia|]. exists j. split; [exact Ej|lia].
Qed.
Lemma scan_once : forall p b bend f i c, (i < bend)%nat -> rd b i = Some c -> p c = true -> scan (S f) p b i bend = scan f p b (S i) bend.
Proof. intros p b bend f i c L E P. cbn [scan]. destruct (Nat.ltb_spec i bend); [|lia]. now rewrite E, P. Qed.
Lemma cstr_some : forall b i j, (i <= j)%nat -> rd b j = Some 0 -> exists s, cstr_at b i = Some s.
Proof.
  intros b i j L E. unfold cstr_at. assert (H : exists n, strlen_from b i = Some n); [|destruct H as (n & ->); eexists; reflexivity].
  revert i j L E. induction b as [|x b IH]; intros i j L E; [destruct j; discriminate E|]. cbn [strlen_from]. destruct i as [|i].
  - destruct (Z.eqb_spec x 0); [eexists; reflexivity|]. destruct j as [|j]; [injection E as ->; contradiction|].
    destruct (IH 0%nat j) as (n' & ->); [lia|exact E|]. eexists; reflexivity.
  - destruct j as [|j]; [lia|]. apply (IH i j); [lia|exact E].
Qed.
Lemma trim_safe : forall bp n b, (n <= length b)%nat -> exists b', trim b bp n = Some b' /\ zeroed n b b'.
Proof.
  intros bp. induction n as [|n IH]; intros b L; cbn [trim]; [exists b; split; [reflexivity|apply zeroed_refl]|].
  destruct (Nat.ltb bp n); [|exists b; split; [reflexivity|apply zeroed_refl]].
  destruct (rd_some b n) as (c & ->); [lia|]. destruct (ws c); [|exists b; split; [reflexivity|apply zeroed_refl]].
  destruct (wr_zero b n) as (b1 & -> & H1 & _); [lia|]. destruct (IH b1) as (b2 & E2 & H2); [destruct H1; lia|].
  exists b2. split; [exact E2|]. eapply zeroed_le; [eapply zeroed_trans; eassumption|lia].
Qed.
Definition inv (b : list Z) (bp e : nat) (key : option nat) : Prop :=
  (S e <= length b)%nat /\ (bp <= S e)%nat /\ ((bp <= e)%nat -> rd b e = Some 10) /\
  match key with None => True | Some k => exists j, (k <= j)%nat /\ rd b j = Some 0 end.
Lemma end_value_safe : forall b i e, (S e <= length b)%nat -> rd b e = Some 10 -> (i <= e)%nat ->
  exists b' bp, end_value b i (S e) = Some (b', bp) /\ zeroed (S i) b b' /\ rd b' i = Some 0 /\ (i <= bp <= S e)%nat /\ (0 < bp)%nat /\ (bp = i -> i < e)%nat /\ ((bp <= e)%nat -> rd b' e = Some 10).
Proof.
  intros b i e L E Li. unfold end_value. destruct (rd_some b i) as (c & Ec); [lia|]. rewrite Ec.
  destruct (wr_zero b i) as (b' & -> & Hz & Ez); [lia|]. destruct (Z.eqb_spec c 10) as [->|Nc].
  - exists b', (S i). split; [reflexivity|]. split; [exact Hz|]. split; [exact Ez|]. split; [lia|]. split; [lia|]. split; [lia|]. intros Le.
    rewrite (zeroed_at _ _ _ e Hz) by lia. exact E.
  - assert (Ni : i <> e) by (intros ->; congruence). assert (E' : rd b' e = Some 10) by (rewrite (zeroed_at _ _ _ e Hz) by lia; exact E).
    destruct (scan_nl notnl b' (S e) e eq_refl E' (Nat.lt_succ_diag_r e)) with (f := S (S e)) (i := S i) as (j & Ej & Lj); [destruct Hz; lia|lia|lia|].
    assert (Es : scan (S (S e)) notnl b' i (S e) = Some j).
    { rewrite (scan_irrel notnl b' (S e) _ (S (S (S e))) i) by lia. remember (S (S e)) as f eqn:Hf. cbn [scan]. destruct (Nat.ltb_spec i (S e)); [|lia]. rewrite Ez. cbn [notnl Z.eqb negb]. exact Ej. }
    rewrite Es. exists b', j. split; [reflexivity|]. split; [exact Hz|]. split; [exact Ez|]. split; [lia|]. split; [lia|]. split; [lia|]. intros _. exact E'.
Qed.
Definition row_safe (b : list Z) (bp e : nat) (r : option rowres) : Prop :=
  match r with
  | None => False
  | Some Row_exit => True
  | Some (Row b' bp' key' _) => length b' = length b /\ inv b' bp' e key' /\ ((bp < bp')%nat \/ (bp' = bp /\ rd b' bp = Some 10))
  end.
Lemma row_is_safe : forall alloc b bp e key ls, inv b bp e key -> (bp <= e)%nat -> row_safe b bp e (row alloc b bp (S e) key ls).
Proof.
  intros alloc b bp e key ls (L & Lbp & E & K) Le. specialize (E Le). unfold row.
  assert (Sn : forall p b', p 10 = false -> rd b' e = Some 10 -> (S e <= length b')%nat -> forall i, (i <= e)%nat -> exists j, scan (S (S e)) p b' i (S e) = Some j /\ (i <= j <= e)%nat).
  { intros p b' P E' L' i Li. apply (scan_nl p b' (S e) e); assumption || lia. }
  destruct (rd_some b bp) as (c & Ec); [lia|]. rewrite Ec.
  assert (Nx : c <> 10 -> bp <> e) by (intros N ->; congruence).
  assert (Pass : c <> 10 -> row_safe b bp e (match scan (S (S e)) notnl b bp (S e) with Some bp => Some (Row b bp key ls) | None => None end)).
  { intros Nc. destruct (Sn notnl b eq_refl E L bp Le) as (j & Ej & Lj). rewrite Ej. cbn [row_safe].
    assert (Nj : j <> bp).
    { intros ->. rewrite (scan_once notnl b (S e) (S e) bp c) in Ej; [|lia|exact Ec|unfold notnl; destruct (Z.eqb_spec c 10); [contradiction|reflexivity]].
      destruct (scan_nl notnl b (S e) e eq_refl E (Nat.lt_succ_diag_r e) L (S e) (S bp)) as (q & Eq & Lq); [specialize (Nx Nc); lia|lia|]. rewrite Eq in Ej. injection Ej as ->. lia. }
    split; [reflexivity|]. split; [|left; lia]. repeat split; try lia; [intros _; exact E|exact K]. }
  destruct ((c =? 32) || (c =? 9)) eqn:W.
  - destruct (Sn ws b eq_refl E L bp Le) as (bp2 & E2 & L2). rewrite E2.
    assert (N2 : (bp < bp2)%nat).
    { rewrite (scan_once ws b (S e) (S e) bp c) in E2; [|lia|exact Ec|unfold ws; rewrite W; reflexivity].
      assert (Nc : c <> 10) by (intros ->; discriminate W).
      destruct (scan_nl ws b (S e) e eq_refl E (Nat.lt_succ_diag_r e) L (S e) (S bp)) as (q & Eq & Lq); [specialize (Nx Nc); lia|lia|]. rewrite Eq in E2. injection E2 as ->. lia. }
    destruct (rd_some b bp2) as (c2 & Ec2); [lia|]. rewrite Ec2. destruct (Z.eqb_spec c2 35) as [->|N35].
    + destruct (Sn notnl b eq_refl E L bp2) as (j & Ej & Lj); [lia|]. rewrite Ej. cbn [row_safe].
      split; [reflexivity|]. split; [|left; lia]. repeat split; try lia; [intros _; exact E|exact K].
    + destruct (Z.eqb_spec c2 10) as [->|N10].
      * cbn [row_safe]. split; [reflexivity|]. split; [|left; lia]. repeat split; try lia; [intros _; exact E|exact K].
      * assert (Ne2 : bp2 <> e) by (intros ->; congruence).
        destruct (Sn inval b eq_refl E L (S bp2)) as (bp3 & E3 & L3); [lia|]. rewrite E3.
        destruct (end_value_safe b bp3 e L E) as (b' & bp' & -> & Hz & Ez & Lb' & _ & _ & E'); [lia|].
        assert (Lz : length b' = length b) by (destruct Hz; assumption).
        assert (K' : match key with None => True | Some k => exists j, (k <= j)%nat /\ rd b' j = Some 0 end).
        { destruct key as [k|]; [|exact I]. destruct K as (j & Lj & Ej). exists j. split; [exact Lj|]. eapply zeroed_zero; eassumption. }
        assert (G : forall ls', row_safe b bp e (Some (Row b' bp' key ls'))).
        { intros ls'. cbn [row_safe]. split; [exact Lz|]. split; [|left; lia]. repeat split; try lia; [exact E'|exact K']. }
        destruct key as [k|]; [|apply G]. destruct K' as (j & Lj & Ej). destruct (cstr_some b' k j Lj Ej) as (ks & ->).
        destruct (empty_str ks); [apply G|]. unfold add_conf_key_val. destruct (cstr_some b' bp2 bp3) as (v & ->); [lia|exact Ez|].
        destruct (empty_str v); [apply G|]. destruct (cstr_some b' k j Lj Ej) as (k' & ->).
        destruct (add_to alloc conf_keys ls k' bp2); [apply G|exact I].
  - destruct (Z.eqb_spec c 91) as [->|N91]; [apply Pass; discriminate|].
    destruct (Z.eqb_spec c 35) as [->|N35]; [cbn [negb]; apply Pass; discriminate|]. cbn [negb].
    destruct (Sn (fun c => notnl c && negb (c =? 61)) b eq_refl E L bp Le) as (bp2 & E2 & L2). rewrite E2.
    destruct (rd_some b bp2) as (c2 & Ec2); [lia|]. rewrite Ec2. destruct (Z.eqb_spec c2 61) as [->|N61].
    + assert (Ne2 : bp2 <> e) by (intros ->; congruence).
      destruct (wr_zero b bp2) as (b1 & -> & Hz1 & Ez1); [lia|].
      destruct (trim_safe bp bp2 b1) as (b2 & -> & Hz2); [destruct Hz1; lia|].
      assert (Hz : zeroed (S bp2) b b2) by (eapply zeroed_le; [eapply zeroed_trans; eassumption|lia]).
      assert (L' : (S e <= length b2)%nat) by (destruct Hz; lia).
      assert (Ee : rd b2 e = Some 10) by (rewrite (zeroed_at _ _ _ e Hz) by lia; exact E).
      assert (Z2 : rd b2 bp2 = Some 0) by exact (zeroed_zero _ _ _ _ Hz2 Ez1).
      destruct (Sn ws b2 eq_refl Ee L' (S bp2)) as (bv & Ev & Lv); [lia|]. rewrite Ev.
      destruct (Sn inval b2 eq_refl Ee L' bv) as (bp3 & E3 & L3); [lia|]. rewrite E3.
      destruct (end_value_safe b2 bp3 e L' Ee) as (b' & bp' & -> & Hz' & Ez' & Lb' & _ & _ & E'); [lia|].
      assert (Lz : length b' = length b) by (destruct Hz; destruct Hz'; congruence).
      assert (Z3 : rd b' bp2 = Some 0) by exact (zeroed_zero _ _ _ _ Hz' Z2).
      assert (G : forall ls', row_safe b bp e (Some (Row b' bp' (Some bp) ls'))).
      { intros ls'. cbn [row_safe]. split; [exact Lz|]. split; [|left; lia]. split; [lia|]. split; [lia|]. split; [exact E'|]. exists bp2. split; [lia|exact Z3]. }
      unfold add_conf_key_val. destruct (cstr_some b' bv bp3) as (v & ->); [lia|exact Ez'|]. destruct (empty_str v); [apply G|].
      destruct (cstr_some b' bp bp2) as (k & ->); [lia|exact Z3|]. destruct (add_to alloc conf_keys ls k bv); [apply G|exact I].
    + cbn [row_safe]. split; [reflexivity|]. split; [repeat split; try lia; [intros _; exact E|exact K]|].
      destruct (Nat.eq_dec bp2 bp) as [->|Nb]; [|left; lia]. right. split; [reflexivity|].
      destruct (Z.eq_dec c 10) as [->|Nc]; [exact Ec|]. exfalso. rewrite Ec in Ec2. injection Ec2 as <-.
      rewrite (scan_once _ b (S e) (S e) bp c) in E2; [|lia|exact Ec|unfold notnl; destruct (Z.eqb_spec c 10); [contradiction|]; destruct (Z.eqb_spec c 61); [contradiction|reflexivity]].
      destruct (scan_nl (fun c => notnl c && negb (c =? 61)) b (S e) e eq_refl E (Nat.lt_succ_diag_r e) L (S e) (S bp)) as (q & Eq & Lq); [specialize (Nx Nc); lia|lia|].
      rewrite Eq in E2. injection E2 as ->. lia.
Qed.
Lemma rows_safe : forall alloc e fuel b bp key ls, inv b bp e key -> (S e - bp < fuel)%nat -> rows fuel alloc b bp (S e) key ls <> None.
Proof.
  intros alloc e. induction fuel as [|fuel IH]; intros b bp key ls I Lf; [lia|]. cbn [rows]. destruct (Nat.leb_spec (S e) bp); [discriminate|].
  pose proof (row_is_safe alloc b bp e key ls I) as R. assert (Hle : (bp <= e)%nat) by lia. specialize (R Hle).
  destruct (row alloc b bp (S e) key ls) as [[b' bp' key' ls'|]|]; cbn [row_safe] in R; [|discriminate|contradiction].
  destruct R as (_ & (L & Lbp & E & K) & Hp). change (fun c : Z => (c =? 13) || (c =? 10)) with crlf.
  destruct (scan_end crlf b' (S e) L (S (S e)) bp') as (j & Ej & Lj); [lia|lia|]. rewrite Ej.
  assert (Pj : (bp < j)%nat).
  { destruct Hp as [Hp|[-> Hp]]; [lia|]. rewrite (scan_once crlf b' (S e) (S e) bp 10) in Ej; [|lia|exact Hp|reflexivity].
    destruct (scan_end crlf b' (S e) L (S e) (S bp)) as (q & Eq & Lq); [lia|lia|]. rewrite Eq in Ej. injection Ej as ->. lia. }
  apply IH; [|lia]. repeat split; try lia; [|exact K]. intros Lje. apply E. lia.
Qed.
Theorem load_safe : forall alloc junk f ls, (length f < Z.to_nat 512000)%nat -> (f = [] \/ exists u, f = u ++ [10]) ->
  load_configuration alloc junk f ls <> None.
Proof.
  intros alloc junk f ls Lf [->|(u & ->)]; unfold load_configuration.
  - cbn. discriminate.
  - rewrite app_length in Lf. cbn [length] in Lf. destruct (read_ok (Z.of_nat (length (u ++ [10])))) as (size & -> & Ls); [rewrite app_length; cbn [length]; lia|].
    set (J := firstn _ _). rewrite app_length. cbn [length]. replace (length u + 1)%nat with (S (length u)) by lia.
    pose proof (rows_safe alloc (length u) (S (S (length u))) ((u ++ [10]) ++ J) 0 None ls) as R.
    destruct (rows (S (S (length u))) alloc ((u ++ [10]) ++ J) 0 (S (length u)) None ls); [discriminate|]. exfalso. apply R; [|lia|reflexivity].
    split; [rewrite !app_length; cbn [length]; lia|]. split; [lia|]. split; [|exact I]. intros _. rewrite <- app_assoc. cbn [app]. now apply rd_here.
Qed.
