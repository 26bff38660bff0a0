(** Proofs about the request side of dserve. *)
From Coq Require Import ZArith List Bool Lia Arith.
From Verif Require Import DserveModel.
Import ListNotations.
Open Scope Z_scope.

Definition is_byte (c : Z) : Prop := 0 <= c < 256.
Definition text (s : list Z) : Prop := Forall (fun c => 0 < c < 256) s.

(** ** Buffers *)
Lemma rd_app : forall a b n, length a = n -> rd (a ++ b) n = nth_error b 0.
Proof. intros a b n <-. unfold rd. rewrite nth_error_app2 by lia. now rewrite Nat.sub_diag. Qed.
Lemma rd_app_k : forall a b n k, n = (length a + k)%nat -> rd (a ++ b) n = nth_error b k.
Proof. intros a b n k ->. unfold rd. rewrite nth_error_app2 by lia. f_equal. lia. Qed.
Lemma wr_app : forall a x b n v, length a = n -> wr (a ++ x :: b) n v = Some (a ++ v mod 256 :: b).
Proof.
  induction a as [|y a IH]; intros x b n v <-; cbn [app length wr]; [reflexivity|].
  now rewrite IH.
Qed.
Lemma strlen_from_app : forall a b n, length a = n -> strlen_from (a ++ b) n = strlen_from b 0.
Proof. induction a as [|x a IH]; intros b n <-; cbn [app length strlen_from]; [reflexivity|now apply IH]. Qed.
Lemma strlen_text : forall s b, text s -> strlen_from (s ++ 0 :: b) 0 = Some (length s).
Proof.
  induction s as [|x s IH]; intros b H; cbn [app strlen_from length]; [reflexivity|].
  inversion H; subst. destruct (Z.eqb_spec x 0); [lia|]. rewrite IH by assumption. reflexivity.
Qed.

(** What a C string is: the bytes before the first 0. *)
Fixpoint cut0 (s : list Z) : list Z :=
  match s with [] => [] | c :: r => if c =? 0 then [] else c :: cut0 r end.
Lemma cut0_text : forall s, text s -> cut0 s = s.
Proof.
  induction s as [|x s IH]; intros H; [reflexivity|]. inversion H; subst. cbn [cut0].
  destruct (Z.eqb_spec x 0); [lia|]. now rewrite IH.
Qed.
Lemma strlen_cut0 : forall s b, strlen_from (s ++ 0 :: b) 0 = Some (length (cut0 s)).
Proof.
  induction s as [|x s IH]; intros b; cbn [app strlen_from cut0]; [reflexivity|].
  destruct (x =? 0); [reflexivity|]. rewrite IH. reflexivity.
Qed.
Lemma firstn_cut0 : forall s b, firstn (length (cut0 s)) (s ++ b) = cut0 s.
Proof.
  induction s as [|x s IH]; intros b; cbn [app cut0]; [now rewrite firstn_O|].
  destruct (x =? 0); [reflexivity|]. cbn [length firstn]. now rewrite IH.
Qed.
Lemma cstr_here : forall a s b n, length a = n -> cstr_at (a ++ s ++ 0 :: b) n = Some (cut0 s).
Proof.
  intros a s b n <-. unfold cstr_at. rewrite strlen_from_app by reflexivity.
  rewrite strlen_cut0. rewrite skipn_app, skipn_all, Nat.sub_diag. cbn [skipn app].
  now rewrite firstn_cut0.
Qed.
Lemma strlen_stable : forall b i n c, strlen_from b i = Some n -> strlen_from (b ++ c) i = Some n.
Proof.
  induction b as [|x b IH]; intros i n c H; cbn [strlen_from app] in *; [discriminate|].
  destruct i; [|now apply IH].
  destruct (x =? 0); [exact H|].
  destruct (strlen_from b 0) as [m|] eqn:E; [|discriminate]. now rewrite (IH 0%nat m c E).
Qed.
Lemma strlen_bound : forall b i n, strlen_from b i = Some n -> (i + n < length b)%nat.
Proof.
  induction b as [|x b IH]; intros i n H; cbn [strlen_from length] in *; [discriminate|].
  destruct i.
  - destruct (x =? 0); [inversion H; lia|].
    destruct (strlen_from b 0) as [m|] eqn:E; [|discriminate]. apply IH in E. inversion H; lia.
  - apply IH in H. lia.
Qed.
Lemma cstr_stable : forall b i s c, cstr_at b i = Some s -> cstr_at (b ++ c) i = Some s.
Proof.
  intros b i s c H. unfold cstr_at in *. destruct (strlen_from b i) as [n|] eqn:E; [|discriminate].
  rewrite (strlen_stable _ _ _ c E). apply strlen_bound in E.
  rewrite skipn_app, firstn_app. rewrite skipn_length.
  replace (n - (length b - i))%nat with 0%nat by lia. cbn [firstn]. now rewrite app_nil_r.
Qed.

(** ** Decoding on lists *)
Definition twohex (x y : Z) : bool :=
  negb (to_char x =? 0) && negb (to_char y =? 0) && isxdigit (to_char x) && isxdigit (to_char y).
Definition hexpair (x y : Z) : Z := (16 * hexval (to_char x) + hexval (to_char y)) mod 256.
Fixpoint dec (s : list Z) : list Z :=
  match s with
  | [] => []
  | c :: r =>
      match r with
      | x :: (y :: r') => if (c =? 37) && twohex x y then hexpair x y :: dec r' else c :: dec r
      | _ => c :: dec r
      end
  end.
Lemma dec_len : forall s, (length (dec s) <= length s)%nat.
Proof.
  intros s. remember (length s) as n eqn:E. assert (L : (length s <= n)%nat) by lia. rewrite E. clear E.
  revert s L. induction n as [|n IH]; intros s L.
  - destruct s; [cbn; lia|cbn [length] in L; lia].
  - destruct s as [|c [|x [|y r]]]; cbn [dec length] in *; try lia.
    destruct ((c =? 37) && twohex x y).
    + cbn [length]. specialize (IH r). lia.
    + specialize (IH (x :: y :: r)). cbn [length dec] in *. lia.
Qed.

Lemma urldecode_loop_ok : forall n s fuel pre junk post dst src endp,
  (length s <= n)%nat -> text s -> (length s < fuel)%nat -> length pre = dst -> length (pre ++ junk) = src -> endp = (src + length s)%nat ->
  exists mid,
    urldecode_loop fuel (pre ++ junk ++ s ++ 0 :: post) dst src endp = Some (pre ++ dec s ++ 0 :: mid ++ post) /\
    (length (dec s) + length mid = length junk + length s)%nat.
Proof.
  induction n as [|n IH]; intros s fuel pre junk post dst src endp L T F D Sr E.
  - destruct s; [|cbn [length] in L; lia]. destruct fuel; [cbn [length] in F; lia|].
    cbn [urldecode_loop app length dec]. rewrite app_assoc, (rd_app (pre ++ junk)) by assumption. cbn [nth_error].
    rewrite Z.eqb_refl. rewrite <- app_assoc.
    destruct junk as [|j junk].
    + cbn [app]. rewrite (wr_app pre) by assumption. exists []. split; [reflexivity|cbn; lia].
    + cbn [app]. rewrite (wr_app pre) by assumption. exists (junk ++ [0]). split.
      * rewrite Zmod_0_l. do 2 f_equal. f_equal. now rewrite <- app_assoc.
      * rewrite app_length. cbn [length]. lia.
  - destruct s as [|c s]; [apply (IH [] fuel pre junk post dst src endp); try assumption; cbn; lia|].
    destruct fuel as [|fuel]; [lia|]. cbn [length] in L, F, E.
    assert (Tc : 0 < c < 256) by (inversion T; assumption).
    assert (Ts : text s) by (inversion T; assumption).
    cbn [urldecode_loop].
    assert (R0 : rd (pre ++ junk ++ (c :: s) ++ 0 :: post) src = Some c).
    { rewrite app_assoc, (rd_app (pre ++ junk)) by assumption. reflexivity. }
    rewrite R0. destruct (Z.eqb_spec c 0) as [Hc|_]; [lia|].
    assert (W : forall v k s2 s1, c :: s = s1 ++ s2 -> length s1 = S k -> exists junk',
      wr (pre ++ junk ++ (c :: s) ++ 0 :: post) dst v = Some ((pre ++ [v mod 256]) ++ junk' ++ s2 ++ 0 :: post) /\
      length ((pre ++ [v mod 256]) ++ junk') = (src + S k)%nat /\ (length junk' = length junk + k)%nat).
    { intros v k s2 s1 Es Ls. rewrite Es. destruct junk as [|j junk].
      - destruct s1 as [|a s1]; [discriminate|]. cbn [app]. rewrite (wr_app pre) by assumption.
        exists s1. cbn [length] in Ls. split.
        + rewrite <- !app_assoc. reflexivity.
        + rewrite !app_length in *. cbn [length] in *. split; lia.
      - cbn [app]. rewrite (wr_app pre) by assumption. exists (junk ++ s1). split.
        + rewrite <- !app_assoc. reflexivity.
        + rewrite !app_length in *. cbn [length] in *. split; lia. }
    assert (P : dec (c :: s) = c :: dec s -> exists mid,
      match wr (pre ++ junk ++ (c :: s) ++ 0 :: post) dst c with
      | Some b => urldecode_loop fuel b (Datatypes.S dst) (Datatypes.S src) endp | None => None end
        = Some (pre ++ dec (c :: s) ++ 0 :: mid ++ post) /\
      (length (dec (c :: s)) + length mid = length junk + length (c :: s))%nat).
    { intros Ed. destruct (W c 0%nat s [c]) as (junk' & Ew & Lw & Lj); [reflexivity|reflexivity|].
      rewrite Ew. rewrite Z.mod_small by lia.
      destruct (IH s fuel (pre ++ [c]) junk' post (Datatypes.S dst) (Datatypes.S src) endp) as (mid & Em & Lm).
      - lia.
      - exact Ts.
      - lia.
      - rewrite app_length. cbn. lia.
      - rewrite Z.mod_small in Lw by lia. rewrite Lw. lia.
      - rewrite E. lia.
      - exists mid. rewrite Em, Ed. split; [rewrite <- app_assoc; reflexivity|]. cbn [length]. lia. }
    destruct (Nat.ltb_spec (src + 2) endp) as [Lt|Ge].
    2:{ rewrite andb_false_r. apply P. rewrite E in Ge. destruct s as [|x [|y s]]; cbn [length] in Ge; try reflexivity. lia. }
    rewrite andb_true_r.
    destruct s as [|x [|y s]]; [cbn [length] in *; lia|cbn [length] in *; lia|].
    assert (R1 : rd (pre ++ junk ++ (c :: x :: y :: s) ++ 0 :: post) (src + 1) = Some x).
    { rewrite app_assoc, (rd_app_k (pre ++ junk) _ _ 1) by lia. reflexivity. }
    assert (R2 : rd (pre ++ junk ++ (c :: x :: y :: s) ++ 0 :: post) (src + 2) = Some y).
    { rewrite app_assoc, (rd_app_k (pre ++ junk) _ _ 2) by lia. reflexivity. }
    rewrite R1, R2. fold (twohex x y).
    destruct (c =? 37) eqn:E37.
    2:{ apply P. cbn [dec]. rewrite E37. reflexivity. }
    destruct (twohex x y) eqn:Eh.
    2:{ apply P. cbn [dec]. rewrite E37, Eh. reflexivity. }
    destruct (W (16 * hexval (to_char x) + hexval (to_char y)) 2%nat s [c; x; y]) as (junk' & Ew & Lw & Lj); [reflexivity|reflexivity|].
    rewrite Ew. fold (hexpair x y) in *.
    destruct (IH s fuel (pre ++ [hexpair x y]) junk' post (Datatypes.S dst) (src + 3)%nat endp) as (mid & Em & Lm).
    + cbn [length] in L. lia.
    + inversion Ts as [|? ? ? T2]; subst. now inversion T2.
    + cbn [length] in F. lia.
    + rewrite app_length. cbn. lia.
    + exact Lw.
    + rewrite E. cbn [length]. lia.
    + exists mid. rewrite Em. cbn [dec]. rewrite E37, Eh. cbn [andb]. split; [rewrite <- app_assoc; reflexivity|].
      cbn [length]. lia.
Qed.

Lemma urldecode_ok : forall pre s post p, length pre = p -> text s ->
  exists mid, urldecode (pre ++ s ++ 0 :: post) p = Some (pre ++ dec s ++ 0 :: mid ++ post) /\
    (length (dec s) + length mid = length s)%nat.
Proof.
  intros pre s post p Hp T. unfold urldecode. rewrite strlen_from_app by assumption. rewrite strlen_text by assumption.
  destruct s as [|c s].
  - exists []. cbn. split; [reflexivity|lia].
  - change (length (c :: s)) with (S (length s)).
    destruct (urldecode_loop_ok (length (c :: s)) (c :: s) (S (S (length s))) pre [] post p p (p + S (length s)))
      as (mid & Em & Lm); try assumption; try (cbn [length]; lia).
    + rewrite app_nil_r. assumption.
    + cbn [app] in Em. exists mid. split; [exact Em|]. cbn [length] in *. lia.
Qed.

(** ** Splitting *)
Fixpoint upto (ch : Z) (s : list Z) : list Z :=
  match s with [] => [] | c :: r => if c =? ch then [] else c :: upto ch r end.
Fixpoint after (ch : Z) (s : list Z) : option (list Z) :=
  match s with [] => None | c :: r => if c =? ch then Some r else after ch r end.

Lemma upto_after : forall ch s,
  match after ch s with
  | Some r => s = upto ch s ++ ch :: r
  | None => upto ch s = s
  end /\ ~ In ch (upto ch s).
Proof.
  intros ch. induction s as [|c s [IH1 IH2]]; cbn [after upto]; [split; [reflexivity|easy]|].
  destruct (Z.eqb_spec c ch) as [->|N].
  - split; [reflexivity|easy].
  - split.
    + destruct (after ch s); cbn [app]; [f_equal; exact IH1|f_equal; exact IH1].
    + intros [H|H]; [now apply N|now apply IH2].
Qed.
Lemma upto_here : forall ch k r, ~ In ch k -> upto ch (k ++ ch :: r) = k /\ after ch (k ++ ch :: r) = Some r.
Proof.
  intros ch. induction k as [|c k IH]; intros r N; cbn [app upto after].
  - rewrite Z.eqb_refl. split; reflexivity.
  - destruct (Z.eqb_spec c ch) as [->|_]; [exfalso; apply N; now left|].
    destruct (IH r) as [E1 E2]; [intros H; apply N; now right|]. rewrite E1, E2. split; reflexivity.
Qed.
Lemma upto_none : forall ch k, ~ In ch k -> upto ch k = k /\ after ch k = None.
Proof.
  intros ch. induction k as [|c k IH]; intros N; cbn [upto after]; [split; reflexivity|].
  destruct (Z.eqb_spec c ch) as [->|_]; [exfalso; apply N; now left|].
  destruct IH as [E1 E2]; [intros H; apply N; now right|]. rewrite E1, E2. split; reflexivity.
Qed.

Lemma split_at_ok : forall rest fuel pre post ch i ql,
  (length rest < fuel)%nat -> length pre = i -> ql = (i + length rest)%nat ->
  split_at fuel (pre ++ rest ++ post) ch i ql =
  match after ch rest with
  | Some r => Some (pre ++ upto ch rest ++ 0 :: r ++ post, (i + length (upto ch rest))%nat)
  | None => Some (pre ++ rest ++ post, ql)
  end.
Proof.
  induction rest as [|c rest IH]; intros fuel pre post ch i ql F P Q; destruct fuel as [|fuel]; cbn [length] in *; try lia;
    cbn [split_at after upto].
  - destruct (Nat.ltb_spec i ql); [lia|]. subst ql. now rewrite Nat.add_0_r.
  - destruct (Nat.ltb_spec i ql); [|lia].
    rewrite (rd_app pre) by assumption. cbn [app nth_error].
    destruct (c =? ch).
    + rewrite (wr_app pre) by assumption. rewrite Nat.add_0_r. reflexivity.
    + replace (pre ++ c :: rest ++ post) with ((pre ++ [c]) ++ rest ++ post) by (now rewrite <- app_assoc).
      rewrite (IH fuel (pre ++ [c]) post ch (S i) ql).
      * destruct (after ch rest); [|now rewrite <- app_assoc].
        rewrite <- app_assoc. cbn [length]. do 2 f_equal. lia.
      * lia.
      * rewrite app_length. cbn. lia.
      * lia.
Qed.

(** ** The whole query *)
(** The list-level reading of a query; [None] is -1. *)
Fixpoint qread (fuel : nat) (q : list Z) (n : nat) : option (list (list Z * list Z)) :=
  match fuel with
  | O => None
  | S fuel =>
      match q with
      | [] => Some []
      | _ =>
          match after 61 q with
          | None => None
          | Some [] => None
          | Some r =>
              if Nat.leb MAXPARAMS n then None
              else
                match match after 38 r with Some r' => qread fuel r' (S n) | None => Some [] end with
                | Some ps => Some ((upto 61 q, upto 38 r) :: ps)
                | None => None
                end
          end
      end
  end.

Definition holds (b : list Z) (pv : nat * nat) (kv : list Z * list Z) : Prop :=
  cstr_at b (fst pv) = Some (cut0 (dec (fst kv))) /\ cstr_at b (snd pv) = Some (cut0 (dec (snd kv))).
Lemma holds_app : forall b c pv kv, holds b pv kv -> holds (b ++ c) pv kv.
Proof. intros b c pv kv [H1 H2]. split; now apply cstr_stable. Qed.
Lemma Forall2_holds_app : forall b c pv ps, Forall2 (holds b) pv ps -> Forall2 (holds (b ++ c)) pv ps.
Proof. intros b c pv ps H. induction H; constructor; [now apply holds_app|assumption]. Qed.

Lemma text_upto : forall ch s, text s -> text (upto ch s).
Proof.
  intros ch. induction s as [|c s IH]; intros H; cbn [upto]; [constructor|]. inversion H; subst.
  destruct (c =? ch); [constructor|]. constructor; [assumption|now apply IH].
Qed.
Lemma text_after : forall ch s r, text s -> after ch s = Some r -> text r.
Proof.
  intros ch. induction s as [|c s IH]; intros r H E; cbn [after] in E; [discriminate|]. inversion H; subst.
  destruct (c =? ch); [inversion E; subst; assumption|now apply IH].
Qed.
Lemma after_len : forall ch s r, after ch s = Some r -> (length s = length (upto ch s) + 1 + length r)%nat.
Proof.
  intros ch. induction s as [|c s IH]; intros r E; cbn [after upto] in *; [discriminate|].
  destruct (c =? ch); [inversion E; subst; cbn; lia|]. apply IH in E. cbn [length]. lia.
Qed.

Lemma parse_loop_ok : forall n rest fuel fuel' done post ql i acc ps0,
  (length rest <= n)%nat -> (length rest < fuel)%nat -> (length rest < fuel')%nat -> text rest -> length done = i -> ql = (i + length rest)%nat ->
  Forall2 (holds done) acc ps0 ->
  match qread fuel' rest (length acc) with
  | None => parse_loop fuel (done ++ rest ++ 0 :: post) ql i acc = Some PQ_err
  | Some ps =>
      exists b1 pv, parse_loop fuel (done ++ rest ++ 0 :: post) ql i acc = Some (PQ_ok (b1 ++ post) (acc ++ pv)) /\
        length b1 = S ql /\ Forall2 (holds b1) (acc ++ pv) (ps0 ++ ps)
  end.
Proof.
  induction n as [|n IH]; intros rest fuel fuel' done post ql i acc ps0 L F F' T D Q A.
  - destruct rest; [|cbn [length] in L; lia]. destruct fuel as [|fuel]; [lia|]. destruct fuel' as [|fuel']; [lia|].
    cbn [qread parse_loop length app] in *. destruct (Nat.ltb_spec i ql); [lia|].
    exists (done ++ [0]), []. rewrite !app_nil_r. split; [now rewrite <- app_assoc|].
    split; [rewrite app_length; cbn; lia|now apply Forall2_holds_app].
  - destruct rest as [|c0 rest0]; [apply (IH [] fuel fuel' done post ql i acc ps0); try assumption; cbn; lia|].
    set (rest := c0 :: rest0) in *. destruct fuel as [|fuel]; [lia|]. destruct fuel' as [|fuel']; [lia|].
    cbn [parse_loop].
    replace (qread (S fuel') rest (length acc)) with
      (match after 61 rest with
       | None => None
       | Some [] => None
       | Some r =>
           if Nat.leb MAXPARAMS (length acc) then None
           else match match after 38 r with Some r' => qread fuel' r' (S (length acc)) | None => Some [] end with
                | Some ps => Some ((upto 61 rest, upto 38 r) :: ps)
                | None => None
                end
       end) by reflexivity.
    assert (Lr : (length rest = S (length rest0))%nat) by reflexivity.
    destruct (Nat.ltb_spec i ql) as [_|Bad]; [|lia].
    rewrite (split_at_ok rest (S ql) done (0 :: post) 61 i ql) by lia.
    destruct (after 61 rest) as [r|] eqn:Er.
    2:{ destruct (Nat.leb_spec ql (S ql)); [reflexivity|lia]. }
    pose proof (after_len _ _ _ Er) as Ll.
    destruct r as [|r0 r1].
    { cbn [length] in Ll. destruct (Nat.leb_spec ql (S (i + length (upto 61 rest)))); [reflexivity|lia]. }
    set (r := r0 :: r1) in *. assert (Lr' : (1 <= length r)%nat) by (cbn; lia).
    destruct (Nat.leb_spec ql (S (i + length (upto 61 rest)))) as [Bad|_]; [lia|].
    set (k := upto 61 rest) in *.
    assert (Tk : text k) by (now apply text_upto). assert (Tr : text r) by (exact (text_after 61 rest r T Er)).
    replace (done ++ k ++ 0 :: r ++ 0 :: post) with ((done ++ k ++ [0]) ++ r ++ 0 :: post) by (rewrite <- !app_assoc; reflexivity).
    rewrite (split_at_ok r (S ql) (done ++ k ++ [0]) (0 :: post) 38 (S (i + length k)) ql).
    2:{ lia. } 2:{ rewrite !app_length. cbn [length]. lia. } 2:{ lia. }
    set (v := upto 38 r). assert (Tv : text v) by (now apply text_upto).
    (* both cases: k 0 v 0 tail *)
    assert (B : forall tail j, exists mid1 mid2,
      match urldecode ((done ++ k ++ [0]) ++ v ++ 0 :: tail) i with
      | None => None
      | Some b => match urldecode b (S (i + length k)) with None => None | Some b => parse_loop fuel b ql (S j) (acc ++ [(i, S (i + length k))]) end
      end = parse_loop fuel ((done ++ dec k ++ 0 :: mid1 ++ dec v ++ 0 :: mid2) ++ tail) ql (S j) (acc ++ [(i, S (i + length k))]) /\
      length (done ++ dec k ++ 0 :: mid1 ++ dec v ++ 0 :: mid2) = (i + length k + 1 + length v + 1)%nat /\
      length (done ++ dec k ++ 0 :: mid1) = S (i + length k)).
    { intros tail j.
      destruct (urldecode_ok done k (v ++ 0 :: tail) i D Tk) as (mid1 & E1 & L1).
      replace ((done ++ k ++ [0]) ++ v ++ 0 :: tail) with (done ++ k ++ 0 :: v ++ 0 :: tail) by (rewrite <- !app_assoc; reflexivity).
      rewrite E1.
      assert (Lp : length (done ++ dec k ++ 0 :: mid1) = S (i + length k)) by (rewrite !app_length; cbn [length]; lia).
      destruct (urldecode_ok (done ++ dec k ++ 0 :: mid1) v tail (S (i + length k)) Lp Tv) as (mid2 & E2 & L2).
      replace (done ++ dec k ++ 0 :: mid1 ++ v ++ 0 :: tail) with ((done ++ dec k ++ 0 :: mid1) ++ v ++ 0 :: tail)
        by (rewrite <- !app_assoc; reflexivity).
      rewrite E2. exists mid1, mid2. split; [|split].
      - f_equal. rewrite <- !app_assoc. cbn [app]. rewrite <- !app_assoc. reflexivity.
      - rewrite !app_length in *. cbn [length] in *. rewrite !app_length in *. cbn [length] in *. lia.
      - exact Lp. }
    assert (H2 : forall mid1 mid2, length (done ++ dec k ++ 0 :: mid1) = S (i + length k) ->
      Forall2 (holds (done ++ dec k ++ 0 :: mid1 ++ dec v ++ 0 :: mid2)) (acc ++ [(i, S (i + length k))]) (ps0 ++ [(k, v)])).
    { intros mid1 mid2 Lp. apply Forall2_app; [now apply Forall2_holds_app|].
      constructor; [|constructor]. split; cbn [fst snd].
      - now apply cstr_here.
      - replace (done ++ dec k ++ 0 :: mid1 ++ dec v ++ 0 :: mid2) with ((done ++ dec k ++ 0 :: mid1) ++ dec v ++ 0 :: mid2)
          by (rewrite <- !app_assoc; reflexivity).
        now apply cstr_here. }
    destruct (after 38 r) as [r'|] eqn:Er'; cbv zeta beta iota.
    + pose proof (after_len _ _ _ Er') as Ll'. fold v in Ll'.
      destruct (Nat.leb MAXPARAMS (length acc)); [reflexivity|].
      destruct (B (r' ++ 0 :: post) (S (i + length k) + length v)%nat) as (mid1 & mid2 & Eb & Lb & Lp).
      rewrite Eb.
      specialize (IH r' fuel fuel' (done ++ dec k ++ 0 :: mid1 ++ dec v ++ 0 :: mid2) post ql (S (S (i + length k) + length v))
                    (acc ++ [(i, S (i + length k))]) (ps0 ++ [(k, v)])).
      replace (length (acc ++ [(i, S (i + length k))])) with (S (length acc)) in IH by (rewrite app_length; cbn; lia).
      assert (Tr' : text r') by (exact (text_after 38 r r' Tr Er')).
      assert (I := IH ltac:(lia) ltac:(lia) ltac:(lia) Tr' ltac:(rewrite Lb; lia) ltac:(lia) (H2 mid1 mid2 Lp)).
      destruct (qread fuel' r' (S (length acc))) as [ps|]; [|exact I].
      destruct I as (b1 & pv & E & Lb1 & Hh). exists b1, ((i, S (i + length k)) :: pv).
      rewrite <- !(app_assoc _ [_] _) in Hh. cbn [app] in Hh.
      split; [rewrite E; now rewrite <- (app_assoc acc)|]. split; [exact Lb1|exact Hh].
    + assert (Ev : v = r) by (pose proof (upto_after 38 r) as [X _]; rewrite Er' in X; exact X).
      destruct (Nat.leb MAXPARAMS (length acc)); [reflexivity|].
      rewrite <- Ev. destruct (B post ql) as (mid1 & mid2 & Eb & Lb & Lp). rewrite Eb.
      assert (Lv : length v = length r) by (now rewrite Ev).
      destruct fuel as [|fuel]; [lia|]. cbn [parse_loop].
      destruct (Nat.ltb_spec (S ql) ql); [lia|].
      exists (done ++ dec k ++ 0 :: mid1 ++ dec v ++ 0 :: mid2), [(i, S (i + length k))].
      split; [reflexivity|]. split; [rewrite Lb; lia|]. now apply H2.
Qed.

Lemma parse_query_ok : forall q post, text q ->
  match qread (S (length q)) q 0 with
  | None => parse_query (q ++ 0 :: post) (length q) = Some PQ_err
  | Some ps =>
      exists b1 pv, parse_query (q ++ 0 :: post) (length q) = Some (PQ_ok (b1 ++ post) pv) /\
        length b1 = S (length q) /\ Forall2 (holds b1) pv ps
  end.
Proof.
  intros q post T.
  pose proof (parse_loop_ok (length q) q (S (length q)) (S (length q)) [] post (length q) 0 [] []) as H.
  cbn [app length] in H. apply H; try lia; try assumption; constructor.
Qed.

(** The text of a list of parameters, each followed by an ampersand. *)
Definition line (kv : list Z * list Z) : list Z := fst kv ++ 61 :: snd kv ++ [38].
Definition query_text (ps : list (list Z * list Z)) : list Z := concat (map line ps).
Definition plain (kv : list Z * list Z) : Prop := ~ In 61 (fst kv) /\ ~ In 38 (snd kv).

Lemma qread_join : forall ps fuel n, Forall plain ps -> (n + length ps <= MAXPARAMS)%nat -> (length (query_text ps) < fuel)%nat ->
  qread fuel (query_text ps) n = Some ps.
Proof.
  induction ps as [|[k v] ps IH]; intros fuel n A B F; (destruct fuel as [|fuel]; [lia|]); [reflexivity|].
  cbn [query_text map concat] in *. unfold line in *. cbn [fst snd] in *. rewrite <- app_assoc in *. cbn [app] in *.
  rewrite <- app_assoc in *. cbn [app] in *.
  inversion A as [|? ? [Pk Pv] A']; subst. cbn [fst snd] in *.
  destruct (upto_here 61 k (v ++ 38 :: concat (map (fun kv => fst kv ++ 61 :: snd kv ++ [38]) ps)) Pk) as [E1 E2].
  destruct (upto_here 38 v (concat (map (fun kv => fst kv ++ 61 :: snd kv ++ [38]) ps)) Pv) as [E3 E4].
  cbn [qread]. rewrite E1, E2.
  cbn [length] in B. destruct (Nat.leb_spec MAXPARAMS n); [lia|].
  destruct (k ++ 61 :: v ++ 38 :: concat (map (fun kv => fst kv ++ 61 :: snd kv ++ [38]) ps)) as [|? ?] eqn:X; [now destruct k|].
  rewrite <- X in *. clear X.
  destruct (v ++ 38 :: concat (map (fun kv => fst kv ++ 61 :: snd kv ++ [38]) ps)) as [|? ?] eqn:X; [now destruct v|].
  rewrite <- X in *. clear X. rewrite E3, E4.
  change (concat (map (fun kv => fst kv ++ 61 :: snd kv ++ [38]) ps)) with (query_text ps) in *.
  rewrite IH; [reflexivity|assumption|lia|].
  rewrite app_length in F. cbn [length] in F. rewrite app_length in F. cbn [length] in F. lia.
Qed.
Lemma qread_join_last : forall ps q k v fuel n, Forall plain ps -> plain (k, v) -> v <> [] -> (n + length ps < MAXPARAMS)%nat ->
  q = query_text ps ++ k ++ 61 :: v -> (length q < fuel)%nat ->
  qread fuel q n = Some (ps ++ [(k, v)]).
Proof.
  induction ps as [|[k0 v0] ps IH]; intros q k v fuel n A [Pk Pv] Nv B -> F; (destruct fuel as [|fuel]; [lia|]); cbn [fst snd] in *.
  - cbn [query_text map concat app] in *. cbn [qread].
    destruct (upto_here 61 k v Pk) as [E1 E2]. destruct (upto_none 38 v Pv) as [E3 E4]. rewrite E1, E2.
    cbn [length] in B. destruct (Nat.leb_spec MAXPARAMS n); [lia|].
    destruct (k ++ 61 :: v) eqn:X; [now destruct k|]. destruct v as [|a v]; [congruence|].
    rewrite E3, E4. reflexivity.
  - cbn [query_text map concat] in *. fold (query_text ps) in *. unfold line in *. cbn [fst snd] in *.
    rewrite <- !app_assoc in *. cbn [app] in *. rewrite <- !app_assoc in *. cbn [app] in *.
    inversion A as [|? ? [Pk0 Pv0] A']; subst. cbn [fst snd] in *.
    set (tl := query_text ps ++ k ++ 61 :: v) in *.
    destruct (upto_here 61 k0 (v0 ++ 38 :: tl) Pk0) as [E1 E2]. destruct (upto_here 38 v0 tl Pv0) as [E3 E4].
    cbn [qread]. rewrite E1, E2. cbn [length] in B. destruct (Nat.leb_spec MAXPARAMS n); [lia|].
    destruct (k0 ++ 61 :: v0 ++ 38 :: tl) eqn:X; [now destruct k0|]. rewrite <- X in *. clear X.
    destruct (v0 ++ 38 :: tl) eqn:X; [now destruct v0|]. rewrite <- X in *. clear X. rewrite E3, E4.
    rewrite (IH tl k v fuel (S n)); [reflexivity|assumption|now split|assumption|lia|reflexivity|].
    rewrite app_length in F. cbn [length] in F. rewrite app_length in F. cbn [length] in F. lia.
Qed.
Lemma qread_form : forall fuel q n ps, qread fuel q n = Some ps ->
  Forall plain ps /\ (ps = [] \/ n + length ps <= MAXPARAMS)%nat /\
  (q = query_text ps \/ exists ps' k v, ps = ps' ++ [(k, v)] /\ v <> [] /\ q = query_text ps' ++ k ++ 61 :: v).
Proof.
  induction fuel as [|fuel IH]; intros q n ps H; [discriminate|]. cbn [qread] in H.
  destruct q as [|c0 q0]; [inversion H; subst; split; [constructor|split; [now left|now left]]|].
  set (q := c0 :: q0) in *.
  destruct (after 61 q) as [r|] eqn:E1; [|discriminate].
  pose proof (upto_after 61 q) as [X1 N1]. rewrite E1 in X1.
  destruct r as [|r0 r1]; [discriminate|]. set (r := r0 :: r1) in *.
  destruct (Nat.leb_spec MAXPARAMS n); [discriminate|].
  pose proof (upto_after 38 r) as [X2 N2].
  destruct (after 38 r) as [r'|] eqn:E2.
  - destruct (qread fuel r' (S n)) as [ps1|] eqn:E3; [|discriminate].
    injection H as <-. apply IH in E3. destruct E3 as (A & B & C).
    split; [constructor; [split; assumption|assumption]|]. split.
    + right. cbn [length]. destruct B as [->|B]; [cbn; lia|lia].
    + destruct C as [->|(ps' & k & v & -> & Nv & ->)].
      * left. rewrite X1. cbn [query_text map concat]. unfold line. cbn [fst snd]. rewrite <- app_assoc. cbn [app].
        rewrite <- app_assoc. cbn [app]. do 2 f_equal. rewrite X2 at 1. reflexivity.
      * right. exists ((upto 61 q, upto 38 r) :: ps'), k, v. split; [reflexivity|]. split; [assumption|].
        rewrite X1 at 1. cbn [query_text map concat]. unfold line at 1. cbn [fst snd]. rewrite <- !app_assoc. cbn [app].
        rewrite <- !app_assoc. cbn [app]. do 2 f_equal. rewrite X2 at 1. reflexivity.
  - injection H as <-. split; [constructor; [split; assumption|constructor]|]. split; [right; cbn; lia|].
    right. exists [], (upto 61 q), (upto 38 r). split; [reflexivity|]. rewrite X2. split; [discriminate|]. exact X1.
Qed.
Lemma qread_many : forall fuel q n ps, qread fuel q n = Some ps -> (ps <> [] -> n < MAXPARAMS)%nat.
Proof. intros fuel q n ps H N. apply qread_form in H. destruct H as (_ & [E|E] & _); [contradiction|]. destruct ps; [contradiction|cbn [length] in E; lia]. Qed.

(** ** Percent encoding *)
Definition uphex (h c : Z) : Prop := (0 <= h < 10 /\ c = 48 + h) \/ (10 <= h < 16 /\ c = 55 + h).
Inductive pct (avoid : Z) : list Z -> list Z -> Prop :=
| pct_nil : pct avoid [] []
| pct_lit : forall c s t, 0 < c < 256 -> c <> 37 -> c <> avoid -> pct avoid s t -> pct avoid (c :: s) (c :: t)
| pct_esc : forall h l hc lc s t, 0 < 16 * h + l -> uphex h hc -> uphex l lc -> pct avoid s t ->
    pct avoid (16 * h + l :: s) (37 :: hc :: lc :: t).

Lemma to_char_small : forall c, -128 <= c < 128 -> to_char c = c.
Proof. intros c H. unfold to_char. rewrite Z.mod_small by lia. lia. Qed.
Lemma hex_ok : forall h c, uphex h c -> hexval (to_char c) = h /\ isxdigit (to_char c) = true /\ to_char c <> 0 /\ 0 < c < 128.
Proof.
  intros h c H. assert (R : 48 <= c < 71) by (unfold uphex in H; lia).
  rewrite (to_char_small c) by lia. split; [|split; [|split; lia]].
  - unfold hexval. cbv zeta. destruct (Z.leb_spec 97 c); [lia|]. unfold uphex in H.
    destruct (Z.leb_spec 65 c); rewrite to_char_small; lia.
  - unfold isxdigit, isdigit. unfold uphex in H.
    destruct (Z.leb_spec 48 c); [|lia]. destruct (Z.leb_spec c 57); [reflexivity|].
    destruct (Z.leb_spec 65 c); [|lia]. destruct (Z.leb_spec c 70); [reflexivity|lia].
Qed.
Lemma uphex_range : forall h c, uphex h c -> 0 <= h < 16.
Proof. unfold uphex. lia. Qed.
Lemma pct_text : forall avoid s t, pct avoid s t -> text s /\ text t.
Proof.
  intros avoid s t H. induction H as [|c s t B N A H [I1 I2]|h l hc lc s t P Hh Hl H [I1 I2]].
  - split; constructor.
  - split; constructor; assumption.
  - pose proof (hex_ok _ _ Hh). pose proof (hex_ok _ _ Hl). pose proof (uphex_range _ _ Hh). pose proof (uphex_range _ _ Hl).
    split; [constructor; [lia|assumption]|]. repeat (constructor; [lia|]). assumption.
Qed.
Lemma pct_avoid : forall avoid s t, (avoid = 61 \/ avoid = 38) -> pct avoid s t -> ~ In avoid t.
Proof.
  intros avoid s t Ha H. induction H as [|c s t B N A H I|h l hc lc s t P Hh Hl H I].
  - easy.
  - intros [E|E]; [now apply A|now apply I].
  - assert (hc <> avoid) by (unfold uphex in Hh; lia). assert (lc <> avoid) by (unfold uphex in Hl; lia).
    intros [E|[E|[E|E]]]; try lia. now apply I.
Qed.
Lemma dec_lit : forall c s, c <> 37 -> dec (c :: s) = c :: dec s.
Proof. intros c s N. cbn [dec]. destruct s as [|x [|y s]]; try reflexivity. destruct (Z.eqb_spec c 37); [contradiction|reflexivity]. Qed.
Lemma dec_pct : forall avoid s t, pct avoid s t -> dec t = s.
Proof.
  intros avoid s t H. induction H as [|c s t B N A H I|h l hc lc s t P Hh Hl H I].
  - reflexivity.
  - rewrite dec_lit by assumption. now rewrite I.
  - cbn [dec]. pose proof (hex_ok _ _ Hh) as (Vh & Xh & Zh & _). pose proof (hex_ok _ _ Hl) as (Vl & Xl & Zl & _).
    unfold twohex, hexpair. rewrite Vh, Vl, Xh, Xl.
    destruct (Z.eqb_spec (to_char hc) 0); [contradiction|]. destruct (Z.eqb_spec (to_char lc) 0); [contradiction|].
    cbn [negb andb Z.eqb]. pose proof (uphex_range _ _ Hh). pose proof (uphex_range _ _ Hl).
    rewrite Z.mod_small by lia. change (37 =? 37) with true. cbn [andb]. now rewrite I.
Qed.

(** ** Authorization *)
Lemma streq_eq : forall a b, streq a b = true <-> a = b.
Proof.
  induction a as [|x a IH]; intros [|y b]; cbn [streq]; try (split; [discriminate|intros H; discriminate H]); [tauto|].
  rewrite andb_true_iff, Z.eqb_eq, IH. split; [intros [-> ->]; reflexivity|intros H; inversion H; auto].
Qed.
Lemma strpre_ok : forall l s, strpre l s = true <-> exists r, s = l ++ r.
Proof.
  induction l as [|x l IH]; intros s; cbn [strpre].
  - split; [intros _; now exists s|reflexivity].
  - destruct s as [|y s]; [split; [discriminate|intros [r H]; discriminate H]|].
    rewrite andb_true_iff, Z.eqb_eq, IH. split.
    + intros [-> [r ->]]. now exists r.
    + intros [r H]. cbn [app] in H. injection H as -> ->. split; [reflexivity|now exists r].
Qed.
Lemma aux_eq : forall s l, authorize_aux s l true = true <-> l = [] \/ exists t, s = Some t /\ t <> [] /\ In t l.
Proof.
  intros s l. unfold authorize_aux. destruct l as [|a l]; [split; [now left|reflexivity]|].
  destruct s as [s|]; [|split; [discriminate|intros [H|[t [H _]]]; discriminate H]].
  destruct s as [|x s].
  - cbn [length Nat.ltb Nat.leb]. split; [discriminate|]. intros [H|[t [H [N _]]]]; [discriminate H|]. injection H as <-. now destruct N.
  - cbn [length Nat.ltb Nat.leb]. rewrite existsb_exists. split.
    + intros [y [I E]]. apply streq_eq in E. subst y. right. exists (x :: s). split; [reflexivity|]. split; [discriminate|assumption].
    + intros [H|[t [H [_ I]]]]; [discriminate H|]. injection H as <-. exists (x :: s). split; [assumption|now apply streq_eq].
Qed.
Lemma aux_pre : forall s l, authorize_aux s l false = true <-> l = [] \/ exists t p r, s = Some t /\ t <> [] /\ In p l /\ t = p ++ r.
Proof.
  intros s l. unfold authorize_aux. destruct l as [|a l]; [split; [now left|reflexivity]|].
  destruct s as [s|]; [|split; [discriminate|intros [H|(t & p & r & H & _)]; discriminate H]].
  destruct s as [|x s].
  - cbn [length Nat.ltb Nat.leb]. split; [discriminate|]. intros [H|(t & p & r & H & N & _)]; [discriminate H|]. injection H as <-. now destruct N.
  - cbn [length Nat.ltb Nat.leb]. rewrite existsb_exists. split.
    + intros [y [I E]]. apply strpre_ok in E. destruct E as [r E]. right. exists (x :: s), y, r.
      split; [reflexivity|]. split; [discriminate|]. split; assumption.
    + intros [H|(t & p & r & H & _ & I & E)]; [discriminate H|]. injection H as <-. exists p. split; [assumption|].
      apply strpre_ok. now exists r.
Qed.
