(** Result pages hold the rows in order; set operations are exact. *)
From Coq Require Import ZArith List Lia Bool Znumtheory.
From Verif Require Import Base DhashModel DhashProofs ResultModel.
Import ListNotations.
Open Scope Z_scope.

Notation len l := (Z.of_nat (length l)).

(** ** Pages *)
Record hrep (h : heap) (fp wp : option Z) (wi : Z) (l : list Z) : Prop := {
  hr_np : 0 <= npages h;
  hr_len : 63 * (npages h - 1) <= len l <= 63 * npages h;
  hr_first : fp = if npages h =? 0 then None else Some 0;
  hr_wp : wp = if npages h =? 0 then None else Some (npages h - 1);
  hr_wi : wi = len l - 63 * (npages h - 1);
  hr_next : forall k, 0 <= k < npages h -> pnext (pg h k) = if k + 1 <? npages h then Some (k + 1) else None;
  hr_rows : forall k i, 0 <= k < npages h -> 0 <= i < 63 -> rows (pg h k) i = nth (Z.to_nat (63 * k + i)) l 0 }.

Lemma hrep_empty : hrep hempty None None PAGESIZE [].
Proof. constructor; cbn [hempty npages length]; unfold PAGESIZE; try reflexivity; intros; lia. Qed.

Definition grow (h : heap) (wp : option Z) : heap :=
  match wp with None => newpage h | Some p => set_next (newpage h) p (npages h) end.
Definition growf (h : heap) (fp wp : option Z) : option Z :=
  match wp with None => Some (npages h) | Some _ => fp end.

Lemma hrep_new h fp wp wi l : hrep h fp wp wi l -> 63 <= wi ->
  hrep (grow h wp) (growf h fp wp) (Some (npages h)) 0 l.
Proof.
  intros [N L F W I X R] Hw. assert (E : len l = 63 * npages h) by lia.
  destruct (Z.eqb_spec (npages h) 0) as [Z0|NZ]; subst wp fp; unfold grow, growf.
  - constructor; cbn [newpage npages pg].
    + lia.
    + lia.
    + destruct (Z.eqb_spec (npages h + 1) 0); [lia|]. f_equal; lia.
    + destruct (Z.eqb_spec (npages h + 1) 0); [lia|]. f_equal; lia.
    + lia.
    + intros k Hk. destruct (Z.eqb_spec k (npages h)); [|lia]. cbn [pnext]. destruct (Z.ltb_spec (k + 1) (npages h + 1)); [lia|reflexivity].
    + intros k i Hk Hi. destruct (Z.eqb_spec k (npages h)); [|lia]. cbn [rows]. rewrite nth_overflow; [reflexivity|lia].
  - constructor; cbn [newpage set_next npages pg].
    + lia.
    + lia.
    + destruct (Z.eqb_spec (npages h + 1) 0); [lia|]. reflexivity.
    + destruct (Z.eqb_spec (npages h + 1) 0); [lia|]. f_equal; lia.
    + lia.
    + intros k Hk. destruct (Z.eqb_spec k (npages h - 1)) as [->|N1].
      * cbn [pnext]. destruct (Z.ltb_spec (npages h - 1 + 1) (npages h + 1)); [f_equal; lia|lia].
      * destruct (Z.eqb_spec k (npages h)) as [->|N2]; cbn [pnext].
        -- destruct (Z.ltb_spec (npages h + 1) (npages h + 1)); [lia|reflexivity].
        -- rewrite X by lia. destruct (Z.ltb_spec (k + 1) (npages h)); [|lia]. destruct (Z.ltb_spec (k + 1) (npages h + 1)); [reflexivity|lia].
    + intros k i Hk Hi. destruct (Z.eqb_spec k (npages h - 1)) as [->|N1]; cbn [rows].
      * destruct (Z.eqb_spec (npages h - 1) (npages h)); [lia|]. apply R; lia.
      * destruct (Z.eqb_spec k (npages h)) as [->|N2]; cbn [rows].
        -- rewrite nth_overflow; [reflexivity|lia].
        -- apply R; lia.
Qed.

Lemma hrep_row h fp p wi l v : hrep h fp (Some p) wi l -> wi < 63 ->
  hrep (set_row h p wi v) fp (Some p) (wi + 1) (l ++ [v]).
Proof.
  intros [N L F W I X R] Hw. assert (np0 : npages h <> 0). { intros E. rewrite E in W. discriminate. }
  destruct (Z.eqb_spec (npages h) 0); [easy|]. injection W as ->.
  assert (Ll : len (l ++ [v]) = len l + 1) by (rewrite app_length; cbn [length]; lia).
  constructor; cbn [set_row npages pg]; try assumption.
  - lia.
  - destruct (Z.eqb_spec (npages h) 0); [easy|exact F].
  - destruct (Z.eqb_spec (npages h) 0); [easy|reflexivity].
  - lia.
  - intros k Hk. destruct (k =? npages h - 1); cbn [pnext]; now apply X.
  - intros k i Hk Hi. destruct (Z.eqb_spec k (npages h - 1)) as [->|N1]; cbn [rows].
    + unfold upd. destruct (Z.eqb_spec i wi) as [->|N2].
      * rewrite app_nth2 by lia. replace (Z.to_nat (63 * (npages h - 1) + wi) - length l)%nat with 0%nat by lia. reflexivity.
      * rewrite R by lia. destruct (Z_lt_le_dec i wi).
        -- now rewrite app_nth1 by lia.
        -- rewrite !nth_overflow; [reflexivity| |lia]. rewrite app_length; cbn [length]; lia.
    + rewrite R by lia. rewrite app_nth1 by lia. reflexivity.
Qed.

(** ** Reading *)
Definition cat (h : heap) (c : cursor) (n : Z) : Prop :=
  if n <? 63 * npages h then c = Cur (Some (n / 63)) (n mod 63) else cpage c = None.

Lemma fetch_in h fp wp wi l c n : hrep h fp wp wi l -> cat h c n -> 0 <= n < len l -> ~ In 0 l ->
  exists c', fetch h c = (c', nth (Z.to_nat n) l 0) /\ cat h c' (n + 1).
Proof.
  intros [N L F W I X R] Hc Hn Nz. unfold cat in Hc. destruct (Z.ltb_spec n (63 * npages h)); [|lia]. subst c.
  unfold fetch. cbn [cpage cidx]. cbv zeta. unfold PAGESIZE.
  rewrite R by lia. replace (63 * (n / 63) + n mod 63) with n by lia.
  assert (Hx : In (nth (Z.to_nat n) l 0) l) by (apply nth_In; lia).
  destruct (Z.eqb_spec (nth (Z.to_nat n) l 0) 0) as [E|_]; [rewrite E in Hx; contradiction|].
  destruct (Z.leb_spec 63 (n mod 63 + 1)) as [B|B]; eexists; (split; [reflexivity|]); unfold cat.
  - rewrite X by lia. destruct (Z.ltb_spec (n / 63 + 1) (npages h)); destruct (Z.ltb_spec (n + 1) (63 * npages h)); try lia.
    + f_equal; [f_equal; lia|lia].
    + reflexivity.
  - destruct (Z.ltb_spec (n + 1) (63 * npages h)); [|lia]. f_equal; [f_equal; lia|lia].
Qed.
Lemma fetch_end h fp wp wi l c n : hrep h fp wp wi l -> cat h c n -> n = len l ->
  exists c', fetch h c = (c', 0) /\ cpage c' = None.
Proof.
  intros [N L F W I X R] Hc Hn. unfold cat in Hc. unfold fetch. destruct (Z.ltb_spec n (63 * npages h)).
  - subst c. cbn [cpage cidx]. cbv zeta. rewrite R by lia. rewrite nth_overflow by lia. cbn [Z.eqb]. eexists; split; reflexivity.
  - rewrite Hc. eauto.
Qed.
Lemma fetch_none h c : cpage c = None -> fetch h c = (c, 0).
Proof. unfold fetch. now intros ->. Qed.

Lemma cat_first h fp wp wi l : hrep h fp wp wi l -> cat h (Cur fp 0) 0.
Proof.
  intros [N L F W I X R]. unfold cat. subst fp. destruct (Z.ltb_spec 0 (63 * npages h)).
  - destruct (Z.eqb_spec (npages h) 0); [lia|reflexivity].
  - destruct (Z.eqb_spec (npages h) 0); [reflexivity|lia].
Qed.

Lemma fetches_none n h c : cpage c = None -> fetches n h c = repeat 0 n.
Proof.
  induction n as [|n IH]; intros H; [reflexivity|]. cbn [fetches repeat]. rewrite fetch_none by assumption. now rewrite IH.
Qed.
Lemma firstn_repeat0 m n : (m <= n)%nat -> firstn m (repeat 0 n) = repeat 0 m.
Proof. revert n; induction m as [|m IH]; intros [|n] H; try reflexivity; [lia|]. cbn [repeat firstn]. rewrite IH by lia. reflexivity. Qed.
Lemma fetches_spec h fp wp wi l : hrep h fp wp wi l -> ~ In 0 l -> forall n c m, cat h c (Z.of_nat m) -> (m <= length l)%nat ->
  fetches n h c = firstn n (skipn m l ++ repeat 0 n).
Proof.
  intros R Nz. induction n as [|n IH]; intros c m Hc Hm; [reflexivity|].
  cbn [fetches]. destruct (Nat.eq_dec m (length l)) as [E|E].
  - destruct (fetch_end _ _ _ _ _ _ _ R Hc) as (c' & -> & Hc'); [lia|]. rewrite fetches_none by assumption.
    rewrite skipn_all2 by lia. cbn [app]. cbn [repeat firstn]. f_equal. rewrite firstn_all2; [reflexivity|rewrite repeat_length; lia].
  - destruct (fetch_in _ _ _ _ _ _ _ R Hc) as (c' & -> & Hc'); [lia|assumption|].
    rewrite (IH c' (S m)); [|replace (Z.of_nat (S m)) with (Z.of_nat m + 1) by lia; exact Hc'|lia].
    rewrite Nat2Z.id.
    assert (Sk : skipn m l = nth m l 0 :: skipn (S m) l).
    { clear - Hm E. revert l Hm E. induction m as [|m IH]; intros [|x l] Hm E; cbn [length] in *; try lia; [reflexivity|].
      cbn [skipn nth]. rewrite IH by lia. reflexivity. }
    rewrite Sk. cbn [app firstn]. f_equal. cbn [repeat].
    rewrite !firstn_app. f_equal. change (0 :: repeat 0 n) with (repeat 0 (S n)). rewrite !firstn_repeat0 by lia. reflexivity.
Qed.

(** ** Collecting *)
Definition limit (rowlimit : Z) (l : list Z) : list Z :=
  if rowlimit =? 0 then l else firstn (Z.to_nat rowlimit) l.

Lemma collect_spec mp lim src : 0 <= lim -> forall b l,
  hrep (bheap b) (bfirst b) (bcur b) (bi b) l -> bcount b = len l -> (lim = 0 \/ len l < lim) ->
  len (l ++ src) < 2 ^ 64 ->
  match collect mp lim src b with
  | Some b' => hrep (bheap b') (bfirst b') (bcur b') (bi b') (limit lim (l ++ src)) /\ bcount b' = len (limit lim (l ++ src))
  | None => exists n, mp n = false
  end.
Proof.
  intros Hl. induction src as [|r src IH]; intros b l R C Lm Big.
  - cbn [collect]. rewrite app_nil_r. unfold limit. destruct (Z.eqb_spec lim 0) as [->|]; [auto|].
    rewrite firstn_all2 by lia. auto.
  - cbn [collect]. cbv zeta.
    assert (Step : forall b1 p, hrep (bheap b1) (bfirst b1) (Some p) (bi b1) l -> bi b1 < 63 -> bcount b1 = len l ->
      match (if negb (lim =? 0) && (lim <=? u64 (bcount b1 + 1))
             then Some (Build (set_row (bheap b1) p (bi b1) r) (bfirst b1) (Some p) (bi b1 + 1) (u64 (bcount b1 + 1)))
             else collect mp lim src (Build (set_row (bheap b1) p (bi b1) r) (bfirst b1) (Some p) (bi b1 + 1) (u64 (bcount b1 + 1)))) with
      | Some b' => hrep (bheap b') (bfirst b') (bcur b') (bi b') (limit lim (l ++ r :: src)) /\ bcount b' = len (limit lim (l ++ r :: src))
      | None => exists n, mp n = false end).
    { intros b1 p R1 I1 C1. pose proof (hrep_row _ _ _ _ _ r R1 I1) as R2.
      assert (L1 : len (l ++ [r]) = len l + 1) by (rewrite app_length; cbn [length]; lia).
      assert (U : u64 (bcount b1 + 1) = len (l ++ [r])).
      { unfold u64. rewrite app_length in Big. cbn [length] in Big. rewrite Z.mod_small; lia. }
      rewrite U. destruct (Z.eqb_spec lim 0) as [E0|N0]; cbn [negb andb].
      - specialize (IH (Build (set_row (bheap b1) p (bi b1) r) (bfirst b1) (Some p) (bi b1 + 1) (len (l ++ [r]))) (l ++ [r])).
        rewrite <- app_assoc in IH. cbn [app] in IH. apply IH; auto.
      - destruct (Z.leb_spec lim (len (l ++ [r]))) as [B|B].
        + assert (F : limit lim (l ++ r :: src) = l ++ [r]).
          { unfold limit. destruct (Z.eqb_spec lim 0); [lia|]. replace (l ++ r :: src) with ((l ++ [r]) ++ src) by (rewrite <- app_assoc; reflexivity).
            rewrite firstn_app, firstn_all2 by lia. replace (Z.to_nat lim - length (l ++ [r]))%nat with 0%nat by lia. cbn [firstn]. apply app_nil_r. }
          rewrite F. cbn [bheap bfirst bcur bi bcount]. auto.
        + specialize (IH (Build (set_row (bheap b1) p (bi b1) r) (bfirst b1) (Some p) (bi b1 + 1) (len (l ++ [r]))) (l ++ [r])).
          rewrite <- app_assoc in IH. cbn [app] in IH. apply IH; auto. }
    unfold PAGESIZE. destruct (Z.leb_spec 63 (bi b)) as [B|B].
    + destruct (mp (npages (bheap b))) eqn:M; [|eauto].
      pose proof (hrep_new _ _ _ _ _ R B) as R1. unfold grow, growf in R1.
      destruct (bcur b) as [p|]; cbn [bcur].
      * apply (Step (Build (set_next (newpage (bheap b)) p (npages (bheap b))) (bfirst b) (Some (npages (bheap b))) 0 (bcount b))); cbn [bheap bfirst bi bcount]; auto; lia.
      * apply (Step (Build (newpage (bheap b)) (Some (npages (bheap b))) (Some (npages (bheap b))) 0 (bcount b))); cbn [bheap bfirst bi bcount]; auto; lia.
    + destruct (bcur b) as [p|] eqn:Ec.
      * apply Step; auto.
      * exfalso. pose proof (hr_wp _ _ _ _ _ R) as Q. pose proof (hr_wi _ _ _ _ _ R) as Q2. pose proof (hr_len _ _ _ _ _ R).
        destruct (Z.eqb_spec (npages (bheap b)) 0) as [E|]; [|discriminate]. rewrite E in Q2. lia.
Qed.

(** ** Result sets *)
Record srep (s : rset) (l : list Z) : Prop := {
  sr_h : hrep (sheap s) (first s) (wpage s) (wpidx s) l;
  sr_cnt : res_count s = len l }.
Definition at_ (s : rset) (n : Z) : Prop := cat (sheap s) (rcur s) n.

Lemma srep_create : srep create_resultset [].
Proof. constructor; [apply hrep_empty|reflexivity]. Qed.
Lemma srep_rewind s l : srep s l -> srep (rewind_resultset s) l /\ at_ (rewind_resultset s) 0.
Proof.
  intros [H C]. split; [constructor; assumption|]. unfold at_, rewind_resultset. cbn [sheap rcur]. eapply cat_first; eauto.
Qed.
Lemma srep_fetch s l : srep s l -> srep (fst (fetch_resultset s)) l.
Proof. intros [H C]. unfold fetch_resultset. destruct (fetch _ _). constructor; assumption. Qed.
Lemma srep_append mp s l o : srep s l ->
  (snd (append_resultset mp s o) = 0 /\ srep (fst (append_resultset mp s o)) (l ++ [o])) \/
  (snd (append_resultset mp s o) = -1 /\ exists n, mp n = false).
Proof.
  intros [H C]. unfold append_resultset. cbv zeta. unfold PAGESIZE.
  assert (Ll : len (l ++ [o]) = len l + 1) by (rewrite app_length; cbn [length]; lia).
  destruct (Z.leb_spec 63 (wpidx s)) as [B|B].
  - destruct (mp (npages (sheap s))) eqn:M; [|right; cbn [snd]; eauto]. left.
    pose proof (hrep_new _ _ _ _ _ H B) as R1. unfold grow, growf in R1.
    destruct (wpage s) as [p|]; cbn [wpage fst snd sheap first wpidx rcur res_count]; (split; [reflexivity|]);
      (constructor; cbn [sheap first wpage wpidx res_count]; [|lia]); apply hrep_row; auto; lia.
  - destruct (wpage s) as [p|] eqn:Ep.
    + left. cbn [fst snd]. split; [reflexivity|]. constructor; cbn [sheap first wpage wpidx res_count]; [|lia].
      apply hrep_row; auto.
    + exfalso. pose proof (hr_wp _ _ _ _ _ H) as Q. pose proof (hr_wi _ _ _ _ _ H) as Q2. pose proof (hr_len _ _ _ _ _ H).
      destruct (Z.eqb_spec (npages (sheap s)) 0) as [E|]; [|discriminate]. rewrite E in Q2. lia.
Qed.

(** Loop principle: a set with the cursor at [m] delivers [nth m l]. *)
Lemma fetch_at s l m : srep s l -> ~ In 0 l -> at_ s (Z.of_nat m) ->
  ((m < length l)%nat -> exists s', fetch_resultset s = (s', nth m l 0) /\ srep s' l /\ at_ s' (Z.of_nat (S m)) /\ nth m l 0 <> 0) /\
  (m = length l -> exists s', fetch_resultset s = (s', 0) /\ srep s' l).
Proof.
  intros H Nz A. destruct H as [H C]. unfold at_ in *. unfold fetch_resultset. split; intros Hm.
  - destruct (fetch_in _ _ _ _ _ _ _ H A) as (c' & E & A'); [lia|assumption|]. rewrite E, Nat2Z.id. eexists. split; [reflexivity|].
    split; [constructor; assumption|]. split; [cbn [sheap rcur]; replace (Z.of_nat (S m)) with (Z.of_nat m + 1) by lia; exact A'|].
    intros Q. apply Nz. rewrite <- Q. apply nth_In. exact Hm.
  - destruct (fetch_end _ _ _ _ _ _ _ H A) as (c' & E & A'); [lia|]. rewrite E. eexists. split; [reflexivity|]. constructor; assumption.
Qed.

Lemma slots_len s l : srep s l -> (length l < slots s)%nat.
Proof. intros [H C]. pose proof (hr_len _ _ _ _ _ H). unfold slots, PAGESIZE. lia. Qed.

Lemma skipn_nth (l : list Z) m : (m < length l)%nat -> skipn m l = nth m l 0 :: skipn (S m) l.
Proof.
  revert l. induction m as [|m IH]; intros [|x l] H; cbn [length] in *; try lia; [reflexivity|].
  cbn [skipn nth]. rewrite IH by lia. reflexivity.
Qed.

Lemma find_row_spec l x : ~ In 0 l -> forall fuel s m, srep s l -> at_ s (Z.of_nat m) -> (m <= length l)%nat -> (length l - m < fuel)%nat ->
  exists s' b, find_row fuel s x = Some (s', b) /\ srep s' l /\ (b = true <-> In x (skipn m l)).
Proof.
  intros Nz. induction fuel as [|f IH]; intros s m H A Hm Hf; [lia|]. cbn [find_row].
  destruct (fetch_at s l m H Nz A) as [F1 F2]. destruct (Nat.eq_dec m (length l)) as [E|E].
  - destruct (F2 E) as (s' & -> & H'). cbn [Z.eqb]. exists s', false. split; [reflexivity|]. split; [exact H'|].
    rewrite skipn_all2 by lia. split; [discriminate|intros []].
  - destruct F1 as (s' & -> & H' & A' & N0); [lia|]. destruct (Z.eqb_spec (nth m l 0) 0); [contradiction|].
    rewrite (skipn_nth l m) by lia. destruct (Z.eqb_spec x (nth m l 0)) as [Ex|Nx].
    + exists s', true. split; [reflexivity|]. split; [exact H'|]. split; [intros _; now left|reflexivity].
    + destruct (IH s' (S m) H' A') as (s2 & b & E2 & H2 & B2); [lia|lia|].
      exists s2, b. split; [exact E2|]. split; [exact H2|]. rewrite B2. cbn [In]. split; [auto|]. intros [Q|Q]; [congruence|exact Q].
Qed.

Definition inb (x : Z) (l : list Z) : bool := if in_dec Z.eq_dec x l then true else false.
Lemma inb_spec x l : inb x l = true <-> In x l.
Proof. unfold inb. destruct (in_dec Z.eq_dec x l); split; auto; discriminate. Qed.

Lemma nested_spec mp la lb : ~ In 0 la -> ~ In 0 lb -> forall fuel sa sb res m lr,
  srep sa la -> srep sb lb -> srep res lr -> at_ sa (Z.of_nat m) -> (m <= length la)%nat -> (length la - m < fuel)%nat ->
  match nested mp fuel sa sb res with
  | Some r => srep r (lr ++ filter (fun x => inb x lb) (skipn m la))
  | None => exists n, mp n = false
  end.
Proof.
  intros Na Nb. induction fuel as [|f IH]; intros sa sb res m lr Ha Hb Hr A Hm Hf; [lia|]. cbn [nested].
  destruct (fetch_at sa la m Ha Na A) as [F1 F2]. destruct (Nat.eq_dec m (length la)) as [E|E].
  - destruct (F2 E) as (s' & -> & H'). cbn [Z.eqb]. rewrite skipn_all2 by lia. cbn [filter]. now rewrite app_nil_r.
  - destruct F1 as (s' & -> & H' & A' & N0); [lia|]. destruct (Z.eqb_spec (nth m la 0) 0); [contradiction|].
    rewrite (skipn_nth la m) by lia. cbn [filter].
    destruct (srep_rewind sb lb Hb) as [Hb0 Ab0].
    destruct (find_row_spec lb (nth m la 0) Nb (slots sb) (rewind_resultset sb) 0 Hb0 Ab0) as (sb' & b & -> & Hb' & B).
    { lia. } { pose proof (slots_len sb lb Hb). lia. }
    rewrite skipn_O in B. assert (Eb : inb (nth m la 0) lb = b). { pose proof (inb_spec (nth m la 0) lb). destruct (inb _ lb), b; tauto || (symmetry; tauto). }
    rewrite Eb. destruct b.
    + destruct (srep_append mp res lr (nth m la 0) Hr) as [[E1 R1]|[E1 R1]]; destruct (append_resultset mp res (nth m la 0)) as [res' e]; cbn [fst snd] in *; subst e; cbn [Z.eqb].
      * specialize (IH s' sb' res' (S m) (lr ++ [nth m la 0]) H' Hb' R1 A' ltac:(lia) ltac:(lia)).
        destruct (nested mp f s' sb' res'); [|exact IH]. rewrite <- app_assoc in IH. exact IH.
      * exact R1.
    + apply (IH s' sb' res (S m) lr); auto; lia.
Qed.

Section Hash.
Variable sz : Z.
Hypothesis Hp : prime sz.
Hypothesis Hs : 388 < sz <= 201326611.

Lemma hash_rows_spec l : ~ In 0 l -> forall fuel s m t ks, srep s l -> at_ s (Z.of_nat m) -> (m <= length l)%nat -> (length l - m < fuel)%nat ->
  DI sz t ks ->
  match hash_rows fuel s t with
  | Some t' => exists ks', DI sz t' ks' /\ forall k, In k ks' <-> In k ks \/ In k (skipn m l)
  | None => exists ks', NoDup ks' /\ incl ks' (ks ++ skipn m l) /\ sz < len ks'
  end.
Proof.
  intros Nz. induction fuel as [|f IH]; intros s m t ks H A Hm Hf D; [lia|]. cbn [hash_rows].
  destruct (fetch_at s l m H Nz A) as [F1 F2]. destruct (Nat.eq_dec m (length l)) as [E|E].
  - destruct (F2 E) as (s' & -> & H'). cbn [Z.eqb]. exists ks. split; [exact D|]. rewrite skipn_all2 by lia. cbn. tauto.
  - destruct F1 as (s' & -> & H' & A' & N0); [lia|]. destruct (Z.eqb_spec (nth m l 0) 0); [contradiction|].
    rewrite (skipn_nth l m) by lia. pose proof (addkey_spec sz Hp Hs t ks (nth m l 0) D N0) as K.
    destruct (wg_dhash_addkey t (nth m l 0)) as [t' c]. destruct K as [K1 K2].
    destruct (in_dec Z.eq_dec (nth m l 0) ks) as [i|i].
    + destruct (K1 i) as [-> ->]. cbn [Z.eqb]. specialize (IH s' (S m) t ks H' A' ltac:(lia) ltac:(lia) D).
      destruct (hash_rows f s' t) as [t''|].
      * destruct IH as (ks' & D' & M). exists ks'. split; [exact D'|]. intros k. rewrite M. cbn [In]. split; [tauto|]. intros [Q|[<-|Q]]; auto.
      * destruct IH as (ks' & M1 & M2 & M3). exists ks'. split; [exact M1|]. split; [|exact M3]. intros k Hk. specialize (M2 k Hk).
        rewrite in_app_iff in *. cbn [In]. tauto.
    + destruct (K2 i) as [[-> D1]|(-> & -> & Full)]; cbn [Z.eqb].
      * specialize (IH s' (S m) t' (nth m l 0 :: ks) H' A' ltac:(lia) ltac:(lia) D1).
        destruct (hash_rows f s' t') as [t''|].
        -- destruct IH as (ks' & D' & M). exists ks'. split; [exact D'|]. intros k. rewrite M. cbn [In]. tauto.
        -- destruct IH as (ks' & M1 & M2 & M3). exists ks'. split; [exact M1|]. split; [|exact M3]. intros k Hk. specialize (M2 k Hk).
           cbn [app In] in M2. rewrite in_app_iff in *. cbn [In]. tauto.
      * exists (nth m l 0 :: ks). split; [constructor; [exact i|apply (di_nd _ _ _ D)]|]. split.
        -- intros k [<-|Hk]; rewrite in_app_iff; cbn [In]; auto.
        -- cbn [length]. lia.
Qed.

Lemma hash_match_spec mp t ks : DI sz t ks -> forall l, ~ In 0 l -> forall fuel s m res lr,
  srep s l -> srep res lr -> at_ s (Z.of_nat m) -> (m <= length l)%nat -> (length l - m < fuel)%nat ->
  match hash_match mp fuel s t res with
  | Some r => srep r (lr ++ filter (fun x => inb x ks) (skipn m l))
  | None => exists n, mp n = false
  end.
Proof.
  intros D l Nz. induction fuel as [|f IH]; intros s m res lr H Hr A Hm Hf; [lia|]. cbn [hash_match].
  destruct (fetch_at s l m H Nz A) as [F1 F2]. destruct (Nat.eq_dec m (length l)) as [E|E].
  - destruct (F2 E) as (s' & -> & H'). cbn [Z.eqb]. rewrite skipn_all2 by lia. cbn [filter]. now rewrite app_nil_r.
  - destruct F1 as (s' & -> & H' & A' & N0); [lia|]. destruct (Z.eqb_spec (nth m l 0) 0); [contradiction|].
    rewrite (skipn_nth l m) by lia. cbn [filter].
    pose proof (haskey_spec sz Hs t ks (nth m l 0) D N0) as K. pose proof (inb_spec (nth m l 0) ks) as K'.
    assert (Eb : inb (nth m l 0) ks = wg_dhash_haskey t (nth m l 0)). { destruct (inb _ ks), (wg_dhash_haskey t _); tauto || (symmetry; tauto). }
    rewrite Eb. destruct (wg_dhash_haskey t (nth m l 0)).
    + destruct (srep_append mp res lr (nth m l 0) Hr) as [[E1 R1]|[E1 R1]]; destruct (append_resultset mp res (nth m l 0)) as [res' e]; cbn [fst snd] in *; subst e; cbn [Z.eqb].
      * specialize (IH s' (S m) res' (lr ++ [nth m l 0]) H' R1 A' ltac:(lia) ltac:(lia)).
        destruct (hash_match mp f s' t res'); [|exact IH]. rewrite <- app_assoc in IH. exact IH.
      * exact R1.
    + apply (IH s' (S m) res lr); auto; lia.
Qed.

(** First occurrences of [l] that are not in [seen]. *)
Fixpoint firsts (seen l : list Z) : list Z :=
  match l with
  | [] => []
  | x :: r => if inb x seen then firsts seen r else x :: firsts (x :: seen) r
  end.

Lemma uniq_hash_spec mp l : ~ In 0 l -> forall fuel s m t ks res lr,
  srep s l -> srep res lr -> at_ s (Z.of_nat m) -> (m <= length l)%nat -> (length l - m < fuel)%nat -> DI sz t ks ->
  match uniq_hash mp fuel s t res with
  | Some r => srep r (lr ++ firsts ks (skipn m l))
  | None => (exists n, mp n = false) \/ exists ks', NoDup ks' /\ incl ks' (ks ++ skipn m l) /\ sz < len ks'
  end.
Proof.
  intros Nz. induction fuel as [|f IH]; intros s m t ks res lr H Hr A Hm Hf D; [lia|]. cbn [uniq_hash].
  destruct (fetch_at s l m H Nz A) as [F1 F2]. destruct (Nat.eq_dec m (length l)) as [E|E].
  - destruct (F2 E) as (s' & -> & H'). cbn [Z.eqb]. rewrite skipn_all2 by lia. cbn [firsts]. now rewrite app_nil_r.
  - destruct F1 as (s' & -> & H' & A' & N0); [lia|]. destruct (Z.eqb_spec (nth m l 0) 0); [contradiction|].
    rewrite (skipn_nth l m) by lia. cbn [firsts].
    pose proof (haskey_spec sz Hs t ks (nth m l 0) D N0) as K. pose proof (inb_spec (nth m l 0) ks) as K'.
    assert (Eb : inb (nth m l 0) ks = wg_dhash_haskey t (nth m l 0)). { destruct (inb _ ks), (wg_dhash_haskey t _); tauto || (symmetry; tauto). }
    rewrite Eb. destruct (wg_dhash_haskey t (nth m l 0)).
    + specialize (IH s' (S m) t ks res lr H' Hr A' ltac:(lia) ltac:(lia) D). destruct (uniq_hash mp f s' t res); [exact IH|].
      destruct IH as [IH|(ks' & M1 & M2 & M3)]; [now left|right]. exists ks'. split; [exact M1|]. split; [|exact M3].
      intros k Hk. specialize (M2 k Hk). rewrite in_app_iff in *. cbn [In]. tauto.
    + assert (Nk : ~ In (nth m l 0) ks) by (intros Q; apply K in Q; discriminate).
      destruct (srep_append mp res lr (nth m l 0) Hr) as [[E1 R1]|[E1 R1]]; destruct (append_resultset mp res (nth m l 0)) as [res' e]; cbn [fst snd] in *; subst e; cbn [Z.eqb]; [|now left].
      pose proof (addkey_spec sz Hp Hs t ks (nth m l 0) D N0) as Q. destruct (wg_dhash_addkey t (nth m l 0)) as [t' c]. destruct Q as [_ Q].
      destruct (Q Nk) as [[-> D1]|(-> & -> & Full)]; cbn [Z.eqb].
      * specialize (IH s' (S m) t' (nth m l 0 :: ks) res' (lr ++ [nth m l 0]) H' R1 A' ltac:(lia) ltac:(lia) D1).
        destruct (uniq_hash mp f s' t' res').
        -- rewrite <- app_assoc in IH. exact IH.
        -- destruct IH as [IH|(ks' & M1 & M2 & M3)]; [now left|right]. exists ks'. split; [exact M1|]. split; [|exact M3].
           intros k Hk. specialize (M2 k Hk). cbn [app In] in M2. rewrite in_app_iff in *. cbn [In]. tauto.
      * right. exists (nth m l 0 :: ks). split; [constructor; [exact Nk|apply (di_nd _ _ _ D)]|]. split.
        -- intros k [<-|Hk]; rewrite in_app_iff; cbn [In]; auto.
        -- cbn [length]. lia.
Qed.
End Hash.

Lemma firsts_ext a b l : (forall x, In x a <-> In x b) -> firsts a l = firsts b l.
Proof.
  revert a b; induction l as [|x l IH]; intros a b H; [reflexivity|]. cbn [firsts].
  assert (E : inb x a = inb x b). { pose proof (inb_spec x a). pose proof (inb_spec x b). pose proof (H x). destruct (inb x a), (inb x b); tauto || (symmetry; tauto). }
  rewrite E. destruct (inb x b); [now apply IH|]. f_equal. apply IH. intros y. cbn [In]. now rewrite H.
Qed.

Lemma uniq_nested_spec mp l : ~ In 0 l -> forall fuel s m res lr,
  srep s l -> srep res lr -> ~ In 0 lr -> at_ s (Z.of_nat m) -> (m <= length l)%nat -> (length l - m < fuel)%nat ->
  match uniq_nested mp fuel s res with
  | Some r => srep r (lr ++ firsts lr (skipn m l))
  | None => exists n, mp n = false
  end.
Proof.
  intros Nz. induction fuel as [|f IH]; intros s m res lr H Hr Nr A Hm Hf; [lia|]. cbn [uniq_nested].
  destruct (fetch_at s l m H Nz A) as [F1 F2]. destruct (Nat.eq_dec m (length l)) as [E|E].
  - destruct (F2 E) as (s' & -> & H'). cbn [Z.eqb]. rewrite skipn_all2 by lia. cbn [firsts]. now rewrite app_nil_r.
  - destruct F1 as (s' & -> & H' & A' & N0); [lia|]. destruct (Z.eqb_spec (nth m l 0) 0); [contradiction|].
    rewrite (skipn_nth l m) by lia. cbn [firsts].
    destruct (srep_rewind res lr Hr) as [Hr0 Ar0].
    destruct (find_row_spec lr (nth m l 0) Nr (slots res) (rewind_resultset res) 0 Hr0 Ar0) as (res' & b & -> & Hr' & B).
    { lia. } { pose proof (slots_len res lr Hr). lia. }
    rewrite skipn_O in B. assert (Eb : inb (nth m l 0) lr = b). { pose proof (inb_spec (nth m l 0) lr). destruct (inb _ lr), b; tauto || (symmetry; tauto). }
    rewrite Eb. destruct b.
    + apply (IH s' (S m) res' lr); auto; lia.
    + destruct (srep_append mp res' lr (nth m l 0) Hr') as [[E1 R1]|[E1 R1]]; destruct (append_resultset mp res' (nth m l 0)) as [res2 e]; cbn [fst snd] in *; subst e; cbn [Z.eqb]; [|exact R1].
      specialize (IH s' (S m) res2 (lr ++ [nth m l 0]) H' R1).
      assert (Nz2 : ~ In 0 (lr ++ [nth m l 0])) by (rewrite in_app_iff; cbn [In]; intros [Q|[Q|[]]]; auto).
      specialize (IH Nz2 A' ltac:(lia) ltac:(lia)). destruct (uniq_nested mp f s' res2); [|exact IH].
      rewrite <- app_assoc in IH. cbn [app] in IH. erewrite firsts_ext in IH; [exact IH|].
      intros x. rewrite in_app_iff. cbn [In]. tauto.
Qed.

(** Meaning of [firsts]. *)
Lemma firsts_in seen l x : In x (firsts seen l) <-> In x l /\ ~ In x seen.
Proof.
  revert seen; induction l as [|y l IH]; intros seen; cbn [firsts]; [cbn; tauto|].
  pose proof (inb_spec y seen). destruct (inb y seen); cbn [In]; rewrite IH; cbn [In]; split.
  - tauto.
  - intros [[<-|Q] N]; [tauto|tauto].
  - intros [<-|[Q N]]; [|tauto]. split; [now left|]. intros Z. apply H in Z. discriminate.
  - intros [[<-|Q] N]; [now left|]. destruct (Z.eq_dec y x) as [->|]; [now left|right; tauto].
Qed.
Lemma firsts_nodup seen l : NoDup (firsts seen l).
Proof.
  revert seen; induction l as [|y l IH]; intros seen; cbn [firsts]; [constructor|].
  destruct (inb y seen); [apply IH|]. constructor; [|apply IH]. rewrite firsts_in. cbn [In]. tauto.
Qed.
