(** C28, C29: result pages and result set operations. *)
From Coq Require Import ZArith List Lia Bool Znumtheory.
From Verif Require Import Base DhashModel DhashProofs ResultModel ResultProofs.
Import ListNotations.
Open Scope Z_scope.

(** C28. [src]: the rows the underlying query delivers, [rowlimit]: 0 for no limit.
    If the query is made, its count and every series of wg_fetch calls are the
    first rows in order, then NULL for ever. It is made unless an allocation fails. *)
Theorem C28_prefetch : forall mp rowlimit src,
  0 <= rowlimit < 2 ^ 64 -> ~ In 0 src -> Z.of_nat (length src) < 2 ^ 64 ->
  let want := firstn (if rowlimit =? 0 then length src else Z.to_nat rowlimit) src in
  match prefetch mp rowlimit src with
  | Some (h, c, cnt) =>
      cnt = Z.of_nat (length want) /\ forall n, fetches n h c = firstn n (want ++ repeat 0 n)
  | None => exists n, mp n = false
  end.
Proof.
  intros mp lim src Hl Nz Big. cbv zeta. unfold prefetch.
  assert (W : firstn (if lim =? 0 then length src else Z.to_nat lim) src = limit lim src).
  { unfold limit. destruct (lim =? 0); [apply firstn_all|reflexivity]. }
  rewrite W. pose proof (collect_spec mp lim src ltac:(lia) (Build hempty None None PAGESIZE 0) []) as S.
  cbn [bheap bfirst bcur bi bcount app length] in S.
  specialize (S hrep_empty eq_refl ltac:(lia) Big).
  destruct (collect mp lim src _) as [b|]; [|exact S]. destruct S as [S C]. split; [exact C|].
  intros n. rewrite (fetches_spec _ _ _ _ _ S) with (m := 0%nat); [rewrite skipn_O; reflexivity| |eapply cat_first; eauto|lia].
  unfold limit. destruct (lim =? 0); [exact Nz|]. intros Q. apply Nz. rewrite <- (firstn_skipn (Z.to_nat lim) src). apply in_or_app. now left.
Qed.
Print Assumptions C28_prefetch.

(** 130 rows on three pages, and a limit of exactly one page. *)
Definition ex_rows : list Z := map (fun i => 8 * (Z.of_nat i + 100)) (seq 0 130).
Example C28_example :
  match prefetch (fun _ => true) 0 ex_rows with
  | Some (h, c, cnt) => (npages h, cnt, fetches 132 h c) = (3, 130, ex_rows ++ [0; 0])
  | None => False end /\
  match prefetch (fun _ => true) 63 ex_rows with
  | Some (h, c, cnt) => (npages h, cnt, fetches 65 h c) = (1, 63, firstn 63 ex_rows ++ [0; 0])
  | None => False end.
Proof. vm_compute. auto. Qed.

(** The pages of a result set given to a query (Db/dbquery.c l.2032-2034). *)
Theorem C28_resultset_pages : forall s l, srep s l -> ~ In 0 l ->
  forall n, fetches n (sheap s) (Cur (first s) 0) = firstn n (l ++ repeat 0 n).
Proof.
  intros s l [S C] Nz n. rewrite (fetches_spec _ _ _ _ _ S Nz) with (m := 0%nat); [rewrite skipn_O; reflexivity|eapply cat_first; eauto|lia].
Qed.
Print Assumptions C28_resultset_pages.

(** Result sets made by create and append; [l] are the rows in order of appending. *)
Fixpoint append_all (mp : Z -> bool) (s : rset) (l : list Z) : option rset :=
  match l with
  | [] => Some s
  | x :: r => let '(s', e) := append_resultset mp s x in if e =? 0 then append_all mp s' r else None
  end.
Lemma append_all_rep mp l : forall s l0, srep s l0 -> (forall n, mp n = true) -> exists s', append_all mp s l = Some s' /\ srep s' (l0 ++ l).
Proof.
  induction l as [|x l IH]; intros s l0 H M; cbn [append_all]; [exists s; rewrite app_nil_r; auto|].
  destruct (srep_append mp s l0 x H) as [[E R]|[E (n & Q)]]; [|rewrite M in Q; discriminate].
  destruct (append_resultset mp s x) as [s' e]. cbn [fst snd] in *. subst e. cbn [Z.eqb].
  destruct (IH s' _ R M) as (s2 & E2 & R2). exists s2. rewrite <- app_assoc in R2. auto.
Qed.
Example C28_resultset_example : exists s, append_all (fun _ => true) create_resultset ex_rows = Some s /\ srep s ex_rows /\ ~ In 0 ex_rows.
Proof.
  destruct (append_all_rep (fun _ => true) ex_rows _ [] srep_create (fun _ => eq_refl)) as (s & E & R).
  exists s. split; [exact E|]. split; [exact R|]. intros Q. unfold ex_rows in Q. apply in_map_iff in Q. destruct Q as (i & E' & _). lia.
Qed.

(** The content of a set is determined by the pages. *)
Lemma filter_nodup (f : Z -> bool) l : NoDup l -> NoDup (filter f l).
Proof. apply NoDup_filter. Qed.

(** C29, intersection: whichever algorithm is taken, a returned set holds exactly
    the common rows, without duplicates if the inputs have none; its rows are
    rows of one of the inputs in that input's order. *)
Theorem C29_intersection : forall mp sa sb la lb r,
  srep sa la -> srep sb lb -> ~ In 0 la -> ~ In 0 lb ->
  intersect_resultset mp sa sb = Some r ->
  exists l, srep r l /\
    (forall x, In x l <-> In x la /\ In x lb) /\
    (NoDup la -> NoDup lb -> NoDup l) /\
    (l = filter (fun x => inb x lb) la \/ l = filter (fun x => inb x la) lb).
Proof.
  intros mp sa sb la lb r Ha Hb Na Nb E. unfold intersect_resultset in E.
  assert (Fin : forall l1 l2 l, srep r l -> l = filter (fun x => inb x l2) l1 ->
     (forall x, In x l <-> In x l1 /\ In x l2) /\ (NoDup l1 -> NoDup l)).
  { intros l1 l2 l _ ->. split; [|apply NoDup_filter]. intros x. rewrite filter_In, inb_spec. tauto. }
  destruct (_ <? 200).
  - destruct (srep_rewind sa la Ha) as [Ha0 A0].
    pose proof (nested_spec mp la lb Na Nb (slots sa) (rewind_resultset sa) sb create_resultset 0 [] Ha0 Hb srep_create A0 ltac:(lia)) as S.
    rewrite E in S. specialize (S ltac:(pose proof (slots_len sa la Ha); lia)). cbn [app] in S. rewrite skipn_O in S.
    eexists. split; [exact S|]. destruct (Fin la lb _ S eq_refl) as [F1 F2]. split; [exact F1|]. split; [auto|now left].
  - assert (H : forall sx sy lx ly, srep sx lx -> srep sy ly -> ~ In 0 lx -> ~ In 0 ly ->
      match wg_dhash_init (res_count sx) with
      | None => None
      | Some t => match hash_rows (slots sx) (rewind_resultset sx) t with
        | None => None | Some t' => hash_match mp (slots sy) (rewind_resultset sy) t' create_resultset end
      end = Some r -> exists l, srep r l /\ l = filter (fun x => inb x lx) ly).
    { intros sx sy lx ly Hx Hy Nx Ny E'. unfold wg_dhash_init in E'.
      destruct (Z.eqb_spec (dhash_size (res_count sx)) 0) as [|Nz]; [discriminate|].
      assert (Rg : 0 <= res_count sx <= 2147483645).
      { rewrite (sr_cnt _ _ Hx) in *. unfold dhash_size in Nz. destruct (Z.ltb_spec 2147483645 (len lx)); [lia|lia]. }
      destruct (dhash_size_ok _ Rg) as [P R].
      destruct (srep_rewind sx lx Hx) as [Hx0 A0]. destruct (srep_rewind sy ly Hy) as [Hy0 B0].
      pose proof (hash_rows_spec _ P R lx Nx (slots sx) (rewind_resultset sx) 0 _ [] Hx0 A0 ltac:(lia) ltac:(pose proof (slots_len sx lx Hx); lia) (DI_empty _)) as S.
      destruct (hash_rows _ _ _) as [t'|]; [|discriminate]. destruct S as (ks & D & M).
      pose proof (hash_match_spec _ R mp t' ks D ly Ny (slots sy) (rewind_resultset sy) 0 create_resultset [] Hy0 srep_create B0 ltac:(lia) ltac:(pose proof (slots_len sy ly Hy); lia)) as S.
      rewrite E' in S. cbn [app] in S. rewrite skipn_O in S. eexists. split; [exact S|].
      apply filter_ext. intros x. pose proof (inb_spec x ks). pose proof (inb_spec x lx). pose proof (M x) as Mx. rewrite skipn_O in Mx. cbn [In] in Mx.
      destruct (inb x ks), (inb x lx); tauto || (symmetry; tauto). }
    destruct (res_count sb <? res_count sa).
    + destruct (H sb sa lb la Hb Ha Nb Na E) as (l & R & El). exists l. split; [exact R|].
      destruct (Fin la lb l R El) as [F1 F2]. split; [exact F1|]. split; [auto|now left].
    + destruct (H sa sb la lb Ha Hb Na Nb E) as (l & R & El). exists l. split; [exact R|].
      destruct (Fin lb la l R El) as [F1 F2]. split; [intros x; rewrite F1; tauto|]. split; [auto|now right].
Qed.
Print Assumptions C29_intersection.

(** C29, duplicates: each row once, at the place of its first occurrence. *)
Definition keep_first (l : list Z) : list Z :=
  rev (fold_left (fun acc x => if in_dec Z.eq_dec x acc then acc else x :: acc) l []).
Lemma keep_first_aux l : forall acc, fold_left (fun acc x => if in_dec Z.eq_dec x acc then acc else x :: acc) l acc = rev (firsts acc l) ++ acc.
Proof.
  induction l as [|x l IH]; intros acc; [reflexivity|]. cbn [fold_left firsts]. unfold inb. rewrite IH.
  destruct (in_dec Z.eq_dec x acc); [reflexivity|]. cbn [rev]. now rewrite <- app_assoc.
Qed.
Lemma keep_first_firsts l : keep_first l = firsts [] l.
Proof. unfold keep_first. rewrite keep_first_aux, app_nil_r. apply rev_involutive. Qed.

Theorem C29_unique : forall mp s l r, srep s l -> ~ In 0 l ->
  unique_resultset mp s = Some r ->
  srep r (keep_first l) /\ NoDup (keep_first l) /\ (forall x, In x (keep_first l) <-> In x l).
Proof.
  intros mp s l r H Nz E. rewrite keep_first_firsts. split; [|split; [apply firsts_nodup|intros x; rewrite firsts_in; cbn; tauto]].
  unfold unique_resultset in E. destruct (srep_rewind s l H) as [H0 A0]. pose proof (slots_len s l H) as Sl.
  destruct (_ <? 20).
  - pose proof (uniq_nested_spec mp l Nz (slots s) _ 0 create_resultset [] H0 srep_create (fun x => x) A0 ltac:(lia) ltac:(lia)) as S.
    rewrite E in S. cbn [app] in S. rewrite skipn_O in S. exact S.
  - unfold wg_dhash_init in E. destruct (Z.eqb_spec (dhash_size (res_count s)) 0) as [|Nd]; [discriminate|].
    assert (Rg : 0 <= res_count s <= 2147483645).
    { rewrite (sr_cnt _ _ H) in *. unfold dhash_size in Nd. destruct (Z.ltb_spec 2147483645 (len l)); lia. }
    destruct (dhash_size_ok _ Rg) as [P R].
    pose proof (uniq_hash_spec _ P R mp l Nz (slots s) _ 0 _ [] create_resultset [] H0 srep_create A0 ltac:(lia) ltac:(lia) (DI_empty _)) as S.
    rewrite E in S. cbn [app] in S. rewrite skipn_O in S. exact S.
Qed.
Print Assumptions C29_unique.

(** Sets of up to 201326611 rows: both operations succeed when memory suffices. *)
Theorem C29_succeeds : forall mp sa sb la lb,
  srep sa la -> srep sb lb -> ~ In 0 la -> ~ In 0 lb -> (forall n, mp n = true) ->
  Z.of_nat (length la) <= 201326611 -> Z.of_nat (length lb) <= 201326611 ->
  intersect_resultset mp sa sb <> None /\ unique_resultset mp sa <> None.
Proof.
  intros mp sa sb la lb Ha Hb Na Nb M La Lb.
  assert (Mf : ~ exists n, mp n = false) by (intros (n & Q); rewrite M in Q; discriminate).
  split.
  - unfold intersect_resultset. destruct (_ <? 200).
    + destruct (srep_rewind sa la Ha) as [Ha0 A0].
      pose proof (nested_spec mp la lb Na Nb (slots sa) (rewind_resultset sa) sb create_resultset 0 [] Ha0 Hb srep_create A0 ltac:(lia) ltac:(pose proof (slots_len sa la Ha); lia)) as S.
      destruct (nested _ _ _ _ _); [discriminate|tauto].
    + assert (H : forall sx sy lx ly, srep sx lx -> srep sy ly -> ~ In 0 lx -> ~ In 0 ly -> len lx <= 201326611 ->
      match wg_dhash_init (res_count sx) with
      | None => None
      | Some t => match hash_rows (slots sx) (rewind_resultset sx) t with
        | None => None | Some t' => hash_match mp (slots sy) (rewind_resultset sy) t' create_resultset end
      end <> None).
      { intros sx sy lx ly Hx Hy Nx Ny Lx. unfold wg_dhash_init. pose proof (sr_cnt _ _ Hx) as Cx.
        destruct (dhash_size_ok (res_count sx) ltac:(lia)) as [P R]. pose proof (dhash_size_cap (res_count sx) ltac:(lia)) as Cap.
        destruct (Z.eqb_spec (dhash_size (res_count sx)) 0) as [|_]; [lia|].
        destruct (srep_rewind sx lx Hx) as [Hx0 A0]. destruct (srep_rewind sy ly Hy) as [Hy0 B0].
        pose proof (hash_rows_spec _ P R lx Nx (slots sx) (rewind_resultset sx) 0 _ [] Hx0 A0 ltac:(lia) ltac:(pose proof (slots_len sx lx Hx); lia) (DI_empty _)) as S.
        destruct (hash_rows _ _ _) as [t'|].
        - destruct S as (ks & D & _).
          pose proof (hash_match_spec _ R mp t' ks D ly Ny (slots sy) (rewind_resultset sy) 0 create_resultset [] Hy0 srep_create B0 ltac:(lia) ltac:(pose proof (slots_len sy ly Hy); lia)) as S.
          destruct (hash_match _ _ _ _ _); [discriminate|tauto].
        - destruct S as (ks & S1 & S2 & S3). cbn [app] in S2. rewrite skipn_O in S2. pose proof (NoDup_incl_length S1 S2). lia. }
      destruct (res_count sb <? res_count sa); [apply (H sb sa lb la)|apply (H sa sb la lb)]; assumption.
  - unfold unique_resultset. destruct (srep_rewind sa la Ha) as [H0 A0]. pose proof (slots_len sa la Ha) as Sl.
    destruct (_ <? 20).
    + pose proof (uniq_nested_spec mp la Na (slots sa) _ 0 create_resultset [] H0 srep_create (fun x => x) A0 ltac:(lia) ltac:(lia)) as S.
      destruct (uniq_nested _ _ _ _); [discriminate|tauto].
    + unfold wg_dhash_init. pose proof (sr_cnt _ _ Ha) as Cx.
      destruct (dhash_size_ok (res_count sa) ltac:(lia)) as [P R]. pose proof (dhash_size_cap (res_count sa) ltac:(lia)) as Cap.
      destruct (Z.eqb_spec (dhash_size (res_count sa)) 0) as [|_]; [lia|].
      pose proof (uniq_hash_spec _ P R mp la Na (slots sa) _ 0 _ [] create_resultset [] H0 srep_create A0 ltac:(lia) ltac:(lia) (DI_empty _)) as S.
      destruct (uniq_hash _ _ _ _ _); [discriminate|]. destruct S as [S|(ks & S1 & S2 & S3)]; [tauto|].
      cbn [app] in S2. rewrite skipn_O in S2. pose proof (NoDup_incl_length S1 S2). lia.
Qed.
Print Assumptions C29_succeeds.

(** Both algorithms on concrete sets: 3 and 4 rows (nested loops), 30 and 40 rows (hash). *)
Definition mk (l : list Z) : rset := match append_all (fun _ => true) create_resultset l with Some s => s | None => create_resultset end.
Definition rows_of (o : option rset) : list Z :=
  match o with Some s => fetches (Z.to_nat (res_count s)) (sheap s) (Cur (first s) 0) | None => [] end.
Example C29_hyp l : srep (mk l) l.
Proof.
  unfold mk. destruct (append_all_rep (fun _ => true) l _ [] srep_create (fun _ => eq_refl)) as (s & -> & R). exact R.
Qed.
Definition ex_a : list Z := map (fun i => 16 * (Z.of_nat i + 1)) (seq 0 30).
Definition ex_b : list Z := map (fun i => 24 * (Z.of_nat i + 1)) (seq 0 40).
Example C29_example :
  rows_of (intersect_resultset (fun _ => true) (mk [8; 16; 24]) (mk [16; 32; 8; 40])) = [8; 16] /\
  rows_of (intersect_resultset (fun _ => true) (mk ex_a) (mk ex_b)) = [48; 96; 144; 192; 240; 288; 336; 384; 432; 480] /\
  rows_of (unique_resultset (fun _ => true) (mk [8; 16; 8; 24; 16])) = [8; 16; 24] /\
  rows_of (unique_resultset (fun _ => true) (mk (ex_a ++ ex_b))) = ex_a ++ filter (fun x => negb (inb x ex_a)) ex_b.
Proof. vm_compute. auto. Qed.
