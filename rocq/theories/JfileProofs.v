(** Proofs about the files of the journal. *)
From Coq Require Import ZArith List Bool Lia.
From Verif Require Import JfileModel.
Import ListNotations.
Open Scope Z_scope.

Lemma name_eqb_eq : forall a b, name_eqb a b = true <-> a = b.
Proof.
  intros [k|k i] [l|l j]; cbn [name_eqb]; split; intros E; try discriminate E.
  - apply Z.eqb_eq in E. congruence.
  - injection E as ->. apply Z.eqb_refl.
  - apply andb_true_iff in E. destruct E as [A B]. apply Z.eqb_eq in A. apply Nat.eqb_eq in B. congruence.
  - injection E as -> ->. apply andb_true_iff. split; [apply Z.eqb_refl|apply Nat.eqb_refl].
Qed.
Lemma set_dir_same : forall d n v, set_dir d n v n = v.
Proof. intros d n v. unfold set_dir. now rewrite (proj2 (name_eqb_eq n n) eq_refl). Qed.
Lemma set_dir_other : forall d n v m, m <> n -> set_dir d n v m = d m.
Proof. intros d n v m N. unfold set_dir. destruct (name_eqb m n) eqn:E; [apply name_eqb_eq in E; contradiction|reflexivity]. Qed.
Lemma set_data_same : forall d i c, set_data d i c i = c.
Proof. intros d i c. unfold set_data. now rewrite Nat.eqb_refl. Qed.
Lemma set_data_other : forall d i c j, j <> i -> set_data d i c j = d j.
Proof. intros d i c j N. unfold set_data. apply Nat.eqb_neq in N. now rewrite N. Qed.

(** ** The number of a backup *)
Lemma backup_loop_spec : forall there mt n i oldest logidx, (forall j, there j = true -> 0 < mt j) ->
  (logidx <= i)%nat -> (i = 0%nat -> oldest = 0) -> (0 < i -> logidx < i)%nat -> ((0 < i)%nat -> oldest = mt logidx) ->
  (forall j, (j < i)%nat -> there j = true /\ mt logidx <= mt j) -> (0 < i + n)%nat ->
  let r := backup_loop there mt n i oldest logidx in
  (r < i + n)%nat /\ (forall j, (j < r)%nat -> there j = true) /\
  (there r = false \/ (there r = true /\ forall j, (j < i + n)%nat -> there j = true /\ mt r <= mt j)).
Proof.
  intros there mt n. induction n as [|n IH]; intros i oldest logidx Pos Li L0 Lp Lo A Ln; cbn [backup_loop].
  - cbv zeta. rewrite Nat.add_0_r in *. split; [apply Lp; lia|]. split; [intros j Lj; apply A; lia|].
    right. split; [apply A; apply Lp; lia|exact A].
  - destruct (there i) eqn:T; cbn [negb].
    + replace (i + S n)%nat with (S i + n)%nat by lia.
      destruct ((oldest =? 0) || (mt i <? oldest)) eqn:C.
      * apply IH; [exact Pos|lia|discriminate|lia|intros _; reflexivity| |lia]. intros j Lj.
        destruct (Nat.eq_dec j i) as [->|N]; [split; [exact T|lia]|]. destruct (A j ltac:(lia)) as [B D]. split; [exact B|].
        specialize (Lo ltac:(lia)). assert (P : 0 < mt logidx) by (apply Pos; apply A; apply Lp; lia). apply orb_true_iff in C. destruct C as [C|C]; [apply Z.eqb_eq in C; lia|apply Z.ltb_lt in C; lia].
      * apply orb_false_iff in C. destruct C as [C1 C2]. apply Z.eqb_neq in C1. apply Z.ltb_ge in C2.
        destruct (Nat.eq_dec i 0) as [->|N]; [exfalso; apply C1; now apply L0|].
        apply IH; [exact Pos|lia|discriminate|lia| | |lia].
        -- intros _. apply Lo. lia.
        -- intros j Lj. destruct (Nat.eq_dec j i) as [->|N']; [split; [exact T|]; specialize (Lo ltac:(lia)); lia|]. apply A. lia.
    + cbv zeta. split; [lia|]. split; [intros j Lj; now apply A|]. now left.
Qed.

(** ** The journal holds what was logged *)
(** What the journal has to hold, what handles keep. *)
Definition holds (fs : files) (h : hdr) (pend : list Z) : Prop := exists i, dir fs (Journal (h_key h)) = Some i /\ data fs i = magic ++ pend.
Definition handle_ok (fs : files) (h : hdr) (l : ld) : Prop :=
  match ld_fd l with
  | NoFd => True
  | Fd i => ld_serial l <= h_serial h /\ (ld_serial l = h_serial h -> dir fs (Journal (h_key h)) = Some i)
  | Closed => False
  end.
Definition wf_files (fs : files) : Prop := forall n i, dir fs n = Some i -> (i < next fs)%nat.
Definition good (fs : files) (h : hdr) (lds : nat -> ld) (pend : list Z) : Prop :=
  wf_files fs /\ (h_active h = true \/ h_dirty h = true -> holds fs h pend) /\ (h_dirty h = false -> pend = []) /\ (forall n, handle_ok fs h (lds n)).

Lemma magic_ok : forall r, check_journal (magic ++ r) = true.
Proof. intros r. unfold check_journal. cbn [magic app firstn]. destruct (list_eq_dec Z.eq_dec _ _) as [_|N]; [reflexivity|now contradiction N]. Qed.

Lemma start_good : forall fs h lds pend y, h_active h = false -> good fs h lds pend ->
  let '(fs', h', r) := wg_start_logging fs h y in
  good fs' h' lds pend /\ h_key h' = h_key h /\ h_dirty h' = h_dirty h /\ (r = 0 <-> h_active h' = true).
Proof.
  intros fs h lds pend y A (W & G1 & G2 & G3). unfold wg_start_logging. rewrite A. unfold open_journal. cbn [andb].
  destruct (h_dirty h) eqn:D; cbn [andb negb].
  - destruct (y_open y); cbn [negb].
    2:{ rewrite D. split; [|repeat split; trivial; [intros X; discriminate X|intros X; rewrite A in X; discriminate X]]. split; [exact W|]. split; [intros _; apply G1; now right|]. split; [intros X; rewrite D in X; discriminate X|exact G3]. }
    destruct (G1 (or_intror eq_refl)) as (i & E1 & E2). rewrite E1, D, E2, magic_ok. cbn [negb h_key h_dirty h_active].
    split; [|repeat split; trivial]. split; [exact W|]. split; [intros _; exists i; split; assumption|]. split; [exact G2|exact G3].
  - assert (P : pend = []) by now apply G2. subst pend.
    destruct (dir fs (Journal (h_key h))) as [i|] eqn:J.
    + unfold backup_journal. destruct (y_rename y); cbn [negb].
      2:{ split; [|repeat split; trivial; [intros X; discriminate X|intros X; rewrite A in X; discriminate X]]. split; [exact W|]. split; [rewrite D; exact G1|]. split; [intros _; reflexivity|exact G3]. }
      set (idx := backup_loop _ _ _ _ _ _). set (d := set_dir (set_dir (dir fs) (Journal (h_key h)) None) (Backup (h_key h) idx) (Some i)).
      assert (Wd : forall n j, d n = Some j -> (j < next fs)%nat).
      { intros n j E. unfold d, set_dir in E. destruct (name_eqb n (Backup _ _)); [injection E as <-; exact (W _ _ J)|]. destruct (name_eqb n _); [discriminate E|exact (W _ _ E)]. }
      assert (Dn : d (Journal (h_key h)) = None) by (unfold d; rewrite set_dir_other by discriminate; apply set_dir_same).
      assert (Old : forall n, handle_ok (FS d (data fs) (next fs)) (H (h_key h) (h_active h) (h_dirty h) (h_serial h + 1)) (lds n) /\ (ld_fd (lds n) <> NoFd -> ld_serial (lds n) <= h_serial h)).
      { intros n. specialize (G3 n). unfold handle_ok in *. cbn [h_serial]. destruct (ld_fd (lds n)); [split; [trivial|congruence]| |contradiction].
        destruct G3 as [L _]. split; [split; [lia|intros X; lia]|intros _; exact L]. }
      cbn [h_key h_dirty h_serial h_active dir data next].
      destruct (y_open y); cbn [negb].
      2:{ rewrite D, A in *. cbn [h_key h_dirty h_active]. split; [|repeat split; trivial; [intros X; discriminate X|intros X; discriminate X]].
          split; [exact Wd|]. split; [intros [X|X]; discriminate X|]. split; [reflexivity|]. intros n. apply Old. }
      rewrite Dn. cbn [h_key h_dirty h_serial h_active dir data next]. rewrite D. cbn [negb].
      assert (Wn : forall (c : nat -> list Z), wf_files (FS (set_dir d (Journal (h_key h)) (Some (next fs))) c (S (next fs)))).
      { intros c n j E. cbn [dir next] in *. unfold set_dir in E. destruct (name_eqb n (Journal (h_key h))); [injection E as <-; lia|]. specialize (Wd n j E). lia. }
      destruct (Nat.ltb_spec (y_written y) 4) as [Lw|Lw]; cbn [h_key h_dirty h_active].
      * rewrite A. split; [|repeat split; trivial; [intros X; discriminate X|intros X; discriminate X]]. split; [apply Wn|]. split; [intros [X|X]; discriminate X|]. split; [reflexivity|].
        intros n. destruct (Old n) as [O1 O2]. unfold handle_ok in *. cbn [h_serial h_key dir] in *. destruct (ld_fd (lds n)); trivial. specialize (O2 ltac:(discriminate)). split; [lia|]. intros X. lia.
      * split; [|repeat split; trivial]. split; [apply Wn|]. split.
        { intros _. exists (next fs). cbn [dir data h_key]. rewrite set_dir_same, set_data_same, app_nil_r. split; [reflexivity|]. apply firstn_all2. exact Lw. }
        split; [reflexivity|]. intros n. destruct (Old n) as [O1 O2]. unfold handle_ok in *. cbn [h_serial h_key dir] in *. destruct (ld_fd (lds n)); trivial. specialize (O2 ltac:(discriminate)). split; [lia|]. intros X. lia.
    + cbn [negb]. destruct (y_open y); cbn [negb].
      2:{ split; [|repeat split; trivial; [intros X; discriminate X|intros X; rewrite A in X; discriminate X]]. split; [exact W|]. split; [rewrite D; exact G1|]. split; [intros _; reflexivity|exact G3]. }
      rewrite J. cbn [h_key h_dirty h_serial h_active dir data next]. rewrite D. cbn [negb].
      assert (Wn : forall (c : nat -> list Z), wf_files (FS (set_dir (dir fs) (Journal (h_key h)) (Some (next fs))) c (S (next fs)))).
      { intros c n j E. cbn [dir next] in *. unfold set_dir in E. destruct (name_eqb n (Journal (h_key h))); [injection E as <-; lia|]. specialize (W n j E). lia. }
      assert (Hs : forall n a, handle_ok (FS (set_dir (dir fs) (Journal (h_key h)) (Some (next fs))) (set_data (set_data (data fs) (next fs) []) (next fs) (firstn (y_written y) magic)) (S (next fs))) (H (h_key h) a false (h_serial h)) (lds n)).
      { intros n a. specialize (G3 n). unfold handle_ok in *. cbn [h_serial h_key dir]. destruct (ld_fd (lds n)); trivial. destruct G3 as [L E]. split; [exact L|]. intros X. specialize (E X). rewrite J in E. discriminate E. }
      destruct (Nat.ltb_spec (y_written y) 4) as [Lw|Lw]; cbn [h_key h_dirty h_active].
      * rewrite ?A. split; [|repeat split; trivial; [intros X; discriminate X|intros X; congruence]]. split; [apply Wn|]. split; [intros [X|X]; congruence|]. split; [reflexivity|].
        intros n. specialize (Hs n (h_active h)). unfold handle_ok in *. cbn [h_serial h_key] in *. exact Hs.
      * split; [|repeat split; trivial]. split; [apply Wn|]. split.
        { intros _. exists (next fs). cbn [dir data h_key]. rewrite set_dir_same, set_data_same, app_nil_r. split; [reflexivity|]. apply firstn_all2. exact Lw. }
        split; [reflexivity|]. intros n. apply Hs.
Qed.

(** What has to be in the journal after a call. *)
Definition after (s : st) (pend : list Z) (o : op) (r : Z) : list Z :=
  match o with
  | O_log _ _ buf => if r =? 0 then pend ++ buf else pend
  | O_dump _ _ => if h_active (s_hdr s) then [] else pend
  | O_replay _ a b c => if a && b && c then [] else pend
  | O_import _ _ => if r <? -1 then [] else if r =? 0 then [] else pend
  | _ => pend
  end.
(** Entries are written in full; no handle has a descriptor open when a dump is imported. *)
Definition proper (s : st) (o : op) : Prop := match o with O_log _ y buf => (length buf <= y_written y)%nat | O_import _ _ => forall n, ld_fd (s_ld s n) = NoFd | _ => True end.
Definition sgood (s : st) (pend : list Z) : Prop := good (s_fs s) (s_hdr s) (s_ld s) pend.

Lemma step_good : forall s pend o, sgood s pend -> proper s o -> let '(s', r) := step s o in sgood s' (after s pend o r).
Proof.
  intros s pend o G P. unfold sgood in *. destruct s as [fs h lds ds]. cbn [s_fs s_hdr s_ld] in *. destruct o as [y| |n y buf|n|n|y ok|y d|y a b c]; cbn [step s_fs s_hdr s_ld s_dumps after].
  - destruct (h_active h) eqn:A.
    + unfold wg_start_logging. rewrite A. cbn [s_fs s_hdr s_ld]. exact G.
    + pose proof (start_good fs h lds pend y A G) as X. destruct (wg_start_logging fs h y) as [[fs' h'] r]. exact (proj1 X).
  - unfold wg_stop_logging. destruct (h_active h) eqn:A; cbn [s_fs s_hdr s_ld]; [|exact G]. destruct G as (W & G1 & G2 & G3).
    split; [exact W|]. split; [cbn [h_active h_dirty]; intros [X|X]; [discriminate X|]; apply G1; now right|]. split; [exact G2|exact G3].
  - destruct (h_active h) eqn:A; [|exact G]. destruct G as (W & G1 & G2 & G3). destruct (G1 (or_introl A)) as (i & J & C). cbn [proper] in P.
    assert (New : forall l, handle_ok fs h l -> forall m, handle_ok fs h (if Nat.eqb m n then l else lds m)) by (intros l Hl m; destruct (Nat.eqb m n); [exact Hl|apply G3]).
    unfold write_log_buffer.
    assert (X : forall l0, ld_fd l0 = NoFd ->
      let l := match ld_fd l0 with NoFd => match snd (open_journal fs h y false) with Some i => if check_journal (data fs i) then LD (Fd i) (h_serial h) else l0 | None => l0 end | _ => l0 end in
      ld_fd l = NoFd \/ l = LD (Fd i) (h_serial h)).
    { intros l0 E0. rewrite E0. unfold open_journal. cbn [andb negb]. destruct (y_open y); cbn [negb snd]; [|left; exact E0]. rewrite J. cbn [snd]. rewrite C, magic_ok. right. reflexivity. }
    set (l0 := match ld_fd (lds n) with NoFd => lds n | _ => if ld_serial (lds n) =? h_serial h then lds n else LD NoFd (ld_serial (lds n)) end).
    assert (L0 : ld_fd l0 = NoFd \/ l0 = LD (Fd i) (h_serial h)).
    { unfold l0. pose proof (G3 n) as Hn. unfold handle_ok in Hn. destruct (lds n) as [f sr]. cbn [ld_fd ld_serial] in *. destruct f as [|j|]; [left; reflexivity| |contradiction].
      destruct (Z.eqb_spec sr (h_serial h)) as [E|E]; [|left; reflexivity]. right. destruct Hn as [_ Hn]. rewrite (Hn E) in J. injection J as ->. now rewrite E. }
    set (l := match ld_fd l0 with NoFd => match snd (open_journal fs h y false) with Some i => if check_journal (data fs i) then LD (Fd i) (h_serial h) else l0 | None => l0 end | _ => l0 end).
    assert (L1 : ld_fd l = NoFd \/ l = LD (Fd i) (h_serial h)).
    { destruct L0 as [E|E]; [exact (X l0 E)|]. right. unfold l. rewrite E. reflexivity. }
    clearbody l. clear X. destruct L1 as [E| ->].
    + rewrite E. cbn [s_fs s_hdr s_ld]. replace (-1 =? 0) with false by reflexivity. split; [exact W|]. split; [exact G1|]. split; [exact G2|]. apply New. unfold handle_ok. now rewrite E.
    + cbn [ld_fd]. destruct (Nat.ltb_spec (y_written y) (length buf)) as [Lb|Lb]; [lia|]. cbn [s_fs s_hdr s_ld]. replace (0 =? 0) with true by reflexivity.
      split; [exact W|]. split; [|split; [discriminate|]].
      * intros _. exists i. cbn [dir data h_key]. rewrite set_data_same, C, firstn_all2 by exact Lb. split; [exact J|]. now rewrite app_assoc.
      * intros m. assert (Y : handle_ok fs h (if Nat.eqb m n then LD (Fd i) (h_serial h) else lds m)) by (apply New; unfold handle_ok; cbn [ld_fd ld_serial]; split; [lia|intros _; exact J]).
        unfold handle_ok in *. cbn [dir h_key h_serial]. exact Y.
  - destruct G as (W & G1 & G2 & G3). split; [exact W|]. split; [exact G1|]. split; [exact G2|]. intros m. cbn [s_fs s_hdr s_ld]. destruct (Nat.eqb m n); [exact I|apply G3].
  - destruct G as (W & G1 & G2 & G3). split; [exact W|]. split; [exact G1|]. split; [exact G2|]. intros m. cbn [s_fs s_hdr s_ld]. destruct (Nat.eqb m n); [exact I|apply G3].
  - unfold wg_dump. destruct (h_active h) eqn:A; [|cbn [s_fs s_hdr s_ld]; exact G]. destruct G as (W & G1 & G2 & G3).
    assert (G : good fs (H (h_key h) false false (h_serial h)) lds []).
    { split; [exact W|]. split; [intros [X|X]; discriminate X|]. split; [reflexivity|exact G3]. }
    pose proof (start_good fs (H (h_key h) false false (h_serial h)) lds [] y eq_refl G) as X. destruct (wg_start_logging fs _ y) as [[fs' h'] r]. cbn [s_fs s_hdr s_ld]. exact (proj1 X).
  - cbn [proper s_ld] in P. destruct (nth_error ds d) as [dm|]; [|cbn; exact G]. unfold wg_import_dump. destruct G as (W & _ & _ & _).
    assert (G : good fs (H (h_key dm) false false (h_serial dm)) lds []).
    { split; [exact W|]. split; [intros [X|X]; discriminate X|]. split; [reflexivity|]. intros n. unfold handle_ok. now rewrite P. }
    destruct (h_active h); [|exact G]. pose proof (start_good fs (H (h_key dm) false false (h_serial dm)) lds [] y eq_refl G) as X. destruct (wg_start_logging fs _ y) as [[fs' h'] r].
    cbn [s_fs s_hdr s_ld]. destruct (Z.eqb_spec r 0); exact (proj1 X).
  - unfold wg_replay_log. destruct a; cbn [negb andb]; [|exact G]. destruct G as (W & G1 & G2 & G3).
    assert (G : good fs (H (h_key h) false (h_dirty h) (h_serial h)) lds pend).
    { split; [exact W|]. split; [cbn [h_active h_dirty]; intros [X|X]; [discriminate X|apply G1; now right]|]. split; [exact G2|exact G3]. }
    assert (G' : good fs (H (h_key h) false false (h_serial h)) lds []).
    { split; [exact W|]. split; [intros [X|X]; discriminate X|]. split; [reflexivity|exact G3]. }
    destruct b; cbn [negb andb]; [|exact G]. destruct c; cbn [negb]; [|exact G].
    destruct (h_active h) eqn:A; [|exact G']. pose proof (start_good fs (H (h_key h) false false (h_serial h)) lds [] y eq_refl G') as X. destruct (wg_start_logging fs _ y) as [[fs' h'] r]. exact (proj1 X).
Qed.

(** A history and what has to be in the journal after it. *)
Fixpoint history (s : st) (pend : list Z) (ops : list op) : st * list Z :=
  match ops with
  | [] => (s, pend)
  | o :: ops => let '(s', r) := step s o in history s' (after s pend o r) ops
  end.
(** Every call of a history meets the conditions in its state. *)
Fixpoint allowed (s : st) (ops : list op) : Prop := match ops with [] => True | o :: ops => proper s o /\ allowed (fst (step s o)) ops end.
Lemma history_good : forall ops s pend, sgood s pend -> allowed s ops -> let '(s', p) := history s pend ops in sgood s' p.
Proof.
  induction ops as [|o ops IH]; intros s pend G F; cbn [history]; [exact G|]. destruct F as [F1 F2].
  pose proof (step_good s pend o G F1) as X. destruct (step s o) as [s' r]. now apply IH.
Qed.

Lemma start_key : forall fs h y, h_key (snd (fst (wg_start_logging fs h y))) = h_key h.
Proof.
  intros fs h y. unfold wg_start_logging, open_journal, backup_journal. destruct (h_active h); [reflexivity|].
  destruct (h_dirty h) eqn:D; cbn [andb negb].
  - destruct (y_open y); cbn [negb]; [|reflexivity]. destruct (dir fs _); rewrite ?D; cbn [negb]; [destruct (check_journal _)|destruct (check_journal _)]; reflexivity.
  - destruct (dir fs (Journal (h_key h))) eqn:J.
    + destruct (y_rename y); cbn [negb]; [|reflexivity]. destruct (y_open y); cbn [negb]; [|reflexivity]. cbn [h_key h_dirty dir data].
      match goal with |- context [match ?d with Some _ => _ | None => _ end] => destruct d end; rewrite ?D; cbn [negb h_key h_dirty]; rewrite ?D; cbn [negb]; destruct (Nat.ltb _ _); reflexivity.
    + cbn [negb]. destruct (y_open y); cbn [negb]; [|reflexivity]. rewrite J. rewrite D. cbn [negb]. destruct (Nat.ltb _ _); reflexivity.
Qed.
Definition keyed (k : Z) (s : st) : Prop := h_key (s_hdr s) = k /\ Forall (fun d => h_key d = k) (s_dumps s).
Lemma step_key : forall k s o, keyed k s -> keyed k (fst (step s o)).
Proof.
  intros k [fs h lds ds] o [K F]. cbn [s_hdr s_dumps] in *. destruct o as [y| |n y buf|n|n|y ok|y d|y a b c]; cbn [step s_fs s_hdr s_ld s_dumps]; try (split; assumption).
  - pose proof (start_key fs h y) as X. destruct (wg_start_logging fs h y) as [[fs' h'] r]. cbn in X. split; cbn; congruence.
  - unfold wg_stop_logging. destruct (h_active h); split; assumption.
  - destruct (h_active h); [|split; assumption]. unfold write_log_buffer.
    match goal with |- context [match ld_fd ?l with _ => _ end] => match l with match _ with _ => _ end => destruct (ld_fd l) end end; [split; assumption| |].
    + destruct (Nat.ltb _ _); split; assumption.
    + destruct (y_reuse y); split; assumption.
  - unfold wg_dump.
    assert (Fd : forall o : bool, Forall (fun d => h_key d = k) (match (if o then Some (H (h_key h) false (h_dirty h) (h_serial h)) else None) with Some d => ds ++ [d] | None => ds end)).
    { intros [|]; [|exact F]. apply Forall_app. split; [exact F|]. constructor; [exact K|constructor]. }
    destruct (h_active h).
    + pose proof (start_key fs (H (h_key h) false false (h_serial h)) y) as X. destruct (wg_start_logging fs _ y) as [[fs' h'] r]. cbn in X. split; [cbn; congruence|apply Fd].
    + split; [exact K|apply Fd].
  - destruct (nth_error ds d) as [dm|] eqn:E; [|split; assumption]. apply nth_error_In in E. pose proof (proj1 (Forall_forall _ _) F dm E) as Kd. unfold wg_import_dump.
    destruct (h_active h); [|split; assumption]. pose proof (start_key fs (H (h_key dm) false false (h_serial dm)) y) as X. destruct (wg_start_logging fs _ y) as [[fs' h'] r]. cbn in X. split; [cbn; congruence|exact F].
  - unfold wg_replay_log. destruct a, b, c; cbn [negb]; try (split; assumption). destruct (h_active h); [|split; assumption].
    pose proof (start_key fs (H (h_key h) false false (h_serial h)) y) as X. destruct (wg_start_logging fs _ y) as [[fs' h'] r]. cbn in X. split; [cbn; congruence|exact F].
Qed.
Lemma history_key : forall k ops s pend, keyed k s -> keyed k (fst (history s pend ops)).
Proof.
  intros k ops. induction ops as [|o ops IH]; intros s pend F; cbn [history]; [exact F|]. pose proof (step_key k s o F) as X.
  destruct (step s o) as [s' r]. now apply IH.
Qed.
