(** C74: the journal file holds what was logged. *)
From Coq Require Import ZArith List Bool Lia.
From Verif Require Import JfileModel JfileProofs.
Import ListNotations.
Open Scope Z_scope.

(** All calls succeed; all backups have the same age. *)
Definition fine : sys := Sys (fun _ => 7) true true 1000 None.
Definition nofiles : files := FS (fun _ => None) (fun _ => []) 0.
(** The contents of a name. *)
Definition contents (s : st) (n : name) : option (list Z) := option_map (data (s_fs s)) (dir (s_fs s) n).

(** Any number of handles, any calls, any failures to rename, open or write the first bytes; but no entry is cut short, and dumps are imported
    only while no handle has the journal open.
    While logging is active, or when entries are not yet in a dump, the journal has the magic bytes and all entries logged
    since the last dump or replay. *)
Theorem C74_journal_partial : forall fs k ops, wf_files fs -> allowed (fresh fs k) ops ->
  let '(s, pend) := history (fresh fs k) [] ops in
  h_active (s_hdr s) = true \/ pend <> [] -> contents s (Journal k) = Some (magic ++ pend).
Proof.
  intros fs k ops W F. assert (G : sgood (fresh fs k) []).
  { split; [exact W|]. split; [intros [X|X]; discriminate X|]. split; [reflexivity|]. intros n. exact I. }
  pose proof (history_good ops (fresh fs k) [] G F) as X. pose proof (history_key k ops (fresh fs k) [] (conj eq_refl (Forall_nil _))) as [K _]. destruct (history (fresh fs k) [] ops) as [s pend].
  cbn [fst] in K. intros A. destruct X as (_ & X1 & X2 & _). assert (B : holds (s_fs s) (s_hdr s) pend).
  { apply X1. destruct A as [A|A]; [now left|]. right. destruct (h_dirty (s_hdr s)); [reflexivity|]. exfalso. apply A. now apply X2. }
  destruct B as (i & B1 & B2). unfold contents. rewrite <- K, B1. cbn [option_map]. now rewrite B2.
Qed.
Print Assumptions C74_journal_partial.
(** Two handles; a dump between the entries; logging stopped and started again. *)
Example C74_journal_case : let ops := [O_start fine; O_log 0 fine [64; 1]; O_log 1 fine [64; 2]; O_dump fine true; O_log 1 fine [64; 3]; O_stop; O_log 0 fine [9]; O_start fine; O_log 0 fine [64; 4]] in
  allowed (fresh nofiles 1000) ops /\ (let '(s, pend) := history (fresh nofiles 1000) [] ops in
    pend = [64; 3; 64; 4] /\ contents s (Journal 1000) = Some [119; 103; 100; 98; 64; 3; 64; 4] /\ contents s (Backup 1000 0) = Some [119; 103; 100; 98; 64; 1; 64; 2]).
Proof. split; [|vm_compute; repeat split]. cbn [allowed proper length]. repeat (split; [exact I || (apply Nat.leb_le; reflexivity)|]). exact I. Qed.
(** A handle closed before the import. *)
Example C74_closed_case : let '(s, pend) := history (fresh nofiles 1000) [] [O_start fine; O_log 0 fine [64; 1]; O_dump fine true; O_log 0 fine [64; 2]; O_close 0; O_import fine 0; O_open 0; O_log 0 fine [64; 3]] in
  pend = [64; 3] /\ contents s (Journal 1000) = Some (magic ++ [64; 3]).
Proof. vm_compute. repeat split. Qed.

(** A start with a clean log renames the old journal to a backup; no other name changes. A free number is taken if there is one, and else the
    oldest backup is given up. *)
Theorem C74_backup : forall fs h y i, h_active h = false -> h_dirty h = false -> dir fs (Journal (h_key h)) = Some i -> y_rename y = true -> (forall j, 0 < y_mtime y j) ->
  let '(fs', _, _) := wg_start_logging fs h y in
  exists idx, (idx < 10)%nat /\ dir fs' (Backup (h_key h) idx) = Some i /\
  (forall n, n <> Journal (h_key h) -> n <> Backup (h_key h) idx -> dir fs' n = dir fs n) /\
  (dir fs (Backup (h_key h) idx) = None \/ (forall j, (j < 10)%nat -> dir fs (Backup (h_key h) j) <> None /\ y_mtime y idx <= y_mtime y j)).
Proof.
  intros fs h y i A D J R M. unfold wg_start_logging. rewrite A. unfold open_journal. rewrite D. cbn [andb negb]. rewrite J. unfold backup_journal. rewrite R. cbn [negb].
  set (there := fun j => match dir fs (Backup (h_key h) j) with Some _ => true | None => false end).
  pose proof (backup_loop_spec there (y_mtime y) MAX_BACKUPS 0 0 0 (fun j _ => M j)) as S1. cbv zeta in S1.
  destruct S1 as (L & _ & S1); [lia|reflexivity|lia|lia|lia|unfold MAX_BACKUPS; lia|].
  set (idx := backup_loop there (y_mtime y) MAX_BACKUPS 0 0 0) in *. cbn [Nat.add] in *. change MAX_BACKUPS with 10%nat in *. clearbody idx.
  set (d := set_dir (set_dir (dir fs) (Journal (h_key h)) None) (Backup (h_key h) idx) (Some i)).
  assert (T : forall j, there j = true -> dir fs (Backup (h_key h) j) <> None) by (intros j E; unfold there in E; destruct (dir fs (Backup (h_key h) j)); discriminate || discriminate E).
  assert (Q : forall d', (d' = d \/ d' = set_dir d (Journal (h_key h)) (Some (next fs))) ->
    exists idx, (idx < 10)%nat /\ d' (Backup (h_key h) idx) = Some i /\ (forall n, n <> Journal (h_key h) -> n <> Backup (h_key h) idx -> d' n = dir fs n) /\
    (dir fs (Backup (h_key h) idx) = None \/ (forall j, (j < 10)%nat -> dir fs (Backup (h_key h) j) <> None /\ y_mtime y idx <= y_mtime y j))).
  { intros d' E. exists idx. split; [exact L|]. split; [|split].
    - destruct E as [-> | ->]; [|rewrite set_dir_other by discriminate]; apply set_dir_same.
    - intros n N1 N2. destruct E as [-> | ->]; [|rewrite set_dir_other by exact N1]; unfold d; rewrite set_dir_other by exact N2; now apply set_dir_other.
    - destruct S1 as [S1|[S1 S2]]; [left; unfold there in S1; destruct (dir fs (Backup (h_key h) idx)); [discriminate S1|reflexivity]|].
      right. intros j Lj. destruct (S2 j Lj) as [S3 S4]. split; [now apply T|exact S4]. }
  cbn [h_key h_dirty h_serial h_active dir data next]. rewrite D.
  destruct (y_open y); cbn [negb]; [|apply Q; now left].
  assert (Dn : d (Journal (h_key h)) = None) by (unfold d; rewrite set_dir_other by discriminate; apply set_dir_same). rewrite Dn. cbn [h_dirty negb dir data].
  destruct (Nat.ltb (y_written y) 4); cbn [dir]; apply Q; now right.
Qed.
Print Assumptions C74_backup.
Example C74_backup_case : let full := FS (fun n => match n with Journal _ => Some 20%nat | Backup _ j => Some j end) (fun i => [Z.of_nat i]) 30 in
  let '(fs, h, r) := wg_start_logging full (H 1000 false false 5) (Sys (fun j => if Nat.eqb j 3 then 50 else 60) true true 4 None) in
  r = 0 /\ dir fs (Backup 1000 3) = Some 20%nat /\ dir fs (Journal 1000) = Some 30%nat /\ data fs 30 = magic /\ h = H 1000 true false 6.
Proof. vm_compute. repeat split. Qed.

(** Finding: with imports the claim is false. The header of the dump brings back an old serial number; a handle whose descriptor has the number
    reached again writes on into the backup, and the entry is missing in the journal. *)
Theorem C74_import_refuted : ~ forall fs k ops, wf_files fs -> (forall o, In o ops -> match o with O_log _ y buf => (length buf <= y_written y)%nat | _ => True end) ->
  let '(s, pend) := history (fresh fs k) [] ops in
  h_active (s_hdr s) = true \/ pend <> [] -> contents s (Journal k) = Some (magic ++ pend).
Proof.
  intros X. specialize (X nofiles 1000 [O_start fine; O_log 0 fine [64; 1]; O_dump fine true; O_log 0 fine [64; 2]; O_import fine 0; O_log 0 fine [64; 3]]).
  vm_compute in X. assert (Y : Some [119; 103; 100; 98] = Some [119; 103; 100; 98; 64; 3]); [|discriminate Y]. apply X.
  - intros n i E. discriminate E.
  - intros o [<-|[<-|[<-|[<-|[<-|[<-|[]]]]]]]; try exact I; apply Nat.leb_le; reflexivity.
  - left. reflexivity.
Qed.
Print Assumptions C74_import_refuted.
Example C74_import_case : let '(s, pend) := history (fresh nofiles 1000) [] [O_start fine; O_log 0 fine [64; 1]; O_dump fine true; O_log 0 fine [64; 2]; O_import fine 0; O_log 0 fine [64; 3]] in
  pend = [64; 3] /\ contents s (Journal 1000) = Some magic /\ contents s (Backup 1000 1) = Some (magic ++ [64; 2; 64; 3]).
Proof. vm_compute. repeat split. Qed.
(** Finding: the dump also brings its key. Imported into another database, the journal of the first one, still in use, is renamed and replaced. *)
Theorem C74_key_refuted : ~ forall fs h y dump k, k <> h_key h -> dir (fst (fst (wg_import_dump fs h y dump))) (Journal k) = dir fs (Journal k).
Proof. intros X. specialize (X (FS (fun n => match n with Journal _ => Some 0%nat | _ => None end) (fun _ => magic) 1) (H 2000 true false 1) fine (H 1000 false false 1) 1000). vm_compute in X. discriminate X. discriminate. Qed.
Print Assumptions C74_key_refuted.
Example C74_key_case : let '(fs, h, r) := wg_import_dump (FS (fun n => match n with Journal 1000 => Some 0%nat | Journal 2000 => Some 1%nat | _ => None end) (fun i => if Nat.eqb i 0 then magic ++ [64; 1] else magic) 2)
    (H 2000 true false 1) fine (H 1000 false false 1) in
  r = 0 /\ h_key h = 1000 /\ dir fs (Journal 1000) = Some 2%nat /\ dir fs (Backup 1000 0) = Some 0%nat /\ dir fs (Journal 2000) = Some 1%nat.
Proof. vm_compute. repeat split. Qed.
(** Finding: a dump that could not be written cleans the log as well: the entries are neither in a dump nor in the journal. *)
Theorem C74_dump_refuted : ~ forall fs h y, let '(fs', h', d, r) := wg_dump fs h y false in
  forall i, dir fs (Journal (h_key h)) = Some i -> dir fs' (Journal (h_key h)) = Some i.
Proof. intros X. specialize (X (FS (fun n => match n with Journal _ => Some 0%nat | _ => None end) (fun _ => magic ++ [64; 1]) 1) (H 1000 true true 1) fine). vm_compute in X. specialize (X 0%nat eq_refl). discriminate X. Qed.
Print Assumptions C74_dump_refuted.
Example C74_dump_case : let '(s, pend) := history (fresh nofiles 1000) [] [O_start fine; O_log 0 fine [64; 1]; O_dump fine false] in
  s_dumps s = [] /\ contents s (Journal 1000) = Some magic /\ contents s (Backup 1000 0) = Some (magic ++ [64; 1]).
Proof. vm_compute. repeat split. Qed.
(** Finding: wg_replay_log that gives up before changing anything (-1) leaves logging switched off. *)
Theorem C74_replay_refuted : ~ forall fs h y a b c, let '(_, h', r) := wg_replay_log fs h y a b c in r = -1 -> h_active h' = h_active h.
Proof. intros X. specialize (X nofiles (H 1000 true true 1) fine true false true). vm_compute in X. discriminate (X eq_refl). Qed.
Print Assumptions C74_replay_refuted.
Example C74_replay_case : let '(s, pend) := history (fresh nofiles 1000) [] [O_start fine; O_log 0 fine [64; 1]; O_replay fine true false true; O_log 0 fine [64; 2]] in
  h_active (s_hdr s) = false /\ contents s (Journal 1000) = Some (magic ++ [64; 1]).
Proof. vm_compute. repeat split. Qed.
(** C74: without a journal file no handle says that an entry is logged, unless it has the file open: nothing is written and the log is not marked. *)
Theorem C74_missing : forall fs h l y buf, dir fs (Journal (h_key h)) = None -> ld_fd l = NoFd \/ ld_serial l <> h_serial h ->
  let '(fs', h', _, r) := write_log_buffer fs h l y buf in r < 0 /\ fs' = fs /\ h' = h.
Proof.
  intros fs h l y buf J L. unfold write_log_buffer.
  set (l1 := match ld_fd l with NoFd => l | _ => if ld_serial l =? h_serial h then l else LD NoFd (ld_serial l) end). assert (E : ld_fd l1 = NoFd).
  { unfold l1. destruct (ld_fd l) eqn:F; [exact F| |]; (destruct (Z.eqb_spec (ld_serial l) (h_serial h)); [destruct L as [L|L]; [congruence|contradiction]|reflexivity]). }
  clearbody l1. rewrite E. unfold open_journal. cbn [andb negb].
  destruct (y_open y); cbn [negb snd]; rewrite ?J; cbn [snd]; rewrite ?E; (split; [lia|split; reflexivity]).
Qed.
Print Assumptions C74_missing.
Example C74_missing_case : let '(fs', _, _, r) := write_log_buffer nofiles (H 1000 true false 2) (LD (Fd 0) 1) fine [64; 1] in r = -1 /\ data fs' 0 = data nofiles 0.
Proof. vm_compute. split; reflexivity. Qed.
(** Finding: after a failing write the descriptor is closed but kept; the next entry goes to whatever file has this number by then. *)
Theorem C74_write_refuted : ~ forall fs h l y buf i, ld_fd l = Closed -> let '(fs', _, _, _) := write_log_buffer fs h l y buf in dir fs (Journal (h_key h)) <> Some i -> data fs' i = data fs i.
Proof.
  intros X. specialize (X (FS (fun n => match n with Journal _ => Some 0%nat | _ => None end) (fun _ => magic) 2) (H 1000 true true 1) (LD Closed 1) (Sys (fun _ => 7) true true 2 (Some 1%nat)) [64; 2] 1%nat eq_refl).
  vm_compute in X. assert (Y : [119; 103; 100; 98; 64; 2] = [119; 103; 100; 98]) by (apply X; discriminate). discriminate Y.
Qed.
Print Assumptions C74_write_refuted.
(** A disk full for a moment: the first entry is cut, the second is written to file 5 and reported as logged. *)
Example C74_write_case : let '(s, _) := history (fresh nofiles 1000) [] [O_start fine; O_log 0 (Sys (fun _ => 7) true true 1 None) [64; 1]; O_log 0 (Sys (fun _ => 7) true true 2 (Some 5%nat)) [64; 2]] in
  contents s (Journal 1000) = Some (magic ++ [64]) /\ data (s_fs s) 5 = [64; 2].
Proof. vm_compute. repeat split. Qed.
