(** C71: reading the configuration file of dserve. *)
From Coq Require Import ZArith List Bool Lia.
From Coq Require String Ascii.
From Verif Require Import DserveModel DserveProofs DserveConfModel DserveConfProofs.
Import ListNotations.
Import String.StringSyntax.
Open Scope Z_scope.

(** A file of rows - a key from the twelve, =, and a value; a further value on a row that starts with a blank;
    comments, rows in brackets, empty rows and rows without = - below 512000 bytes gives every key just
    the values written for it, in order, whatever malloc left in the buffer. *)
Theorem C71_load : forall alloc junk lns, (forall n, alloc n = true) -> Forall line_ok lns -> lns <> [] ->
  (length (concat (map render lns)) < Z.to_nat 512000)%nat ->
  exists b ls, load_configuration alloc junk (concat (map render lns)) empty_lists = Some (inr (C_ok b ls)) /\
    Forall2 (fun k l => values b l = map Some (values_of k (said lns))) conf_keys ls.
Proof. exact load_reads. Qed.
Print Assumptions C71_load.

Definition conf_lines : list line :=
  [Skip (bytes "# limits"); Skip []; Def (bytes "dbases") [] [32] (bytes "1000") (bytes "  # first");
   Cont (bytes "   ") (bytes "1001") []; Skip (bytes "   # between"); Cont [9] (bytes "1002") [13]; Skip [13];
   Def (bytes "admin_ips") [32; 9] [32] [] (bytes "# none yet"); Cont [32] (bytes "127.0.0.1") [];
   Skip (bytes "[section]"); Skip (bytes "no value"); Def (bytes "dbases") [32] [] (bytes "7") []].
Example C71_load_case :
  Forall line_ok conf_lines /\
  values_of (bytes "dbases") (said conf_lines) = [bytes "1000"; bytes "1001"; bytes "1002"; bytes "7"] /\
  values_of (bytes "admin_ips") (said conf_lines) = [bytes "127.0.0.1"] /\
  match load_configuration (fun _ => true) (fun _ => repeat 61 40) (concat (map render conf_lines)) empty_lists with
  | Some (inr (C_ok b ls)) => map (values b) ls =
      [[]; []; []; map Some [bytes "1000"; bytes "1001"; bytes "1002"; bytes "7"]; [Some (bytes "127.0.0.1")]; []; []; []; []; []; []; []]
  | _ => False
  end.
Proof.
  split; [|split; [|split]]; [|vm_compute; reflexivity..].
  assert (W : forall s, forallb (fun c => (33 <=? c) && (c <? 256) && negb (c =? 35)) s = true -> word s).
  { intros s H. apply Forall_forall. intros c Hc. rewrite forallb_forall in H. specialize (H c Hc).
    apply andb_true_iff in H. destruct H as [H H3]. apply andb_true_iff in H. destruct H as [H1 H2].
    apply Z.leb_le in H1. apply Z.ltb_lt in H2. destruct (Z.eqb_spec c 35); [discriminate H3|]. lia. }
  assert (N : forall s, forallb (fun c => negb (c =? 10)) s = true -> ~ In 10 s).
  { intros s H I. rewrite forallb_forall in H. specialize (H 10 I). discriminate H. }
  assert (E : forall s, forallb (fun c => negb (c =? 61)) s = true -> ~ In 61 s).
  { intros s H I. rewrite forallb_forall in H. specialize (H 61 I). discriminate H. }
  assert (T : forall v t, forallb (fun c => negb (c =? 10)) t = true ->
     match t with [] => true | c :: _ => (c =? 35) || (match v with [] => false | _ => true end && ws c) end = true -> tail_ok v t).
  { intros v t H H1. split; [now apply N|]. destruct t as [|c u]; [now left|]. right. exists c, u. split; [reflexivity|].
    destruct (Z.eqb_spec c 35) as [->|_]; [now left|]. right. cbn [orb] in H1. destruct v; [discriminate H1|]. split; [discriminate|].
    cbn [andb] in H1. unfold ws in H1. unfold blank. destruct (Z.eqb_spec c 32); [tauto|]. destruct (Z.eqb_spec c 9); [tauto|]. destruct (Z.eqb_spec c 13); [tauto|discriminate H1]. }
  assert (Bl : forall s, forallb ws s = true -> blanks s).
  { intros s H. apply Forall_forall. intros c Hc. rewrite forallb_forall in H. specialize (H c Hc). unfold ws in H. unfold blank.
    destruct (Z.eqb_spec c 32); [tauto|]. destruct (Z.eqb_spec c 9); [tauto|]. destruct (Z.eqb_spec c 13); [tauto|discriminate H]. }
  assert (D : forall k s1 s2 v t, existsb (streq k) conf_keys = true -> blanks s1 -> blanks s2 -> word v -> tail_ok v t -> line_ok (Def k s1 s2 v t)).
  { intros k s1 s2 v t H H1 H2 H3 H4. apply existsb_exists in H. destruct H as (k' & I & S). apply streq_eq in S. subst k'. exact (conj I (conj H1 (conj H2 (conj H3 H4)))). }
  unfold conf_lines.
  apply Forall_cons; [split; [now apply N|]; right; right; left; eexists; reflexivity|].
  apply Forall_cons; [split; [intros []|]; now left|].
  apply Forall_cons; [apply D; [reflexivity|now apply Bl|now apply Bl|now apply W|now apply T]|].
  apply Forall_cons; [split; [exists 32, [32; 32]; split; [reflexivity|]; split; [now left|now apply Bl]|split; [now apply W|split; [discriminate|now apply T]]]|].
  apply Forall_cons; [split; [now apply N|]; do 5 right; left; exists [32; 32; 32]; eexists; split; [reflexivity|]; exists 32, [32; 32]; split; [reflexivity|]; split; [now left|now apply Bl]|].
  apply Forall_cons; [split; [exists 9, []; split; [reflexivity|]; split; [now right|now apply Bl]|split; [now apply W|split; [discriminate|now apply T]]]|].
  apply Forall_cons; [split; [now apply N|]; right; now left|].
  apply Forall_cons; [apply D; [reflexivity|now apply Bl|now apply Bl|now apply W|now apply T]|].
  apply Forall_cons; [split; [exists 32, []; split; [reflexivity|]; split; [now left|now apply Bl]|split; [now apply W|split; [discriminate|now apply T]]]|].
  apply Forall_cons; [split; [now apply N|]; do 3 right; left; eexists; reflexivity|].
  apply Forall_cons; [split; [now apply N|]; do 6 right; exists 110, (bytes "o value"); split; [reflexivity|]; split; [unfold blank; lia|]; split; [lia|]; split; [lia|]; now apply E|].
  apply Forall_cons; [apply D; [reflexivity|now apply Bl|now apply Bl|now apply W|now apply T]|].
  constructor.
Qed.

(** Any bytes at all, below 512000, with a newline at the end (or none): no access outside of the buffer, whatever
    malloc left in it, and whether or not the lists can grow. *)
Theorem C71_safe : forall alloc junk f ls, (length f < Z.to_nat 512000)%nat -> (f = [] \/ exists u, f = u ++ [10]) ->
  load_configuration alloc junk f ls <> None.
Proof. exact load_safe. Qed.
Print Assumptions C71_safe.
Example C71_safe_case : let f := bytes "= " ++ [10; 32; 0; 61; 13] ++ bytes "x = # =" ++ [10; 255; 61; 32; 10] in
  exists b, length f = 19%nat /\ load_configuration (fun _ => false) (fun _ => []) f empty_lists = Some (inr (C_ok b empty_lists)).
Proof. vm_compute. eexists. split; reflexivity. Qed.
(** An unknown key with a value stops the server. *)
Example C71_unknown_case : load_configuration (fun _ => true) (fun _ => []) (bytes "admin_ip = 1" ++ [10]) empty_lists = Some (inr C_exit).
Proof. vm_compute. reflexivity. Qed.

(** Finding: "any file below MAX_CONF_BUF_SIZE (10000000 bytes) is read" is false. From 512000 bytes on all ten
    rounds of the read loop end with a buffer that is too small and already freed; the rows are then parsed in it. *)
Theorem C71_large_refuted : forall alloc junk f ls, (Z.to_nat 512000 <= length f)%nat -> load_configuration alloc junk f ls = None.
Proof.
  intros alloc junk f ls L. unfold load_configuration.
  replace (read_loop 10 CONF_BUF_SIZE (Z.of_nat (length f))) with L_freed; [reflexivity|].
  assert (H : 512000 <= Z.of_nat (length f)) by lia. clear L. generalize dependent (Z.of_nat (length f)). intros len H.
  unfold CONF_BUF_SIZE. cbn [read_loop]. unfold MAX_CONF_BUF_SIZE. destruct (Z.leb_spec len 0); [lia|].
  repeat match goal with
  | |- context [if ?a <=? len then _ else _] => destruct (Z.leb_spec a len); [cbn -[Z.leb]|lia]
  end; reflexivity.
Qed.
Print Assumptions C71_large_refuted.
Example C71_large_case : read_loop 10 CONF_BUF_SIZE 511999 = L_buf 512000 /\ read_loop 10 CONF_BUF_SIZE 512000 = L_freed /\
  read_loop 10 CONF_BUF_SIZE 9000000 = L_freed.
Proof. vm_compute. repeat split; reflexivity. Qed.

(** Finding: "the values depend on the file only" is false without a newline at the end: blanks at the end make the
    next byte of the buffer, which was never written, a value - here a token. *)
Theorem C71_newline_refuted : ~ forall junk junk' f,
  match load_configuration (fun _ => true) junk f empty_lists, load_configuration (fun _ => true) junk' f empty_lists with
  | Some (inr (C_ok b ls)), Some (inr (C_ok b' ls')) => map (values b) ls = map (values b') ls'
  | _, _ => True
  end.
Proof.
  intros H. specialize (H (fun _ => repeat 10 900) (fun _ => repeat 120 900) (bytes "admin_tokens=secret" ++ [10; 32])).
  vm_compute in H. discriminate H.
Qed.
Print Assumptions C71_newline_refuted.
Example C71_newline_case :
  match load_configuration (fun _ => true) (fun _ => repeat 120 900) (bytes "admin_tokens=secret" ++ [10; 32]) empty_lists with
  | Some (inr (C_ok b ls)) => nth_error (map (values b) ls) 7 = Some [Some (bytes "secret"); Some (bytes "x")]
  | _ => False
  end.
Proof. vm_compute. reflexivity. Qed.
(** Finding: such a file of 999 bytes is written past the end of its buffer of 1000. *)
Theorem C71_blanks_refuted : ~ forall junk f, (length f < 1000)%nat -> (forall n, length (junk n) = Z.to_nat n) ->
  load_configuration (fun _ => true) junk f empty_lists <> None.
Proof.
  intros H. apply (H (fun n => repeat 120 (Z.to_nat n)) (repeat 32 999)).
  - rewrite repeat_length. lia.
  - intros n. now rewrite repeat_length.
  - vm_compute. reflexivity.
Qed.
Print Assumptions C71_blanks_refuted.
Example C71_blanks_case : load_configuration (fun _ => true) (fun n => repeat 120 (Z.to_nat n)) (repeat 32 998) empty_lists <> None.
Proof. vm_compute. discriminate. Qed.

(** Finding: "all lists are empty before the file is read" is false: used of max_dbase_size and both numbers of
    key_file and cert_file are what malloc left. Each of the other nine lists is empty. *)
Theorem C71_start_refuted : ~ forall junk, Forall (fun l => l = (0, 0)) (setup_globals junk).
Proof. intros H. specialize (H (repeat (5, 7) 12)). rewrite Forall_forall in H. specialize (H (0, 7)). discriminate H. vm_compute. tauto. Qed.
Print Assumptions C71_start_refuted.
Example C71_start_case : setup_globals (repeat (5, 7) 12) =
  [(0, 0); (0, 0); (0, 7); (0, 0); (0, 0); (0, 0); (0, 0); (0, 0); (0, 0); (0, 0); (5, 7); (5, 7)].
Proof. reflexivity. Qed.
