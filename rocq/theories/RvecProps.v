(** C80: growing vectors and strings of the reasoner keep what is in them. *)
From Coq Require Import ZArith Bool List Lia.
From Verif Require Import RvecModel.
Import ListNotations.
Open Scope Z_scope.

Lemma to_int_id : forall z, -2147483648 <= z < 2147483648 -> to_int z = z.
Proof. intros z H. unfold to_int. rewrite Z.mod_small by lia. lia. Qed.
Lemma grow_ok : forall fuel n i, 1 <= n -> i <= 1073741823 -> i <= n * 2 ^ Z.of_nat fuel -> exists r, grow fuel n i = Some r /\ i <= r /\ n <= r /\ (r = n \/ r < 2 * i).
Proof.
  induction fuel; intros n i N I B; cbn [grow].
  - change (2 ^ Z.of_nat 0) with 1 in B. destruct (Z.leb_spec i n); [|lia]. exists n. repeat split; try lia.
  - destruct (Z.leb_spec i n); [exists n; repeat split; lia|]. destruct (Z.ltb_spec (n * 2) 2147483648); [|lia].
    destruct (IHfuel (n * 2) i) as (r & E & A & C & D); [lia|exact I| |].
    { rewrite Nat2Z.inj_succ, Z.pow_succ_r in B by lia. lia. }
    exists r. repeat split; try assumption; try lia.
Qed.
Lemma put_in : forall b i e, 0 <= i < size b -> put b i e = Blk (Block (size b) (fun j => if j =? i then e else cell b j)).
Proof. intros b i e H. unfold put. destruct (Z.leb_spec 0 i); [|lia]. destruct (Z.ltb_spec i (size b)); [|lia]. reflexivity. Qed.
Lemma mem_ok : forall junk old w bytes, 0 < w -> 0 <= bytes < 2147483648 ->
  mem_new true junk old w bytes = Some (Block (bytes / w) (fun j => if j <? Z.min (size old) (bytes / w) then cell old j else junk j)).
Proof. intros junk old w bytes W B. unfold mem_new. rewrite to_int_id by lia. destruct (Z.leb_spec 0 bytes); [|lia]. reflexivity. Qed.

(** A vector: its length is in front, and the memory is enough for it. *)
Definition is_vec (v : block) : Prop := 0 <= cell v 0 /\ cell v 0 + 1 <= size v /\ cell v 0 < 536870912.

(** C80: storing in a vector, also behind its end, gives a vector that has the element there and all others as before. *)
Theorem C80_store : forall junk v i e, is_vec v -> 1 <= i < 134217728 ->
  exists v', vec_store false true junk v i e = (Blk v', false) /\ is_vec v' /\ i <= cell v' 0 /\ cell v 0 <= cell v' 0 /\ i < size v' /\ cell v' i = e /\
    (forall j, 1 <= j < size v -> j <> i -> j <= Z.max i (cell v 0) -> cell v' j = cell v j).
Proof.
  intros junk v i e (L0 & L1 & L2) I. unfold vec_store. destruct (Z.ltb_spec (size v) 1); [lia|]. rewrite to_int_id by lia.
  destruct (Z.leb_spec i (cell v 0)).
  - rewrite put_in by lia. eexists. split; [reflexivity|]. unfold is_vec. cbn [size cell]. rewrite Z.eqb_refl. destruct (Z.eqb_spec 0 i); [lia|].
    repeat split; try lia. intros j J NE _. destruct (Z.eqb_spec j i); [lia|reflexivity].
  - unfold vec_realloc. destruct (Z.ltb_spec (size v) 1); [lia|]. cbv zeta. rewrite to_int_id by lia. destruct (Z.leb_spec i (cell v 0)); [lia|].
    destruct (Z.leb_spec 2147483648 (cell v 0 * 2)); [lia|]. rewrite andb_false_r.
    destruct (grow_ok 32 (if cell v 0 <=? 0 then 2 else cell v 0 * 2) i) as (r & G & A & B & C).
    { destruct (Z.leb_spec (cell v 0) 0); lia. } { lia. } { change (2 ^ Z.of_nat 32) with 4294967296. destruct (Z.leb_spec (cell v 0) 0); lia. }
    rewrite G. assert (R : r <= 2 * i /\ cell v 0 <= r) by (destruct (Z.leb_spec (cell v 0) 0); lia). clear B C. destruct R as (R & B).
    rewrite mem_ok by lia. rewrite Z.div_mul by lia. rewrite put_in by (cbn [size]; lia). cbn [size cell]. rewrite put_in by (cbn [size]; lia).
    eexists. split; [reflexivity|]. unfold is_vec. cbn [size cell]. change (0 =? 0) with true. rewrite Z.eqb_refl. destruct (Z.eqb_spec 0 i); [lia|]. cbv iota.
    repeat split; try lia. intros j J NE M. destruct (Z.eqb_spec j i); [lia|]. destruct (Z.eqb_spec j 0); [lia|]. destruct (Z.ltb_spec j (Z.min (size v) (r + 1))); [reflexivity|lia].
Qed.
(** C80: without memory nothing is written, the error is noted, and this happens only where the vector must grow. *)
Theorem C80_fail : forall err ok junk v i e err', vec_store err ok junk v i e = (Null, err') -> err' = true /\ (size v < 1 \/ to_int (cell v 0) < i).
Proof.
  intros err ok junk v i e err'. unfold vec_store. destruct (Z.ltb_spec (size v) 1); [intros X; discriminate X|]. destruct (Z.leb_spec i (to_int (cell v 0))).
  - unfold put. destruct ((0 <=? i) && (i <? size v)); intros X; discriminate X.
  - destruct (vec_realloc err ok junk v i) as [[| |b] e']; [intros X; discriminate X|intros X; injection X as <-; split; [reflexivity|right; assumption]|].
    unfold put. destruct ((0 <=? i) && (i <? size b)); intros X; discriminate X.
Qed.

(** A vector with a counter: the elements 2 to [n-1] are in use. *)
Definition is_cvec (v : block) (n : Z) : Prop := is_vec v /\ cell v 1 = n /\ 2 <= n <= size v.
Lemma push_ok : forall junk v n e, is_cvec v n -> n < 134217728 -> exists v', cvec_push false true junk v e = (Blk v', false) /\ is_cvec v' (n + 1) /\ cell v' n = e /\ (forall j, 2 <= j < n -> cell v' j = cell v j).
Proof.
  intros junk v n e (V & N & S) B. unfold cvec_push. destruct (Z.ltb_spec (size v) 2); [lia|]. rewrite N, to_int_id by lia.
  destruct (C80_store junk v n e V) as (v' & E & (W0 & W1 & W2) & L & _ & Z & C & K); [lia|]. unfold cvec_store. rewrite E.
  destruct (Z.ltb_spec (size v') 2); [lia|]. rewrite (K 1) by lia. rewrite N. destruct (Z.leb_spec n n); [|lia]. rewrite put_in by lia.
  eexists. split; [reflexivity|]. unfold is_cvec, is_vec. cbn [size cell]. change (0 =? 1) with false. change (1 =? 1) with true. cbv iota.
  split; [|split].
  - repeat split; lia.
  - destruct (Z.eqb_spec n 1); [lia|exact C].
  - intros j J. destruct (Z.eqb_spec j 1); [lia|]. apply K; lia.
Qed.
(** C80: a queue holds the clauses pushed, in their order, however often it had to grow. *)
Theorem C80_push : forall junk len l, 0 <= len < 134217728 -> Z.of_nat (length l) < 134217726 ->
  exists v, push_all (cvec_new false true junk len) junk (map (fun e => (e, true)) l) = (Blk v, false) /\ cell v 1 = 2 + Z.of_nat (length l) /\
    forall k d, (k < length l)%nat -> cell v (2 + Z.of_nat k) = nth k l d.
Proof.
  intros junk len l L B.
  assert (P : forall l v n, is_cvec v n -> n + Z.of_nat (length l) <= 134217728 -> exists v', push_all (Blk v, false) junk (map (fun e => (e, true)) l) = (Blk v', false) /\
     cell v' 1 = n + Z.of_nat (length l) /\ (forall j, 2 <= j < n -> cell v' j = cell v j) /\ forall k d, (k < length l)%nat -> cell v' (n + Z.of_nat k) = nth k l d).
  { clear. induction l as [|e l IH]; intros v n C B.
    - exists v. destruct C as (_ & C & _). cbn [length] in *. repeat split; [cbn; lia|]. intros k d K. inversion K.
    - cbn [length] in B. rewrite Nat2Z.inj_succ in B. destruct (push_ok junk v n e C) as (v1 & E & C1 & N1 & K1); [lia|].
      cbn [map push_all push_queue]. rewrite E. assert (N2 : 2 <= n) by (destruct C as (_ & _ & ? & _); assumption).
      destruct (IH v1 (n + 1) C1) as (v' & E' & F & K & T); [lia|]. exists v'. split; [exact E'|]. cbn [length]. rewrite Nat2Z.inj_succ. split; [lia|]. split.
      + intros j J. rewrite K by lia. apply K1, J.
      + intros [|k] d H; cbn [nth].
        * rewrite Z.add_0_r. rewrite K by lia. exact N1.
        * rewrite Nat2Z.inj_succ. replace (n + Z.succ (Z.of_nat k)) with (n + 1 + Z.of_nat k) by lia. apply T. lia. }
  unfold cvec_new. rewrite mem_ok by lia. rewrite Z.div_mul by lia. rewrite put_in by (cbn [size]; lia). cbn [size cell]. rewrite put_in by (cbn [size]; lia).
  destruct (P l (Block (len + 2) (fun j => if j =? 1 then 2 else if j =? 0 then len else if j <? Z.min 0 (len + 2) then junk j else junk j)) 2) as (v & E & F & _ & T).
  { unfold is_cvec, is_vec. cbn [size cell]. change (0 =? 1) with false. change (1 =? 1) with true. change (0 =? 0) with true. cbv iota. repeat split; lia. }
  { lia. }
  exists v. split; [exact E|]. split; [exact F|exact T].
Qed.
Print Assumptions C80_store.
Print Assumptions C80_fail.
Print Assumptions C80_push.
(** A vector of length 3; storing in it, behind its end, and without memory. *)
Definition ex_vec : block := Block 4 (fun j => if j =? 0 then 3 else 10 * j).
Example C80_store_case : is_vec ex_vec /\ match vec_store false true (fun _ => 7) ex_vec 8 99 with (Blk v, false) => map (cell v) [0; 1; 2; 3; 4; 8] = [12; 10; 20; 30; 7; 99] | _ => False end /\
  vec_store false false (fun _ => 7) ex_vec 8 99 = (Null, true).
Proof. split; [unfold is_vec, ex_vec; cbn; lia|]. split; vm_compute; reflexivity. Qed.
Example C80_push_case : match push_all (cvec_new false true (fun _ => 7) 2) (fun _ => 7) [(11, true); (12, true); (13, true); (14, true)] with
  (Blk v, false) => map (cell v) [0; 1; 2; 3; 4; 5] = [8; 6; 11; 12; 13; 14] | _ => False end.
Proof. vm_compute. reflexivity. Qed.

(** C80, finding: the queue is replaced by NULL when it cannot grow. The clauses in it are lost, and pushing the next reads outside of memory. *)
Theorem C80_lost_refuted : forall junk, fst (push_all (cvec_new false true junk 2) junk [(11, true); (12, false)]) = Null /\
  fst (push_all (cvec_new false true junk 2) junk [(11, true); (12, false); (13, true)]) = Bad.
Proof. intros junk. split; vm_compute; reflexivity. Qed.
Print Assumptions C80_lost_refuted.
(** C80, finding: the size in bytes is passed as an int; storing far behind the end gets memory for a single element, and is outside of it. *)
Theorem C80_size_refuted : forall junk e, is_vec (Block 3 (fun _ => 2)) /\ fst (vec_store false true junk (Block 3 (fun _ => 2)) 400000000 e) = Bad /\
  match vec_realloc false true junk (Block 3 (fun _ => 2)) 400000000 with (Blk v, _) => size v = 1 /\ cell v 0 = 536870912 | _ => False end.
Proof. intros junk e. split; [unfold is_vec; cbn; lia|]. split; vm_compute; [reflexivity|split; reflexivity]. Qed.
Print Assumptions C80_size_refuted.

(** C80: a string that had [n] bytes has at least as many as needed, with its bytes but the last kept, blanks behind them and 0 at the end. *)
Theorem C80_string : forall fuel junk b n needed, 1 <= n -> size b = n -> needed < 1073741824 -> needed <= n * 2 ^ Z.of_nat fuel ->
  exists b' n', guarantee fuel (fun _ => true) junk b n needed = (Blk b', n') /\ needed <= n' /\ size b' = n' /\ n <= n' /\ (forall j, 0 <= j < n - 1 -> cell b' j = cell b j) /\
    (n < needed -> cell b' (n' - 1) = 0 /\ forall j, n - 1 <= j < n' - 1 -> cell b' j = 32).
Proof.
  induction fuel; intros junk b n needed N S I B; cbn [guarantee].
  - change (2 ^ Z.of_nat 0) with 1 in B. destruct (Z.leb_spec needed n); [|lia]. exists b, n. repeat split; lia.
  - destruct (Z.leb_spec needed n); [exists b, n; repeat split; lia|]. destruct (Z.leb_spec 2147483648 (n * 2)); [lia|].
    rewrite mem_ok by lia. rewrite Z.div_1_r. cbn [size]. destruct (Z.ltb_spec (n - 1) 0); [lia|]. destruct (Z.ltb_spec (n * 2) (n * 2)); [lia|]. cbn [orb].
    match goal with |- context[guarantee fuel _ junk ?x (n * 2) needed] => set (t := x) end.
    destruct (IHfuel junk t (n * 2) needed) as (b' & n' & E & A & Z & L & K & F); [lia|reflexivity|exact I| |].
    { rewrite Nat2Z.inj_succ, Z.pow_succ_r in B by lia. lia. }
    assert (T : forall j, 0 <= j < n * 2 -> cell t j = if j =? n * 2 - 1 then 0 else if n - 1 <=? j then 32 else cell b j).
    { intros j J. subst t. unfold blank. cbn [cell size]. destruct (Z.eqb_spec j (n * 2 - 1)); [reflexivity|]. destruct (Z.leb_spec (n - 1) j); cbn [andb].
      - destruct (Z.ltb_spec j (n * 2)); [reflexivity|lia].
      - destruct (Z.ltb_spec j (Z.min (size b) (n * 2))); [reflexivity|lia]. }
    exists b', n'. split; [exact E|]. split; [exact A|]. split; [exact Z|]. split; [lia|]. split.
    + intros j J. rewrite K by lia. rewrite T by lia. destruct (Z.eqb_spec j (n * 2 - 1)); [lia|]. destruct (Z.leb_spec (n - 1) j); [lia|reflexivity].
    + intros _. destruct (Z.lt_ge_cases (n * 2) needed) as [M|M].
      * destruct (F M) as (F1 & F2). split; [exact F1|]. intros j J. destruct (Z.lt_ge_cases j (n * 2 - 1)) as [Q|Q]; [|apply F2; lia].
        rewrite K by lia. rewrite T by lia. destruct (Z.eqb_spec j (n * 2 - 1)); [lia|]. destruct (Z.leb_spec (n - 1) j); [reflexivity|lia].
      * assert (G : guarantee fuel (fun _ => true) junk t (n * 2) needed = (Blk t, n * 2)) by (destruct fuel; cbn [guarantee]; destruct (Z.leb_spec needed (n * 2)); reflexivity || lia).
        rewrite G in E. injection E as <- <-. split; [rewrite T by lia; now rewrite Z.eqb_refl|]. intros j J. rewrite T by lia. destruct (Z.eqb_spec j (n * 2 - 1)); [lia|]. destruct (Z.leb_spec (n - 1) j); [reflexivity|lia].
Qed.
Print Assumptions C80_string.
Example C80_string_case : match guarantee 5 (fun _ => true) (fun _ => 1) (Block 3 (fun j => if j =? 2 then 0 else 65 + j)) 3 9 with
  (Blk b, 12) => map (cell b) [0; 1; 2; 3; 10; 11] = [65; 66; 32; 32; 32; 0] | _ => False end.
Proof. vm_compute. reflexivity. Qed.
(** C80, finding: the length of an empty string is doubled without end; the byte in front of the memory is written. *)
Theorem C80_empty_refuted : forall fuel oks junk b needed, 0 < needed -> oks fuel = true -> guarantee (S fuel) oks junk b 0 needed = (Bad, 0).
Proof. intros fuel oks junk b needed P O. cbn [guarantee]. destruct (Z.leb_spec needed 0); [lia|]. rewrite O. reflexivity. Qed.
Print Assumptions C80_empty_refuted.
