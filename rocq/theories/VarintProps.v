(** Property C37. *)
From Coq Require Import ZArith List Bool Lia.
From Verif Require Import Base VarintModel VarintProofs.
Import ListNotations.
Open Scope Z_scope.

(** C37: whatever follows in the file, the integer written is read back and
    exactly its bytes are consumed. *)
Theorem C37_roundtrip : forall v rest, is64 v -> read_gint (log_gint v ++ rest) = Some (v, rest).
Proof. exact gint_roundtrip. Qed.
Print Assumptions C37_roundtrip.
Example C37_ex : is64 (-5) /\ log_gint 300 = [172; 2] /\
  log_gint (-5) = [251; 255; 255; 255; 255; 255; 255; 255; 255] /\
  read_gint (log_gint (- 2 ^ 63) ++ [1; 2; 3]) = Some (- 2 ^ 63, [1; 2; 3]).
Proof. unfold is64. split; [lia|]. vm_compute. auto. Qed.

(** C37: a sequence of integers is read back as a whole. *)
Fixpoint read_gints (n : nat) (f : list Z) : option (list Z * list Z) :=
  match n with
  | O => Some ([], f)
  | S n' => match read_gint f with
            | None => None
            | Some (v, r) => match read_gints n' r with
                             | None => None
                             | Some (vs, r') => Some (v :: vs, r')
                             end
            end
  end.
Theorem C37_sequence : forall vs rest, Forall is64 vs ->
  read_gints (length vs) (flat_map log_gint vs ++ rest) = Some (vs, rest).
Proof.
  induction vs as [|v vs IH]; intros rest H; [reflexivity|].
  inversion H; subst. cbn [length read_gints flat_map]. rewrite <- app_assoc.
  rewrite gint_roundtrip by assumption. rewrite IH by assumption. reflexivity.
Qed.
Print Assumptions C37_sequence.
Example C37_sequence_ex : Forall is64 [0; 127; 128; -1] /\ length (flat_map log_gint [0; 127; 128; -1]) = 13%nat.
Proof. split; [repeat constructor; unfold is64; lia|reflexivity]. Qed.

(** C37: an integer cut short is reported, never misread; at most nine bytes
    (the size of the writer's buffer slots) are used. *)
Theorem C37_truncated : forall v p q, is64 v -> log_gint v = p ++ q -> q <> [] -> read_gint p = None.
Proof.
  intros v p q Hv He Hq. unfold read_gint.
  rewrite (varint_truncated (u64 v) p q) by (try assumption; unfold u64; lia). reflexivity.
Qed.
Print Assumptions C37_truncated.
Theorem C37_size : forall v, is64 v ->
  Forall (fun b => 0 <= b < 256) (log_gint v) /\ (1 <= length (log_gint v) <= 9)%nat.
Proof. intros v Hv. apply enc_varint_bytes. unfold u64. lia. Qed.
Print Assumptions C37_size.
Example C37_truncated_ex : log_gint 300 = [172] ++ [2] /\ read_gint [172] = None.
Proof. split; reflexivity. Qed.
