(** Ranges: the durations there are, and the places of a Merkle accumulator that are looked at. *)

From Verif Require Import Base Model_encoding Model_common Model_merkle MerkleProofs.
Local Open Scope N_scope.

Lemma duration_range : forall z : Z, (exists d, dur_ns d = z) <->
  (- 2 ^ 63 * 10 ^ 9 - 999999999 <= z <= (2 ^ 63 - 1) * 10 ^ 9 + 999999999)%Z.
Proof.
  intros z. change (- 2 ^ 63 * 10 ^ 9 - 999999999)%Z with dur_min.
  change ((2 ^ 63 - 1) * 10 ^ 9 + 999999999)%Z with dur_max. split.
  - intros [[n H] <-]. cbn [dur_ns]. apply andb_true_iff in H. rewrite !Z.leb_le in H. exact H.
  - intros H. assert (E : (dur_min <=? z)%Z && (z <=? dur_max)%Z = true) by (apply andb_true_iff; rewrite !Z.leb_le; exact H).
    now exists (MkDur z E).
Qed.

Lemma root_index : forall n : u64,
  (uval n = 0 -> trailing_zeros n = 64%nat) /\
  (uval n <> 0 -> (trailing_zeros n < 64)%nat /\ N.testbit (uval n) (N.of_nat (trailing_zeros n)) = true /\
     forall j, (j < trailing_zeros n)%nat -> N.testbit (uval n) (N.of_nat j) = false).
Proof.
  intros n. unfold trailing_zeros. split; [now intros ->|]. intros H. pose proof (uint_lt 64 n) as L.
  destruct (uval n) as [|q]; [congruence|]. destruct (trailing_zeros_pos_spec q) as [Z1 Z2]. split; [|now split].
  destruct (Nat.lt_ge_cases (trailing_zeros_pos q) 64) as [G|G]; [exact G|]. exfalso.
  rewrite N.bits_above_log2 in Z2; [discriminate Z2|].
  assert (B : N.log2 (N.pos q) < 64) by (apply N.log2_lt_pow2; [reflexivity|exact L]). lia.
Qed.
