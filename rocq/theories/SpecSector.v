(** Specification: the leaves of a sector's Merkle tree. *)

From Coq Require Import Permutation.
From Verif Require Import Base Blake2b Model_common Model_merkle.
Local Open Scope nat_scope.

(** Segments in a sector: 4 MiB in segments of 64 bytes. *)
Definition sector_leaves : nat := 2 ^ 16.

(** Bytes [64 i .. 64 i + 63]. *)
Definition segment (sector : bytes) (i : nat) : bytes := slice (segment_size * i) segment_size sector.

(** The leaves the property asks for: one per segment, in order. *)
Definition segment_leaves (n : nat) (sector : bytes) : list (arr 32) :=
  map (fun k => hash (x00 :: slice (64 * k) 64 sector)) (seq 0 n).

(** The leaves the code computes: position [s] holds segment [s / 4 + s mod 4]. *)
Definition code_segment (s : nat) : nat := s / 4 + s mod 4.
Definition code_leaves (n : nat) (sector : bytes) : list hash256 :=
  map (fun s => sum_leaf (segment sector (code_segment s))) (seq 0 n).

(** The inputs hashed at those leaves. *)
Definition leaf_inputs (n : nat) (sector : bytes) : list bytes :=
  map (fun s => x00 :: segment sector (code_segment s)) (seq 0 n).

(** The bytes read: 64 * 16387. *)
Definition covered_bytes : nat := N.to_nat 1048768.

(** [sched] orders the tasks of every parallel loop over [n] leaves: each chunk exactly once. *)
Definition valid_schedule (n : nat) (sched : nat -> list nat) : Prop :=
  Permutation (sched 0) (seq 0 (n / 4)) /\
  forall k, Permutation (sched (4 * 2 ^ k)) (seq 0 (n / (4 * 2 ^ k))).

(** One such order: by index. *)
Definition in_order (n : nat) (c : nat) : list nat := seq 0 (n / (if c =? 0 then 4 else c)).

Definition zero_sector : bytes := repeat x00 (64 * sector_leaves).
(** All bytes zero except the last, which is one. *)
Definition last_one_sector : bytes := repeat x00 (64 * sector_leaves - 1) ++ [x01].
