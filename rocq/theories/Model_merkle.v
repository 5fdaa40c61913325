(** Model of sia/src/merkle.rs and sia/src/rhp.rs. *)

From Verif Require Import Base Io Model_encoding Model_common Blake2b Model_consensus.
Local Open Scope N_scope.

(** ** Hashing — merkle.rs:5-6, 58-78 *)
Definition sum_leaf (l : bytes) : hash256 := hash (x00 :: l).
Definition sum_node (left right : hash256) : hash256 := hash (x01 :: aval left ++ aval right).

(** ** Accumulator *)

(** merkle.rs:9-13; [params] (32-byte BLAKE2b) is constant. The array [trees] is a list,
    which always has 64 elements. *)
Record accumulator : Type := MkAcc { acc_trees : list hash256; acc_num_leaves : u64 }.

(** merkle.rs:16-24 *)
Definition acc_new : accumulator := MkAcc (repeat zero_hash 64) (uwrap 64 0).

(** [trees[i] = x] *)
Fixpoint set_nth {A} (i : nat) (x : A) (l : list A) : list A :=
  match l, i with
  | [], _ => []
  | _ :: r, O => x :: r
  | a :: r, S i' => a :: set_nth i' x r
  end.

(** merkle.rs:33-36. The new node is computed from [h], not from the node of the previous
    iteration: this is what the code does. After 64 iterations [1 << height] overflows: the
    thread panics with overflow checks, and without them the shift is masked and [trees[64]]
    is out of bounds. *)
Fixpoint carry (p : profile) (fuel : nat) (a : accumulator) (h : hash256) (i : nat)
  (node : hash256) : outcome (nat * hash256) :=
  match fuel with
  | O => Panic (match p with Debug => ArithOverflow | Release => IndexOutOfBounds end)
  | S fuel' =>
    if has_tree_at_height (acc_num_leaves a) (N.of_nat i) then
      carry p fuel' a h (S i) (sum_node (nth i (acc_trees a) zero_hash) h)
    else Val (i, node)
  end.

(** merkle.rs:30-39. [carry] stops at a height below 64, so that [num_leaves] is below
    [2^64 - 1] and the increment does not overflow. *)
Definition add_leaf (p : profile) (a : accumulator) (h : hash256) : outcome accumulator :=
  obind (carry p 64 a h 0 h) (fun '(i, node) =>
  obind (u_add p (acc_num_leaves a) (uwrap 64 1)) (fun n =>
  Val (MkAcc (set_nth i node (acc_trees a)) n))).

(** [u64::trailing_zeros], 64 for 0. *)
Fixpoint trailing_zeros_pos (p : positive) : nat :=
  match p with xO q => S (trailing_zeros_pos q) | _ => O end.
Definition trailing_zeros (n : u64) : nat :=
  match uval n with N0 => 64%nat | Npos p => trailing_zeros_pos p end.

(** merkle.rs:48-53: heights [i], ..., [i + k - 1] *)
Fixpoint root_loop (a : accumulator) (k : nat) (i : nat) (root : hash256) : hash256 :=
  match k with
  | O => root
  | S k' =>
    root_loop a k' (S i)
      (if has_tree_at_height (acc_num_leaves a) (N.of_nat i)
       then sum_node (nth i (acc_trees a) zero_hash) root else root)
  end.

(** merkle.rs:41-55 *)
Definition acc_root (a : accumulator) : hash256 :=
  let i := trailing_zeros (acc_num_leaves a) in
  if Nat.eqb i 64 then zero_hash
  else root_loop a (64 - S i) (S i) (nth i (acc_trees a) zero_hash).

(** Adding the leaves of a list one after the other, the loop of every caller. *)
Fixpoint add_leaves (p : profile) (a : accumulator) (l : list hash256) : outcome accumulator :=
  match l with
  | [] => Val a
  | h :: r => obind (add_leaf p a h) (fun a' => add_leaves p a' r)
  end.

(** ** Sector roots — rhp.rs *)

(** rhp.rs:7-8 *)
Definition segment_size : nat := 64.
Definition sector_size : N := 4194304.

(** [slice[start..start + len]] *)
Definition slice {A} (start len : nat) (l : list A) : list A := firstn len (skipn start l).

(** One task of [par_chunks_mut(size)] / [par_chunks_exact_mut(size)]: replace chunk [i] by
    [f i chunk]. *)
Definition update_chunk {A} (f : nat -> list A -> list A) (size i : nat) (t : list A) : list A :=
  firstn (i * size) t ++ f i (slice (i * size) size t) ++ skipn (i * size + size) t.

(** The tasks run in the order chosen by rayon's scheduler. Chunks are disjoint and a task
    reads and writes only its own chunk (and the sector, which nobody writes), which Rust's
    borrow checker guarantees; running whole tasks one after the other in any order
    therefore covers every interleaving. *)
Definition par_for_each {A} (order : list nat) (f : nat -> list A -> list A) (size : nat)
  (t : list A) : list A :=
  fold_left (fun t i => update_chunk f size i t) order t.

(** rhp.rs:22-28: the segment the code reads for slot [j] of chunk [i], at index [i + j]. *)
Definition leaf_input (sector : bytes) (i j : nat) : bytes :=
  slice (segment_size * (i + j)) segment_size sector.

(** rhp.rs:18-41: four leaves at a time *)
Definition leaf_task (sector : bytes) (i : nat) (chunk : list hash256) : list hash256 :=
  [ sum_leaf (leaf_input sector i 0); sum_leaf (leaf_input sector i 1);
    sum_leaf (leaf_input sector i 2); sum_leaf (leaf_input sector i 3) ].

(** rhp.rs:46-67: two nodes of a chunk *)
Definition node_task (chunk_size : nat) (i : nat) (nodes : list hash256) : list hash256 :=
  let node j :=
    let step := Nat.div (j * chunk_size) 2 in
    sum_node (nth step nodes zero_hash) (nth (step + Nat.div chunk_size 4) nodes zero_hash) in
  set_nth (Nat.div (length nodes) 2) (node 1%nat) (set_nth 0 (node 0%nat) nodes).

(** rhp.rs:44-68: one pass per chunk size, doubling from 4 while it is at most the number of
    hashes; [sched] gives the order of the tasks of each pass. [fuel] bounds the number of
    passes. *)
Fixpoint node_passes (fuel : nat) (sched : nat -> list nat) (chunk_size : nat)
  (t : list hash256) : list hash256 :=
  match fuel with
  | O => t
  | S fuel' =>
    if Nat.leb chunk_size (length t) then
      node_passes fuel' sched (chunk_size * 2)
        (par_for_each (sched chunk_size) (node_task chunk_size) chunk_size t)
    else t
  end.

(** rhp.rs:11-75 for [n] segments (the code has [n = SECTOR_SIZE / SEGMENT_SIZE]): [sched 0]
    orders the leaf tasks. *)
Definition segments_root (n : nat) (sched : nat -> list nat) (sector : bytes) : hash256 :=
  let t := par_for_each (sched O) (leaf_task sector) 4 (repeat zero_hash n) in
  let t := node_passes n sched 4 t in
  sum_node (nth 0 t zero_hash) (nth (Nat.div (length t) 2) t zero_hash).

(** rhp.rs:10-75; the assertion of line 12 first *)
Definition sector_root (sched : nat -> list nat) (sector : bytes) : outcome hash256 :=
  if N.of_nat (length sector) =? sector_size
  then Val (segments_root (N.to_nat (sector_size / 64)) sched sector)
  else Panic AssertFailed.
