(** BLAKE2b-256 (RFC 7693), unkeyed, sequential: what
    [blake2b_simd::Params::new().hash_length(32).to_state()] computes. The crate is a
    dependency, not part of the repository; this executable version lets the model
    compute real addresses and identifiers, checked against the repository's vectors. *)

From Verif Require Import Base.
Local Open Scope N_scope.

Definition w64 (n : N) : N := N.land n 0xFFFFFFFFFFFFFFFF.
Definition add64 (a b : N) : N := w64 (a + b).
(** Rotate right by [r] bits, 0 < r < 64. *)
Definition ror64 (x r : N) : N := N.lor (N.shiftr x r) (w64 (N.shiftl x (64 - r))).

Definition iv : list N :=
  [ 0x6A09E667F3BCC908; 0xBB67AE8584CAA73B; 0x3C6EF372FE94F82B; 0xA54FF53A5F1D36F1;
    0x510E527FADE682D1; 0x9B05688C2B3E6C1F; 0x1F83D9ABFB41BD6B; 0x5BE0CD19137E2179 ].

Definition sigma : list (list nat) :=
  [ [0;1;2;3;4;5;6;7;8;9;10;11;12;13;14;15];
    [14;10;4;8;9;15;13;6;1;12;0;2;11;7;5;3];
    [11;8;12;0;5;2;15;13;10;14;3;6;7;1;9;4];
    [7;9;3;1;13;12;11;14;2;6;5;10;4;0;15;8];
    [9;0;5;7;2;4;10;15;14;1;11;12;6;8;3;13];
    [2;12;6;10;0;11;8;3;4;13;7;5;15;14;1;9];
    [12;5;1;15;14;13;4;10;0;7;6;3;9;2;8;11];
    [13;11;7;14;12;1;3;9;5;0;15;4;8;6;2;10];
    [6;15;14;9;11;3;0;8;12;2;13;7;1;4;10;5];
    [10;2;8;4;7;6;1;5;15;11;9;14;3;12;13;0];
    [0;1;2;3;4;5;6;7;8;9;10;11;12;13;14;15];
    [14;10;4;8;9;15;13;6;1;12;0;2;11;7;5;3] ]%nat.

Fixpoint set_nth (i : nat) (x : N) (l : list N) : list N :=
  match l, i with
  | [], _ => []
  | _ :: r, O => x :: r
  | y :: r, S i' => y :: set_nth i' x r
  end.

Definition mix (v : list N) (a b c d : nat) (x y : N) : list N :=
  let va := nth a v 0 in let vb := nth b v 0 in
  let vc := nth c v 0 in let vd := nth d v 0 in
  let va := add64 (add64 va vb) x in
  let vd := ror64 (N.lxor vd va) 32 in
  let vc := add64 vc vd in
  let vb := ror64 (N.lxor vb vc) 24 in
  let va := add64 (add64 va vb) y in
  let vd := ror64 (N.lxor vd va) 16 in
  let vc := add64 vc vd in
  let vb := ror64 (N.lxor vb vc) 63 in
  set_nth a va (set_nth b vb (set_nth c vc (set_nth d vd v))).

Definition round (m : list N) (v : list N) (s : list nat) : list N :=
  let w i := nth (nth i s O) m 0 in
  let v := mix v 0 4 8 12 (w 0%nat) (w 1%nat) in
  let v := mix v 1 5 9 13 (w 2%nat) (w 3%nat) in
  let v := mix v 2 6 10 14 (w 4%nat) (w 5%nat) in
  let v := mix v 3 7 11 15 (w 6%nat) (w 7%nat) in
  let v := mix v 0 5 10 15 (w 8%nat) (w 9%nat) in
  let v := mix v 1 6 11 12 (w 10%nat) (w 11%nat) in
  let v := mix v 2 7 8 13 (w 12%nat) (w 13%nat) in
  mix v 3 4 9 14 (w 14%nat) (w 15%nat).

Fixpoint words (k : nat) (l : bytes) : list N :=
  match k with
  | O => []
  | S k' => from_le (firstn 8 l) :: words k' (skipn 8 l)
  end.

Definition compress (h : list N) (block : bytes) (t : N) (last : bool) : list N :=
  let m := words 16 block in
  let v := h ++ iv in
  let v := set_nth 12 (N.lxor (nth 12 v 0) (w64 t)) v in
  let v := set_nth 13 (N.lxor (nth 13 v 0) (N.shiftr t 64)) v in
  let v := if last then set_nth 14 (N.lxor (nth 14 v 0) 0xFFFFFFFFFFFFFFFF) v else v in
  let v := fold_left (round m) sigma v in
  map (fun i => N.lxor (nth i h 0) (N.lxor (nth i v 0) (nth (i + 8) v 0))) (seq 0 8).

(** [pad 128] of the last block. *)
Definition pad (l : bytes) : bytes := l ++ repeat x00 (128 - length l).

(** Process the message; [fuel] bounds the number of blocks and is at least the length. *)
Fixpoint blocks (fuel : nat) (h : list N) (t : N) (msg : bytes) : list N :=
  match fuel with
  | O => h
  | S fuel' =>
    if Nat.leb (length msg) 128 then
      compress h (pad msg) (t + N.of_nat (length msg)) true
    else
      blocks fuel' (compress h (firstn 128 msg) (t + 128) false) (t + 128) (skipn 128 msg)
  end.

(** Parameter block of a 32-byte unkeyed digest: fanout 1, depth 1. *)
Definition h_init : list N :=
  set_nth 0 (N.lxor (nth 0 iv 0) 0x01010020) iv.

Definition blake2b_256 (msg : bytes) : bytes :=
  let h := blocks (S (length msg)) h_init 0 msg in
  le_bytes 8 (nth 0 h 0) ++ le_bytes 8 (nth 1 h 0) ++
  le_bytes 8 (nth 2 h 0) ++ le_bytes 8 (nth 3 h 0).

Lemma blake2b_256_length : forall m, length (blake2b_256 m) = 32%nat.
Proof.
  intros m; unfold blake2b_256. now rewrite !app_length, !le_bytes_length.
Qed.

(** [state.finalize().into()] for a 32-byte hash type. *)
Definition hash (msg : bytes) : arr 32 := arr_of 32 (blake2b_256 msg).

Lemma hash_aval : forall m, aval (hash m) = blake2b_256 m.
Proof. intros; apply arr_of_aval, blake2b_256_length. Qed.
