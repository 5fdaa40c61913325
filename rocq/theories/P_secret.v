(** C66: secrets. *)

From Verif Require Import Base Blake2b Model_common Model_signing Model_seed Model_secret SpecSecret SecretProofs.
Local Open Scope N_scope.

(** The full statement for texts: fails, the text shows more than the public key. *)
Theorem C66_debug_refuted : ~ (forall k k', sk_public_key k = sk_public_key k' -> private_key_debug k = private_key_debug k').
Proof. exact debug_discloses. Qed.
Print Assumptions C66_debug_refuted.

(** It shows all of the key. *)
Theorem C66_debug_tells : forall k k', private_key_debug k = private_key_debug k' -> k = k'.
Proof. exact debug_tells. Qed.
Print Assumptions C66_debug_tells.

Theorem C66_pretty_tells : forall k k', private_key_debug_pretty k = private_key_debug_pretty k' -> k = k'.
Proof. exact pretty_tells. Qed.
Print Assumptions C66_pretty_tells.

(** Both texts, in full: the bytes in decimal. *)
Theorem C66_shown : forall k, exists ds, Forall2 InDecimal (aval k) ds /\
  private_key_debug k = one_line ds /\ private_key_debug_pretty k = many_lines ds.
Proof. exact shown. Qed.
Print Assumptions C66_shown.

(** Dropping a value overwrites all of its bytes, and nothing else. *)
Theorem C66_drop : forall m i m', act m (Drop i) = Some m' ->
  length m' = length m /\
  (exists b, nth_error m i = Some (Storage b true) /\
     exists z, nth_error m' i = Some (Storage z false) /\ Wiped z /\ length z = length b) /\
  forall j, j <> i -> nth_error m' j = nth_error m j.
Proof. exact drop_wipes. Qed.
Print Assumptions C66_drop.

(** The full statement for memory, that nothing is left once every value has been dropped: fails
    when a value has been moved, when a key has signed, and when a key has been derived. *)
Theorem C66_moved_refuted : ~ (forall l m, Forall (fun a => plain_action a \/ exists i, a = Move i) l ->
  acts [] l = Some m -> all_dropped m -> Forall (fun s => Wiped (st_bytes s)) m).
Proof. exact moved_stays. Qed.
Print Assumptions C66_moved_refuted.

Theorem C66_signed_refuted : ~ (forall l m, Forall (fun a => plain_action a \/ exists i, a = Sign i) l ->
  acts [] l = Some m -> all_dropped m -> Forall (fun s => Wiped (st_bytes s)) m).
Proof. exact signed_stays. Qed.
Print Assumptions C66_signed_refuted.

Theorem C66_derived_refuted : ~ (forall l m,
  Forall (fun a => plain_action a \/ exists i index, a = Derive i index) l ->
  acts [] l = Some m -> all_dropped m -> Forall (fun s => Wiped (st_bytes s)) m).
Proof. exact derived_stays. Qed.
Print Assumptions C66_derived_refuted.

(** What signing leaves can sign in the key's place, for every key. *)
Theorem C66_signing_leaves : forall k, exists m b,
  acts [] [HoldKey k; Sign 0; Drop 0] = Some m /\ all_dropped m /\
  In (Storage b false) m /\ forall h, sign_hash (from_seed (arr_of 32 b)) h = sign_hash k h.
Proof. exact signing_leaves_key. Qed.
Print Assumptions C66_signing_leaves.

(** What deriving a key leaves makes the same key again, for every seed and index. *)
Theorem C66_deriving_leaves : forall s index, exists m b,
  acts [] [HoldSeed s; Derive 0 index; Drop 0; Drop 3] = Some m /\ all_dropped m /\
  In (Storage (aval (hash (aval s))) false) m /\
  In (Storage b false) m /\ from_seed (arr_of 32 b) = seed_private_key s index.
Proof. exact deriving_leaves_key. Qed.
Print Assumptions C66_deriving_leaves.

(** Values that are only made, cloned and dropped leave nothing. *)
Theorem C66_wiped_partial : forall l m, Forall plain_action l -> acts [] l = Some m -> all_dropped m ->
  Forall (fun s => Wiped (st_bytes s)) m.
Proof. exact plain_wiped. Qed.
Print Assumptions C66_wiped_partial.

(** And no history leaves more than a copy for each move and signature and two for each derived key. *)
Theorem C66_left_partial : forall l m, acts [] l = Some m -> (left_over m <= list_sum (map leaves l))%nat.
Proof. exact plain_left. Qed.
Print Assumptions C66_left_partial.

Example C66_example :
  exists m, acts [] [HoldKey key_7; Clone 0; HoldSeed seed_7; Drop 1; Drop 0; Drop 2] = Some m /\ all_dropped m /\
  length m = 3%nat /\ private_key_debug key_7 <> private_key_debug (arr_of 64 []) /\
  firstn 18 (private_key_debug key_7) = ascii "PrivateKey([7, 7, ".
Proof.
  eexists. split; [vm_compute; reflexivity|]. split; [repeat constructor|]. split; [reflexivity|].
  split; [|vm_compute; reflexivity]. intros H. apply (f_equal (firstn 18)) in H. vm_compute in H. discriminate.
Qed.
