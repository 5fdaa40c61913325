(** C62: the memory asked for while decoding untrusted bytes. *)

From Verif Require Import Base Io Model_encoding Model_common Model_v1 Model_policy Model_v2 Model_consensus SpecMemory
  MemoryProofs.
Local Open Scope N_scope.

(** The property, that the memory asked for is bounded by a multiple of the input's length, is
    false for every factor up to 2^58: a decoder trusts a length prefix before it has seen the
    elements. *)
Theorem C62_proportional_refuted : ~ (exists c, c <= 2 ^ 58 /\
  forall stack A (d : dec A) bs, Decoder stack A d -> requested d bs <= c * (1 + size bs)).
Proof. exact not_proportional. Qed.
Print Assumptions C62_proportional_refuted.

(** Eight bytes make a string's decoder ask for any amount up to [isize::MAX] in one request; eight
    do for a v1 transaction and seventeen for a v2 transaction what no machine has. *)
Theorem C62_string_refuted : forall n, n <= isize_max -> requests decode_string (le_bytes 8 n) = [n].
Proof. exact string_prefix. Qed.
Print Assumptions C62_string_refuted.

Theorem C62_v1_transaction_refuted : exists bs, size bs = 8 /\ 2 ^ 62 <= requested decode_v1_transaction bs.
Proof. exact v1_transaction_huge. Qed.
Print Assumptions C62_v1_transaction_refuted.

Theorem C62_v2_transaction_refuted : forall stack,
  exists bs, size bs = 17 /\ 2 ^ 62 <= requested (decode_v2_transaction stack) bs.
Proof. exact v2_transaction_huge. Qed.
Print Assumptions C62_v2_transaction_refuted.

(** Input that is accepted is never expensive: at most 16 bytes are asked for per byte read. *)
Theorem C62_accepted_partial : forall stack A (d : dec A) used rest a, Decoder stack A d ->
  run d (used ++ rest) = ROk a rest -> requested d (used ++ rest) <= 16 * size used.
Proof. exact decoder_success. Qed.
Print Assumptions C62_accepted_partial.

(** The factor is the best possible: a threshold policy of two empty thresholds reaches it on the
    bytes after its header. *)
Example C62_accepted_example :
  let bs := map n2b [5; 0; 2; 5; 0; 0; 5; 0; 0] in
  (match run (decode_policy_body 2) bs with ROk _ [] => true | _ => false end) = true /\
  requested (decode_policy_body 2) bs = 16 * (size bs - 3).
Proof. split; vm_compute; reflexivity. Qed.

Example C62_accepted_transaction :
  let bs := le_bytes 8 0 ++ le_bytes 8 1 ++ le_bytes 8 0 ++ repeat x07 32 ++ repeat x00 64 in
  (match run decode_v1_transaction bs with ROk _ [] => true | _ => false end) = true /\
  requested decode_v1_transaction bs = 48 /\ size bs = 120.
Proof. split; [vm_compute; reflexivity|split; vm_compute; reflexivity]. Qed.

(** On any input: a single request is at most [isize::MAX] (beyond it the decoder panics instead),
    at most four large requests are ever unpaid, and there is at most one request for every three
    bytes of input. *)
Theorem C62_request_partial : forall stack A (d : dec A) bs z,
  Decoder stack A d -> In z (requests d bs) -> z <= isize_max.
Proof. exact decoder_request. Qed.
Print Assumptions C62_request_partial.

Theorem C62_total_partial : forall stack A (d : dec A) bs, Decoder stack A d ->
  requested d bs <= 4080 * size bs + 4 * isize_max.
Proof. exact decoder_total. Qed.
Print Assumptions C62_total_partial.

Theorem C62_count_partial : forall stack A (d : dec A) bs, Decoder stack A d ->
  3 * N.of_nat (length (requests d bs)) <= size bs.
Proof. exact decoder_count. Qed.
Print Assumptions C62_count_partial.

(** One request for every three bytes: thresholds within thresholds. *)
Example C62_count_example :
  let bs := map n2b [5; 0; 1; 5; 0; 1; 5; 0; 255] in
  requests (decode_policy_body 3) bs = [48; 48; 12240] /\ size bs = 9.
Proof. split; vm_compute; reflexivity. Qed.

(** Types of fixed size ask for nothing. *)
Theorem C62_fixed : forall A (d : dec A) bs, Fixed A d -> requests d bs = [].
Proof. exact fixed_none. Qed.
Print Assumptions C62_fixed.

Example C62_fixed_example : requests (decode_state Release) (repeat x00 600) = [].
Proof. exact (C62_fixed _ _ _ (F_state Release)). Qed.
