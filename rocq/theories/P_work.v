(** C67: the work of decoding untrusted bytes. *)

From Verif Require Import Base Io Model_encoding Model_common Model_v1 Model_policy Model_v2 Model_consensus SpecMemory
  SpecWork WorkProofs.
Local Open Scope N_scope.

(** On any input a decoder turns to its reader at most once for every byte there is, and once more
    to learn that there are no more, whatever the length prefixes in it say. *)
Theorem C67_reads : forall stack A (d : dec A) bs, Decoder stack A d -> reads d bs <= size bs + 1.
Proof. exact decoder_reads. Qed.
Print Assumptions C67_reads.

(** Input that is accepted takes at most one read for every byte used, however much follows. *)
Theorem C67_accepted : forall stack A (d : dec A) used rest a, Decoder stack A d ->
  run d (used ++ rest) = ROk a rest -> used <> [] -> reads d (used ++ rest) <= size used.
Proof. exact decoder_reads_accepted. Qed.
Print Assumptions C67_accepted.

(** Together with what is asked of the allocator: four steps for every three bytes, and one. *)
Theorem C67_steps : forall stack A (d : dec A) bs, Decoder stack A d -> 3 * steps d bs <= 4 * size bs + 3.
Proof. exact decoder_steps. Qed.
Print Assumptions C67_steps.

(** A string that says it has [isize::MAX] bytes and has five: one read for the prefix, five for the
    bytes, one that fails. *)
Example C67_prefix_example : let bs := le_bytes 8 isize_max ++ repeat x61 5 in
  run decode_string bs = RErr EIo /\ reads decode_string bs = 7 /\ steps decode_string bs = 8.
Proof. split; [|split]; vm_compute; reflexivity. Qed.

(** The bounds are reached: single bytes, and thresholds within thresholds. *)
Example C67_reads_example : let bs := map n2b [1; 5; 0; 1; 5; 0; 1; 5; 0; 1] in
  reads (decode_policy 9) bs = size bs + 1 /\ reads (decode_policy 9) [] = 1.
Proof. split; vm_compute; reflexivity. Qed.
Example C67_steps_example : let bs := map n2b [1; 5; 0; 1; 5; 0; 1; 5; 0; 1] in
  steps (decode_policy 9) bs = 14 /\ size bs = 10.
Proof. split; vm_compute; reflexivity. Qed.
Example C67_accepted_example : let bs := map n2b [1; 5; 0; 2; 5; 0; 0; 5; 0; 0] in
  (match run (decode_policy 9) (bs ++ [x07]) with ROk _ [x07] => true | _ => false end) = true /\
  reads (decode_policy 9) (bs ++ [x07]) = size bs.
Proof. split; vm_compute; reflexivity. Qed.
