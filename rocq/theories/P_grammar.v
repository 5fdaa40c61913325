(** C63: exactly which bytes each decoder accepts, and what it makes of them. *)

From Verif Require Import Base Io Spec SpecWire SpecLayout SpecCodecs SpecGrammar Model_encoding Model_common Model_v1
  Model_policy Model_v2 Model_consensus Samples WireProofs GrammarProofs.
Local Open Scope N_scope.

(** A decoder returns [a] and leaves [rest] if, and only if, what it consumed stands for [a] in
    its grammar. *)
Theorem C63_exact : forall stack A dec W, Grammar stack A dec W -> forall bs (a : A) rest,
  run dec bs = ROk a rest <-> exists w, W a w /\ bs = w ++ rest.
Proof. exact grammar_exact. Qed.
Print Assumptions C63_exact.

(** Every wire type of either format has a grammar. *)
Theorem C63_all_types : forall stack A P enc dec,
  V2Codec stack A P enc dec \/ V1Codec A P enc dec -> exists W, Grammar stack A dec W.
Proof. intros stack A P enc dec [H|H]; [exact (grammar_v2 stack A P enc dec H)|exact (grammar_v1 stack A P enc dec H)]. Qed.
Print Assumptions C63_all_types.

(** What the encoder writes is in the grammar. *)
Theorem C63_written : forall stack A P enc dec W,
  V2Codec stack A P enc dec \/ V1Codec A P enc dec -> Grammar stack A dec W ->
  forall a : A, P a -> W a (wbytes (enc a)).
Proof. exact grammar_written. Qed.
Print Assumptions C63_written.

(** No accepted text is the beginning of another, and each stands for one value. *)
Theorem C63_unique : forall stack A dec W, Grammar stack A dec W ->
  forall (a b : A) w x, W a w -> W b (w ++ x) -> a = b /\ x = [].
Proof. exact grammar_unique. Qed.
Print Assumptions C63_unique.

(** Other than encodings: an amount of 5 with a leading zero, read by the v1 decoder of a siacoin
    output; a [u16] with a high byte set; a v2 transaction that sets an unknown bit and announces
    an empty list of siacoin outputs. *)
Example C63_example_amount :
  Grammar 1 siacoin_output decode_v1_siacoin_output OldSiacoinOutput /\
  OldSiacoinOutput (MkSco (uwrap 128 5) (arr_of 32 (repeat x09 32)))
    ([x02; x00; x00; x00; x00; x00; x00; x00; x00; x05] ++ repeat x09 32) /\
  wbytes (encode_v1_siacoin_output (MkSco (uwrap 128 5) (arr_of 32 (repeat x09 32)))) =
    [x01; x00; x00; x00; x00; x00; x00; x00; x05] ++ repeat x09 32.
Proof.
  split; [apply G_siacoin_output|]. split; [|vm_compute; reflexivity].
  apply (seq_cons _ _ [x02; x00; x00; x00; x00; x00; x00; x00; x00; x05]).
  - exists [x00; x05]. split; [cbn; lia|]. split; reflexivity.
  - change (repeat x09 32) with (repeat x09 32 ++ []) at 2. apply seq_cons; [reflexivity|apply seq_nil].
Qed.
Example C63_example_narrow :
  Grammar 1 u16 decode_u16 Narrow /\ Narrow (uwrap 16 258) [x02; x01; x00; x00; x00; x00; x00; x07].
Proof. split; [apply G_u16|split; reflexivity]. Qed.
Definition blank_transaction : v2_transaction :=
  MkV2Txn vec_nil vec_nil vec_nil vec_nil vec_nil vec_nil vec_nil vec_nil vec_nil None (uwrap 128 0).
Example C63_example_transaction :
  Grammar 1 v2_transaction (decode_v2_transaction 1) (NewTransaction 1) /\
  NewTransaction 1 blank_transaction (x02 :: [x02; x00; x00; x00; x00; x00; x00; x80] ++ repeat x00 8) /\
  run (decode_v2_transaction 1) (x02 :: [x02; x00; x00; x00; x00; x00; x00; x80] ++ repeat x00 8) = ROk blank_transaction [].
Proof.
  split; [apply G_v2_transaction|].
  assert (W : NewTransaction 1 blank_transaction (x02 :: [x02; x00; x00; x00; x00; x00; x00; x80] ++ repeat x00 8)).
  { split; [split; constructor|]. exists [x02; x00; x00; x00; x00; x00; x00; x80], (repeat x00 8). split; [reflexivity|].
    split; [|reflexivity]. apply sections_clear; [reflexivity|].
    change (repeat x00 8) with (repeat x00 8 ++ []). apply sections_set; [reflexivity|].
    repeat (apply sections_clear; [reflexivity|]). apply sections_nil. }
  split; [exact W|]. apply (C63_exact 1 _ _ _ (G_v2_transaction 1)). exists (x02 :: [x02; x00; x00; x00; x00; x00; x00; x80] ++ repeat x00 8).
  split; [exact W|]. now rewrite app_nil_r.
Qed.
Example C63_example_block :
  Grammar 1 block decode_block OldBlock /\ whole_seconds (bl_timestamp s_block) /\ OldBlock s_block (wbytes (encode_block s_block)).
Proof.
  split; [apply G_block|]. split; [repeat split; apply V1_block|].
  apply (C63_written 1 block (fun b => whole_seconds (bl_timestamp b)) encode_block decode_block);
    [right; apply V1_block|apply G_block|repeat split; apply V1_block].
Qed.
(** At the largest height a wrapping build reads a state without timestamps. *)
Example C63_example_state : Grammar 1 state (decode_state Release) (SavedState Release) /\
  exists s w, uval (ci_height (st_index s)) = 2 ^ 64 - 1 /\ SavedState Release s w.
Proof.
  split; [apply G_state|].
  set (bs := repeat xff 8 ++ repeat x00 600).
  destruct (run (decode_state Release) bs) as [s r| |] eqn:E;
    [|exfalso; revert E; unfold bs; vm_compute; discriminate|exfalso; revert E; unfold bs; vm_compute; discriminate].
  pose proof E as E'. apply (C63_exact 1 _ _ _ (G_state 1 Release)) in E as (w & Hw & _). exists s, w. split; [|exact Hw].
  assert (H : match run (decode_state Release) bs with ROk s _ => uval (ci_height (st_index s)) =? 2 ^ 64 - 1 | _ => false end = true)
    by (unfold bs; vm_compute; reflexivity).
  rewrite E' in H. now apply N.eqb_eq in H.
Qed.
