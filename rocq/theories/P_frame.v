(** C65: what every decoder does with every input. *)

From Verif Require Import Base Io Spec SpecWire SpecLayout SpecCodecs SpecUtf8 SpecGrammar SpecFrame Model_encoding Model_common Model_v1
  Model_policy Model_v2 Model_consensus GrammarProofs FrameProofs.
Local Open Scope N_scope.

(** A decoder succeeds, leaving [rest], exactly on what its frame calls whole, followed by [rest]. *)
Theorem C65_read : forall stack A dec f, Framed stack A dec f -> forall bs rest,
  (exists a, run dec bs = ROk a rest) <-> exists w, whole f w /\ bs = w ++ rest.
Proof. exact framed_read. Qed.
Print Assumptions C65_read.

(** It stops the thread exactly on what begins with a string its frame stops at, for the same reason. *)
Theorem C65_stop : forall stack A dec f, Framed stack A dec f -> forall bs p,
  run dec bs = RPanic p <-> exists w rest, ends f (Stopped p) w /\ bs = w ++ rest.
Proof. exact framed_stop. Qed.
Print Assumptions C65_stop.

(** It returns an error exactly on what begins with a string its frame refuses and on what its
    frame finds too short, and the error is the frame's. *)
Theorem C65_refuse : forall stack A dec f, Framed stack A dec f -> forall bs e,
  run dec bs = RErr e <-> (exists w rest, ends f (Refused e) w /\ bs = w ++ rest) \/ short f e bs.
Proof. exact framed_refuse. Qed.
Print Assumptions C65_refuse.

(** Every wire type of either format has a frame. *)
Theorem C65_all_types : forall stack A P enc dec,
  V2Codec stack A P enc dec \/ V1Codec A P enc dec -> exists f, Framed stack A dec f.
Proof. intros stack A P enc dec [H|H]; [exact (framed_v2 stack A P enc dec H)|exact (framed_v1 stack A P enc dec H)]. Qed.
Print Assumptions C65_all_types.

(** What a frame calls whole is what the grammar of C63 gives a meaning to. *)
Theorem C65_grammar : forall stack A dec W f, Grammar stack A dec W -> Framed stack A dec f ->
  forall w, whole f w <-> exists a, W a w.
Proof.
  intros stack A dec W f G F w. split.
  - intros H. destruct (proj2 (framed_read _ _ _ _ F w []) (ex_intro _ w (conj H (eq_sym (app_nil_r w))))) as [a E].
    apply (grammar_exact _ _ _ _ G) in E as (w' & H' & ->). exists a. now rewrite app_nil_r.
  - intros [a H]. assert (E : run dec w = ROk a []) by (apply (grammar_exact _ _ _ _ G); exists w; rewrite app_nil_r; auto).
    destruct (proj1 (framed_read _ _ _ _ F w []) (ex_intro _ a E)) as (w' & H' & ->). now rewrite app_nil_r.
Qed.
Print Assumptions C65_grammar.

(** A transaction or block whose decoding exhausts the address space has eight bytes in a row that
    denote at least 2^52. *)
Theorem C65_huge : forall stack bs,
  run (decode_v2_transaction stack) bs = RPanic CapacityOverflow \/
  run decode_v1_transaction bs = RPanic CapacityOverflow \/
  run decode_block bs = RPanic CapacityOverflow ->
  exists pre c post, bs = pre ++ c ++ post /\ length c = 8%nat /\ 2 ^ 52 <= le_value c.
Proof.
  intros stack bs [H|[H|H]].
  - exact (framed_huge stack _ _ _ (R_v2_transaction stack) (tk_transaction stack) bs H).
  - exact (framed_huge stack _ _ _ (R_v1_transaction stack) tk_v1_transaction bs H).
  - exact (framed_huge stack _ _ _ (R_block stack) tk_block bs H).
Qed.
Print Assumptions C65_huge.

(** A block's timestamp stops the thread exactly if there are 48 bytes and the last eight of them
    are a number of seconds outside the years -9999 to 9999. *)
Theorem C65_block_time : forall bs, run decode_block bs = RPanic UnwrapNone <->
  exists pre c post, bs = pre ++ c ++ post /\ length pre = 40%nat /\ length c = 8%nat /\
    ~ (-377705116800 <= signed_value c <= 253402300799)%Z.
Proof. exact block_time. Qed.
Print Assumptions C65_block_time.

(** Four outcomes of the v2 transaction decoder: an empty transaction; the version is refused;
    the count of siacoin outputs stops it; the input ends within the count. *)
Example C65_example_whole :
  Framed 1 v2_transaction (decode_v2_transaction 1) (fr_transaction 1) /\ whole (fr_transaction 1) (x02 :: repeat x00 8).
Proof.
  split; [apply R_v2_transaction|]. exists [x02], (repeat x00 8). split; [reflexivity|]. split; [reflexivity|].
  exists (repeat x00 8), []. split; [reflexivity|]. split; [reflexivity|]. cbn -[N.testbit]. unfold if_set. cbn.
  repeat (exists [], []; split; [reflexivity|]; split; [reflexivity|]). reflexivity.
Qed.
Example C65_example_refused :
  ends (fr_transaction 1) (Refused (ECustom "unsupported transaction version")) [x01].
Proof. exists [x01], []. repeat split. Qed.
Example C65_example_stopped :
  ends (fr_transaction 1) (Stopped CapacityOverflow) ([x02; x02] ++ repeat x00 7 ++ repeat xff 8).
Proof.
  exists [x02], (x02 :: repeat x00 7 ++ repeat xff 8). split; [reflexivity|]. split; [reflexivity|].
  exists (x02 :: repeat x00 7), (repeat xff 8). split; [reflexivity|]. split; [reflexivity|].
  unfold if_set, parts. cbn [fold_right]. right. exists [], (repeat xff 8). split; [reflexivity|]. split; [reflexivity|].
  left. exists (repeat xff 8), []. split; [reflexivity|]. split; [reflexivity|]. split; reflexivity.
Qed.
Example C65_example_short : short (fr_transaction 1) EIo ([x02; x02] ++ repeat x00 7 ++ repeat xff 7).
Proof.
  right. exists [x02], (x02 :: repeat x00 7 ++ repeat xff 7). split; [reflexivity|]. split; [reflexivity|].
  right. exists (x02 :: repeat x00 7), (repeat xff 7). split; [reflexivity|]. split; [reflexivity|].
  unfold if_set, parts. cbn [fold_right]. right. exists [], (repeat xff 7). split; [reflexivity|]. split; [reflexivity|].
  left. left. split; [reflexivity|]. cbn. lia.
Qed.
Example C65_example_huge : run (decode_v2_transaction 1) ([x02; x02] ++ repeat x00 7 ++ repeat xff 8) = RPanic CapacityOverflow.
Proof. apply (C65_stop 1 _ _ _ (R_v2_transaction 1)). eexists. exists []. split; [exact C65_example_stopped|now rewrite app_nil_r]. Qed.
Example C65_example_time : run decode_block (repeat x00 40 ++ repeat x7f 8) = RPanic UnwrapNone.
Proof.
  apply C65_block_time. exists (repeat x00 40), (repeat x7f 8), []. split; [reflexivity|]. split; [reflexivity|]. split; [reflexivity|].
  vm_compute. intros [_ H]. now apply H.
Qed.
