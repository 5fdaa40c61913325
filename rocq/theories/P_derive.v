(** Property C58: the codecs that [#[derive(SiaEncode, SiaDecode, V1SiaEncode, V1SiaDecode)]]
    generate. The theorems range over every declaration [f] of a struct, over every universe of
    types [T] with values [den], and over every implementation of the traits for the types of the
    fields. [DistinctNames]: the struct does not declare a name twice, which Rust rejects. *)

From Verif Require Import Base Io Spec Model_encoding Model_common Model_v1 Model_policy Model_v2
  Model_derive Model_derivetypes SpecDerive EncodingProofs DeriveProofs DeriveLib.
Local Open Scope dec_scope.

(** ** v1 *)

(** The encoding is the encodings of all fields, in declaration order. *)
Theorem C58_v1_layout : forall T (den : T -> Type) enc f b v, DistinctNames f ->
  derive_v1_sia_encode (DataStruct f) = Some b ->
  run_encode den enc f b v = write_fields den enc [] (field_types f) v.
Proof. exact @v1_layout. Qed.
Print Assumptions C58_v1_layout.

(** The decoder reads all fields, in declaration order. *)
Theorem C58_v1_decode : forall T T_eq_dec (den : T -> Type) decoder f c D, DistinctNames f ->
  derive_v1_sia_decode (DataStruct f) = Some c ->
  compile_decode T_eq_dec den decoder f c = Some D ->
  exists R, read_fields den decoder (field_types f) = Some R /\ forall bs, run D bs = run R bs.
Proof. exact @v1_decode_order. Qed.
Print Assumptions C58_v1_decode.

(** A struct of any shape and visibility has a decoder, when the types of its fields have. *)
Theorem C58_v1_compiles : forall T T_eq_dec (den : T -> Type) decoder f, DistinctNames f ->
  (exists c D, derive_v1_sia_decode (DataStruct f) = Some c /\
               compile_decode T_eq_dec den decoder f c = Some D) <->
  (forall t, In t (field_types f) -> decoder t <> None).
Proof. exact @v1_compiles. Qed.
Print Assumptions C58_v1_compiles.

(** Values whose fields survive their encodings survive. *)
Theorem C58_v1_roundtrip : forall T T_eq_dec (den : T -> Type) enc decoder P f b c D,
  DistinctNames f -> Lawful den enc decoder P (field_types f) ->
  derive_v1_sia_encode (DataStruct f) = Some b -> derive_v1_sia_decode (DataStruct f) = Some c ->
  compile_decode T_eq_dec den decoder f c = Some D ->
  forall v, exists p, run_encode den enc f b v = Some p /\ propagates p /\
    (AllFields den P (field_types f) v -> forall rest, run D (wbytes p ++ rest) = ROk v rest).
Proof. exact @v1_roundtrip. Qed.
Print Assumptions C58_v1_roundtrip.

(** Different values have different encodings. *)
Theorem C58_v1_determines : forall T (T_eq_dec : forall a b : T, {a = b} + {a <> b}) (den : T -> Type) enc decoder P f b v v' p p',
  DistinctNames f -> Lawful den enc decoder P (field_types f) ->
  derive_v1_sia_encode (DataStruct f) = Some b ->
  AllFields den P (field_types f) v -> AllFields den P (field_types f) v' ->
  run_encode den enc f b v = Some p -> run_encode den enc f b v' = Some p' ->
  wbytes p = wbytes p' -> v = v'.
Proof. exact @v1_determines. Qed.
Print Assumptions C58_v1_determines.

(** ** v2 *)

(** Named fields that are not [pub] are left out. *)
Theorem C58_v2_layout : forall T (den : T -> Type) enc f b v, DistinctNames f ->
  derive_sia_encode (DataStruct f) = Some b ->
  run_encode den enc f b v = write_fields den enc (visible f) (field_types f) v.
Proof. exact @v2_layout. Qed.
Print Assumptions C58_v2_layout.

Theorem C58_v2_decode : forall T T_eq_dec (den : T -> Type) decoder f c D, DistinctNames f ->
  derive_sia_decode (DataStruct f) = Some c ->
  compile_decode T_eq_dec den decoder f c = Some D ->
  AllPublic f /\
  exists R, read_fields den decoder (field_types f) = Some R /\ forall bs, run D bs = run R bs.
Proof. exact @v2_decode_order. Qed.
Print Assumptions C58_v2_decode.

(** A decoder exists exactly when every named field is [pub]. *)
Theorem C58_v2_compiles : forall T T_eq_dec (den : T -> Type) decoder f, DistinctNames f ->
  (exists c D, derive_sia_decode (DataStruct f) = Some c /\
               compile_decode T_eq_dec den decoder f c = Some D) <->
  AllPublic f /\ (forall t, In t (field_types f) -> decoder t <> None).
Proof. exact @v2_compiles. Qed.
Print Assumptions C58_v2_compiles.

(** When the decoder compiles, values survive. *)
Theorem C58_v2_roundtrip : forall T T_eq_dec (den : T -> Type) enc decoder P f b c D,
  DistinctNames f -> Lawful den enc decoder P (field_types f) ->
  derive_sia_encode (DataStruct f) = Some b -> derive_sia_decode (DataStruct f) = Some c ->
  compile_decode T_eq_dec den decoder f c = Some D ->
  forall v, exists p, run_encode den enc f b v = Some p /\ propagates p /\
    (AllFields den P (field_types f) v -> forall rest, run D (wbytes p ++ rest) = ROk v rest).
Proof. exact @v2_roundtrip. Qed.
Print Assumptions C58_v2_roundtrip.

(** Different values have different encodings: false of a struct with a private field, which
    derives only the encoder. *)
Theorem C58_v2_determines_refuted : exists b (v v' : tuple values (field_types with_private)) p,
  derive_sia_encode (DataStruct with_private) = Some b /\
  run_encode values v2_encoder with_private b v = Some p /\
  run_encode values v2_encoder with_private b v' = Some p /\ v <> v'.
Proof. exact private_lost. Qed.
Print Assumptions C58_v2_determines_refuted.

(** True when every named field is [pub]. *)
Theorem C58_v2_determines_partial : forall T (T_eq_dec : forall a b : T, {a = b} + {a <> b}) (den : T -> Type) enc decoder P f b v v' p p',
  DistinctNames f -> AllPublic f -> Lawful den enc decoder P (field_types f) ->
  derive_sia_encode (DataStruct f) = Some b ->
  AllFields den P (field_types f) v -> AllFields den P (field_types f) v' ->
  run_encode den enc f b v = Some p -> run_encode den enc f b v' = Some p' ->
  wbytes p = wbytes p' -> v = v'.
Proof. exact @v2_determines. Qed.
Print Assumptions C58_v2_determines_partial.

(** ** Both *)

(** Enums and unions are rejected when the program is compiled. *)
Theorem C58_sums_rejected : forall T,
  derive_sia_encode (@DataEnum T) = None /\ derive_sia_decode (@DataEnum T) = None /\
  derive_v1_sia_encode (@DataEnum T) = None /\ derive_v1_sia_decode (@DataEnum T) = None /\
  derive_sia_encode (@DataUnion T) = None /\ derive_sia_decode (@DataUnion T) = None /\
  derive_v1_sia_encode (@DataUnion T) = None /\ derive_v1_sia_decode (@DataUnion T) = None.
Proof. exact sums_rejected. Qed.
Print Assumptions C58_sums_rejected.

(** The codecs of the library's structs are the ones the macros generate from their declarations. *)
Theorem C58_v1_library : forall A f mk e d, DerivedV1 A f mk e d ->
  exists b c D, derive_v1_sia_encode (DataStruct f) = Some b /\
    derive_v1_sia_decode (DataStruct f) = Some c /\
    compile_decode rust_type_eq_dec values v1_decoder f c = Some D /\
    (forall v, run_encode values v1_encoder f b v = Some (e (mk v))) /\
    (forall bs, run d bs = run (v <- D ;; DRet (mk v)) bs).
Proof. exact v1_library. Qed.
Print Assumptions C58_v1_library.

Theorem C58_v2_library : forall stack A f mk e d, DerivedV2 stack A f mk e d ->
  exists b c D, derive_sia_encode (DataStruct f) = Some b /\
    derive_sia_decode (DataStruct f) = Some c /\
    compile_decode rust_type_eq_dec values (v2_decoder stack) f c = Some D /\
    (forall v, run_encode values v2_encoder f b v = Some (e (mk v))) /\
    (forall bs, run d bs = run (v <- D ;; DRet (mk v)) bs).
Proof. exact v2_library. Qed.
Print Assumptions C58_v2_library.

(** The fields determine the value and are determined by it. *)
Theorem C58_v1_bijective : forall A f mk e d, DerivedV1 A f mk e d ->
  exists fields_of, (forall a, mk (fields_of a) = a) /\ (forall v, fields_of (mk v) = v).
Proof. exact v1_bijective. Qed.
Print Assumptions C58_v1_bijective.

Theorem C58_v2_bijective : forall stack A f mk e d, DerivedV2 stack A f mk e d ->
  exists fields_of, (forall a, mk (fields_of a) = a) /\ (forall v, fields_of (mk v) = v).
Proof. exact v2_bijective. Qed.
Print Assumptions C58_v2_bijective.

(** ** Concrete cases *)

(** A struct with a public and a private field satisfies the hypotheses; its v1 encoding has both
    fields and its v2 encoding one. *)
Definition always : forall t, values t -> Prop := fun _ _ => True.

Example C58_hypotheses : DistinctNames with_private /\
  Lawful values v1_encoder v1_decoder always (field_types with_private) /\
  Lawful values v2_encoder (v2_decoder 1) always (field_types decl_chain_index) /\
  AllPublic decl_chain_index /\ ~ AllPublic with_private.
Proof.
  split; [apply distinct_nodup; reflexivity|]. split; [|split; [|split]].
  - intros t [<-|[<-|[]]]; exists encode_u64, decode_u64;
      (split; [reflexivity|split; [reflexivity|split; [apply prop_uint|intros a rest _; apply rt_u64]]]).
  - intros t [<-|[<-|[]]].
    + exists encode_u64, decode_u64.
      split; [reflexivity|split; [reflexivity|split; [apply prop_uint|intros a rest _; apply rt_u64]]].
    + exists encode_hash, decode_hash.
      split; [reflexivity|split; [reflexivity|split; [apply prop_arr|intros a rest _; apply rt_arr]]].
  - repeat constructor.
  - intros H. inversion_clear H as [|? ? _ H']. inversion_clear H' as [|? ? X _]. discriminate X.
Qed.

Definition two_and_three : tuple values (field_types with_private) := (uwrap 64 2, (uwrap 64 3, tt)).

Example C58_private_example :
  option_map wbytes (run_encode values v1_encoder with_private [ByName "shown"; ByName "hidden"] two_and_three) =
    Some [x02; x00; x00; x00; x00; x00; x00; x00; x03; x00; x00; x00; x00; x00; x00; x00] /\
  option_map wbytes (run_encode values v2_encoder with_private [ByName "shown"] two_and_three) =
    Some [x02; x00; x00; x00; x00; x00; x00; x00].
Proof. split; reflexivity. Qed.

(** A transaction of the library is a row of the table. *)
Example C58_library_row : DerivedV1 v1_transaction decl_transaction
  (fun '(y0, (y1, (y2, (y3, (y4, (y5, (y6, (y7, (y8, (y9, tt)))))))))) => MkV1Txn y0 y1 y2 y3 y4 y5 y6 y7 y8 y9)
  encode_v1_transaction decode_v1_transaction.
Proof. exact V1d_transaction. Qed.
