(** The integer types with a binary format, as a table: type, number it stands for, encoder,
    decoder (sia/src/encoding/v2.rs:144, v1.rs:98). *)

From Verif Require Import Base Io Model_encoding.

Inductive IntCodec : forall A : Type, (A -> Z) -> (A -> wprog) -> dec A -> Prop :=
| Int_u16 : IntCodec u16 (fun v => Z.of_N (uval v)) encode_u16 decode_u16
| Int_u32 : IntCodec u32 (fun v => Z.of_N (uval v)) encode_u32 decode_u32
| Int_u64 : IntCodec u64 (fun v => Z.of_N (uval v)) encode_u64 decode_u64
| Int_usize : IntCodec usize (fun v => Z.of_N (uval v)) encode_usize decode_usize
| Int_i16 : IntCodec i16 sval encode_i16 decode_i16
| Int_i32 : IntCodec i32 sval encode_i32 decode_i32
| Int_i64 : IntCodec i64 sval encode_i64 decode_i64.

(** Those of them as wide as the encoding. *)
Inductive WideCodec : forall A : Type, (A -> Z) -> dec A -> Prop :=
| Wide_u64 : WideCodec u64 (fun v => Z.of_N (uval v)) decode_u64
| Wide_usize : WideCodec usize (fun v => Z.of_N (uval v)) decode_usize
| Wide_i64 : WideCodec i64 sval decode_i64.
