(** Model of sia/src/encoding/v1.rs and sia/src/encoding/v2.rs: the primitive codecs.

    The v1 and v2 traits have textually identical bodies for the types below that occur in
    both (u8, bool, integers, slices, Option, Vec, String, [u8; N]); one definition
    models both, and the line numbers of both files are given. *)

From Verif Require Import Base Io.
Local Open Scope N_scope.
Local Open Scope dec_scope.

(** ** u8 — v2.rs:29-42, v1.rs:12-25 *)
Definition encode_u8 (b : u8) : wprog := write_all [b].
Definition decode_u8 : dec u8 := DRead 1 EIo (fun bs => DRet (hd x00 bs)).

(** ** bool — v2.rs:44-59, v1.rs:27-42 *)
Definition encode_bool (b : bool) : wprog := encode_u8 (if b then x01 else x00).
Definition decode_bool : dec bool :=
  v <- decode_u8 ;;
  match v with
  | x00 => DRet false
  | x01 => DRet true
  | _ => DErr EInvalidValue
  end.

(** ** Integers — v2.rs:123-144, v1.rs:77-98 ([impl_sia_numeric!])
    [(self as u64).to_le_bytes()] and [u64::from_le_bytes(buf) as Self]. *)
Definition encode_uint {w} (v : uint w) : wprog := write_all (le_bytes 8 (uval (uwrap 64 (uval v)))).
Definition decode_uint (w : N) : dec (uint w) :=
  DRead 8 EIo (fun bs => DRet (uwrap w (from_le bs))).

Definition encode_sint {w} (v : sint w) : wprog := write_all (le_bytes 8 (uval (s_as_u64 v))).
Definition decode_sint (w : N) (hw : w <> 0) : dec (sint w) :=
  DRead 8 EIo (fun bs => DRet (swrap w hw (Z.of_N (from_le bs)))).

Definition encode_u16 (v : u16) : wprog := encode_uint v.
Definition decode_u16 : dec u16 := decode_uint 16.
Definition encode_u32 (v : u32) : wprog := encode_uint v.
Definition decode_u32 : dec u32 := decode_uint 32.
Definition encode_u64 (v : u64) : wprog := encode_uint v.
Definition decode_u64 : dec u64 := decode_uint 64.
Definition encode_usize (v : usize) : wprog := encode_uint v.
Definition decode_usize : dec usize := decode_uint 64.
Definition encode_i16 (v : i16) : wprog := encode_sint v.
Definition decode_i16 : dec i16 := decode_sint 16 w16_nz.
Definition encode_i32 (v : i32) : wprog := encode_sint v.
Definition decode_i32 : dec i32 := decode_sint 32 w32_nz.
Definition encode_i64 (v : i64) : wprog := encode_sint v.
Definition decode_i64 : dec i64 := decode_sint 64 w64_nz.

(** ** Timestamps *)

(** [time::OffsetDateTime] as an instant: whole seconds since the Unix epoch and the
    nanosecond within the second. The UTC offset, which [PartialEq] ignores, is not
    modelled. Without the [large-dates] feature (Cargo.toml does not enable it) the years
    are -9999 to 9999. *)
Definition ts_min : Z := (-377705116800)%Z.
Definition ts_max : Z := 253402300799%Z.

Record odt : Type :=
  MkOdt { odt_secs : Z; odt_nanos : N;
          odt_ok : (ts_min <=? odt_secs)%Z && (odt_secs <=? ts_max)%Z
                   && (odt_nanos <? 1000000000) = true }.

Lemma odt_eq : forall a b, odt_secs a = odt_secs b -> odt_nanos a = odt_nanos b -> a = b.
Proof.
  intros [s n h] [s' n' h'] H1 H2; cbn in *; subst. f_equal.
  apply Eqdep_dec.UIP_dec, bool_dec.
Qed.

(** [OffsetDateTime::from_unix_timestamp]: an error outside the range. *)
Definition from_unix_timestamp (s : i64) : option odt :=
  match bool_dec ((ts_min <=? sval s)%Z && (sval s <=? ts_max)%Z && (0 <? 1000000000)) true with
  | left h => Some (MkOdt (sval s) 0 h)
  | right _ => None
  end.

Lemma unix_timestamp_ok : forall t : odt,
  ((- 2 ^ (Z.of_N 64 - 1) <=? odt_secs t) && (odt_secs t <? 2 ^ (Z.of_N 64 - 1)))%Z = true.
Proof.
  intros [s n h]; cbn [odt_secs].
  change (2 ^ (Z.of_N 64 - 1))%Z with 9223372036854775808%Z.
  unfold ts_min, ts_max in h. lia.
Qed.

(** [OffsetDateTime::unix_timestamp] (floor to seconds). *)
Definition unix_timestamp (t : odt) : i64 := MkSint (odt_secs t) (unix_timestamp_ok t).

(** v2.rs:61-65 *)
Definition encode_odt (t : odt) : wprog := encode_i64 (unix_timestamp t).

(** v2.rs:67-72: [from_unix_timestamp(..).unwrap()] *)
Definition decode_odt : dec odt :=
  s <- decode_i64 ;;
  match from_unix_timestamp s with
  | Some t => DRet t
  | None => DPanic UnwrapNone
  end.

(** ** Durations *)

(** [time::Duration] as its number of nanoseconds; seconds are an [i64] and the
    nanosecond part has the same sign. *)
Definition dur_min : Z := (- 2 ^ 63 * 1000000000 - 999999999)%Z.
Definition dur_max : Z := ((2 ^ 63 - 1) * 1000000000 + 999999999)%Z.

Record duration : Type :=
  MkDur { dur_ns : Z; dur_ok : (dur_min <=? dur_ns)%Z && (dur_ns <=? dur_max)%Z = true }.

Lemma duration_eq : forall a b, dur_ns a = dur_ns b -> a = b.
Proof.
  intros [s h] [s' h'] H1; cbn in *; subst. f_equal. apply Eqdep_dec.UIP_dec, bool_dec.
Qed.

Lemma nanoseconds_ok : forall n : i64, (dur_min <=? sval n)%Z && (sval n <=? dur_max)%Z = true.
Proof.
  intros n. pose proof (sint_range 64 n) as H.
  change (2 ^ (Z.of_N 64 - 1))%Z with 9223372036854775808%Z in H.
  unfold dur_min, dur_max. change (2 ^ 63)%Z with 9223372036854775808%Z. lia.
Qed.

(** [Duration::nanoseconds(n: i64)]. *)
Definition nanoseconds (n : i64) : duration := MkDur (sval n) (nanoseconds_ok n).

(** [self.whole_nanoseconds() as u64]: an [i128] truncated to 64 bits. *)
Definition whole_nanoseconds_u64 (d : duration) : u64 := uwrap 64 (Z.to_N (dur_ns d mod 2 ^ 64)).

(** v2.rs:74-78 *)
Definition encode_duration (d : duration) : wprog := encode_u64 (whole_nanoseconds_u64 d).

(** v2.rs:80-88 *)
Definition decode_duration : dec duration :=
  ns <- decode_u64 ;;
  if 2 ^ 63 - 1 <? uval ns then DErr EInvalidValue
  else DRet (nanoseconds (swrap 64 w64_nz (Z.of_N (uval ns)))).

(** ** Slices and vectors — v2.rs:90-98, 146-171; v1.rs:44-52, 100-125 *)
Definition encode_slice {A} (enc : A -> wprog) (l : list A) : wprog :=
  encode_usize (uwrap 64 (N.of_nat (length l))) ++ concat (map enc l).

Definition encode_vec {sz A} (enc : A -> wprog) (v : vec sz A) : wprog :=
  encode_slice enc (vlist v).

(** [Vec::with_capacity(len)] panics when [len * size_of::<T>()] exceeds [isize::MAX];
    otherwise it asks the allocator for that much. That the process is aborted when the
    allocator refuses is not modelled. *)
Definition decode_vec {A} (sz : N) (d : dec A) : dec (vec sz A) :=
  len <- decode_usize ;;
  if isize_max <? uval len * sz then DPanic CapacityOverflow
  else DAlloc (uval len * sz) (
    l <- dloop (uval len) (fun acc => x <- d ;; DRet (x :: acc)) [] ;;
    match vec_of sz (rev l) with
    | Some v => DRet v
    | None => DPanic Unreachable
    end).

(** ** Option — v2.rs:100-121, v1.rs:54-75 *)
Definition encode_option {A} (enc : A -> wprog) (o : option A) : wprog :=
  match o with
  | Some v => encode_bool true ++ enc v
  | None => encode_bool false
  end.

Definition decode_option {A} (d : dec A) : dec (option A) :=
  has_value <- decode_bool ;;
  if has_value : bool then (v <- d ;; DRet (Some v)) else DRet None.

(** ** String — v2.rs:173-184, v1.rs:127-138 *)
Definition encode_string (s : rstring) : wprog := encode_slice encode_u8 (vlist (sbytes s)).

Definition decode_string : dec rstring :=
  buf <- decode_vec 1 decode_u8 ;;
  dret_opt EInvalidLength (rstring_of buf).

(** ** Byte arrays — v2.rs:186-199, v1.rs:140-153 *)
Definition encode_arr {n} (a : arr n) : wprog := write_all (aval a).
Definition decode_arr (n : nat) : dec (arr n) := DRead n EIo (fun bs => DRet (arr_of n bs)).
