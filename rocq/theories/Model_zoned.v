(** Model of timestamps with an offset from UTC: [time::OffsetDateTime] (0.3.37) as it is read from
    and written to JSON, and its wire encoding. The other files of the model know timestamps as
    instants ([odt]); reading RFC 3339 there drops the offset. *)

From Verif Require Import Base Io Model_encoding Model_text Model_json.
Local Open Scope N_scope.

(** [OffsetDateTime]: the local date and time, as the seconds a clock without offset would count
    since 1970 and the nanoseconds within the second, and the offset in seconds ([UtcOffset] keeps
    hours up to 25, minutes and seconds with one sign). *)
Record zoned : Type := MkZoned {
  z_local : Z;
  z_nanos : N;
  z_offset : Z;
  z_ok : (ts_min <=? z_local)%Z && (z_local <=? ts_max)%Z && (z_nanos <? 1000000000)
         && (-93599 <=? z_offset)%Z && (z_offset <=? 93599)%Z = true }.

Lemma zoned_eq : forall a b, z_local a = z_local b -> z_nanos a = z_nanos b -> z_offset a = z_offset b -> a = b.
Proof.
  intros [s n o h] [s' n' o' h'] H1 H2 H3; cbn in *; subst. f_equal. apply Eqdep_dec.UIP_dec, bool_dec.
Qed.

(** [OffsetDateTime::new_in_offset] *)
Definition mk_zoned (local : Z) (nanos : N) (offset : Z) : option zoned :=
  match bool_dec ((ts_min <=? local)%Z && (local <=? ts_max)%Z && (nanos <? 1000000000)
                  && (-93599 <=? offset)%Z && (offset <=? 93599)%Z) true with
  | left h => Some (MkZoned local nanos offset h)
  | right _ => None
  end.

Lemma zoned_unix_ok : forall z : zoned,
  ((- 2 ^ (Z.of_N 64 - 1) <=? z_local z - z_offset z) && (z_local z - z_offset z <? 2 ^ (Z.of_N 64 - 1)))%Z = true.
Proof.
  intros [s n o h]; cbn [z_local z_offset].
  change (2 ^ (Z.of_N 64 - 1))%Z with 9223372036854775808%Z.
  unfold ts_min, ts_max in h. lia.
Qed.

(** [OffsetDateTime::unix_timestamp] *)
Definition zoned_unix (z : zoned) : i64 := MkSint (z_local z - z_offset z) (zoned_unix_ok z).

(** encoding/v2.rs:61-65 *)
Definition encode_zoned (z : zoned) : wprog := encode_i64 (zoned_unix z).

(** [PartialEq]: the same instant *)
Definition zoned_same (a b : zoned) : bool :=
  (sval (zoned_unix a) =? sval (zoned_unix b))%Z && (z_nanos a =? z_nanos b).

(** [OffsetDateTime::parse(_, &Rfc3339)]; any error is [None]. *)
Definition parse_zoned (s : bytes) : option zoned :=
  oand (take_digits 4 0 s) (fun '(y, s) =>
  oand (take_char "-" s) (fun s =>
  oand (take_digits 2 0 s) (fun '(mo, s) =>
  oand (take_char "-" s) (fun s =>
  oand (take_digits 2 0 s) (fun '(d, s) =>
  oand (match s with _ :: r => Some r | [] => None end) (fun s =>
  oand (take_digits 2 0 s) (fun '(h, s) =>
  oand (take_char ":" s) (fun s =>
  oand (take_digits 2 0 s) (fun '(mi, s) =>
  oand (take_char ":" s) (fun s =>
  oand (take_digits 2 0 s) (fun '(sec, s) =>
  oand (parse_fraction s) (fun '(nanos, s) =>
  oand (parse_offset s) (fun '(off, s) =>
  let leap := sec =? 60 in
  let sec := if leap then 59 else sec in
  let nanos := if leap then 999999999 else nanos in
  let y := Z.of_N y in let mo := Z.of_N mo in let d := Z.of_N d in
  if negb (match s with [] => true | _ => false end) then None
  else if negb ((1 <=? mo)%Z && (mo <=? 12)%Z && (1 <=? d)%Z && (d <=? month_days y mo)%Z) then None
  else if negb ((h <=? 23) && (mi <=? 59) && (sec <=? 59)) then None
  else
    let local := (days_of_date y mo d * 86400 + Z.of_N (h * 3600 + mi * 60 + sec))%Z in
    let utc := (local - off)%Z in
    if leap && negb (let '(y', m', d') := date_of_days (utc / 86400) in
                     ((utc mod 86400 =? 86399) && (d' =? month_days y' m'))%Z) then None
    else mk_zoned local nanos off))))))))))))).

(** The offset as [Rfc3339] writes it: an error for 24 hours and more and for seconds. *)
Definition offset_text (o : Z) : option bytes :=
  if (86400 <=? Z.abs o)%Z then None
  else if negb (Z.abs o mod 60 =? 0)%Z then None
  else if (o =? 0)%Z then Some (ascii "Z")
  else
    let a := Z.to_N (Z.abs o) in
    Some ((if (o <? 0)%Z then ascii "-" else ascii "+") ++
          pad_digits 2 (a / 3600) ++ ascii ":" ++ pad_digits 2 (a / 60 mod 60)).

(** [OffsetDateTime::format(&Rfc3339)]: an error for local years outside 0 to 9999. *)
Definition zoned_text (z : zoned) : option bytes :=
  let '(y, m, d) := date_of_days (z_local z / 86400) in
  let s := Z.to_N (z_local z mod 86400) in
  if ((y <? 0) || (9999 <? y))%Z then None
  else oand (offset_text (z_offset z)) (fun o => Some (
    pad_digits 4 (Z.to_N y) ++ ascii "-" ++ pad_digits 2 (Z.to_N m) ++ ascii "-" ++
    pad_digits 2 (Z.to_N d) ++ ascii "T" ++
    pad_digits 2 (s / 3600) ++ ascii ":" ++ pad_digits 2 (s / 60 mod 60) ++ ascii ":" ++
    pad_digits 2 (s mod 60) ++
    (if z_nanos z =? 0 then [] else ascii "." ++ trim_fraction (pad_digits 9 (z_nanos z))) ++ o)).

(** [time::serde::rfc3339], the form of [Block::timestamp], [HardforkOak::genesis_timestamp] and of
    the entries of [State::prev_timestamps] (utils.rs:27-73) *)
Definition ser_zoned : jser zoned := fun z =>
  match zoned_text z with Some s => JOk (JStr s) | None => JErr end.
Definition de_zoned : jde zoned := de_text (fun s => jopt (parse_zoned s)).
