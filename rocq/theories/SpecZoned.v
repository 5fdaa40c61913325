(** Specification: RFC 3339 texts with an offset from UTC, as the library reads them. *)

From Verif Require Import Base SpecText Model_encoding Model_zoned SpecDoc.
Local Open Scope N_scope.

(** The digits of a fraction after the ninth are dropped. *)
Definition ReadFraction (nanos : N) (s : bytes) : Prop :=
  (nanos = 0 /\ s = []) \/
  (exists f, s = "."%byte :: f /\ Forall digit f /\ f <> [] /\
     nanos = dec_value (firstn 9 (f ++ repeat "0"%byte 9))).

(** [Z], or sign, hours up to 25 and minutes; [o] are the seconds to add to UTC. *)
Definition ReadOffset (o : Z) (s : bytes) : Prop :=
  (o = 0%Z /\ (s = ascii "Z" \/ s = ascii "z")) \/
  (exists h m sh sm, Padded 2 h sh /\ Padded 2 m sm /\ h <= 25 /\ m < 60 /\
     ((o = Z.of_N (3600 * h + 60 * m) /\ s = ascii "+" ++ sh ++ ascii ":" ++ sm) \/
      (o = (- Z.of_N (3600 * h + 60 * m))%Z /\ s = ascii "-" ++ sh ++ ascii ":" ++ sm))).

(** The last second of a month. *)
Definition EndOfMonth (t : Z) : Prop := exists y m d day,
  Day y m d day /\ DaysIn y m d /\ (t = 86400 * day + 86399)%Z.

(** The text [s] says: [local] seconds on the local clock, [nanos] nanoseconds, [offset] from UTC.
    Any character may stand between date and time. The 61st second of a minute is only allowed at
    the end of a month in UTC, and is read as the last nanosecond before it. *)
Definition ReadRfc3339 (local : Z) (nanos : N) (offset : Z) (s : bytes) : Prop :=
  exists y m d day h mi sec sy sm sd sep sh smi ss sf so fraction,
    Day (Z.of_N y) (Z.of_N m) (Z.of_N d) day /\ h < 24 /\ mi < 60 /\
    Padded 4 y sy /\ Padded 2 m sm /\ Padded 2 d sd /\ Padded 2 h sh /\ Padded 2 mi smi /\
    Padded 2 sec ss /\ ReadFraction fraction sf /\ ReadOffset offset so /\
    s = sy ++ ascii "-" ++ sm ++ ascii "-" ++ sd ++ [sep] ++ sh ++ ascii ":" ++ smi ++ ascii ":" ++ ss ++ sf ++ so /\
    ((sec < 60 /\ nanos = fraction /\ local = (86400 * day + Z.of_N (3600 * h + 60 * mi + sec))%Z) \/
     (sec = 60 /\ nanos = 999999999 /\ local = (86400 * day + Z.of_N (3600 * h + 60 * mi + 59))%Z /\
      EndOfMonth (local - offset))).

Definition ZonedText (z : zoned) (s : bytes) : Prop := ReadRfc3339 (z_local z) (z_nanos z) (z_offset z) s.

(** What is written: [Z] exactly for offset zero, and otherwise sign, hours and minutes. *)
Definition WrittenOffset (o : Z) (s : bytes) : Prop :=
  (o = 0%Z /\ s = ascii "Z") \/
  (exists h m sh sm sign, Padded 2 h sh /\ Padded 2 m sm /\ h < 24 /\ m < 60 /\ o <> 0%Z /\
     s = [sign] ++ sh ++ ascii ":" ++ sm /\
     ((o = Z.of_N (3600 * h + 60 * m) /\ sign = "+"%byte) \/ (o = (- Z.of_N (3600 * h + 60 * m))%Z /\ sign = "-"%byte))).

Definition WrittenRfc3339 (z : zoned) (s : bytes) : Prop :=
  exists y m d day h mi sec sy sm sd sh smi ss sf so,
    Day (Z.of_N y) (Z.of_N m) (Z.of_N d) day /\ h < 24 /\ mi < 60 /\ sec < 60 /\
    z_local z = (86400 * day + Z.of_N (3600 * h + 60 * mi + sec))%Z /\
    Padded 4 y sy /\ Padded 2 m sm /\ Padded 2 d sd /\ Padded 2 h sh /\ Padded 2 mi smi /\
    Padded 2 sec ss /\ Fraction (z_nanos z) sf /\ WrittenOffset (z_offset z) so /\
    s = sy ++ ascii "-" ++ sm ++ ascii "-" ++ sd ++ ascii "T" ++ sh ++ ascii ":" ++ smi ++ ascii ":" ++ ss ++ sf ++ so.

(** The instant a timestamp denotes, in seconds since 1970 in UTC. *)
Definition instant (z : zoned) : Z := (z_local z - z_offset z)%Z.
