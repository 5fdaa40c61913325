(** Property C71: timestamps with an offset from UTC. [ZonedText], [WrittenRfc3339] and [instant] are in
    SpecZoned.v; [year0] is the first second of year 0. Only statements. *)

From Verif Require Import Base Io Model_encoding Model_json Model_jsontypes Model_zoned TimeProofs SpecZoned ZonedProofs.
Local Open Scope N_scope.

(** ** C71 *)

(** Which texts are read, and as which local time and offset. *)
Theorem C71_read : forall j z, de_zoned j = JOk z <->
  exists s : rstring, j = JStr (vlist (sbytes s)) /\ ZonedText z (vlist (sbytes s)).
Proof. exact zoned_json. Qed.
Print Assumptions C71_read.

(** The rest of the model knows a timestamp as an instant: it is the local time less the offset. *)
Theorem C71_instant : forall j t, c_de j_odt j = JOk t <->
  exists (s : rstring) z, j = JStr (vlist (sbytes s)) /\ ZonedText z (vlist (sbytes s)) /\
    odt_secs t = instant z /\ odt_nanos t = z_nanos z.
Proof. exact instant_json. Qed.
Print Assumptions C71_instant.

Example C71_example :
  reads_as "2020-01-01T02:00:00+02:00" 1577844000 0 7200 /\
  reads_as "2019-12-31 22:30:00.5-01:30" 1577831400 500000000 (-5400) /\
  reads_as "2017-01-01T01:59:60+02:00" 1483235999 999999999 7200 /\
  reads_as "2020-01-01T00:00:00.1234567891Z" 1577836800 123456789 0 /\
  de_zoned (JStr (ascii "2017-01-01T01:59:60+01:00")) = JErr /\
  de_zoned (JStr (ascii "2020-01-01T00:00:00+26:00")) = JErr /\
  de_zoned (JStr (ascii "2020-02-30T00:00:00Z")) = JErr.
Proof. exact zoned_examples. Qed.

(** What is written, and when anything is. *)
Theorem C71_written : forall z,
  ((exists j, ser_zoned z = JOk j) <->
    (year0 <= z_local z)%Z /\ (Z.abs (z_offset z) < 86400)%Z /\ (z_offset z mod 60 = 0)%Z) /\
  (forall j, ser_zoned z = JOk j -> exists s, j = JStr s /\ WrittenRfc3339 z s) /\
  (forall p, ser_zoned z <> JPanic p).
Proof. exact written_json. Qed.
Print Assumptions C71_written.

(** What is written is read back with its offset. *)
Theorem C71_back : forall z j, ser_zoned z = JOk j -> de_zoned j = JOk z.
Proof. exact written_back. Qed.
Print Assumptions C71_back.

Example C71_back_example :
  (match de_zoned (JStr (ascii "2019-12-31 22:30:00.50-01:30")) with JOk z => ser_zoned z | _ => JErr end) =
  JOk (JStr (ascii "2019-12-31T22:30:00.5-01:30")).
Proof. vm_compute. reflexivity. Qed.

(** A timestamp that was read can be written again if its offset is less than a day, and only then. *)
Theorem C71_kept_partial : forall j z, de_zoned j = JOk z ->
  ((Z.abs (z_offset z) < 86400)%Z -> exists j', ser_zoned z = JOk j' /\ de_zoned j' = JOk z) /\
  ((86400 <= Z.abs (z_offset z))%Z -> ser_zoned z = JErr).
Proof. exact kept. Qed.
Print Assumptions C71_kept_partial.

Theorem C71_kept_refuted : exists z,
  de_zoned (JStr (ascii "2020-01-01T00:00:00+24:00")) = JOk z /\ ser_zoned z = JErr.
Proof. exact hours_witness. Qed.
Print Assumptions C71_kept_refuted.

(** On the wire only the instant is left, in whole seconds. *)
Theorem C71_wire_same : forall a b, wbytes (encode_zoned a) = wbytes (encode_zoned b) <-> instant a = instant b.
Proof. exact zoned_wire_same. Qed.
Print Assumptions C71_wire_same.

Theorem C71_equal : forall a b, zoned_same a b = true <-> instant a = instant b /\ z_nanos a = z_nanos b.
Proof. exact zoned_equal. Qed.
Print Assumptions C71_equal.

(** It is decoded again unless its year in UTC is outside -9999 to 9999: then decoding panics. *)
Theorem C71_wire_partial : forall z rest,
  ((ts_min <= instant z <= ts_max)%Z -> exists t, run decode_odt (wbytes (encode_zoned z) ++ rest) = ROk t rest /\
     odt_secs t = instant z /\ odt_nanos t = 0) /\
  (~ (ts_min <= instant z <= ts_max)%Z -> run decode_odt (wbytes (encode_zoned z) ++ rest) = RPanic UnwrapNone).
Proof. exact zoned_wire. Qed.
Print Assumptions C71_wire_partial.

Theorem C71_wire_refuted : exists z, de_zoned (JStr (ascii "9999-12-31T23:59:59-00:01")) = JOk z /\
  run decode_odt (wbytes (encode_zoned z)) = RPanic UnwrapNone.
Proof. exact wire_witness. Qed.
Print Assumptions C71_wire_refuted.
