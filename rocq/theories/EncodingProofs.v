(** Laws of the primitive codecs (sia/src/encoding/v1.rs, v2.rs). *)

From Verif Require Import Base Io IoProofs Spec SpecWire Codec Model_encoding.
Local Open Scope N_scope.
Local Open Scope dec_scope.

(** ** Endianness against the specification *)

Lemma le_value_from_spec : forall l i, le_value_from i l = 256 ^ i * from_le l.
Proof.
  induction l as [|b l IH]; intros i; cbn [le_value_from from_le].
  - lia.
  - rewrite IH, N.pow_add_r, N.pow_1_r. unfold b2n. lia.
Qed.

Lemma le_value_spec : forall l, le_value l = from_le l.
Proof. intros; unfold le_value; rewrite le_value_from_spec. change (256 ^ 0) with 1. lia. Qed.

Lemma be_value_spec : forall l, be_value l = from_be l.
Proof.
  intros l; unfold be_value, from_be.
  assert (H : forall l acc, fold_left (fun acc b => acc * 256 + Byte.to_N b) l acc =
                            acc * 256 ^ N.of_nat (length l) + from_le (rev l)).
  { induction l0 as [|b l0 IH]; intros acc; cbn [fold_left rev length].
    - change (256 ^ N.of_nat 0) with 1. cbn [from_le]. lia.
    - rewrite IH, Nat2N.inj_succ, N.pow_succ_r, from_le_app, rev_length by apply N.le_0_l.
      cbn [from_le]. unfold b2n. lia. }
  rewrite H. lia.
Qed.

(** ** u8, bool *)

Lemma rt_u8 : RoundTrip encode_u8 decode_u8.
Proof. intros b rest; reflexivity. Qed.

Lemma rt_bool : RoundTrip encode_bool decode_bool.
Proof. intros [|] rest; reflexivity. Qed.

Lemma canon_u8 : Canonical encode_u8 decode_u8.
Proof.
  intros bs a rest H. cbn in H. destruct bs as [|b bs]; [discriminate|].
  inversion H; subst. reflexivity.
Qed.

Lemma canon_bool : Canonical encode_bool decode_bool.
Proof.
  intros bs a rest H. apply run_bind_ok in H as (v & r & H1 & H2).
  apply canon_u8 in H1; subst bs.
  destruct v; cbn in H2; try discriminate; inversion H2; subst; reflexivity.
Qed.

Lemma pan_u8 : forall P, PanicsOnly P decode_u8.
Proof. intros P; apply panics_read; intros; apply panics_ret. Qed.

Lemma pan_bool : forall P, PanicsOnly P decode_bool.
Proof.
  intros P; apply panics_bind; [apply pan_u8|]. intros a.
  destruct a; auto using panics_ret, panics_err.
Qed.

Lemma prop_u8 : Propagates encode_u8.
Proof. intros b; apply propagates_write_all. Qed.

Lemma prop_bool : Propagates encode_bool.
Proof. intros b; apply prop_u8. Qed.

(** ** Integers *)

Lemma wbytes_uint : forall w (v : uint w), w <= 64 -> wbytes (encode_uint v) = le_bytes 8 (uval v).
Proof.
  intros w v Hw. unfold encode_uint. rewrite wbytes_write_all. f_equal.
  apply uwrap_small. eapply N.lt_le_trans; [apply uint_lt|].
  apply N.pow_le_mono_r; [discriminate|assumption].
Qed.

Lemma rt_uint : forall w, w <= 64 -> RoundTrip (@encode_uint w) (decode_uint w).
Proof.
  intros w Hw v rest. rewrite wbytes_uint by assumption. unfold decode_uint.
  rewrite run_read_app by apply le_bytes_length. cbn [run].
  rewrite from_le_le_bytes, N.mod_small; [now rewrite uwrap_id|].
  change (256 ^ N.of_nat 8) with (2 ^ 64).
  eapply N.lt_le_trans; [apply uint_lt|].
  apply N.pow_le_mono_r; [discriminate|assumption].
Qed.

Lemma canon_u64 : Canonical encode_u64 decode_u64.
Proof.
  intros bs a rest H. unfold decode_u64, decode_uint in H. cbn [run] in H.
  destruct (splitn 8 bs) as [[x r]|] eqn:E; [|discriminate].
  apply splitn_some in E as [-> Hl]. apply run_ret_ok in H as [<- ->].
  unfold encode_u64. rewrite wbytes_uint by discriminate. f_equal.
  rewrite uwrap_small.
  - rewrite <- Hl at 1. now rewrite le_bytes_from_le.
  - pose proof (from_le_lt x) as Hx. rewrite Hl in Hx. exact Hx.
Qed.

Lemma swrap_u64 : forall w (hw : w <> 0) (v : sint w), w <= 64 ->
  swrap w hw (Z.of_N (uval (s_as_u64 v))) = v.
Proof.
  intros w hw v Hw. apply sint_eq. cbn [swrap sval].
  unfold s_as_u64.
  assert (H0 : (0 <= sval v mod 2 ^ 64 < 2 ^ 64)%Z) by (apply Z.mod_pos_bound; reflexivity).
  rewrite uwrap_small.
  2:{ apply N2Z.inj_lt. rewrite Z2N.id by lia. apply H0. }
  rewrite Z2N.id by lia.
  unfold swrap_Z.
  replace ((sval v mod 2 ^ 64) mod 2 ^ Z.of_N w)%Z with (sval v mod 2 ^ Z.of_N w)%Z.
  - apply (swrap_Z_id w (sval v) hw), sint_range.
  - replace (2 ^ 64)%Z with (2 ^ Z.of_N w * 2 ^ (64 - Z.of_N w))%Z.
    + rewrite Z.rem_mul_r by (try apply Z.pow_nonzero; try apply Z.pow_pos_nonneg; lia).
      rewrite (Z.mul_comm (2 ^ Z.of_N w)), Z.mod_add by (apply Z.pow_nonzero; lia).
      now rewrite Z.mod_mod by (apply Z.pow_nonzero; lia).
    + rewrite <- Z.pow_add_r by lia. f_equal. lia.
Qed.

Lemma rt_sint : forall w (hw : w <> 0), w <= 64 -> RoundTrip (@encode_sint w) (decode_sint w hw).
Proof.
  intros w hw Hw v rest. unfold encode_sint, decode_sint. rewrite wbytes_write_all.
  rewrite run_read_app by apply le_bytes_length. cbn [run].
  rewrite from_le_le_bytes, N.mod_small; [now rewrite swrap_u64|].
  apply uint_lt.
Qed.

Lemma s_as_u64_swrap : forall n : u64, s_as_u64 (swrap 64 w64_nz (Z.of_N (uval n))) = n.
Proof.
  intros n. apply uint_eq. unfold s_as_u64. cbn [uwrap uval swrap sval].
  pose proof (uint_lt 64 n) as Hn. change (2 ^ 64) with 18446744073709551616 in *.
  unfold swrap_Z. change (2 ^ Z.of_N 64)%Z with 18446744073709551616%Z.
  change (2 ^ (Z.of_N 64 - 1))%Z with 9223372036854775808%Z.
  change (2 ^ 64)%Z with 18446744073709551616%Z.
  rewrite (Z.mod_small (Z.of_N (uval n))) by lia.
  destruct (Z.ltb_spec (Z.of_N (uval n)) 9223372036854775808).
  - rewrite Z.mod_small, N2Z.id, N.mod_small by lia. reflexivity.
  - replace ((Z.of_N (uval n) - 18446744073709551616) mod 18446744073709551616)%Z
      with (Z.of_N (uval n)).
    + rewrite N2Z.id, N.mod_small by lia. reflexivity.
    + rewrite <- (Z.mod_small (Z.of_N (uval n)) 18446744073709551616) at 1 by lia.
      replace (Z.of_N (uval n)) with (Z.of_N (uval n) - 18446744073709551616 + 1 * 18446744073709551616)%Z at 1 by lia.
      now rewrite Z.mod_add by lia.
Qed.

Lemma canon_i64 : Canonical encode_i64 decode_i64.
Proof.
  intros bs a rest H. unfold decode_i64, decode_sint in H. cbn [run] in H.
  destruct (splitn 8 bs) as [[x r]|] eqn:E; [|discriminate].
  apply splitn_some in E as [-> Hl]. apply run_ret_ok in H as [<- ->].
  unfold encode_i64, encode_sint. rewrite wbytes_write_all. f_equal.
  pose proof (from_le_lt x) as Hx. rewrite Hl in Hx.
  change (256 ^ N.of_nat 8) with (2 ^ 64) in Hx.
  rewrite <- (uwrap_small 64 (from_le x) Hx).
  rewrite s_as_u64_swrap, uwrap_small by assumption.
  rewrite <- Hl at 1. now rewrite le_bytes_from_le.
Qed.

Lemma pan_uint : forall w P, PanicsOnly P (decode_uint w).
Proof. intros; apply panics_read; intros; apply panics_ret. Qed.

Lemma pan_sint : forall w hw P, PanicsOnly P (decode_sint w hw).
Proof. intros; apply panics_read; intros; apply panics_ret. Qed.

Lemma prop_uint : forall w, Propagates (@encode_uint w).
Proof. intros w b; apply propagates_write_all. Qed.

Lemma prop_sint : forall w, Propagates (@encode_sint w).
Proof. intros w b; apply propagates_write_all. Qed.

Lemma rt_u64 : RoundTrip encode_u64 decode_u64.
Proof. apply rt_uint. discriminate. Qed.

Lemma rt_i64 : RoundTrip encode_i64 decode_i64.
Proof. apply rt_sint. discriminate. Qed.

(** ** Timestamps *)

Lemma from_unix_timestamp_some : forall s t,
  from_unix_timestamp s = Some t -> odt_secs t = sval s /\ odt_nanos t = 0.
Proof.
  intros s t; unfold from_unix_timestamp. destruct (bool_dec _ true); [|discriminate].
  now intros [= <-].
Qed.

Lemma from_unix_timestamp_iff : forall s,
  from_unix_timestamp s = None <-> ~ (ts_min <= sval s <= ts_max)%Z.
Proof.
  intros s; unfold from_unix_timestamp. destruct (bool_dec _ true) as [h|h].
  - split; [discriminate|]. lia.
  - split; auto. intros _. change (0 <? 1000000000) with true in h. lia.
Qed.

Lemma from_unix_timestamp_of : forall t,
  odt_nanos t = 0 -> from_unix_timestamp (unix_timestamp t) = Some t.
Proof.
  intros t Ht. unfold from_unix_timestamp. destruct (bool_dec _ true) as [h|h].
  - f_equal. apply odt_eq; auto.
  - exfalso. apply h. destruct t as [s n hs]. cbn in *. subst n. exact hs.
Qed.

Lemma rt_odt : RoundTripOn (fun t => odt_nanos t = 0) encode_odt decode_odt.
Proof.
  intros t rest Ht. unfold encode_odt, decode_odt. rewrite run_bind, rt_i64.
  rewrite from_unix_timestamp_of by assumption. reflexivity.
Qed.

Lemma canon_odt : Canonical encode_odt decode_odt.
Proof.
  intros bs t rest H. unfold decode_odt in H.
  apply run_bind_ok in H as (s & r & H1 & H2). apply canon_i64 in H1; subst bs.
  destruct (from_unix_timestamp s) as [t'|] eqn:E; [|discriminate].
  apply run_ret_ok in H2 as [<- <-].
  apply from_unix_timestamp_some in E as [E _]. unfold encode_odt.
  assert (Hs : unix_timestamp t' = s) by (apply sint_eq; exact E).
  now rewrite Hs.
Qed.

Lemma odt_decoded_whole : forall bs t rest, run decode_odt bs = ROk t rest -> odt_nanos t = 0.
Proof.
  intros bs t rest H. unfold decode_odt in H.
  apply run_bind_ok in H as (s & r & H1 & H2).
  destruct (from_unix_timestamp s) as [t'|] eqn:E; [|discriminate].
  apply run_ret_ok in H2 as [<- <-]. now apply from_unix_timestamp_some in E.
Qed.

Lemma pan_odt : forall P : panic -> Prop, P UnwrapNone -> PanicsOnly P decode_odt.
Proof.
  intros P HP. apply panics_bind; [apply pan_sint|]. intros s.
  destruct (from_unix_timestamp s); auto using panics_ret, panics_panic.
Qed.

Lemma prop_odt : Propagates encode_odt.
Proof. intros t; apply prop_sint. Qed.

(** ** Durations *)

Lemma rt_duration :
  RoundTripOn (fun d => (0 <= dur_ns d < 2 ^ 63)%Z) encode_duration decode_duration.
Proof.
  intros d rest Hd. unfold encode_duration, decode_duration.
  rewrite run_bind, rt_u64. unfold whole_nanoseconds_u64.
  change (2 ^ 63)%Z with 9223372036854775808%Z in Hd.
  change (2 ^ 64)%Z with 18446744073709551616%Z.
  rewrite Z.mod_small by lia.
  assert (Hs : uval (uwrap 64 (Z.to_N (dur_ns d))) = Z.to_N (dur_ns d)).
  { apply uwrap_small. change (2 ^ 64) with 18446744073709551616. lia. }
  rewrite Hs. change (2 ^ 63 - 1) with 9223372036854775807.
  destruct (N.ltb_spec 9223372036854775807 (Z.to_N (dur_ns d))); [lia|].
  cbn [run]. f_equal. apply duration_eq. cbn [nanoseconds dur_ns swrap sval].
  rewrite Z2N.id by lia. apply swrap_Z_id; [discriminate|].
  change (2 ^ (Z.of_N 64 - 1))%Z with 9223372036854775808%Z. lia.
Qed.

Lemma canon_duration : Canonical encode_duration decode_duration.
Proof.
  intros bs d rest H. unfold decode_duration in H.
  apply run_bind_ok in H as (ns & r & H1 & H2). apply canon_u64 in H1; subst bs.
  change (2 ^ 63 - 1) with 9223372036854775807 in H2.
  destruct (N.ltb_spec 9223372036854775807 (uval ns)) as [?|Hns]; [discriminate|].
  apply run_ret_ok in H2 as [<- <-]. f_equal. unfold encode_duration. do 2 f_equal.
  apply uint_eq. unfold whole_nanoseconds_u64. cbn [nanoseconds dur_ns swrap sval].
  rewrite swrap_Z_id; [|discriminate|change (2 ^ (Z.of_N 64 - 1))%Z with 9223372036854775808%Z; lia].
  pose proof (uint_lt 64 ns) as Hlt. change (2 ^ 64) with 18446744073709551616 in Hlt.
  change (2 ^ 64)%Z with 18446744073709551616%Z.
  rewrite Z.mod_small, N2Z.id by lia. now rewrite uwrap_id.
Qed.

Lemma pan_duration : forall P, PanicsOnly P decode_duration.
Proof.
  intros P; apply panics_bind; [apply pan_uint|]. intros ns.
  destruct (_ <? _); auto using panics_ret, panics_err.
Qed.

Lemma prop_duration : Propagates encode_duration.
Proof. intros t; apply prop_uint. Qed.

(** ** Vectors *)

Lemma prop_slice : forall A (enc : A -> wprog), Propagates enc -> Propagates (encode_slice enc).
Proof.
  intros A enc H l. apply propagates_app; [apply prop_uint|]. now apply propagates_concat_map.
Qed.

Lemma prop_vec : forall sz A (enc : A -> wprog),
  Propagates enc -> Propagates (@encode_vec sz A enc).
Proof. intros sz A enc H v. now apply prop_slice. Qed.

Lemma wbytes_slice : forall A (enc : A -> wprog) l, Propagates enc ->
  wbytes (encode_slice enc l) =
  wbytes (encode_usize (uwrap 64 (N.of_nat (length l)))) ++ concat (map (fun a => wbytes (enc a)) l).
Proof.
  intros A enc l H. unfold encode_slice. rewrite wbytes_app_p by apply prop_uint.
  now rewrite wbytes_concat_map.
Qed.

Lemma loop_items : forall A (P : A -> Prop) (enc : A -> wprog) d,
  RoundTripOn P enc d ->
  forall l acc rest, Forall P l ->
  run (dloop_nat (length l) (fun acc => x <- d ;; DRet (x :: acc)) acc)
      (concat (map (fun a => wbytes (enc a)) l) ++ rest) = ROk (rev l ++ acc) rest.
Proof.
  intros A P enc d H; induction l as [|a l IH]; intros acc rest HP; cbn [dloop_nat length].
  - reflexivity.
  - inversion HP; subst. rewrite run_bind, run_bind. cbn [map concat].
    rewrite <- app_assoc, H by assumption. cbn [run]. rewrite IH by assumption.
    cbn [rev]. now rewrite <- app_assoc.
Qed.

Lemma isize_max_val : isize_max = 9223372036854775807.
Proof. reflexivity. Qed.

Lemma rt_vec_on : forall sz A (P : A -> Prop) (enc : A -> wprog) d,
  Propagates enc -> RoundTripOn P enc d ->
  RoundTripOn (VecAll P) (@encode_vec sz A enc) (decode_vec sz d).
Proof.
  intros sz A P enc d Hp H v rest HP. unfold encode_vec, decode_vec.
  rewrite wbytes_slice by assumption.
  rewrite run_bind, <- app_assoc.
  rewrite (rt_uint 64 ltac:(discriminate) : RoundTrip encode_usize decode_usize).
  destruct (vec_bounds sz A v) as [Hb1 Hb2].
  assert (Hlen : uval (uwrap 64 (N.of_nat (length (vlist v)))) = N.of_nat (length (vlist v))).
  { apply uwrap_small. rewrite isize_max_val in Hb2.
    change (2 ^ 64) with 18446744073709551616. lia. }
  rewrite Hlen.
  destruct (N.ltb_spec isize_max (N.of_nat (length (vlist v)) * sz)); [lia|].
  rewrite run_alloc, run_bind, dloop_run, Nat2N.id.
  rewrite (loop_items A P enc d H) by assumption.
  rewrite app_nil_r, rev_involutive, vec_of_vlist. reflexivity.
Qed.

Lemma rt_vec : forall sz A (enc : A -> wprog) d,
  Propagates enc -> RoundTrip enc d -> RoundTrip (@encode_vec sz A enc) (decode_vec sz d).
Proof.
  intros sz A enc d Hp H. apply roundtrip_on_true in H.
  pose proof (rt_vec_on sz A _ enc d Hp H) as Hv.
  intros v rest. apply Hv. unfold VecAll. now apply Forall_forall.
Qed.

Lemma loop_items_inv : forall A (enc : A -> wprog) d,
  Canonical enc d ->
  forall n acc bs res rest,
  run (dloop_nat n (fun acc => x <- d ;; DRet (x :: acc)) acc) bs = ROk res rest ->
  exists l, res = rev l ++ acc /\ length l = n /\
            bs = concat (map (fun a => wbytes (enc a)) l) ++ rest.
Proof.
  intros A enc d H; induction n as [|n IH]; intros acc bs res rest E; cbn [dloop_nat] in E.
  - apply run_ret_ok in E as [-> ->]. exists []. auto.
  - apply run_bind_ok in E as (acc' & r & E1 & E2).
    apply run_bind_ok in E1 as (x & r1 & E3 & E4).
    apply run_ret_ok in E4 as [<- <-]. apply H in E3; subst bs.
    apply IH in E2 as (l & -> & <- & ->).
    exists (x :: l). cbn [rev map concat length]. rewrite <- !app_assoc. auto.
Qed.

Lemma loop_all : forall A (Q : A -> Prop) d,
  (forall bs a rest, run d bs = ROk a rest -> Q a) ->
  forall n acc bs res rest,
  Forall Q acc ->
  run (dloop_nat n (fun acc => x <- d ;; DRet (x :: acc)) acc) bs = ROk res rest -> Forall Q res.
Proof.
  intros A Q d H; induction n as [|n IH]; intros acc bs res rest Ha E; cbn [dloop_nat] in E.
  - apply run_ret_ok in E as [-> ->]. auto.
  - apply run_bind_ok in E as (acc' & r & E1 & E2).
    apply run_bind_ok in E1 as (x & r1 & E3 & E4).
    apply run_ret_ok in E4 as [<- <-]. eapply IH in E2; eauto.
Qed.

Lemma canon_vec : forall sz A (enc : A -> wprog) d,
  Propagates enc -> Canonical enc d -> Canonical (@encode_vec sz A enc) (decode_vec sz d).
Proof.
  intros sz A enc d Hp H bs v rest E. unfold decode_vec in E.
  apply run_bind_ok in E as (len & r & E1 & E2).
  apply (canon_u64 : Canonical encode_usize decode_usize) in E1; subst bs.
  destruct (isize_max <? uval len * sz); [discriminate|]. rewrite run_alloc in E2.
  apply run_bind_ok in E2 as (l & r' & E2 & E3).
  rewrite dloop_run in E2.
  apply (loop_items_inv A enc d H) in E2 as (l' & -> & Hlen & ->).
  rewrite app_nil_r, rev_involutive in E3.
  destruct (vec_of sz l') as [v'|] eqn:Ev; [|discriminate].
  apply run_ret_ok in E3 as [<- <-]. apply vec_of_some in Ev.
  unfold encode_vec. rewrite wbytes_slice by assumption. rewrite Ev.
  rewrite Hlen, N2Nat.id, uwrap_id. now rewrite app_assoc.
Qed.

Lemma pan_vec : forall sz A (d : dec A) (P : panic -> Prop),
  1 <= sz -> P CapacityOverflow -> PanicsOnly P d -> PanicsOnly P (decode_vec sz d).
Proof.
  intros sz A d P Hsz HP Hd bs p E. unfold decode_vec in E.
  rewrite run_bind in E.
  destruct (run decode_usize bs) as [len r|e|q] eqn:E1; try discriminate.
  - destruct (N.ltb_spec isize_max (uval len * sz)) as [Hc|Hc].
    + inversion E; subst; assumption.
    + rewrite run_alloc, run_bind in E.
      destruct (run (dloop (uval len) _ []) r) as [l r'|e|q] eqn:E2; try discriminate.
      * (* Unreachable *)
        assert (Hl : length l = N.to_nat (uval len)).
        { rewrite dloop_run in E2.
          assert (Hg : forall n acc bs res rest,
            run (dloop_nat n (fun acc => x <- d ;; DRet (x :: acc)) acc) bs = ROk res rest ->
            length res = (n + length acc)%nat).
          { induction n as [|n IH]; intros acc bs0 res rest E0; cbn [dloop_nat] in E0.
            - apply run_ret_ok in E0 as [-> _]. reflexivity.
            - apply run_bind_ok in E0 as (acc' & r0 & E3 & E4).
              apply run_bind_ok in E3 as (x & r1 & E5 & E6).
              apply run_ret_ok in E6 as [<- <-]. apply IH in E4. cbn [length] in E4. lia. }
          apply Hg in E2. cbn [length] in E2. lia. }
        destruct (vec_of_ok sz A (rev l)) as (v & Ev & _).
        { rewrite rev_length, Hl, N2Nat.id. assumption. }
        { rewrite rev_length, Hl, N2Nat.id. rewrite isize_max_val in *. nia. }
        rewrite Ev in E. discriminate.
      * inversion E; subst. eapply panics_loop; [|exact E2].
        intros s. apply panics_bind; [assumption|]. intros; apply panics_ret.
  - exfalso. eapply (pan_uint 64 (fun _ => False)); eauto.
Qed.

(** ** Options *)

Lemma rt_option : forall A (enc : A -> wprog) d,
  Propagates enc -> RoundTrip enc d -> RoundTrip (encode_option enc) (decode_option d).
Proof.
  intros A enc d Hp H [a|] rest; cbn [encode_option].
  - rewrite wbytes_app_p by apply prop_bool. rewrite <- app_assoc.
    unfold decode_option. rewrite run_bind, rt_bool, run_bind, H. reflexivity.
  - unfold decode_option. rewrite run_bind, rt_bool. reflexivity.
Qed.

Lemma rt_option_on : forall A (P : A -> Prop) (enc : A -> wprog) d,
  Propagates enc -> RoundTripOn P enc d -> RoundTripOn (OptAll P) (encode_option enc) (decode_option d).
Proof.
  intros A P enc d Hp H [a|] rest Ha; cbn [encode_option].
  - rewrite wbytes_app_p by apply prop_bool. rewrite <- app_assoc.
    unfold decode_option. rewrite run_bind, rt_bool, run_bind, H by exact Ha. reflexivity.
  - unfold decode_option. rewrite run_bind, rt_bool. reflexivity.
Qed.

Lemma canon_option : forall A (enc : A -> wprog) d,
  Canonical enc d -> Canonical (encode_option enc) (decode_option d).
Proof.
  intros A enc d H bs o rest E. unfold decode_option in E.
  apply run_bind_ok in E as (b & r & E1 & E2). apply canon_bool in E1; subst bs.
  destruct b.
  - apply run_bind_ok in E2 as (v & r' & E2 & E3). apply H in E2; subst r.
    apply run_ret_ok in E3 as [<- <-]. cbn [encode_option].
    rewrite wbytes_app_p by apply prop_bool. now rewrite <- app_assoc.
  - apply run_ret_ok in E2 as [<- <-]. reflexivity.
Qed.

Lemma pan_option : forall A (d : dec A) P, PanicsOnly P d -> PanicsOnly P (decode_option d).
Proof.
  intros A d P H. apply panics_bind; [apply pan_bool|]. intros [|]; [|apply panics_ret].
  apply panics_bind; [assumption|]. intros; apply panics_ret.
Qed.

Lemma prop_option : forall A (enc : A -> wprog), Propagates enc -> Propagates (encode_option enc).
Proof.
  intros A enc H [a|]; unfold encode_option; [apply propagates_app; [apply prop_bool|apply H]|apply prop_bool].
Qed.

(** ** Strings *)

Lemma rt_string : RoundTrip encode_string decode_string.
Proof.
  intros s rest. unfold encode_string, decode_string. rewrite run_bind.
  change (encode_slice encode_u8 (vlist (sbytes s))) with (encode_vec encode_u8 (sbytes s)).
  rewrite (rt_vec 1 u8 encode_u8 decode_u8 prop_u8 rt_u8 (sbytes s) rest).
  rewrite rstring_of_id. reflexivity.
Qed.

Lemma canon_string : Canonical encode_string decode_string.
Proof.
  intros bs s rest E. unfold decode_string in E.
  apply run_bind_ok in E as (buf & r & E1 & E2).
  apply (canon_vec 1 u8 encode_u8 decode_u8 prop_u8 canon_u8) in E1; subst bs.
  destruct (rstring_of buf) as [s'|] eqn:Es; [|discriminate].
  apply run_ret_ok in E2 as [<- <-]. apply rstring_of_some in Es. subst buf. reflexivity.
Qed.

Lemma pan_string : forall P : panic -> Prop, P CapacityOverflow -> PanicsOnly P decode_string.
Proof.
  intros P HP. apply panics_bind.
  - apply pan_vec; auto using pan_u8. reflexivity.
  - intros; apply panics_dret_opt.
Qed.

Lemma prop_string : Propagates encode_string.
Proof. intros s. apply prop_slice, prop_u8. Qed.

(** ** Byte arrays *)

Lemma rt_arr : forall n, RoundTrip (@encode_arr n) (decode_arr n).
Proof.
  intros n a rest. unfold encode_arr, decode_arr. rewrite wbytes_write_all.
  rewrite run_read_app by apply arr_len. cbn [run]. now rewrite arr_of_id.
Qed.

Lemma canon_arr : forall n, Canonical (@encode_arr n) (decode_arr n).
Proof.
  intros n bs a rest H. unfold decode_arr in H. cbn [run] in H.
  destruct (splitn n bs) as [[x r]|] eqn:E; [|discriminate].
  apply splitn_some in E as [-> Hl]. apply run_ret_ok in H as [<- ->].
  unfold encode_arr. rewrite wbytes_write_all, arr_of_aval; auto.
Qed.

Lemma pan_arr : forall n P, PanicsOnly P (decode_arr n).
Proof. intros; apply panics_read; intros; apply panics_ret. Qed.

Lemma prop_arr : forall n, Propagates (@encode_arr n).
Proof. intros n a; apply propagates_write_all. Qed.

#[global] Hint Resolve prop_u8 prop_bool prop_uint prop_sint prop_odt prop_duration prop_slice prop_vec
  prop_option prop_string prop_arr : codec.
#[global] Hint Resolve pan_u8 pan_bool pan_uint pan_sint pan_odt pan_duration pan_option pan_string
  pan_arr : codec.
