(** Statements about the primitive formats (C09 - C13). *)

From Verif Require Import Base Io IoProofs Spec SpecUtf8 SpecWire SpecBasic Codec Model_encoding Model_common
  EncodingProofs CommonProofs.
Local Open Scope N_scope.
Local Open Scope dec_scope.

(** ** Integers *)

Lemma uint_layout : forall w (v : uint w), w <= 64 ->
  length (wbytes (encode_uint v)) = 8%nat /\ le_value (wbytes (encode_uint v)) = uval v.
Proof.
  intros w v Hw. rewrite wbytes_uint by assumption. split; [apply le_bytes_length|].
  rewrite le_value_spec, from_le_le_bytes. apply N.mod_small.
  change (256 ^ N.of_nat 8) with (2 ^ 64).
  eapply N.lt_le_trans; [apply uint_lt|]. apply N.pow_le_mono_r; [discriminate|assumption].
Qed.

Lemma sint_layout : forall w (v : sint w), w <= 64 ->
  length (wbytes (encode_sint v)) = 8%nat /\
  Z.of_N (le_value (wbytes (encode_sint v))) = (sval v mod 2 ^ 64)%Z.
Proof.
  intros w v Hw. unfold encode_sint. rewrite wbytes_write_all. split; [apply le_bytes_length|].
  rewrite le_value_spec, from_le_le_bytes. change (256 ^ N.of_nat 8) with (2 ^ 64).
  rewrite N.mod_small by apply uint_lt. unfold s_as_u64.
  assert (H0 : (0 <= sval v mod 2 ^ 64 < 2 ^ 64)%Z) by (apply Z.mod_pos_bound; reflexivity).
  rewrite uwrap_small.
  - rewrite Z2N.id by lia. reflexivity.
  - apply N2Z.inj_lt. rewrite Z2N.id by lia. apply H0.
Qed.

Lemma decode_uint_val : forall w bs rest, length bs = 8%nat ->
  exists v : uint w, run (decode_uint w) (bs ++ rest) = ROk v rest /\ uval v = le_value bs mod 2 ^ w.
Proof.
  intros w bs rest H. exists (uwrap w (from_le bs)). unfold decode_uint.
  rewrite run_read_app by assumption. split; [reflexivity|]. now rewrite le_value_spec.
Qed.

Lemma decode_i64_val : forall bs rest, length bs = 8%nat ->
  exists v : i64, run decode_i64 (bs ++ rest) = ROk v rest /\
    (sval v mod 2 ^ 64)%Z = Z.of_N (le_value bs).
Proof.
  intros bs rest H. unfold decode_i64, decode_sint. rewrite run_read_app by assumption.
  eexists. split; [reflexivity|].
  pose proof (from_le_lt bs) as Hb. rewrite H in Hb. change (256 ^ N.of_nat 8) with (2 ^ 64) in Hb.
  pose proof (s_as_u64_swrap (uwrap 64 (from_le bs))) as E.
  apply (f_equal uval) in E. rewrite uwrap_small in E by assumption.
  unfold s_as_u64 in E. rewrite uwrap_small in E.
  - apply (f_equal Z.of_N) in E. rewrite Z2N.id in E by (apply Z.mod_pos_bound; reflexivity).
    now rewrite le_value_spec.
  - apply N2Z.inj_lt. rewrite Z2N.id; apply Z.mod_pos_bound; reflexivity.
Qed.

Lemma short_integer : forall w bs, (length bs < 8)%nat -> run (decode_uint w) bs = RErr EIo.
Proof.
  intros w bs H. unfold decode_uint. cbn [run].
  apply (proj2 (splitn_none 8 bs)) in H. now rewrite H.
Qed.

(** ** Booleans and options *)

Lemma bool_strict : forall b rest,
  (forall v, run decode_bool (b :: rest) = ROk v rest <-> b = (if v then x01 else x00)) /\
  (b <> x00 -> b <> x01 -> run decode_bool (b :: rest) = RErr EInvalidValue).
Proof.
  intros b rest. split.
  - intros v. destruct v; destruct b; vm_compute; split; congruence.
  - intros H0 H1. destruct b; try contradiction; reflexivity.
Qed.

Lemma option_strict : forall A (d : dec A) b rest,
  b <> x00 -> b <> x01 -> run (decode_option d) (b :: rest) = RErr EInvalidValue.
Proof.
  intros A d b rest H0 H1. unfold decode_option. rewrite run_bind.
  destruct (bool_strict b rest) as [_ H]. now rewrite H.
Qed.

(** ** UTF-8 *)

Lemma n2b_eq : forall n b, n < 256 -> n = b2n b -> n2b n = b.
Proof. intros n b Hn E. subst n. apply n2b_b2n. Qed.

Lemma in_range_iff : forall lo hi b, in_range lo hi b = true <-> lo <= b2n b <= hi.
Proof. intros. unfold in_range. lia. Qed.

Lemma is_cont_iff : forall b, is_cont b = true <-> 128 <= b2n b <= 191.
Proof. intros. unfold is_cont. lia. Qed.

Section DivMod.
Local Ltac Zify.zify_post_hook ::= Z.to_euclidean_division_equations.

Lemma char2 : forall b0 b1, 0xC2 <= b2n b0 <= 0xDF -> 128 <= b2n b1 <= 191 ->
  exists c, scalar c /\ utf8_char c = [b0; b1].
Proof.
  intros b0 b1 H0 H1. exists ((b2n b0 - 0xC0) * 64 + (b2n b1 - 0x80)).
  split; [unfold scalar; lia|]. unfold utf8_char.
  destruct (N.ltb_spec ((b2n b0 - 0xC0) * 64 + (b2n b1 - 0x80)) 0x80); [lia|].
  destruct (N.ltb_spec ((b2n b0 - 0xC0) * 64 + (b2n b1 - 0x80)) 0x800); [|lia].
  f_equal; [apply n2b_eq; lia|]. f_equal. apply n2b_eq; lia.
Qed.

Lemma char3 : forall b0 b1 b2,
  0xE0 <= b2n b0 <= 0xEF -> 128 <= b2n b1 <= 191 -> 128 <= b2n b2 <= 191 ->
  (b2n b0 = 0xE0 -> 0xA0 <= b2n b1) -> (b2n b0 = 0xED -> b2n b1 <= 0x9F) ->
  exists c, scalar c /\ utf8_char c = [b0; b1; b2].
Proof.
  intros b0 b1 b2 H0 H1 H2 H3 H4.
  set (c := (b2n b0 - 0xE0) * 4096 + (b2n b1 - 0x80) * 64 + (b2n b2 - 0x80)).
  assert (Hc : 0x800 <= c < 0x10000) by (unfold c; destruct (N.eq_dec (b2n b0) 0xE0); lia).
  assert (Hs : scalar c) by (unfold scalar, c in *; destruct (N.eq_dec (b2n b0) 0xED); lia).
  assert (E0 : c / 4096 = b2n b0 - 0xE0) by (unfold c; lia).
  assert (E1 : c / 64 mod 64 = b2n b1 - 0x80) by (unfold c; lia).
  assert (E2 : c mod 64 = b2n b2 - 0x80) by (unfold c; lia).
  clearbody c. exists c. split; [assumption|]. unfold utf8_char. rewrite E0, E1, E2.
  destruct (N.ltb_spec c 0x80); [lia|]. destruct (N.ltb_spec c 0x800); [lia|].
  destruct (N.ltb_spec c 0x10000); [|lia].
  f_equal; [apply n2b_eq; lia|]. f_equal; [apply n2b_eq; lia|]. f_equal. apply n2b_eq; lia.
Qed.

Lemma char4 : forall b0 b1 b2 b3,
  0xF0 <= b2n b0 <= 0xF4 -> 128 <= b2n b1 <= 191 -> 128 <= b2n b2 <= 191 -> 128 <= b2n b3 <= 191 ->
  (b2n b0 = 0xF0 -> 0x90 <= b2n b1) -> (b2n b0 = 0xF4 -> b2n b1 <= 0x8F) ->
  exists c, scalar c /\ utf8_char c = [b0; b1; b2; b3].
Proof.
  intros b0 b1 b2 b3 H0 H1 H2 H3 H4 H5.
  set (c := (b2n b0 - 0xF0) * 262144 + (b2n b1 - 0x80) * 4096 + (b2n b2 - 0x80) * 64 + (b2n b3 - 0x80)).
  assert (Hc : 0x10000 <= c < 0x110000)
    by (unfold c; destruct (N.eq_dec (b2n b0) 0xF0); destruct (N.eq_dec (b2n b0) 0xF4); lia).
  assert (E0 : c / 262144 = b2n b0 - 0xF0) by (unfold c; lia).
  assert (E1 : c / 4096 mod 64 = b2n b1 - 0x80) by (unfold c; lia).
  assert (E2 : c / 64 mod 64 = b2n b2 - 0x80) by (unfold c; lia).
  assert (E3 : c mod 64 = b2n b3 - 0x80) by (unfold c; lia).
  clearbody c. exists c. split; [unfold scalar; lia|]. unfold utf8_char. rewrite E0, E1, E2, E3.
  destruct (N.ltb_spec c 0x80); [lia|]. destruct (N.ltb_spec c 0x800); [lia|].
  destruct (N.ltb_spec c 0x10000); [lia|].
  f_equal; [apply n2b_eq; lia|]. f_equal; [apply n2b_eq; lia|].
  f_equal; [apply n2b_eq; lia|]. f_equal. apply n2b_eq; lia.
Qed.

Lemma b2n_small : forall n, n < 256 -> b2n (n2b n) = n.
Proof. intros n H. rewrite b2n_n2b. now apply N.mod_small. Qed.

Ltac decide_if :=
  match goal with
  | |- (if ?b then _ else _) = _ =>
    let E := fresh "E" in destruct b eqn:E; rewrite ?in_range_iff in E; try (exfalso; lia)
  end.

Lemma valid_char : forall c r, scalar c -> utf8_valid (utf8_char c ++ r) = utf8_valid r.
Proof.
  intros c r Hc. unfold scalar in Hc. unfold utf8_char.
  destruct (N.ltb_spec c 0x80) as [L|L]; [|destruct (N.ltb_spec c 0x800) as [L2|L2];
    [|destruct (N.ltb_spec c 0x10000) as [L3|L3]]].
  - assert (E : b2n (n2b c) = c) by (apply b2n_small; lia).
    cbn [app utf8_valid]. rewrite E. destruct (N.leb_spec c 0x7F); [reflexivity|lia].
  - assert (E0 : b2n (n2b (0xC0 + c / 64)) = 0xC0 + c / 64) by (apply b2n_small; lia).
    assert (E1 : b2n (n2b (0x80 + c mod 64)) = 0x80 + c mod 64) by (apply b2n_small; lia).
    set (b0 := n2b (0xC0 + c / 64)) in *. set (b1 := n2b (0x80 + c mod 64)) in *. clearbody b0 b1.
    cbn [app utf8_valid]. rewrite E0.
    destruct (N.leb_spec (0xC0 + c / 64) 0x7F); [lia|].
    assert (H0 : in_range 0xC2 0xDF b0 = true) by (apply in_range_iff; rewrite E0; lia).
    rewrite H0. assert (H1 : is_cont b1 = true) by (apply is_cont_iff; rewrite E1; lia).
    now rewrite H1.
  - assert (E0 : b2n (n2b (0xE0 + c / 4096)) = 0xE0 + c / 4096) by (apply b2n_small; lia).
    assert (E1 : b2n (n2b (0x80 + c / 64 mod 64)) = 0x80 + c / 64 mod 64) by (apply b2n_small; lia).
    assert (E2 : b2n (n2b (0x80 + c mod 64)) = 0x80 + c mod 64) by (apply b2n_small; lia).
    set (b0 := n2b (0xE0 + c / 4096)) in *. set (b1 := n2b (0x80 + c / 64 mod 64)) in *.
    set (b2 := n2b (0x80 + c mod 64)) in *. clearbody b0 b1 b2.
    assert (H1 : is_cont b1 = true) by (apply is_cont_iff; rewrite E1; lia).
    assert (H2 : is_cont b2 = true) by (apply is_cont_iff; rewrite E2; lia).
    cbn [app utf8_valid]. rewrite H1, H2. cbn [andb].
    destruct (N.leb_spec (b2n b0) 0x7F); [exfalso; lia|].
    decide_if. decide_if.
    { assert (H3 : in_range 160 191 b1 = true) by (apply in_range_iff; lia). now rewrite H3. }
    decide_if; [reflexivity|]. decide_if.
    { assert (H3 : in_range 128 159 b1 = true) by (apply in_range_iff; lia). now rewrite H3. }
    decide_if; [reflexivity|].
    exfalso. rewrite <- not_true_iff_false in E, E3, E4, E5, E6. rewrite in_range_iff in *. lia.
  - assert (E0 : b2n (n2b (0xF0 + c / 262144)) = 0xF0 + c / 262144) by (apply b2n_small; lia).
    assert (E1 : b2n (n2b (0x80 + c / 4096 mod 64)) = 0x80 + c / 4096 mod 64) by (apply b2n_small; lia).
    assert (E2 : b2n (n2b (0x80 + c / 64 mod 64)) = 0x80 + c / 64 mod 64) by (apply b2n_small; lia).
    assert (E3 : b2n (n2b (0x80 + c mod 64)) = 0x80 + c mod 64) by (apply b2n_small; lia).
    set (b0 := n2b (0xF0 + c / 262144)) in *. set (b1 := n2b (0x80 + c / 4096 mod 64)) in *.
    set (b2 := n2b (0x80 + c / 64 mod 64)) in *. set (b3 := n2b (0x80 + c mod 64)) in *. clearbody b0 b1 b2 b3.
    assert (H1 : is_cont b1 = true) by (apply is_cont_iff; rewrite E1; lia).
    assert (H2 : is_cont b2 = true) by (apply is_cont_iff; rewrite E2; lia).
    assert (H3 : is_cont b3 = true) by (apply is_cont_iff; rewrite E3; lia).
    cbn [app utf8_valid]. rewrite H1, H2, H3. cbn [andb].
    destruct (N.leb_spec (b2n b0) 0x7F); [exfalso; lia|].
    decide_if. decide_if. decide_if. decide_if. decide_if. decide_if.
    { assert (H4 : in_range 144 191 b1 = true) by (apply in_range_iff; lia). now rewrite H4. }
    decide_if; [reflexivity|]. decide_if.
    { assert (H4 : in_range 128 143 b1 = true) by (apply in_range_iff; lia). now rewrite H4. }
    exfalso. rewrite <- not_true_iff_false in *. rewrite in_range_iff in *. lia.
Qed.
End DivMod.

Lemma utf8_spec : forall s, utf8_valid s = true <-> Utf8 s.
Proof.
  intros s. split.
  - remember (length s) as n eqn:Hn. assert (Hle : (length s <= n)%nat) by lia. clear Hn.
    revert s Hle. induction n as [|n IH]; intros s Hle H.
    + destruct s; [|cbn in Hle; lia]. now exists [].
    + destruct s as [|b0 r0]; [now exists []|]. cbn [length] in Hle.
      assert (HA : forall l r, (length r <= n)%nat -> (exists c, scalar c /\ utf8_char c = l) ->
        utf8_valid r = true -> Utf8 (l ++ r)).
      { intros l r Hr (c & Hc & <-) Hv. destruct (IH r Hr Hv) as (cs & Hcs & ->).
        exists (c :: cs). split; [now constructor|reflexivity]. }
      cbn [utf8_valid] in H.
      destruct (N.leb_spec (b2n b0) 0x7F) as [L|L].
      { apply (HA [b0] r0); [lia| |assumption]. exists (b2n b0). split; [unfold scalar; lia|].
        unfold utf8_char. destruct (N.ltb_spec (b2n b0) 0x80); [|lia]. now rewrite n2b_b2n. }
      destruct r0 as [|b1 r1]; [discriminate|]. cbn [length] in Hle.
      destruct (in_range 0xC2 0xDF b0) eqn:R.
      { rewrite in_range_iff in R. rewrite andb_true_iff, is_cont_iff in H.
        apply (HA [b0; b1] r1); [lia| |tauto]. apply char2; tauto. }
      destruct r1 as [|b2 r2]; [discriminate|]. cbn [length] in Hle.
      assert (H3 : forall lo hi, lo <= b2n b0 <= hi -> 0xE0 <= lo -> hi <= 0xEF ->
        forall l1 h1, (0x80 <= l1 <= h1 /\ h1 <= 0xBF) -> l1 <= b2n b1 <= h1 ->
        (b2n b0 = 0xE0 -> 0xA0 <= l1) -> (b2n b0 = 0xED -> h1 <= 0x9F) ->
        is_cont b2 && utf8_valid r2 = true -> Utf8 (b0 :: b1 :: b2 :: r2)).
      { intros lo hi Hb Hlo Hhi l1 h1 Hl Hb1 Ha Hb' Hv. rewrite andb_true_iff, is_cont_iff in Hv.
        apply (HA [b0; b1; b2] r2); [lia| |tauto].
        apply char3; lia. }
      destruct (in_range 0xE0 0xE0 b0) eqn:R1.
      { rewrite in_range_iff in R1. rewrite <- andb_assoc, andb_true_iff, in_range_iff in H.
        destruct H as [Ha Hb].
        apply (H3 0xE0 0xE0 R1 ltac:(lia) ltac:(lia) 0xA0 0xBF); try assumption; lia. }
      destruct (in_range 0xE1 0xEC b0) eqn:R2.
      { rewrite in_range_iff in R2. rewrite <- andb_assoc, andb_true_iff, is_cont_iff in H.
        destruct H as [Ha Hb].
        apply (H3 0xE1 0xEC R2 ltac:(lia) ltac:(lia) 128 191); try assumption; lia. }
      destruct (in_range 0xED 0xED b0) eqn:R3.
      { rewrite in_range_iff in R3. rewrite <- andb_assoc, andb_true_iff, in_range_iff in H.
        destruct H as [Ha Hb].
        apply (H3 0xED 0xED R3 ltac:(lia) ltac:(lia) 128 159); try assumption; lia. }
      destruct (in_range 0xEE 0xEF b0) eqn:R4.
      { rewrite in_range_iff in R4. rewrite <- andb_assoc, andb_true_iff, is_cont_iff in H.
        destruct H as [Ha Hb].
        apply (H3 0xEE 0xEF R4 ltac:(lia) ltac:(lia) 128 191); try assumption; lia. }
      destruct r2 as [|b3 r3]; [discriminate|]. cbn [length] in Hle. clear H3.
      assert (H4 : 0xF0 <= b2n b0 <= 0xF4 ->
        forall l1 h1, (0x80 <= l1 <= h1 /\ h1 <= 0xBF) -> l1 <= b2n b1 <= h1 ->
        (b2n b0 = 0xF0 -> 0x90 <= l1) -> (b2n b0 = 0xF4 -> h1 <= 0x8F) ->
        is_cont b2 && (is_cont b3 && utf8_valid r3) = true -> Utf8 (b0 :: b1 :: b2 :: b3 :: r3)).
      { intros Hb l1 h1 Hl Hb1 Ha Hb' Hv. rewrite !andb_true_iff, !is_cont_iff in Hv.
        apply (HA [b0; b1; b2; b3] r3); [lia| |tauto].
        apply char4; lia. }
      rewrite <- ?andb_assoc in H.
      destruct (in_range 0xF0 0xF0 b0) eqn:R5.
      { rewrite in_range_iff in R5. rewrite andb_true_iff, in_range_iff in H. destruct H as [Ha Hb].
        apply (H4 ltac:(lia) 144 191); try assumption; lia. }
      destruct (in_range 0xF1 0xF3 b0) eqn:R6.
      { rewrite in_range_iff in R6. rewrite andb_true_iff, is_cont_iff in H. destruct H as [Ha Hb].
        apply (H4 ltac:(lia) 128 191); try assumption; lia. }
      destruct (in_range 0xF4 0xF4 b0) eqn:R7.
      { rewrite in_range_iff in R7. rewrite andb_true_iff, in_range_iff in H. destruct H as [Ha Hb].
        apply (H4 ltac:(lia) 128 143); try assumption; lia. }
      discriminate.
  - intros (cs & Hcs & ->). induction Hcs as [|c cs Hc Hcs IH]; [reflexivity|].
    cbn [map concat]. now rewrite valid_char.
Qed.

(** ** Strings *)

Lemma rstring_of_cases : forall v,
  match rstring_of v with
  | Some s => sbytes s = v /\ utf8_valid (vlist v) = true
  | None => utf8_valid (vlist v) <> true
  end.
Proof.
  intros v. unfold rstring_of. destruct (bool_dec (utf8_valid (vlist v)) true) as [h|h].
  - split; [reflexivity|exact h].
  - exact h.
Qed.

Lemma string_strict : forall bs rest, N.of_nat (length bs) <= isize_max ->
  (Utf8 bs -> exists s, run decode_string (le_bytes 8 (N.of_nat (length bs)) ++ bs ++ rest) = ROk s rest /\
     vlist (sbytes s) = bs) /\
  (~ Utf8 bs -> run decode_string (le_bytes 8 (N.of_nat (length bs)) ++ bs ++ rest) = RErr EInvalidLength).
Proof.
  intros bs rest Hl.
  destruct (vec_of_ok 1 u8 bs) as (v & Hv & Ev); [unfold u8; lia|exact Hl|].
  assert (Hr : run (decode_vec 1 decode_u8) (le_bytes 8 (N.of_nat (length bs)) ++ bs ++ rest) = ROk v rest).
  { pose proof (rt_vec 1 u8 encode_u8 decode_u8 prop_u8 rt_u8 v rest) as H.
    unfold encode_vec in H. rewrite Ev in H. rewrite wbytes_slice_u8 in H.
    - now rewrite <- app_assoc in H.
    - unfold isize_max in Hl. change (2 ^ 63 - 1) with 9223372036854775807 in Hl.
      change (2 ^ 64) with 18446744073709551616. unfold u8. lia. }
  unfold decode_string. rewrite run_bind, Hr.
  pose proof (rstring_of_cases v) as Hc.
  change (utf8_valid (vlist v)) with (utf8_valid (@vlist 1 u8 v)) in Hc. rewrite Ev in Hc.
  destruct (rstring_of v) as [s|]; rewrite utf8_spec in Hc.
  - split; [|tauto]. intros _. exists s. split; [reflexivity|]. destruct Hc as [Hc _].
    exact (eq_trans (f_equal vlist Hc) Ev).
  - split; [contradiction|reflexivity].
Qed.

(** ** v1 currency *)

Lemma first_nonzero_hd : forall l, hd x01 (skipn (first_nonzero l) l) <> x00.
Proof.
  induction l as [|b l IH]; cbn [first_nonzero]; [discriminate|].
  destruct (Byte.eqb b x00) eqn:E; [exact IH|]. cbn [skipn hd].
  intros ->. discriminate E.
Qed.

Lemma v1_currency_layout : forall c : currency, exists digits,
  wbytes (encode_v1_currency c) = le_bytes 8 (N.of_nat (length digits)) ++ digits /\
  be_value digits = uval c /\ (length digits <= 16)%nat /\ hd x01 digits <> x00.
Proof.
  intros c. exists (min_be (uval c)). rewrite wbytes_v1_currency. split; [reflexivity|].
  split; [|split; [apply min_be_length|apply first_nonzero_hd]].
  rewrite be_value_spec. pose proof (min_be_pad (uval c)) as E.
  apply (f_equal from_be) in E. rewrite from_be_be_bytes, N.mod_small in E by apply u128_le.
  refine (eq_trans _ E). unfold from_be. rewrite rev_app_distr, from_le_app.
  assert (Hz : forall k, rev (repeat x00 k) = repeat x00 k).
  { clear. induction k as [|k IH]; [reflexivity|]. cbn [repeat rev]. rewrite IH.
    symmetry. apply (repeat_cons k x00). }
  rewrite Hz, from_le_zeros, N.mul_0_r, N.add_0_r. reflexivity.
Qed.

Lemma v1_currency_decode : forall n digits rest, n < 2 ^ 64 -> N.of_nat (length digits) = n ->
  (n <= 16 -> exists c : currency, run decode_v1_currency (le_bytes 8 n ++ digits ++ rest) = ROk c rest /\
     uval c = be_value digits) /\
  (16 < n -> run decode_v1_currency (le_bytes 8 n ++ digits ++ rest) = RErr EInvalidLength).
Proof.
  intros n digits rest Hn Hl. unfold decode_v1_currency. rewrite run_usize_le by assumption.
  rewrite uwrap_small by assumption. split; intros H.
  - destruct (N.ltb_spec 16 n); [lia|]. cbv zeta.
    rewrite run_read_app by lia. eexists. split; [reflexivity|].
    assert (E : from_be (repeat x00 (16 - N.to_nat n) ++ digits) = be_value digits).
    { rewrite be_value_spec. unfold from_be. rewrite rev_app_distr, from_le_app.
      assert (Hz : forall k, rev (repeat x00 k) = repeat x00 k).
      { clear. induction k as [|k IH]; [reflexivity|]. cbn [repeat rev]. rewrite IH.
        symmetry. apply (repeat_cons k x00). }
      rewrite Hz, from_le_zeros, N.mul_0_r, N.add_0_r. reflexivity. }
    rewrite E. apply uwrap_small. rewrite be_value_spec. unfold from_be.
    eapply N.lt_le_trans; [apply from_le_lt|]. rewrite rev_length, Hl.
    change 256 with (2 ^ 8). rewrite <- N.pow_mul_r. apply N.pow_le_mono_r; lia.
  - destruct (N.ltb_spec 16 n); [|lia]. reflexivity.
Qed.

(** ** Durations and timestamps *)

Lemma duration_reject : forall bs rest, length bs = 8%nat ->
  (le_value bs < 2 ^ 63 -> exists d, run decode_duration (bs ++ rest) = ROk d rest /\
     dur_ns d = Z.of_N (le_value bs)) /\
  (2 ^ 63 <= le_value bs -> exists e, run decode_duration (bs ++ rest) = RErr e).
Proof.
  intros bs rest Hl. unfold decode_duration.
  destruct (decode_uint_val 64 bs rest Hl) as (v & Hv & Ev).
  pose proof (from_le_lt bs) as Hb. rewrite Hl in Hb. change (256 ^ N.of_nat 8) with (2 ^ 64) in Hb.
  rewrite <- le_value_spec in Hb. rewrite N.mod_small in Ev by assumption.
  rewrite run_bind. assert (Hv' : run decode_u64 (bs ++ rest) = ROk v rest) by exact Hv.
  rewrite Hv', Ev.
  change (2 ^ 63 - 1) with 9223372036854775807. change (2 ^ 63) with 9223372036854775808.
  split; intros H.
  - destruct (N.ltb_spec 9223372036854775807 (le_value bs)); [lia|].
    eexists. split; [reflexivity|]. cbn [nanoseconds dur_ns swrap sval].
    apply swrap_Z_id; [discriminate|]. change (2 ^ (Z.of_N 64 - 1))%Z with 9223372036854775808%Z. lia.
  - destruct (N.ltb_spec 9223372036854775807 (le_value bs)); [|lia]. eexists. reflexivity.
Qed.

Lemma timestamp_decode : forall bs rest s, length bs = 8%nat -> run decode_i64 bs = ROk s [] ->
  ((ts_min <= sval s <= ts_max)%Z -> exists t, run decode_odt (bs ++ rest) = ROk t rest /\
     odt_secs t = sval s /\ odt_nanos t = 0) /\
  (~ (ts_min <= sval s <= ts_max)%Z -> run decode_odt (bs ++ rest) = RPanic UnwrapNone).
Proof.
  intros bs rest s Hl E. unfold decode_odt. rewrite run_bind.
  assert (E' : run decode_i64 (bs ++ rest) = ROk s rest).
  { apply run_consumes in E as (used & Hu & E). rewrite app_nil_r in Hu. subst used. apply E. }
  rewrite E'. split; intros H.
  - destruct (from_unix_timestamp s) as [t|] eqn:Et.
    + exists t. split; [reflexivity|]. now apply from_unix_timestamp_some.
    + apply from_unix_timestamp_iff in Et. contradiction.
  - apply from_unix_timestamp_iff in H. now rewrite H.
Qed.

(** ** The statements of P_basic.v *)

Lemma int_layout : forall A val enc dec, IntCodec A val enc dec -> forall a : A,
  length (wbytes (enc a)) = 8%nat /\
  Z.of_N (le_value (wbytes (enc a))) = (val a mod 2 ^ 64)%Z /\
  forall rest, run dec (wbytes (enc a) ++ rest) = ROk a rest.
Proof.
  assert (HU : forall w (v : uint w), w <= 64 ->
    length (wbytes (encode_uint v)) = 8%nat /\
    Z.of_N (le_value (wbytes (encode_uint v))) = (Z.of_N (uval v) mod 2 ^ 64)%Z).
  { intros w v Hw. destruct (uint_layout w v Hw) as [H1 H2]. split; [exact H1|]. rewrite H2.
    rewrite Z.mod_small; [reflexivity|]. split; [lia|].
    change (2 ^ 64)%Z with (Z.of_N (2 ^ 64)). apply N2Z.inj_lt.
    eapply N.lt_le_trans; [apply uint_lt|]. apply N.pow_le_mono_r; [discriminate|assumption]. }
  intros A val enc dec H. destruct H; intros a.
  - destruct (HU 16 a) as [H1 H2]; [lia|]. split; [exact H1|split; [exact H2|intros rest; apply rt_uint; discriminate]].
  - destruct (HU 32 a) as [H1 H2]; [lia|]. split; [exact H1|split; [exact H2|intros rest; apply rt_uint; discriminate]].
  - destruct (HU 64 a) as [H1 H2]; [lia|]. split; [exact H1|split; [exact H2|intros rest; apply rt_u64]].
  - destruct (HU 64 a) as [H1 H2]; [lia|]. split; [exact H1|split; [exact H2|intros rest; apply rt_u64]].
  - destruct (sint_layout 16 a) as [H1 H2]; [lia|]. split; [exact H1|split; [exact H2|intros rest; apply rt_sint; discriminate]].
  - destruct (sint_layout 32 a) as [H1 H2]; [lia|]. split; [exact H1|split; [exact H2|intros rest; apply rt_sint; discriminate]].
  - destruct (sint_layout 64 a) as [H1 H2]; [lia|]. split; [exact H1|split; [exact H2|intros rest; apply rt_i64]].
Qed.

Lemma le_value_8 : forall bs, length bs = 8%nat -> le_value bs < 2 ^ 64.
Proof. intros bs H. rewrite le_value_spec. pose proof (from_le_lt bs) as Hb. now rewrite H in Hb. Qed.

Lemma wide_exact : forall A val dec, WideCodec A val dec ->
  forall bs rest, length bs = 8%nat ->
  exists a : A, run dec (bs ++ rest) = ROk a rest /\ (val a mod 2 ^ 64)%Z = Z.of_N (le_value bs).
Proof.
  intros A val dec H bs rest Hl. pose proof (le_value_8 bs Hl) as Hb. destruct H.
  1, 2: destruct (decode_uint_val 64 bs rest Hl) as (v & Hv & Ev); exists v; split; [exact Hv|];
    rewrite Ev, N.mod_small by assumption; apply Z.mod_small; split; [lia|];
    change (2 ^ 64)%Z with (Z.of_N (2 ^ 64)); now apply N2Z.inj_lt.
  apply decode_i64_val, Hl.
Qed.

Lemma narrow_refuted : ~ (forall A val enc dec, IntCodec A val enc dec ->
  forall bs (a : A), length bs = 8%nat -> run dec bs = ROk a [] ->
  (val a mod 2 ^ 64)%Z = Z.of_N (le_value bs)).
Proof.
  intros H.
  specialize (H _ _ _ _ Int_u16 [x00; x00; x01; x00; x00; x00; x00; x00] 
    (uwrap 16 (from_le [x00; x00; x01; x00; x00; x00; x00; x00])) eq_refl eq_refl).
  discriminate H.
Qed.

Lemma option_tag : forall A (d : dec A) b rest,
  run (decode_option d) (b :: rest) =
  match b with
  | x00 => ROk None rest
  | x01 => match run d rest with ROk a r => ROk (Some a) r | RErr e => RErr e | RPanic p => RPanic p end
  | _ => RErr EInvalidValue
  end.
Proof.
  intros A d b rest. destruct b; try reflexivity.
  unfold decode_option. rewrite run_bind. cbn [decode_bool decode_u8 dbind run splitn hd].
  rewrite run_bind. destruct (run d rest); reflexivity.
Qed.

Lemma le_bytes_of_value : forall p, length p = 8%nat -> le_bytes 8 (le_value p) = p.
Proof. intros p H. rewrite le_value_spec, <- H. apply le_bytes_from_le. Qed.

Lemma string_accepts : forall bs s rest,
  run decode_string bs = ROk s rest <->
  exists prefix, bs = prefix ++ vlist (sbytes s) ++ rest /\ length prefix = 8%nat /\
    le_value prefix = N.of_nat (length (vlist (sbytes s))) /\ Utf8 (vlist (sbytes s)).
Proof.
  intros bs s rest.
  assert (Hu : utf8_valid (vlist (sbytes s)) = true) by apply sbytes_ok.
  apply utf8_spec in Hu.
  assert (Hl : N.of_nat (length (vlist (sbytes s))) <= isize_max) by apply vec_bounds.
  destruct (string_strict (vlist (sbytes s)) rest Hl) as [HA _].
  destruct (HA Hu) as (s' & Hs & Es). apply vec_eq in Es.
  assert (s' = s) as ->. { destruct s, s'. cbn in Es. subst. f_equal. apply Eqdep_dec.UIP_dec, bool_dec. }
  split.
  - intros H. exists (le_bytes 8 (N.of_nat (length (vlist (sbytes s))))).
    apply canon_string in H. pose proof (rt_string s rest) as Hr. rewrite <- H in Hr.
    assert (E : bs = le_bytes 8 (N.of_nat (length (vlist (sbytes s)))) ++ vlist (sbytes s) ++ rest).
    { apply canon_string in Hs. congruence. }
    split; [exact E|]. split; [apply le_bytes_length|]. split; [|exact Hu].
    rewrite le_value_spec, from_le_le_bytes. apply N.mod_small.
    unfold isize_max in Hl. change (2 ^ 63 - 1) with 9223372036854775807 in Hl.
    change (256 ^ N.of_nat 8) with 18446744073709551616. unfold u8 in *. lia.
  - intros (p & -> & Hp & Ep & _). now rewrite <- Ep, le_bytes_of_value in Hs.
Qed.

Lemma string_rejects : forall prefix payload rest, length prefix = 8%nat ->
  le_value prefix = N.of_nat (length payload) -> N.of_nat (length payload) <= isize_max ->
  ~ Utf8 payload -> exists e, run decode_string (prefix ++ payload ++ rest) = RErr e.
Proof.
  intros p bs rest Hp Ep Hl Hu. destruct (string_strict bs rest Hl) as [_ H].
  eexists. rewrite <- Ep, le_bytes_of_value in H by assumption. exact (H Hu).
Qed.

Lemma v1_currency_layout' : forall c : currency, exists prefix digits,
  wbytes (encode_v1_currency c) = prefix ++ digits /\ length prefix = 8%nat /\
  le_value prefix = N.of_nat (length digits) /\ be_value digits = uval c /\ hd x01 digits <> x00.
Proof.
  intros c. destruct (v1_currency_layout c) as (d & E & V & L & H).
  exists (le_bytes 8 (N.of_nat (length d))), d.
  split; [exact E|]. split; [apply le_bytes_length|]. split; [|split; [exact V|exact H]].
  rewrite le_value_spec, from_le_le_bytes. apply N.mod_small.
  change (256 ^ N.of_nat 8) with 18446744073709551616. lia.
Qed.

Lemma v1_currency_accepts : forall bs (c : currency) rest,
  run decode_v1_currency bs = ROk c rest <->
  exists prefix digits, bs = prefix ++ digits ++ rest /\ length prefix = 8%nat /\
    le_value prefix = N.of_nat (length digits) /\ (length digits <= 16)%nat /\ uval c = be_value digits.
Proof.
  intros bs c rest. split.
  - intros H. unfold decode_v1_currency in H.
    apply run_bind_ok in H as (len & r & H1 & H2).
    pose proof (canon_u64 _ _ _ H1) as E. rewrite E. clear H1.
    destruct (uint_layout 64 len) as [L1 L2]; [lia|].
    destruct (N.ltb_spec 16 (uval len)) as [L|L]; [discriminate|]. cbv zeta in H2. cbn [run] in H2.
    destruct (splitn (N.to_nat (uval len)) r) as [[x r']|] eqn:Es; [|discriminate].
    apply splitn_some in Es as [-> Hx]. injection H2 as H2 <-.
    exists (wbytes (encode_usize len)), x. 
    split; [reflexivity|]. split; [exact L1|]. split; [rewrite Hx, N2Nat.id; exact L2|].
    split; [lia|]. rewrite <- H2.
    destruct (v1_currency_decode (uval len) x r') as [HA _]; [apply uint_lt|lia|].
    destruct (HA L) as (c' & Hc & Ec). unfold decode_v1_currency in Hc.
    rewrite run_usize_le, uwrap_id in Hc by apply uint_lt.
    destruct (N.ltb_spec 16 (uval len)); [lia|]. cbv zeta in Hc. rewrite run_read_app in Hc by exact Hx.
    injection Hc as Hc. rewrite <- Ec, <- Hc. reflexivity.
  - intros (p & d & -> & Hp & Ep & Hd & Ev).
    destruct (v1_currency_decode (N.of_nat (length d)) d rest) as [HA _].
    + change (2 ^ 64) with 18446744073709551616. lia.
    + reflexivity.
    + destruct HA as (c' & Hc & Ec); [lia|]. rewrite <- Ep, le_bytes_of_value in Hc by assumption.
      rewrite Hc. f_equal. apply uint_eq. congruence.
Qed.

Lemma v1_currency_rejects : forall prefix rest, length prefix = 8%nat -> 16 < le_value prefix ->
  exists e, run decode_v1_currency (prefix ++ rest) = RErr e.
Proof.
  intros p rest Hp H. eexists. rewrite <- (le_bytes_of_value p Hp). unfold decode_v1_currency.
  pose proof (le_value_8 p Hp) as Hb. rewrite run_usize_le, uwrap_small by assumption.
  destruct (N.ltb_spec 16 (le_value p)); [reflexivity|lia].
Qed.

Lemma timestamp_reject : forall bs rest, length bs = 8%nat ->
  exists s : i64, (sval s mod 2 ^ 64)%Z = Z.of_N (le_value bs) /\
  ((ts_min <= sval s <= ts_max)%Z ->
     exists t, run decode_odt (bs ++ rest) = ROk t rest /\ odt_secs t = sval s /\ odt_nanos t = 0) /\
  (~ (ts_min <= sval s <= ts_max)%Z -> run decode_odt (bs ++ rest) = RPanic UnwrapNone).
Proof.
  intros bs rest Hl. destruct (decode_i64_val bs [] Hl) as (s & Hs & Es). exists s.
  rewrite app_nil_r in Hs. split; [exact Es|]. now apply timestamp_decode.
Qed.

Lemma timestamp_refuted : ~ (forall bs, length bs = 8%nat ->
  (exists t, run decode_odt bs = ROk t []) \/ (exists e, run decode_odt bs = RErr e)).
Proof.
  intros H. specialize (H (repeat xff 7 ++ [x7f]) eq_refl).
  assert (E : run decode_odt (repeat xff 7 ++ [x7f]) = RPanic UnwrapNone) by (vm_compute; reflexivity).
  rewrite E in H. destruct H as [[t H]|[e H]]; discriminate H.
Qed.

Lemma timestamp_fraction_refuted : ~ (forall t, run decode_odt (wbytes (encode_odt t)) = ROk t []).
Proof.
  intros H. specialize (H (MkOdt 0 1 eq_refl)).
  apply (f_equal (fun r => match r with ROk t _ => odt_nanos t | _ => 0 end)) in H.
  vm_compute in H. discriminate H.
Qed.

Lemma bool_tag : forall b rest,
  run decode_bool (b :: rest) =
  match b with x00 => ROk false rest | x01 => ROk true rest | _ => RErr EInvalidValue end.
Proof. intros b rest. destruct b; reflexivity. Qed.

Lemma string_complete : forall prefix payload rest, length prefix = 8%nat ->
  le_value prefix = N.of_nat (length payload) -> N.of_nat (length payload) <= isize_max ->
  Utf8 payload ->
  exists s, run decode_string (prefix ++ payload ++ rest) = ROk s rest /\ vlist (sbytes s) = payload.
Proof.
  intros p bs rest Hp Ep Hl Hu. destruct (string_strict bs rest Hl) as [H _].
  rewrite <- Ep, le_bytes_of_value in H by assumption. exact (H Hu).
Qed.

Lemma utf8_examples :
  Utf8 [xe2; x82; xac] /\ ~ Utf8 [xed; xa0; x80] /\ ~ Utf8 [xc0; x80] /\
  le_value [x03; x00; x00; x00; x00; x00; x00; x00] = N.of_nat (length [xe2; x82; xac]).
Proof.
  rewrite <- !utf8_spec. split; [reflexivity|]. split; [discriminate|]. split; [discriminate|reflexivity].
Qed.

Lemma duration_roundtrip : forall (d : duration) rest, (0 <= dur_ns d < 2 ^ 63)%Z ->
  run decode_duration (wbytes (encode_duration d) ++ rest) = ROk d rest.
Proof. intros d rest H. apply rt_duration. exact H. Qed.

Lemma timestamp_roundtrip : forall (t : odt) rest, odt_nanos t = 0 ->
  run decode_odt (wbytes (encode_odt t) ++ rest) = ROk t rest.
Proof. intros t rest H. apply rt_odt. exact H. Qed.
