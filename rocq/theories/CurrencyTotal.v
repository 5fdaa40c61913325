(** What [parse_currency] and the currency operators do when the exact result is not
    representable (C15, C16). *)
From Verif Require Import Base Io Model_encoding Model_common Model_currency SpecText CurrencyProofs TextProofs
  TextMore.
Local Open Scope N_scope.

Lemma uwrap_val : forall w n, uval (uwrap w n) = n mod 2 ^ w.
Proof. reflexivity. Qed.

Lemma uwrap_eq : forall w a b, a mod 2 ^ w = b mod 2 ^ w -> uwrap w a = uwrap w b.
Proof. intros w a b H. apply uint_eq. now rewrite !uwrap_val. Qed.

Lemma u_add_release : forall w (a b : uint w), u_add Release a b = Val (uwrap w (uval a + uval b)).
Proof. intros w a b. reflexivity. Qed.

Lemma u_mul_release : forall w (a b : uint w), u_mul Release a b = Val (uwrap w (uval a * uval b)).
Proof. intros w a b. reflexivity. Qed.

Lemma u_add_over : forall w (a b : uint w), 2 ^ w <= uval a + uval b -> u_add Debug a b = Panic ArithOverflow.
Proof. intros w a b H. unfold u_add. apply N.ltb_ge in H. now rewrite H. Qed.

Lemma u_mul_over : forall w (a b : uint w), 2 ^ w <= uval a * uval b -> u_mul Debug a b = Panic ArithOverflow.
Proof. intros w a b H. unfold u_mul. apply N.ltb_ge in H. now rewrite H. Qed.

Lemma two128_nz : 2 ^ 128 <> 0. Proof. discriminate. Qed.

(** The two powers and the sum, when the fraction is not too fine. *)
Lemma scaled_over : forall e i f (n : nat), e <= 36 -> N.of_nat n <= e ->
  2 ^ 128 <= uval i * 10 ^ e + uval f * 10 ^ (e - N.of_nat n) ->
  scaled Debug (Z.of_N e - 24) i f (Z.of_nat n) = Panic ArithOverflow.
Proof.
  intros e i f n He Hn H. unfold scaled.
  replace (24 + (Z.of_N e - 24))%Z with (Z.of_N e) by lia.
  rewrite i32_arith_ok by lia. cbn [obind]. rewrite pow10_ok by assumption. cbn [obind].
  pose proof (pow10_le e He) as P1.
  assert (P2 : 10 ^ (e - N.of_nat n) < 2 ^ 128) by (apply pow10_le; lia).
  assert (EA : uval i * uval (uwrap 128 (10 ^ e)) = uval i * 10 ^ e) by now rewrite (uwrap_small 128 _ P1).
  assert (EB : uval f * uval (uwrap 128 (10 ^ (e - N.of_nat n))) = uval f * 10 ^ (e - N.of_nat n))
    by now rewrite (uwrap_small 128 _ P2).
  destruct (N.leb_spec (2 ^ 128) (uval i * 10 ^ e)) as [HA|HA].
  { rewrite u_mul_over by now rewrite EA. reflexivity. }
  rewrite u_mul_ok by now rewrite EA. rewrite EA. cbn [obind].
  rewrite i32_arith_ok by lia. cbn [obind].
  rewrite i32_arith_ok by lia. cbn [obind].
  replace (24 - Z.of_nat n + (Z.of_N e - 24))%Z with (Z.of_N (e - N.of_nat n)) by lia.
  rewrite pow10_ok by lia. cbn [obind].
  destruct (N.leb_spec (2 ^ 128) (uval f * 10 ^ (e - N.of_nat n))) as [HB|HB].
  { rewrite u_mul_over by now rewrite EB. reflexivity. }
  rewrite u_mul_ok by now rewrite EB. rewrite EB. cbn [obind].
  rewrite u_add_over; [reflexivity|].
  now rewrite (uwrap_small 128 _ HA), (uwrap_small 128 _ HB).
Qed.

Lemma scaled_wraps : forall e i f (n : nat), e <= 36 -> N.of_nat n <= e ->
  scaled Release (Z.of_N e - 24) i f (Z.of_nat n) =
    Val (inl (uwrap 128 (uval i * 10 ^ e + uval f * 10 ^ (e - N.of_nat n)))).
Proof.
  intros e i f n He Hn. unfold scaled.
  replace (24 + (Z.of_N e - 24))%Z with (Z.of_N e) by lia.
  rewrite i32_arith_ok by lia. cbn [obind]. rewrite pow10_ok by assumption. cbn [obind].
  pose proof (pow10_le e He) as P1.
  assert (P2 : 10 ^ (e - N.of_nat n) < 2 ^ 128) by (apply pow10_le; lia).
  rewrite u_mul_release. cbn [obind].
  rewrite i32_arith_ok by lia. cbn [obind].
  rewrite i32_arith_ok by lia. cbn [obind].
  replace (24 - Z.of_nat n + (Z.of_N e - 24))%Z with (Z.of_N (e - N.of_nat n)) by lia.
  rewrite pow10_ok by lia. cbn [obind]. rewrite u_mul_release. cbn [obind]. rewrite u_add_release. cbn [obind].
  rewrite (uwrap_small 128 _ P1), (uwrap_small 128 _ P2).
  do 2 f_equal. apply uwrap_eq. rewrite !uwrap_val. symmetry. apply N.add_mod, two128_nz.
Qed.

(** The exponent of a fraction that is too fine, as the [u32] it is cast to. *)
Lemma as_u32_negative : forall e (n : nat), e <= 36 -> N.of_nat n < 2 ^ 31 -> e < N.of_nat n ->
  128 <= uval (as_u32 (Z.of_N e - Z.of_nat n)).
Proof.
  intros e n He Hn H. change (2 ^ 31) with 2147483648 in Hn. unfold as_u32.
  replace ((Z.of_N e - Z.of_nat n) mod 2 ^ 32)%Z with (Z.of_N e - Z.of_nat n + 2 ^ 32)%Z.
  - rewrite uwrap_small; [lia|]. change (2 ^ 32) with 4294967296. lia.
  - rewrite <- (Z.mod_small (Z.of_N e - Z.of_nat n + 2 ^ 32) (2 ^ 32)) by lia.
    replace (Z.of_N e - Z.of_nat n + 2 ^ 32)%Z with (Z.of_N e - Z.of_nat n + 1 * 2 ^ 32)%Z by lia.
    now rewrite Z.mod_add by lia.
Qed.

Lemma scaled_fine : forall e i f (n : nat), e <= 36 -> N.of_nat n < 2 ^ 31 -> e < N.of_nat n ->
  scaled Debug (Z.of_N e - 24) i f (Z.of_nat n) = Panic ArithOverflow /\
  scaled Release (Z.of_N e - 24) i f (Z.of_nat n) = Val (inl (uwrap 128 (uval i * 10 ^ e))).
Proof.
  intros e i f n He Hn H. pose proof (as_u32_negative e n He Hn H) as Hneg.
  pose proof (pow10_le e He) as P1.
  change (2 ^ 31) with 2147483648 in Hn. unfold scaled.
  replace (24 + (Z.of_N e - 24))%Z with (Z.of_N e) by lia.
  split; (rewrite i32_arith_ok by lia; cbn [obind]; rewrite pow10_ok by assumption; cbn [obind]).
  - destruct (N.leb_spec (2 ^ 128) (uval i * uval (uwrap 128 (10 ^ e)))) as [HA|HA].
    { now rewrite u_mul_over by assumption. }
    rewrite u_mul_ok by assumption. cbn [obind].
    rewrite i32_arith_ok by lia. cbn [obind]. rewrite i32_arith_ok by lia. cbn [obind].
    replace (24 - Z.of_nat n + (Z.of_N e - 24))%Z with (Z.of_N e - Z.of_nat n)%Z by lia.
    unfold pow10. assert (E : (uval (as_u32 (Z.of_N e - Z.of_nat n)) <? 39) = false) by (apply N.ltb_ge; lia).
    rewrite E. reflexivity.
  - rewrite u_mul_release. cbn [obind].
    rewrite i32_arith_ok by lia. cbn [obind]. rewrite i32_arith_ok by lia. cbn [obind].
    replace (24 - Z.of_nat n + (Z.of_N e - 24))%Z with (Z.of_N e - Z.of_nat n)%Z by lia.
    unfold pow10. assert (E : (uval (as_u32 (Z.of_N e - Z.of_nat n)) <? 128) = false) by (apply N.ltb_ge; lia).
    rewrite E. cbn [obind]. rewrite u_mul_release. cbn [obind]. rewrite u_add_release. cbn [obind].
    do 2 f_equal. apply uwrap_eq. change (uval (uwrap 128 0)) with 0. rewrite N.mul_0_r.
    change (uval (uwrap 128 0)) with 0. rewrite N.add_0_r, uwrap_val, (uwrap_small 128 _ P1).
    apply N.mod_mod, two128_nz.
Qed.

(** ** C15: every well-formed text *)

Lemma parse_currency_outcome : forall s int frac e, CurrencyText s int frac e ->
  N.of_nat (length s) < 2 ^ 31 ->
  (2 ^ 128 <= dec_value int \/ 2 ^ 128 <= dec_value frac ->
     exists err, forall p, parse_currency p s = Val (inr err)) /\
  (dec_value int < 2 ^ 128 -> dec_value frac < 2 ^ 128 -> N.of_nat (length frac) <= e ->
     2 ^ 128 <= hastings int frac e ->
     parse_currency Debug s = Panic ArithOverflow /\
     exists c, parse_currency Release s = Val (inl c) /\ uval c = hastings int frac e mod 2 ^ 128) /\
  (dec_value int < 2 ^ 128 -> dec_value frac < 2 ^ 128 -> e < N.of_nat (length frac) ->
     parse_currency Debug s = Panic ArithOverflow /\
     exists c, parse_currency Release s = Val (inl c) /\ uval c = (dec_value int * 10 ^ e) mod 2 ^ 128).
Proof.
  intros s int frac e H Hl. unfold hastings. destruct H.
  - rewrite dec_value_0. split; [|split].
    + intros [H2'|H2']; [|change (2 ^ 128 <= 0) in H2'; exfalso; now apply H2'].
      eexists. intros p. rewrite parse_hastings by assumption. apply N.ltb_ge in H2'. now rewrite H2'.
    + intros Hi _ _ Hge. exfalso. change (10 ^ 0) with 1 in Hge. rewrite N.mul_0_l in Hge. lia.
    + intros _ _ Hn. cbn in Hn. lia.
  - pose proof (units_range _ _ H2) as He. rewrite dec_value_0. split; [|split].
    + intros [H3'|H3']; [|change (2 ^ 128 <= 0) in H3'; exfalso; now apply H3'].
      eexists. intros p. rewrite (parse_integer p int w1 u e w2) by assumption. apply N.ltb_ge in H3'. now rewrite H3'.
    + intros Hi _ Hn Hge. rewrite !(parse_integer _ int w1 u e w2) by assumption.
      pose proof Hi as Hi'. apply N.ltb_lt in Hi'. rewrite Hi'. split.
      * apply scaled_over; [lia|assumption|]. rewrite (uwrap_small 128 _ Hi). exact Hge.
      * eexists. rewrite scaled_wraps by (lia || assumption). split; [reflexivity|].
        rewrite uwrap_val, (uwrap_small 128 _ Hi). reflexivity.
    + intros _ _ Hn. cbn in Hn. lia.
  - pose proof (units_range _ _ H3) as He.
    assert (Hlf : N.of_nat (length frac) < 2 ^ 31).
    { eapply N.le_lt_trans; [|exact Hl]. rewrite !app_length. lia. }
    assert (Hsw : swrap_Z 32 (Z.of_nat (length frac)) = Z.of_nat (length frac)).
    { apply swrap_Z_id; [discriminate|]. change (2 ^ 31) with 2147483648 in Hlf.
      change (2 ^ (Z.of_N 32 - 1))%Z with 2147483648%Z. lia. }
    split; [|split].
    + intros Hov. eexists. intros p. rewrite (parse_fraction p int frac w1 u e w2) by assumption.
      assert (E : ((dec_value int <? 2 ^ 128) && (dec_value frac <? 2 ^ 128)) = false).
      { apply andb_false_iff. rewrite !N.ltb_ge. exact Hov. }
      rewrite E. reflexivity.
    + intros Hi Hf Hn Hge. rewrite !(parse_fraction _ int frac w1 u e w2) by assumption.
      pose proof Hi as Hi'. apply N.ltb_lt in Hi'. pose proof Hf as Hf'. apply N.ltb_lt in Hf'.
      rewrite Hi', Hf'. cbn [andb]. rewrite Hsw. split.
      * apply scaled_over; [lia|assumption|].
        rewrite (uwrap_small 128 _ Hi), (uwrap_small 128 _ Hf). exact Hge.
      * eexists. rewrite scaled_wraps by (lia || assumption). split; [reflexivity|].
        rewrite uwrap_val, (uwrap_small 128 _ Hi), (uwrap_small 128 _ Hf). reflexivity.
    + intros Hi Hf Hn. rewrite !(parse_fraction _ int frac w1 u e w2) by assumption.
      pose proof Hi as Hi'. apply N.ltb_lt in Hi'. pose proof Hf as Hf'. apply N.ltb_lt in Hf'.
      rewrite Hi', Hf'. cbn [andb]. rewrite Hsw.
      assert (He36 : e <= 36) by lia.
      destruct (scaled_fine e (uwrap 128 (dec_value int)) (uwrap 128 (dec_value frac)) (length frac) He36 Hlf Hn)
        as [E1 E2].
      split; [exact E1|]. eexists. split; [exact E2|].
      rewrite uwrap_val, (uwrap_small 128 _ Hi). reflexivity.
Qed.

(** ** C16: without overflow checks *)

Lemma sum_release_from : forall (l : list currency) a,
  fold_left (fun acc c => obind acc (fun s => currency_add Release s c)) l (Val a) =
    Val (uwrap 128 (uval a + fold_right N.add 0 (map uval l))).
Proof.
  induction l as [|c l IH]; intros a; cbn [fold_left map fold_right].
  - now rewrite N.add_0_r, uwrap_id.
  - cbn [obind]. unfold currency_add at 2. rewrite u_add_release, IH. f_equal. apply uwrap_eq.
    rewrite uwrap_val, N.add_assoc. apply N.add_mod_idemp_l, two128_nz.
Qed.

Lemma operators_wrap : forall (a b : currency) (l : list currency),
  (exists c, currency_add Release a b = Val c /\ uval c = (uval a + uval b) mod 2 ^ 128) /\
  (exists c, currency_sub Release a b = Val c /\ (uval c + uval b) mod 2 ^ 128 = uval a) /\
  (exists c, currency_mul Release a b = Val c /\ uval c = (uval a * uval b) mod 2 ^ 128) /\
  (exists c, currency_sum Release l = Val c /\ uval c = fold_right N.add 0 (map uval l) mod 2 ^ 128).
Proof.
  intros a b l. split; [|split; [|split]].
  - eexists. unfold currency_add. rewrite u_add_release. split; [reflexivity|]. apply uwrap_val.
  - unfold currency_sub, u_sub. pose proof (uint_lt 128 a) as La. pose proof (uint_lt 128 b) as Lb.
    destruct (N.leb_spec (uval b) (uval a)) as [H|H].
    + eexists. split; [reflexivity|]. rewrite uwrap_small by lia. rewrite N.sub_add by assumption. now apply N.mod_small.
    + eexists. split; [reflexivity|]. rewrite uwrap_small by lia.
      replace (2 ^ 128 + uval a - uval b + uval b) with (uval a + 1 * 2 ^ 128) by lia.
      rewrite N.mod_add by apply two128_nz. now apply N.mod_small.
  - eexists. unfold currency_mul. rewrite u_mul_release. split; [reflexivity|]. apply uwrap_val.
  - eexists. unfold currency_sum. rewrite sum_release_from. split; [reflexivity|]. rewrite uwrap_val. reflexivity.
Qed.

(** ** Examples *)

Lemma outcome_examples :
  CurrencyText (ascii "1000 TS") (ascii "1000") [] 36 /\
  2 ^ 128 <= hastings (ascii "1000") [] 36 /\ dec_value (ascii "1000") < 2 ^ 128 /\
  CurrencyText (ascii "2.5000000000000 pS") (ascii "2") (ascii "5000000000000") 12 /\
  12 < N.of_nat (length (ascii "5000000000000")) /\
  dec_value (ascii "5000000000000") < 2 ^ 128 /\
  (exists c, parse_currency Release (ascii "2.5000000000000 pS") = Val (inl c) /\ uval c = 2000000000000).
Proof.
  repeat apply conj; try (vm_compute; reflexivity); try (vm_compute; discriminate).
  - apply (text_integer (ascii "1000") (ascii " ") (ascii "TS") 36 []);
      [apply digits_dec; [discriminate|reflexivity]|exact blank_space|apply blank_nil|cbn; tauto].
  - apply (text_fraction (ascii "2") (ascii "5000000000000") (ascii " ") (ascii "pS") 12 []);
      [apply digits_dec; [discriminate|reflexivity]|apply digits_dec; [discriminate|reflexivity]
      |exact blank_space|apply blank_nil|cbn; tauto].
  - eexists. split; vm_compute; reflexivity.
Qed.
