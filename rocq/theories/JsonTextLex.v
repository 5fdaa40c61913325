(** Proofs about the lexical part of JSON texts: whitespace, strings and numbers. *)

From Verif Require Import Base SpecText SpecUtf8 Model_currency CurrencyProofs Model_text TextProofs Model_json
  Model_jsontypes Model_jsontext SpecJsonText.
Local Open Scope N_scope.

Lemma eqb_true : forall a b, Byte.eqb a b = true -> a = b.
Proof. intros a b H. now apply Byte.byte_dec_bl. Qed.
Lemma eqb_neq : forall a b, a <> b -> Byte.eqb a b = false.
Proof. intros a b H. destruct (Byte.eqb a b) eqn:E; [|reflexivity]. now apply eqb_true in E. Qed.
Lemma eqb_false : forall a b, Byte.eqb a b = false -> a <> b.
Proof. intros a b H ->. now rewrite (Byte.byte_dec_lb eq_refl) in H. Qed.
Lemma eqb_same : forall a, Byte.eqb a a = true.
Proof. intros a. now apply Byte.byte_dec_lb. Qed.

(** ** Whitespace *)

Lemma is_ws_iff : forall b, is_ws b = true <-> b = " "%byte \/ b = x0a \/ b = x0d \/ b = x09.
Proof.
  intros b. unfold is_ws. split.
  - intros H. repeat (apply orb_true_iff in H as [H|H]); apply eqb_true in H; subst; auto.
  - intros [-> | [-> | [-> | ->]]]; reflexivity.
Qed.

Lemma skip_ws_app : forall w s, json_space w -> skip_ws (w ++ s) = skip_ws s.
Proof.
  intros w s H. induction H as [|b w Hb H IH]; [reflexivity|].
  cbn [app skip_ws]. apply is_ws_iff in Hb. rewrite Hb. exact IH.
Qed.

Lemma skip_ws_split : forall s, exists w, s = w ++ skip_ws s /\ json_space w.
Proof.
  intros s. induction s as [|b s IH].
  - exists []. split; [reflexivity|constructor].
  - cbn [skip_ws]. destruct (is_ws b) eqn:E.
    + destruct IH as (w & E' & Hw). exists (b :: w). split.
      * cbn [app]. now rewrite <- E'.
      * constructor; [now apply is_ws_iff|exact Hw].
    + exists []. split; [reflexivity|constructor].
Qed.

Lemma skip_ws_head : forall b r, is_ws b = false -> skip_ws (b :: r) = b :: r.
Proof. intros b r H. cbn [skip_ws]. now rewrite H. Qed.

Lemma skip_ws_result : forall s b r, skip_ws s = b :: r -> is_ws b = false.
Proof.
  intros s. induction s as [|c s IH]; intros b r H; [discriminate|]. cbn [skip_ws] in H.
  destruct (is_ws c) eqn:E; [now apply (IH b r)|]. now injection H as -> ->.
Qed.

Lemma space_nil : json_space [].
Proof. constructor. Qed.

Lemma space_app : forall a b, json_space a -> json_space b -> json_space (a ++ b).
Proof. intros a b Ha Hb. now apply Forall_app. Qed.

Lemma skip_ws_space : forall w, json_space w -> skip_ws w = [].
Proof. intros w H. rewrite <- (app_nil_r w), skip_ws_app by exact H. reflexivity. Qed.

(** ** Bits *)

Lemma lor_plus : forall x y k, y < 2 ^ k -> N.lor (x * 2 ^ k) y = x * 2 ^ k + y.
Proof.
  intros x y k Hy.
  assert (L : N.land (x * 2 ^ k) y = 0).
  { apply N.bits_inj. intros i. rewrite N.land_spec, N.bits_0.
    destruct (N.lt_ge_cases i k) as [Hi|Hi].
    - now rewrite N.mul_pow2_bits_low.
    - replace (N.testbit y i) with false; [apply andb_false_r|]. symmetry.
      destruct (N.eq_dec y 0) as [->|Ny]; [apply N.bits_0|].
      apply N.bits_above_log2. apply N.lt_le_trans with k; [|exact Hi]. apply N.log2_lt_pow2; lia. }
  rewrite <- N.lxor_lor by exact L. symmetry. now apply N.add_nocarry_lxor.
Qed.

Lemma hex4_value : forall a b c d, b < 16 -> c < 16 -> d < 16 ->
  N.lor (N.lor (N.shiftl a 12) (N.shiftl b 8)) (N.lor (N.shiftl c 4) d) = 4096 * a + 256 * b + 16 * c + d.
Proof.
  intros a b c d Hb Hc Hd. rewrite !N.shiftl_mul_pow2.
  rewrite (lor_plus c d 4) by exact Hd.
  rewrite (lor_plus a (b * 2 ^ 8) 12) by (change (2 ^ 8) with 256; change (2 ^ 12) with 4096; lia).
  replace (a * 2 ^ 12 + b * 2 ^ 8) with ((a * 2 ^ 4 + b) * 2 ^ 8)
    by (change (2 ^ 8) with 256; change (2 ^ 12) with 4096; change (2 ^ 4) with 16; lia).
  rewrite lor_plus by (change (2 ^ 8) with 256; change (2 ^ 4) with 16; lia).
  change (2 ^ 8) with 256; change (2 ^ 4) with 16; lia.
Qed.

Lemma low_bits : forall n k m, m = N.ones k -> N.land n m = n mod 2 ^ k.
Proof. intros n k m ->. apply N.land_ones. Qed.

Lemma mask : forall x m k t, x < 2 ^ k -> m = t * 2 ^ k -> N.lor x m = m + x.
Proof. intros x m k t H ->. rewrite N.lor_comm. now apply lor_plus. Qed.

Lemma push_codepoint_ok : forall n, n < 0x110000 -> push_codepoint n = utf8_char n.
Proof.
  intros n H. unfold push_codepoint, utf8_char. rewrite !N.shiftr_div_pow2.
  change (2 ^ 6) with 64. change (2 ^ 12) with 4096. change (2 ^ 18) with 262144.
  rewrite !(low_bits _ 6 63 eq_refl), !(low_bits _ 5 31 eq_refl), !(low_bits _ 4 15 eq_refl), !(low_bits _ 3 7 eq_refl).
  change (2 ^ 6) with 64. change (2 ^ 5) with 32. change (2 ^ 4) with 16. change (2 ^ 3) with 8.
  assert (M6 : forall x, N.lor (x mod 64) 128 = 128 + x mod 64)
    by (intros x; apply (mask _ _ 6 2); [apply N.mod_lt; discriminate|reflexivity]).
  rewrite !M6.
  destruct (N.leb_spec n 0x7F).
  - destruct (N.ltb_spec n 0x80); [reflexivity|lia].
  - destruct (N.ltb_spec n 0x80); [lia|]. destruct (N.leb_spec n 0x7FF).
    + destruct (N.ltb_spec n 0x800); [|lia].
      assert (n / 64 < 32) by (apply N.div_lt_upper_bound; lia).
      rewrite (N.mod_small (n / 64) 32) by assumption.
      rewrite (mask (n / 64) 192 5 6) by (assumption || reflexivity). reflexivity.
    + destruct (N.ltb_spec n 0x800); [lia|]. destruct (N.leb_spec n 0xFFFF).
      * destruct (N.ltb_spec n 0x10000); [|lia].
        assert (n / 4096 < 16) by (apply N.div_lt_upper_bound; lia).
        rewrite (N.mod_small (n / 4096) 16) by assumption.
        rewrite (mask (n / 4096) 224 4 14) by (assumption || reflexivity). reflexivity.
      * destruct (N.ltb_spec n 0x10000); [lia|].
        assert (n / 262144 < 8) by (apply N.div_lt_upper_bound; lia).
        rewrite (N.mod_small (n / 262144) 8) by assumption.
        rewrite (mask (n / 262144) 240 3 30) by (assumption || reflexivity). reflexivity.
Qed.

(** ** Strings *)

Lemma hex4_some : forall a b c d n, hex4 a b c d = Some n ->
  HexEscape n ["\"%byte; "u"%byte; a; b; c; d] /\ n < 0x10000.
Proof.
  intros a b c d n H. unfold hex4 in H.
  destruct (decode_hex_char a) as [va|] eqn:Ea; [|discriminate].
  destruct (decode_hex_char b) as [vb|] eqn:Eb; [|discriminate].
  destruct (decode_hex_char c) as [vc|] eqn:Ec; [|discriminate].
  destruct (decode_hex_char d) as [vd|] eqn:Ed; [|discriminate].
  apply decode_hex_char_some in Ea as [La Ha], Eb as [Lb Hb], Ec as [Lc Hc], Ed as [Ld Hd].
  rewrite hex4_value in H by assumption.
  assert (E : n = 4096 * va + 256 * vb + 16 * vc + vd) by congruence. clear H. subst n. split; [|lia].
  exists a, b, c, d, (N.to_nat va), (N.to_nat vb), (N.to_nat vc), (N.to_nat vd).
  rewrite !N2Nat.id. repeat split; assumption.
Qed.

Lemma hex4_read : forall n t, HexEscape n t -> exists a b c d,
  t = ["\"%byte; "u"%byte; a; b; c; d] /\ hex4 a b c d = Some n /\ n < 0x10000.
Proof.
  intros n t (a & b & c & d & va & vb & vc & vd & -> & Ha & Hb & Hc & Hd & ->).
  apply hex_digit_decode in Ha as [Ea La], Hb as [Eb Lb], Hc as [Ec Lc], Hd as [Ed Ld].
  exists a, b, c, d. split; [reflexivity|]. unfold hex4. rewrite Ea, Eb, Ec, Ed.
  rewrite hex4_value by lia. split; [reflexivity|lia].
Qed.

Lemma short_escape_some : forall e c, short_escape e = Some c -> In (c, e) short_escapes.
Proof.
  intros e c H. unfold short_escape in H.
  repeat match type of H with
         | (if ?t then _ else _) = _ =>
           let E := fresh "E" in destruct t eqn:E; [apply eqb_true in E; subst; injection H as <-; cbn; tauto|]
         end.
  discriminate.
Qed.

Lemma short_escape_read : forall e c, In (c, e) short_escapes -> short_escape e = Some c /\ e <> "u"%byte.
Proof.
  intros e c H. cbn [In short_escapes] in H.
  repeat (destruct H as [H|H]; [injection H as <- <-; split; [reflexivity|discriminate]|]). destruct H.
Qed.

Definition pieces (ps : list (bytes * bytes)) : Prop := Forall (fun p => CharText (fst p) (snd p)) ps.

Lemma push_some : forall c o t r, push c o = Some (t, r) -> exists s, o = Some (s, r) /\ t = c ++ s.
Proof. intros c [[s r']|] t r H; [|discriminate]. injection H as <- <-. eauto. Qed.

Lemma surrogates : forall n m, 0xD800 <= n <= 0xDBFF -> 0xDC00 <= m <= 0xDFFF ->
  N.lor (N.shiftl (n - 0xD800) 10) (m - 0xDC00) = 1024 * (n - 0xD800) + (m - 0xDC00).
Proof.
  intros n m Hn Hm. rewrite N.shiftl_mul_pow2. rewrite (lor_plus _ _ 10) by (change (2 ^ 10) with 1024; lia).
  change (2 ^ 10) with 1024. lia.
Qed.

Lemma parse_str_sound : forall k s t r, (length s <= k)%nat -> parse_str s = Some (t, r) ->
  exists ps, pieces ps /\ t = concat (map fst ps) /\ s = concat (map snd ps) ++ """"%byte :: r.
Proof.
  intros k. induction k as [|k IH]; intros s t r L H.
  { destruct s; [discriminate|cbn in L; lia]. }
  destruct s as [|b s]; [discriminate|]. cbn [length] in L.
  assert (step : forall c u s', CharText c u -> b :: s = u ++ s' -> (length s' <= k)%nat ->
    push c (parse_str s') = Some (t, r) ->
    exists ps, pieces ps /\ t = concat (map fst ps) /\ b :: s = concat (map snd ps) ++ """"%byte :: r).
  { intros c u s' C E L' P. apply push_some in P as (t' & P & ->).
    apply IH in P as (ps & Hp & -> & ->); [|exact L'].
    exists ((c, u) :: ps). split; [constructor; assumption|]. split; [reflexivity|].
    cbn [map snd concat]. now rewrite <- app_assoc. }
  cbn [parse_str] in H. destruct (Byte.eqb b """") eqn:Eq.
  { apply eqb_true in Eq. subst b. injection H as <- <-. exists []. repeat split; constructor. }
  apply eqb_false in Eq. destruct (Byte.eqb b "\") eqn:Es.
  - apply eqb_true in Es. subst b. destruct s as [|e s1]; [discriminate|].
    destruct (Byte.eqb e "u") eqn:Eu.
    + apply eqb_true in Eu. subst e.
      destruct s1 as [|h0 [|h1 [|h2 [|h3 s2]]]]; try discriminate H.
      destruct (hex4 h0 h1 h2 h3) as [n|] eqn:En; [|discriminate].
      apply hex4_some in En as [En Ln]. cbn [length] in L.
      destruct ((0xDC00 <=? n) && (n <=? 0xDFFF)) eqn:Elo; [discriminate|].
      apply andb_false_iff in Elo. rewrite !N.leb_gt in Elo.
      destruct ((0xD800 <=? n) && (n <=? 0xDBFF)) eqn:Ehi.
      * apply andb_true_iff in Ehi. rewrite !N.leb_le in Ehi.
        destruct s2 as [|c0 [|c1 [|k0 [|k1 [|k2 [|k3 s3]]]]]]; try discriminate H.
        destruct (Byte.eqb c0 "\" && Byte.eqb c1 "u") eqn:Ec; [|discriminate].
        apply andb_true_iff in Ec as [E0 E1]. apply eqb_true in E0, E1. subst c0 c1.
        destruct (hex4 k0 k1 k2 k3) as [m|] eqn:Em; [|discriminate].
        apply hex4_some in Em as [Em Lm].
        destruct ((0xDC00 <=? m) && (m <=? 0xDFFF)) eqn:Elm; [|discriminate].
        apply andb_true_iff in Elm. rewrite !N.leb_le in Elm.
        rewrite surrogates in H by assumption.
        set (c := 1024 * (n - 0xD800) + (m - 0xDC00) + 0x10000) in H.
        assert (Hc : 0x10000 <= c < 0x110000) by (unfold c; lia).
        rewrite push_codepoint_ok in H by apply Hc.
        refine (step _ _ s3 _ _ _ H).
        -- eapply (char_pair c n m); [exact Hc| | |exact En|exact Em]; unfold c;
             replace (1024 * (n - 0xD800) + (m - 0xDC00) + 0x10000 - 0x10000) with (m - 0xDC00 + (n - 0xD800) * 1024) by lia.
           ++ rewrite N.div_add, N.div_small by lia. lia.
           ++ rewrite N.mod_add, N.mod_small by lia. lia.
        -- reflexivity.
        -- cbn [length] in L. lia.
      * apply andb_false_iff in Ehi. rewrite !N.leb_gt in Ehi.
        rewrite push_codepoint_ok in H by lia.
        refine (step _ ["\"%byte; "u"%byte; h0; h1; h2; h3] s2 _ eq_refl _ H); [|lia].
        apply char_escape; [exact En|]. unfold scalar. lia.
    + destruct (short_escape e) as [c|] eqn:Ee; [|discriminate].
      refine (step _ ["\"%byte; e] s1 _ eq_refl _ H); [|cbn in L; lia].
      apply char_short. now apply short_escape_some.
  - apply eqb_false in Es. destruct (N.ltb_spec (b2n b) 32); [discriminate|].
    refine (step [b] [b] s _ eq_refl _ H); [|lia]. now apply char_plain.
Qed.

Lemma parse_str_complete : forall ps r, pieces ps ->
  parse_str (concat (map snd ps) ++ """"%byte :: r) = Some (concat (map fst ps), r).
Proof.
  intros ps r H. induction H as [|[c u] ps C H IH]; [reflexivity|].
  cbn [map snd fst concat] in *. rewrite <- app_assoc. set (s := concat (map snd ps) ++ """"%byte :: r) in *.
  clearbody s. destruct C as [b L N1 N2|c e I|n t E S|n hi lo t u B Eh El Ht Hu]; cbn [app].
  - cbn [parse_str]. rewrite (eqb_neq _ _ N1), (eqb_neq _ _ N2). destruct (N.ltb_spec (b2n b) 32); [lia|].
    now rewrite IH.
  - apply short_escape_read in I as [I Iu]. cbn [parse_str].
    change (Byte.eqb "\" """") with false. change (Byte.eqb "\" "\") with true. cbn match.
    rewrite (eqb_neq _ _ Iu), I. now rewrite IH.
  - apply hex4_read in E as (a & b & c & d & -> & E & L). cbn [app parse_str].
    change (Byte.eqb "\" """") with false. change (Byte.eqb "\" "\") with true. change (Byte.eqb "u" "u") with true.
    cbn match. rewrite E. unfold scalar in S.
    replace ((0xDC00 <=? n) && (n <=? 0xDFFF)) with false
      by (symmetry; apply andb_false_iff; rewrite !N.leb_gt; lia).
    replace ((0xD800 <=? n) && (n <=? 0xDBFF)) with false
      by (symmetry; apply andb_false_iff; rewrite !N.leb_gt; lia).
    rewrite push_codepoint_ok by lia. now rewrite IH.
  - apply hex4_read in Ht as (a & b & c & d & -> & E & L). apply hex4_read in Hu as (a' & b' & c' & d' & -> & E' & L').
    rewrite <- app_assoc. cbn [app parse_str].
    change (Byte.eqb "\" """") with false. change (Byte.eqb "\" "\") with true. change (Byte.eqb "u" "u") with true.
    cbn match. rewrite E, E'. cbn [andb].
    assert (D : (n - 0x10000) / 1024 < 1024) by (apply N.div_lt_upper_bound; lia).
    assert (M : (n - 0x10000) mod 1024 < 1024) by (apply N.mod_lt; discriminate).
    replace ((0xDC00 <=? hi) && (hi <=? 0xDFFF)) with false
      by (symmetry; apply andb_false_iff; rewrite !N.leb_gt; lia).
    replace ((0xD800 <=? hi) && (hi <=? 0xDBFF)) with true
      by (symmetry; apply andb_true_iff; rewrite !N.leb_le; lia).
    replace ((0xDC00 <=? lo) && (lo <=? 0xDFFF)) with true
      by (symmetry; apply andb_true_iff; rewrite !N.leb_le; lia).
    rewrite surrogates by lia.
    replace (1024 * (hi - 0xD800) + (lo - 0xDC00) + 0x10000) with n.
    + rewrite push_codepoint_ok by lia. now rewrite IH.
    + pose proof (N.div_mod (n - 0x10000) 1024 ltac:(discriminate)). lia.
Qed.

(** ** Numbers *)

Lemma is_digit_iff : forall b, is_digit b = true <-> digit b.
Proof.
  intros b. unfold is_digit, in_range, digit. rewrite andb_true_iff, !N.leb_le. reflexivity.
Qed.

Definition no_digit (s : bytes) : Prop := match s with b :: _ => is_digit b = false | [] => True end.

(** what may follow a number *)
Definition follows (s : bytes) : Prop :=
  match s with b :: _ => is_digit b = false /\ b <> "."%byte /\ is_exponent b = false | [] => True end.

Lemma follows_no_digit : forall s, follows s -> no_digit s.
Proof. intros [|b s] H; [exact I|apply H]. Qed.

Lemma skip_digits_app : forall d s, Forall digit d -> no_digit s -> skip_digits (d ++ s) = s.
Proof.
  intros d s H N. induction H as [|b d Hb H IH].
  - destruct s as [|b s]; [reflexivity|]. cbn [app skip_digits]. now rewrite N.
  - cbn [app skip_digits]. apply is_digit_iff in Hb. now rewrite Hb.
Qed.

Lemma skip_digits_split : forall s, exists d, s = d ++ skip_digits s /\ Forall digit d /\ no_digit (skip_digits s).
Proof.
  intros s. induction s as [|b s IH].
  - exists []. repeat split; constructor.
  - cbn [skip_digits]. destruct (is_digit b) eqn:E.
    + destruct IH as (d & E' & Hd & N). exists (b :: d). split; [cbn [app]; now rewrite <- E'|].
      split; [constructor; [now apply is_digit_iff|exact Hd]|exact N].
    + exists []. split; [reflexivity|]. split; [constructor|exact E].
Qed.

Lemma some_digits_app : forall d s, digits d -> no_digit s -> some_digits (d ++ s) = Some s.
Proof.
  intros d s [Hn H] N. destruct d as [|b d]; [congruence|]. inversion H as [|? ? Hb Hd]; subst.
  cbn [app some_digits]. apply is_digit_iff in Hb. rewrite Hb. now rewrite skip_digits_app.
Qed.

Lemma some_digits_some : forall s r, some_digits s = Some r -> exists d, s = d ++ r /\ digits d /\ no_digit r.
Proof.
  intros [|b s] r H; [discriminate|]. cbn [some_digits] in H. destruct (is_digit b) eqn:E; [|discriminate].
  injection H as <-. destruct (skip_digits_split s) as (d & E' & Hd & N). exists (b :: d).
  split; [cbn [app]; now rewrite <- E'|]. split; [|exact N].
  split; [discriminate|]. constructor; [now apply is_digit_iff|exact Hd].
Qed.

Definition fits (n : N) : option N := if n <? 2 ^ 64 then Some n else None.

Lemma int_loop_none : forall d s, Forall digit d -> no_digit s -> int_loop None (d ++ s) = (None, s).
Proof.
  intros d s H N. induction H as [|b d Hb H IH].
  - destruct s as [|b s]; [reflexivity|]. cbn [app int_loop]. now rewrite N.
  - cbn [app int_loop]. apply is_digit_iff in Hb. now rewrite Hb.
Qed.

Lemma int_step : forall a d, d < 10 ->
  (if (2 ^ 64 - 1) / 10 <=? a then
     if ((2 ^ 64 - 1) / 10 <? a) || ((2 ^ 64 - 1) mod 10 <? d) then None else Some (a * 10 + d)
   else Some (a * 10 + d)) = fits (10 * a + d).
Proof.
  intros a d Hd. change ((2 ^ 64 - 1) / 10) with 1844674407370955161. change ((2 ^ 64 - 1) mod 10) with 5.
  unfold fits. change (2 ^ 64) with 18446744073709551616. replace (a * 10 + d) with (10 * a + d) by lia.
  destruct (N.leb_spec 1844674407370955161 a) as [H|H].
  - destruct (N.ltb_spec 1844674407370955161 a) as [H1|H1]; cbn [orb].
    + destruct (N.ltb_spec (10 * a + d) 18446744073709551616); [lia|reflexivity].
    + destruct (N.ltb_spec 5 d); destruct (N.ltb_spec (10 * a + d) 18446744073709551616); reflexivity || lia.
  - destruct (N.ltb_spec (10 * a + d) 18446744073709551616); [reflexivity|lia].
Qed.

Lemma int_loop_app : forall d s a, Forall digit d -> no_digit s -> a < 2 ^ 64 ->
  int_loop (Some a) (d ++ s) = (fits (dval a d), s).
Proof.
  intros d s a H N. revert a. induction H as [|b d Hb H IH]; intros a La.
  - unfold dval; cbn [fold_left]. unfold fits. destruct (N.ltb_spec a (2 ^ 64)); [|lia].
    destruct s as [|b s]; [reflexivity|]. cbn [app int_loop]. now rewrite N.
  - cbn [app int_loop]. rewrite (proj2 (is_digit_iff b) Hb). cbv zeta.
    unfold digit in Hb. rewrite int_step by lia.
    change (dval a (b :: d)) with (dval (10 * a + (b2n b - 48)) d).
    unfold fits at 1. destruct (N.ltb_spec (10 * a + (b2n b - 48)) (2 ^ 64)) as [Hl|Hl].
    + now apply IH.
    + rewrite int_loop_none by assumption. unfold fits.
      pose proof (dval_ge d (10 * a + (b2n b - 48))).
      destruct (N.ltb_spec (dval (10 * a + (b2n b - 48)) d) (2 ^ 64)); [lia|reflexivity].
Qed.

Lemma int_complete : forall pos n t s, IntText n t -> no_digit s ->
  parse_number pos (t ++ s) = finish_number pos (fits n) s.
Proof.
  intros pos n t s ([Hn H] & <- & Hz) N. destruct t as [|b t]; [congruence|].
  inversion H as [|? ? Hb Ht]; subst. cbn [app parse_number].
  destruct (Byte.eqb b "0") eqn:E0.
  - apply eqb_true in E0. subst b. destruct Hz as [Hz|Hz]; [|now cbn in Hz]. injection Hz as ->.
    cbn [app]. destruct s as [|b s]; [reflexivity|]. cbn in N. now rewrite N.
  - rewrite (proj2 (is_digit_iff b) Hb). unfold digit in Hb.
    rewrite int_loop_app by (try assumption; change (2 ^ 64) with 18446744073709551616; lia).
    reflexivity.
Qed.

Lemma int_sound : forall pos s x, parse_number pos s = Some x ->
  exists n t r, IntText n t /\ s = t ++ r /\ no_digit r /\ finish_number pos (fits n) r = Some x.
Proof.
  intros pos s x H.
  assert (C : exists n t r, IntText n t /\ s = t ++ r /\ no_digit r).
  { destruct s as [|b s]; [discriminate|]. cbn [parse_number] in H. destruct (Byte.eqb b "0") eqn:E0.
    - apply eqb_true in E0. subst b. exists 0, (ascii "0"), s. split.
      + split; [split; [discriminate|constructor; [unfold digit; cbn; lia|constructor]]|].
        split; [reflexivity|now left].
      + split; [reflexivity|]. destruct s as [|d s]; [exact I|]. cbn [no_digit]. destruct (is_digit d); [discriminate|reflexivity].
    - destruct (is_digit b) eqn:Eb; [|discriminate].
      destruct (skip_digits_split s) as (d & Es & Hd & N).
      exists (dec_value (b :: d)), (b :: d), (skip_digits s). split.
      + split; [split; [discriminate|constructor; [now apply is_digit_iff|exact Hd]]|].
        split; [reflexivity|]. right. cbn [hd]. now apply eqb_false.
      + split; [cbn [app]; now rewrite <- Es|exact N]. }
  destruct C as (n & t & r & Ht & -> & N). exists n, t, r.
  rewrite (int_complete pos n t r Ht N) in H. repeat split; assumption || apply Ht.
Qed.

Lemma is_exponent_iff : forall b, is_exponent b = true <-> b = "e"%byte \/ b = "E"%byte.
Proof.
  intros b. unfold is_exponent. rewrite orb_true_iff. split.
  - intros [H|H]; apply eqb_true in H; auto.
  - intros [-> | ->]; auto.
Qed.

Lemma digit_not : forall c d, digit d -> is_digit c = false -> Byte.eqb d c = false.
Proof.
  intros c d Hd Hc. apply eqb_neq. intros ->. apply is_digit_iff in Hd. congruence.
Qed.

Lemma exponent_complete : forall sign d s, (sign = [] \/ sign = ascii "+" \/ sign = ascii "-") ->
  digits d -> no_digit s -> parse_exponent (sign ++ d ++ s) = Some s.
Proof.
  intros sign d s S D N.
  assert (A : parse_exponent (d ++ s) = Some s).
  { destruct D as [Dn D]. destruct d as [|b d]; [congruence|]. inversion D as [|? ? Hb Hd]; subst.
    unfold parse_exponent. cbn [app]. rewrite !(digit_not _ b Hb) by reflexivity. cbn [orb].
    apply (some_digits_app (b :: d)); [now split|exact N]. }
  destruct S as [-> | [-> | ->]]; [exact A| |]; cbn; now apply some_digits_app.
Qed.

Lemma exponent_sound : forall s r, parse_exponent s = Some r -> exists sign d,
  (sign = [] \/ sign = ascii "+" \/ sign = ascii "-") /\ digits d /\ no_digit r /\ s = sign ++ d ++ r.
Proof.
  intros [|b s] r H; [discriminate|]. unfold parse_exponent in H.
  destruct (Byte.eqb b "+") eqn:Ep; [|destruct (Byte.eqb b "-") eqn:Em]; cbn [orb] in H.
  - apply eqb_true in Ep. subst b. apply some_digits_some in H as (d & -> & D & N). exists (ascii "+"), d. auto.
  - apply eqb_true in Em. subst b. apply some_digits_some in H as (d & -> & D & N). exists (ascii "-"), d. auto.
  - apply some_digits_some in H as (d & -> & D & N). exists [], d. auto.
Qed.

Lemma exp_head : forall t s, ExpText t -> exists e r, t ++ s = e :: r /\ is_exponent e = true /\
  is_digit e = false /\ Byte.eqb e "." = false /\ (no_digit s -> parse_exponent r = Some s).
Proof.
  intros t s (e & sign & d & He & S & D & ->). exists e, (sign ++ d ++ s). split.
  - cbn [app]. now rewrite <- app_assoc.
  - split; [now apply is_exponent_iff|]. split; [destruct He as [-> | ->]; reflexivity|].
    split; [destruct He as [-> | ->]; reflexivity|]. now apply exponent_complete.
Qed.

Lemma finish_float : forall pos acc frac exp s, frac = [] \/ FracText frac -> exp = [] \/ ExpText exp ->
  frac <> [] \/ exp <> [] -> follows s ->
  no_digit (frac ++ exp ++ s) /\ finish_number pos acc (frac ++ exp ++ s) = Some (JFloat, s).
Proof.
  intros pos acc frac exp s F E NE N. destruct F as [-> | (d & D & ->)].
  - destruct E as [-> | E]; [destruct NE; congruence|]. cbn [app].
    destruct (exp_head exp s E) as (e & r & -> & H1 & H2 & H3 & H4). split; [exact H2|].
    cbn [finish_number]. rewrite H3, H1, H4; [reflexivity|now apply follows_no_digit].
  - split; [reflexivity|]. cbn [app finish_number]. change (Byte.eqb "." ".") with true. cbn match.
    destruct E as [-> | E].
    + cbn [app]. rewrite some_digits_app; [|exact D|now apply follows_no_digit].
      destruct s as [|b s]; [reflexivity|]. destruct N as (_ & _ & ->). reflexivity.
    + destruct (exp_head exp s E) as (e & r & -> & H1 & H2 & H3 & H4).
      rewrite some_digits_app; [|exact D|exact H2]. rewrite H1, H4; [reflexivity|now apply follows_no_digit].
Qed.

Lemma finish_integer : forall pos acc s, follows s -> finish_number pos acc s = Some (integer_value pos acc, s).
Proof.
  intros pos acc [|b s] N; [reflexivity|]. destruct N as (_ & N1 & N2). cbn [finish_number].
  now rewrite (eqb_neq _ _ N1), N2.
Qed.

Lemma finish_sound : forall pos acc s j r, finish_number pos acc s = Some (j, r) ->
  (j = integer_value pos acc /\ r = s) \/
  (j = JFloat /\ exists frac exp, s = frac ++ exp ++ r /\ (frac = [] \/ FracText frac) /\ (exp = [] \/ ExpText exp) /\
     (frac <> [] \/ exp <> [])).
Proof.
  intros pos acc s j r H. destruct s as [|b s]; cbn [finish_number] in H.
  - injection H as <- <-. now left.
  - destruct (Byte.eqb b ".") eqn:Ed.
    + apply eqb_true in Ed. subst b. right. destruct (some_digits s) as [r0|] eqn:Es; [|discriminate].
      apply some_digits_some in Es as (d & -> & D & N).
      assert (F : FracText ("."%byte :: d)) by (exists d; auto).
      destruct r0 as [|e r1].
      * injection H as <- <-. split; [reflexivity|]. exists ("."%byte :: d), []. cbn [app].
        repeat split; auto. left; discriminate.
      * destruct (is_exponent e) eqn:Ee.
        -- destruct (parse_exponent r1) as [r2|] eqn:Ep; [|discriminate]. injection H as <- <-. split; [reflexivity|].
           apply exponent_sound in Ep as (sign & d' & S & D' & N' & ->).
           exists ("."%byte :: d), (e :: sign ++ d'). split; [cbn [app]; now rewrite <- !app_assoc|].
           split; [now right|]. split; [|left; discriminate]. right. exists e, sign, d'.
           split; [now apply is_exponent_iff|]. auto.
        -- injection H as <- <-. split; [reflexivity|]. exists ("."%byte :: d), []. cbn [app].
           repeat split; auto. left; discriminate.
    + destruct (is_exponent b) eqn:Ee.
      * right. destruct (parse_exponent s) as [r2|] eqn:Ep; [|discriminate]. injection H as <- <-. split; [reflexivity|].
        apply exponent_sound in Ep as (sign & d' & S & D' & N' & ->).
        exists [], (b :: sign ++ d'). split; [cbn [app]; now rewrite <- !app_assoc|].
        split; [now left|]. split; [|right; discriminate]. right. exists b, sign, d'.
        split; [now apply is_exponent_iff|]. auto.
      * injection H as <- <-. now left.
Qed.

Lemma swrap_neg : forall n, n < 2 ^ 64 -> n <> 0 ->
  if n <=? 2 ^ 63 then sval (swrap 64 w64_nz (- Z.of_N n)) = (- Z.of_N n)%Z
  else (0 <= sval (swrap 64 w64_nz (- Z.of_N n)))%Z.
Proof.
  intros n H N0. unfold swrap, swrap_Z. cbn [sval]. change (2 ^ 64) with 18446744073709551616 in H.
  change (2 ^ 63) with 9223372036854775808.
  change (2 ^ Z.of_N 64)%Z with 18446744073709551616%Z. change (2 ^ (Z.of_N 64 - 1))%Z with 9223372036854775808%Z.
  destruct (N.leb_spec n 9223372036854775808).
  - replace ((- Z.of_N n) mod 18446744073709551616)%Z with (18446744073709551616 - Z.of_N n)%Z.
    + destruct (Z.ltb_spec (18446744073709551616 - Z.of_N n) 9223372036854775808); lia.
    + apply (Z.mod_unique _ _ (-1)); lia.
  - replace ((- Z.of_N n) mod 18446744073709551616)%Z with (18446744073709551616 - Z.of_N n)%Z.
    + destruct (Z.ltb_spec (18446744073709551616 - Z.of_N n) 9223372036854775808); lia.
    + apply (Z.mod_unique _ _ (-1)); lia.
Qed.

(** [sign_of pos] is what stands before the digits. *)
Definition sign_of (pos : bool) : bytes := if pos then [] else ascii "-".

Lemma integer_text : forall pos n t, IntText n t -> NumText (integer_value pos (fits n)) (sign_of pos ++ t).
Proof.
  intros pos n t H. unfold fits, integer_value. destruct pos; cbn [sign_of app].
  - destruct (N.ltb_spec n (2 ^ 64)) as [L|L].
    + apply num_uint. now rewrite uwrap_small.
    + now apply (num_large n).
  - destruct (N.ltb_spec n (2 ^ 64)) as [L|L].
    + cbv zeta. destruct (N.eq_dec n 0) as [->|N0].
      { cbn. apply (num_small 0); auto. }
      pose proof (swrap_neg n L N0) as W. destruct (N.leb_spec n (2 ^ 63)) as [L'|L'].
      * destruct (Z.leb_spec 0 (sval (swrap 64 w64_nz (- Z.of_N n)))); [lia|].
        now apply (num_neg _ n).
      * destruct (Z.leb_spec 0 (sval (swrap 64 w64_nz (- Z.of_N n)))); [|lia].
        apply (num_small n); auto.
    + apply (num_small n); [exact H|]. right. apply N.lt_le_trans with (2 ^ 64); [reflexivity|exact L].
Qed.

Lemma number_sound : forall pos s j r, parse_number pos s = Some (j, r) ->
  exists t, s = t ++ r /\ NumText j (sign_of pos ++ t).
Proof.
  intros pos s j r H. apply int_sound in H as (n & t & r' & Ht & -> & N & H).
  apply finish_sound in H as [[-> ->]|(-> & frac & exp & -> & F & E & NE)].
  - exists t. split; [reflexivity|]. now apply integer_text.
  - exists (t ++ frac ++ exp). split; [now rewrite <- !app_assoc|].
    apply (num_float (sign_of pos) n t); auto. destruct pos; auto.
Qed.

Lemma num_head : forall j t s, NumText j t -> follows s ->
  exists pos u, t = sign_of pos ++ u /\ (exists b r, u = b :: r /\ digit b) /\ parse_number pos (u ++ s) = Some (j, s).
Proof.
  intros j t s H N.
  assert (hd_digit : forall n u, IntText n u -> exists b r, u = b :: r /\ digit b).
  { intros n u ([Hn Hd] & _). destruct u as [|b r]; [congruence|]. inversion Hd; subst. eauto. }
  destruct H as [n t H|z n t H E N0|n t H L|n t H L|sign n int frac exp S H F E NE].
  - exists true, t. split; [reflexivity|]. split; [now apply (hd_digit (uval n))|].
    rewrite (int_complete true (uval n)) by (assumption || now apply follows_no_digit).
    rewrite finish_integer by exact N. unfold fits, integer_value.
    pose proof (uint_lt _ n). destruct (N.ltb_spec (uval n) (2 ^ 64)); [|lia]. now rewrite uwrap_id.
  - exists false, t. split; [reflexivity|]. split; [now apply (hd_digit n)|].
    rewrite (int_complete false n) by (assumption || now apply follows_no_digit).
    rewrite finish_integer by exact N. unfold fits, integer_value.
    pose proof (sint_range _ z) as R. change (2 ^ (Z.of_N 64 - 1))%Z with 9223372036854775808%Z in R.
    change (2 ^ 64) with 18446744073709551616. destruct (N.ltb_spec n 18446744073709551616) as [L|L]; [|lia].
    pose proof (swrap_neg n L N0) as W. change (2 ^ 63) with 9223372036854775808 in W.
    destruct (N.leb_spec n 9223372036854775808); [|lia]. cbv zeta.
    destruct (Z.leb_spec 0 (sval (swrap 64 w64_nz (- Z.of_N n)))); [lia|].
    do 3 f_equal. apply sint_eq. now rewrite W, E.
  - exists true, t. split; [reflexivity|]. split; [now apply (hd_digit n)|].
    rewrite (int_complete true n) by (assumption || now apply follows_no_digit).
    rewrite finish_integer by exact N. unfold fits. destruct (N.ltb_spec n (2 ^ 64)); [lia|reflexivity].
  - exists false, t. split; [reflexivity|]. split; [now apply (hd_digit n)|].
    rewrite (int_complete false n) by (assumption || now apply follows_no_digit).
    rewrite finish_integer by exact N. unfold fits, integer_value.
    destruct (N.ltb_spec n (2 ^ 64)) as [L'|L']; [|reflexivity]. cbv zeta.
    destruct (N.eq_dec n 0) as [->|N0]; [reflexivity|].
    pose proof (swrap_neg n L' N0) as W. destruct (N.leb_spec n (2 ^ 63)) as [L2|L2]; [destruct L; lia|].
    destruct (Z.leb_spec 0 (sval (swrap 64 w64_nz (- Z.of_N n)))); [reflexivity|lia].
  - destruct (finish_float (match sign with [] => true | _ => false end) (fits n) frac exp s F E NE N) as [Nd Fin].
    exists (match sign with [] => true | _ => false end), (int ++ frac ++ exp). split.
    + destruct S as [-> | ->]; reflexivity.
    + split.
      * destruct (hd_digit n int H) as (b & r & -> & Hb). exists b, (r ++ frac ++ exp). auto.
      * rewrite <- !app_assoc. now rewrite (int_complete _ n int _ H Nd).
Qed.
