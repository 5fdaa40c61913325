(** Currency arithmetic and text. *)

From Verif Require Import Base Io Model_encoding Model_common Model_currency SpecText.
Local Open Scope N_scope.

(** ** Decimal digits *)

Lemma is_digit_iff : forall c, is_digit c = true <-> digit c.
Proof. intros c. unfold is_digit, in_range, digit. rewrite andb_true_iff, !N.leb_le. tauto. Qed.

Definition dval (acc : N) (s : bytes) : N := fold_left (fun a c => 10 * a + (b2n c - 48)) s acc.

Lemma dval_ge : forall s acc, acc <= dval acc s.
Proof.
  induction s as [|c s IH]; intros acc; cbn [dval fold_left]; [lia|].
  fold (dval (10 * acc + (b2n c - 48)) s). pose proof (IH (10 * acc + (b2n c - 48))). lia.
Qed.

Lemma parse_digits_ok : forall w s acc, Forall digit s -> acc < 2 ^ w ->
  parse_digits w acc s = if dval acc s <? 2 ^ w then inl (dval acc s) else inr IPosOverflow.
Proof.
  induction s as [|c s IH]; intros acc H Ha; cbn [parse_digits dval fold_left].
  - apply N.ltb_lt in Ha. now rewrite Ha.
  - inversion H as [|? ? Hc Hs]; subst. apply is_digit_iff in Hc. rewrite Hc. cbv zeta.
    unfold digit_val. replace (acc * 10 + (b2n c - 48)) with (10 * acc + (b2n c - 48)) by lia.
    destruct (N.ltb_spec (10 * acc + (b2n c - 48)) (2 ^ w)) as [Hlt|Hge].
    + now apply IH.
    + pose proof (dval_ge s (10 * acc + (b2n c - 48))) as Hg. unfold dval in Hg.
      destruct (N.ltb_spec (fold_left (fun a c0 => 10 * a + (b2n c0 - 48)) s (10 * acc + (b2n c - 48))) (2 ^ w));
        [lia|reflexivity].
Qed.

Lemma parse_digits_inl : forall w s acc n, parse_digits w acc s = inl n -> Forall digit s.
Proof.
  induction s as [|c s IH]; intros acc n H; [constructor|]. cbn [parse_digits] in H.
  destruct (is_digit c) eqn:E; [|discriminate]. cbv zeta in H.
  destruct (_ <? _); [|discriminate]. constructor; [now apply is_digit_iff|]. eauto.
Qed.

Lemma digit_not_plus : forall c, digit c -> Byte.eqb c "+" = false.
Proof.
  intros c H. destruct (Byte.eqb c "+") eqn:E; [|reflexivity].
  apply Byte.byte_dec_bl in E. subst c. unfold digit, b2n in H. cbn in H. lia.
Qed.

Lemma pow2_pos : forall w, 0 < 2 ^ w.
Proof. intros w. apply N.neq_0_lt_0, N.pow_nonzero. discriminate. Qed.

Lemma parse_uint_digits : forall w s, digits s ->
  parse_uint w s = if dec_value s <? 2 ^ w then inl (uwrap w (dec_value s)) else inr IPosOverflow.
Proof.
  intros w s [Hne Hs]. destruct s as [|c r]; [congruence|].
  pose proof (parse_digits_ok w (c :: r) 0 Hs (pow2_pos w)) as HP.
  inversion Hs as [|? ? Hc Hr]; subst.
  change (dval 0 (c :: r)) with (dec_value (c :: r)) in HP.
  unfold parse_uint. destruct r as [|c' r'].
  - pose proof Hc as Hc'. apply is_digit_iff in Hc'. rewrite Hc', HP.
    now destruct (dec_value [c] <? 2 ^ w).
  - rewrite (digit_not_plus c Hc), HP. now destruct (dec_value (c :: c' :: r') <? 2 ^ w).
Qed.

Lemma parse_uint_inv : forall w s v, Forall (fun c => c <> "+"%byte) s ->
  parse_uint w s = inl v -> digits s.
Proof.
  intros w s v Hp H. unfold parse_uint in H. destruct s as [|c r]; [discriminate|].
  inversion Hp as [|? ? Hc Hr]; subst.
  split; [discriminate|]. destruct r as [|c' r'].
  - destruct (is_digit c) eqn:E; [|discriminate]. constructor; [now apply is_digit_iff|constructor].
  - destruct (Byte.eqb c "+") eqn:E; [apply Byte.byte_dec_bl in E; contradiction|].
    destruct (parse_digits w 0 (c :: c' :: r')) eqn:EP; [|discriminate].
    eapply parse_digits_inl; exact EP.
Qed.

(** ** Printing *)

Lemma n2b_digit : forall d, d < 10 -> digit (n2b (48 + d)) /\ b2n (n2b (48 + d)) - 48 = d.
Proof.
  intros d H. unfold digit. rewrite b2n_n2b, N.mod_small by lia. lia.
Qed.

Lemma dval_app : forall a b acc, dval acc (a ++ b) = dval (dval acc a) b.
Proof. intros. unfold dval. apply fold_left_app. Qed.

Lemma dec_text_fuel_spec : forall f n acc, n < 10 ^ N.of_nat f -> (0 < f)%nat ->
  exists d, dec_text_fuel f n acc = d ++ acc /\ digits d /\ dval 0 d = n /\
            (n <> 0 -> forall c r, d = c :: r -> c <> "0"%byte) /\ (n = 0 -> d = ["0"%byte]).
Proof.
  induction f as [|f IH]; intros n acc H Hf; [lia|]. cbn [dec_text_fuel]. cbv zeta.
  pose proof (N.mod_lt n 10 ltac:(discriminate)) as Hm.
  pose proof (N.div_mod n 10 ltac:(discriminate)) as Hdm.
  destruct (n2b_digit (n mod 10) Hm) as [Hd Hv].
  set (dg := n2b (48 + n mod 10)) in *. clearbody dg.
  destruct (N.eqb_spec (n / 10) 0) as [E|E].
  - exists [dg]. split; [reflexivity|]. split.
    { split; [discriminate|]. constructor; [assumption|constructor]. }
    split. { unfold dval; cbn [fold_left]. rewrite Hv. lia. }
    split.
    + intros Hn c r Heq. injection Heq as <- <-. intros Hc.
      assert (b2n dg = 48) by (rewrite Hc; reflexivity). lia.
    + intros ->. f_equal. apply b2n_inj. change (b2n "0"%byte) with 48. unfold digit in Hd. lia.
  - assert (Hlt : n / 10 < 10 ^ N.of_nat f).
    { apply N.div_lt_upper_bound; [discriminate|]. rewrite <- N.pow_succ_r'.
      now rewrite <- Nat2N.inj_succ. }
    assert (Hf' : (0 < f)%nat).
    { destruct f; [|lia]. cbn in Hlt. lia. }
    destruct (IH (n / 10) (dg :: acc) Hlt Hf') as (d & -> & Hdd & Hdv & Hnz & Hz).
    exists (d ++ [dg]). split; [now rewrite <- app_assoc|]. destruct Hdd as [Hd1 Hd2].
    split. { split; [now destruct d|]. apply Forall_app; split; [assumption|]. constructor; [assumption|constructor]. }
    split. { rewrite dval_app, Hdv. unfold dval; cbn [fold_left]. rewrite Hv. lia. }
    split.
    + intros Hn c r Heq. destruct d as [|c0 d']; [congruence|]. injection Heq as <- <-.
      eapply Hnz; [assumption|reflexivity].
    + intros ->. now rewrite N.div_0_l in E by discriminate.
Qed.

Lemma dec_text_spec : forall n,
  digits (dec_text n) /\ dec_value (dec_text n) = n /\
  (n <> 0 -> forall c r, dec_text n = c :: r -> c <> "0"%byte) /\ (n = 0 -> dec_text n = ["0"%byte]).
Proof.
  intros n. unfold dec_text.
  destruct (dec_text_fuel_spec (S (N.to_nat (N.log2 n))) n []) as (d & -> & H1 & H2 & H3 & H4); [|lia|].
  - rewrite Nat2N.inj_succ, N2Nat.id. destruct (N.eq_dec n 0) as [->|Hn]; [reflexivity|].
    pose proof (N.log2_spec n ltac:(lia)) as [_ H].
    eapply N.lt_le_trans; [exact H|]. apply N.pow_le_mono_l. lia.
  - rewrite app_nil_r. auto.
Qed.

(** The text is the only numeral without leading zeros for its value. *)
Lemma dval_split : forall s acc, dval acc s = acc * 10 ^ N.of_nat (length s) + dval 0 s.
Proof.
  induction s as [|c s IH]; intros acc; cbn [dval fold_left length].
  - change (10 ^ N.of_nat 0) with 1. lia.
  - fold (dval (10 * acc + (b2n c - 48)) s). fold (dval (10 * 0 + (b2n c - 48)) s).
    rewrite (IH (10 * acc + (b2n c - 48))), (IH (10 * 0 + (b2n c - 48))).
    rewrite Nat2N.inj_succ, N.pow_succ_r'. ring.
Qed.

Lemma dval_bound : forall s, Forall digit s -> dval 0 s < 10 ^ N.of_nat (length s).
Proof.
  induction s as [|c s IH]; intros H; [reflexivity|].
  inversion H as [|? ? Hc Hs]; subst. change (dval 0 (c :: s)) with (dval (10 * 0 + (b2n c - 48)) s).
  rewrite dval_split. cbn [length]. rewrite Nat2N.inj_succ, N.pow_succ_r'.
  specialize (IH Hs). unfold digit in Hc. nia.
Qed.

(** ** Splitting value and unit *)

Definition value_char (c : byte) : bool := is_digit c || Byte.eqb c ".".

Lemma span_value_app : forall v u, Forall (fun c => value_char c = true) v ->
  (match u with [] => True | c :: _ => value_char c = false end) ->
  span_value (v ++ u) = (v, u).
Proof.
  induction v as [|c v IH]; intros u Hv Hu; cbn [app span_value].
  - destruct u as [|c u]; [reflexivity|]. cbn [span_value]. unfold value_char in Hu. now rewrite Hu.
  - inversion Hv as [|? ? Hc Hv']; subst. unfold value_char in Hc. rewrite Hc. now rewrite (IH u Hv' Hu).
Qed.

Lemma span_value_spec : forall s v u, span_value s = (v, u) ->
  s = v ++ u /\ Forall (fun c => value_char c = true) v.
Proof.
  induction s as [|c s IH]; intros v u H; cbn [span_value] in H.
  - injection H as <- <-. split; [reflexivity|constructor].
  - destruct (is_digit c || Byte.eqb c ".") eqn:E.
    + destruct (span_value s) as [v' u'] eqn:Es. injection H as <- <-.
      destruct (IH v' u' eq_refl) as [-> Hv]. split; [reflexivity|]. now constructor.
    + injection H as <- <-. split; [reflexivity|constructor].
Qed.

(** ** Trimming *)

Lemma in_range_cases : forall lo hi b, in_range lo hi b = true -> lo <= b2n b <= hi.
Proof. intros lo hi b. unfold in_range. rewrite andb_true_iff, !N.leb_le. tauto. Qed.

Lemma ws_len_in : forall s k, ws_len s = k -> (0 < k)%nat -> In (firstn k s) whitespace.
Proof.
  intros s k <- H.
  assert (R : forall v b, b2n b = v -> v < 256 -> b = n2b v) by (intros v b <- _; now rewrite n2b_b2n).
  destruct s as [|b0 r]; [cbn in H; lia|]. unfold ws_len in *.
  destruct (in_range 9 13 b0 || in_range 32 32 b0) eqn:E1.
  { apply orb_true_iff in E1. destruct E1 as [E|E]; apply in_range_cases in E.
    - assert (C : b2n b0 = 9 \/ b2n b0 = 10 \/ b2n b0 = 11 \/ b2n b0 = 12 \/ b2n b0 = 13) by lia.
      destruct C as [C|[C|[C|[C|C]]]]; apply R in C; try lia; subst b0; vm_compute; tauto.
    - assert (C : b2n b0 = 32) by lia. apply R in C; try lia; subst b0; vm_compute; tauto. }
  destruct r as [|b1 r]; [cbn in H; lia|].
  destruct (in_range 194 194 b0 && (in_range 133 133 b1 || in_range 160 160 b1)) eqn:E2.
  { apply andb_true_iff in E2. destruct E2 as [Ea Eb]. apply orb_true_iff in Eb.
    apply in_range_cases in Ea. assert (C : b2n b0 = 194) by lia. apply R in C; try lia; subst b0.
    destruct Eb as [E|E]; apply in_range_cases in E.
    - assert (C : b2n b1 = 133) by lia. apply R in C; try lia; subst b1; vm_compute; tauto.
    - assert (C : b2n b1 = 160) by lia. apply R in C; try lia; subst b1; vm_compute; tauto. }
  destruct r as [|b2 r]; [cbn in H; lia|].
  lazymatch type of H with (0 < if ?c then _ else _)%nat => destruct c eqn:E3 end; [|now inversion H]. clear H E1 E2. cbn [firstn].
  rewrite !orb_true_iff, !andb_true_iff, !orb_true_iff in E3.
  destruct E3 as [[[[[Ea Eb] Ec]|[[Ea Eb] [[Ec|Ec]|Ec]]]|[[Ea Eb] Ec]]|[[Ea Eb] Ec]];
    apply in_range_cases in Ea; apply in_range_cases in Eb; apply in_range_cases in Ec.
  - assert (C0 : b2n b0 = 225) by lia. assert (C1 : b2n b1 = 154) by lia. assert (C2 : b2n b2 = 128) by lia.
    apply R in C0, C1, C2; try lia; subst; vm_compute; tauto.
  - assert (C0 : b2n b0 = 226) by lia. assert (C1 : b2n b1 = 128) by lia.
    apply R in C0, C1; try lia; subst b0 b1.
    assert (C : b2n b2 = 128 \/ b2n b2 = 129 \/ b2n b2 = 130 \/ b2n b2 = 131 \/ b2n b2 = 132 \/ b2n b2 = 133
      \/ b2n b2 = 134 \/ b2n b2 = 135 \/ b2n b2 = 136 \/ b2n b2 = 137 \/ b2n b2 = 138) by lia.
    repeat (destruct C as [C|C]; [apply R in C; try lia; subst b2; vm_compute; tauto|]).
    apply R in C; try lia; subst b2; vm_compute; tauto.
  - assert (C0 : b2n b0 = 226) by lia. assert (C1 : b2n b1 = 128) by lia.
    apply R in C0, C1; try lia; subst b0 b1.
    assert (C : b2n b2 = 168 \/ b2n b2 = 169) by lia.
    destruct C as [C|C]; apply R in C; try lia; subst b2; vm_compute; tauto.
  - assert (C0 : b2n b0 = 226) by lia. assert (C1 : b2n b1 = 128) by lia. assert (C2 : b2n b2 = 175) by lia.
    apply R in C0, C1, C2; try lia; subst; vm_compute; tauto.
  - assert (C0 : b2n b0 = 226) by lia. assert (C1 : b2n b1 = 129) by lia. assert (C2 : b2n b2 = 159) by lia.
    apply R in C0, C1, C2; try lia; subst; vm_compute; tauto.
  - assert (C0 : b2n b0 = 227) by lia. assert (C1 : b2n b1 = 128) by lia. assert (C2 : b2n b2 = 128) by lia.
    apply R in C0, C1, C2; try lia; subst; vm_compute; tauto.
Qed.

Lemma ws_len_of : forall c r, In c whitespace -> ws_len (c ++ r) = length c /\ c <> [].
Proof.
  intros c r H. cbn [whitespace In] in H.
  repeat (destruct H as [<-|H]; [split; [reflexivity|discriminate]|]). contradiction.
Qed.

Lemma ws_len_rev_of : forall c r, In c whitespace -> ws_len_rev (rev c ++ r) = length c.
Proof.
  intros c r H. cbn [whitespace In] in H.
  repeat (destruct H as [<-|H]; [reflexivity|]). contradiction.
Qed.

Lemma ws_len_rev_in : forall s k, ws_len_rev s = k -> (0 < k)%nat ->
  In (rev (firstn k s)) whitespace /\ (k <= length s)%nat.
Proof.
  intros s k <- H. unfold ws_len_rev in *. destruct s as [|b0 r]; [lia|].
  destruct (Nat.eqb_spec (ws_len [b0]) 1) as [E|E].
  { split; [|cbn; lia]. exact (ws_len_in [b0] 1 E ltac:(lia)). }
  destruct r as [|b1 r]; [lia|].
  destruct (Nat.eqb_spec (ws_len [b1; b0]) 2) as [E2|E2].
  { split; [|cbn; lia]. exact (ws_len_in [b1; b0] 2 E2 ltac:(lia)). }
  destruct r as [|b2 r]; [lia|].
  destruct (Nat.eqb_spec (ws_len [b2; b1; b0]) 3) as [E3|E3]; [|lia].
  split; [|cbn; lia]. exact (ws_len_in [b2; b1; b0] 3 E3 ltac:(lia)).
Qed.

Lemma blank_nil : blank [].
Proof. exists []. split; [reflexivity|constructor]. Qed.

Lemma blank_cons : forall c s, In c whitespace -> blank s -> blank (c ++ s).
Proof. intros c s Hc (cs & -> & H). exists (c :: cs). split; [reflexivity|]. now constructor. Qed.

Lemma blank_app : forall a b, blank a -> blank b -> blank (a ++ b).
Proof.
  intros a b (ca & -> & Ha) (cb & -> & Hb). exists (ca ++ cb). split; [now rewrite concat_app|].
  apply Forall_app; auto.
Qed.

Lemma trim_start_fuel_spec : forall f s, exists w, s = w ++ trim_start_fuel f s /\ blank w.
Proof.
  induction f as [|f IH]; intros s; cbn [trim_start_fuel].
  - exists []. split; [reflexivity|apply blank_nil].
  - destruct (ws_len s) eqn:E; [exists []; split; [reflexivity|apply blank_nil]|].
    destruct (IH (skipn (S n) s)) as (w & Hw & Hb).
    exists (firstn (S n) s ++ w). split.
    + rewrite <- app_assoc, <- Hw. symmetry. apply firstn_skipn.
    + apply blank_cons; [|assumption]. eapply ws_len_in; [eassumption|lia].
Qed.

Lemma trim_start_fuel_blank : forall f cs s,
  Forall (fun c => In c whitespace) cs -> (length (concat cs) <= f)%nat -> ws_len s = 0%nat ->
  trim_start_fuel f (concat cs ++ s) = s.
Proof.
  induction f as [|f IH]; intros cs s Hcs Hf Hs.
  - destruct cs as [|c cs]; [reflexivity|]. inversion Hcs as [|? ? Hc ?]; subst.
    destruct (ws_len_of c [] Hc) as [_ Hne]. cbn [concat] in Hf. rewrite app_length in Hf.
    destruct c; [congruence|]. cbn [length] in Hf. lia.
  - destruct cs as [|c cs]; cbn [concat app trim_start_fuel].
    + now rewrite Hs.
    + inversion Hcs as [|? ? Hc Hcs']; subst. rewrite <- app_assoc.
      destruct (ws_len_of c (concat cs ++ s) Hc) as [E Hne]. rewrite E.
      destruct c as [|b c]; [congruence|]. cbn [length].
      replace (skipn (S (length c)) ((b :: c) ++ concat cs ++ s)) with (concat cs ++ s).
      * apply IH; [assumption| |assumption]. cbn [concat] in Hf. rewrite app_length in Hf. cbn [length] in Hf. lia.
      * change (S (length c)) with (length (b :: c)). rewrite skipn_app, skipn_all, Nat.sub_diag. reflexivity.
Qed.

Lemma trim_rev_fuel_spec : forall f s, exists w, s = rev w ++ trim_rev_fuel f s /\ blank w.
Proof.
  induction f as [|f IH]; intros s; cbn [trim_rev_fuel].
  - exists []. split; [reflexivity|apply blank_nil].
  - destruct (ws_len_rev s) eqn:E; [exists []; split; [reflexivity|apply blank_nil]|].
    destruct (IH (skipn (S n) s)) as (w & Hw & Hb).
    exists (w ++ rev (firstn (S n) s)). split.
    + rewrite rev_app_distr, rev_involutive, <- app_assoc, <- Hw. symmetry. apply firstn_skipn.
    + apply blank_app; [assumption|]. rewrite <- app_nil_r. apply blank_cons; [|apply blank_nil].
      eapply ws_len_rev_in; [eassumption|lia].
Qed.

Lemma trim_rev_fuel_blank : forall f cs s,
  Forall (fun c => In c whitespace) cs -> (length (concat cs) <= f)%nat -> ws_len_rev s = 0%nat ->
  trim_rev_fuel f (rev (concat (rev cs)) ++ s) = s.
Proof.
  induction f as [|f IH]; intros cs s Hcs Hf Hs.
  - destruct cs as [|c cs]; [reflexivity|]. inversion Hcs as [|? ? Hc ?]; subst.
    destruct (ws_len_of c [] Hc) as [_ Hne]. cbn [concat] in Hf. rewrite app_length in Hf.
    destruct c; [congruence|]. cbn [length] in Hf. lia.
  - destruct cs as [|c cs]; cbn [concat app trim_rev_fuel rev].
    + now rewrite Hs.
    + inversion Hcs as [|? ? Hc Hcs']; subst. rewrite concat_app, rev_app_distr, <- app_assoc.
      cbn [concat]. rewrite app_nil_r.
      rewrite (ws_len_rev_of c _ Hc). destruct (ws_len_of c [] Hc) as [_ Hne].
      destruct (length c) eqn:El; [destruct c; [congruence|discriminate]|].
      rewrite <- El, <- rev_length. rewrite skipn_app, skipn_all, Nat.sub_diag. cbn [skipn app].
      apply IH; [assumption| |assumption]. cbn [concat] in Hf. rewrite app_length in Hf. lia.
Qed.

Lemma trim_spec : forall s, exists w1 w2, s = w1 ++ trim s ++ w2 /\ blank w1 /\ blank w2.
Proof.
  intros s. unfold trim, trim_end, trim_start.
  destruct (trim_start_fuel_spec (length s) s) as (w1 & H1 & B1).
  set (t := trim_start_fuel (length s) s) in *.
  destruct (trim_rev_fuel_spec (length t) (rev t)) as (w2 & H2 & B2).
  exists w1, w2. split; [|auto]. rewrite H1 at 1. f_equal.
  rewrite <- (rev_involutive t) at 1. rewrite H2 at 1. rewrite rev_app_distr, rev_involutive. reflexivity.
Qed.

Lemma trim_blank : forall w1 u w2, blank w1 -> blank w2 ->
  ws_len u = 0%nat -> ws_len_rev (rev u) = 0%nat -> (u = [] \/ ws_len (u ++ w2) = 0%nat) ->
  trim (w1 ++ u ++ w2) = u.
Proof.
  intros w1 u w2 (c1 & -> & H1) (c2 & -> & H2) Hu Hr Hn. unfold trim, trim_start, trim_end.
  destruct u as [|b u].
  - cbn [app]. rewrite <- concat_app.
    pose proof (trim_start_fuel_blank (length (concat (c1 ++ c2))) (c1 ++ c2) []) as HT.
    rewrite app_nil_r in HT. rewrite HT; [reflexivity| |lia|reflexivity]. apply Forall_app; auto.
  - destruct Hn as [|Hn]; [congruence|].
    rewrite trim_start_fuel_blank; [|assumption|rewrite app_length; lia|assumption].
    pose proof (trim_rev_fuel_blank (length ((b :: u) ++ concat c2)) (rev c2) (rev (b :: u))) as HT.
    rewrite rev_involutive in HT.
    rewrite rev_app_distr. rewrite HT; [apply rev_involutive| | |assumption].
    + now apply Forall_rev.
    + rewrite app_length. assert (forall l : list bytes, length (concat (rev l)) = length (concat l)) as EL.
      { clear. induction l as [|x l IH]; [reflexivity|]. cbn [rev concat].
        rewrite concat_app, !app_length, IH. cbn [concat]. rewrite app_nil_r. lia. }
      rewrite EL. lia.
Qed.

(** ** Parsing *)

Lemma value_char_ws0 : forall c r, value_char c = true -> ws_len (c :: r) = 0%nat.
Proof.
  intros c r H. destruct (ws_len (c :: r)) as [|k] eqn:E; [reflexivity|].
  pose proof (ws_len_in _ _ E ltac:(lia)) as Hin. cbn [firstn] in Hin.
  cbn [whitespace In] in Hin.
  repeat (destruct Hin as [Hin|Hin]; [injection Hin as <- _; discriminate H|]). contradiction.
Qed.

Lemma value_char_wsr0 : forall c r, value_char c = true -> ws_len_rev (c :: r) = 0%nat.
Proof.
  intros c r H. destruct (ws_len_rev (c :: r)) as [|k] eqn:E; [reflexivity|].
  destruct (ws_len_rev_in _ _ E ltac:(lia)) as [Hin _]. cbn [firstn rev] in Hin.
  set (l := rev (firstn k r)) in *. clearbody l. exfalso.
  assert (Hl : forall w, In w whitespace -> value_char (last w x00) = false).
  { intros w Hw. cbn [whitespace In] in Hw. repeat (destruct Hw as [<-|Hw]; [reflexivity|]). contradiction. }
  specialize (Hl _ Hin). rewrite last_last in Hl. congruence.
Qed.

Lemma trim_value : forall v, Forall (fun c => value_char c = true) v -> trim v = v.
Proof.
  intros v H. destruct v as [|c r] eqn:E; [reflexivity|]. rewrite <- E in *.
  rewrite <- (app_nil_r v) at 1. change v with ([] ++ v) at 1.
  rewrite <- app_assoc. apply trim_blank; try apply blank_nil.
  - rewrite E in *. inversion H; subst. now apply value_char_ws0.
  - apply Forall_rev in H. destruct (rev v) as [|b l]; [reflexivity|]. inversion H; subst. now apply value_char_wsr0.
  - right. rewrite app_nil_r, E in *. inversion H; subst. now apply value_char_ws0.
Qed.

Lemma unit_trim : forall u w1 w2 e, blank w1 -> blank w2 ->
  u = [] \/ u = ascii "H" \/ In (u, e) units ->
  trim (w1 ++ u ++ w2) = u /\
  (match w1 ++ u ++ w2 with [] => True | c :: _ => value_char c = false end).
Proof.
  intros u w1 w2 e B1 B2 Hu.
  assert (HB : forall w r, blank w -> (match r with [] => True | c :: _ => value_char c = false end) ->
    match w ++ r with [] => True | c :: _ => value_char c = false end).
  { intros w r (cs & -> & Hcs) Hr. destruct cs as [|c cs]; [exact Hr|].
    inversion Hcs as [|? ? Hc ?]; subst. clear -Hc. cbn [whitespace In] in Hc.
    repeat (destruct Hc as [<-|Hc]; [reflexivity|]). contradiction. }
  assert (Hlet : forall x r, In x [x48; x70; x6e; x75; x6d; x53; x4b; x4d; x47; x54] -> ws_len (x :: r) = 0%nat).
  { intros x r Hx. cbn [In] in Hx. repeat (destruct Hx as [<-|Hx]; [now destruct r as [|? [|? ?]]|]). contradiction. }
  assert (Hcase : u = [] \/ exists x y, u = x :: y /\ In x [x48; x70; x6e; x75; x6d; x53; x4b; x4d; x47; x54] /\
     ws_len_rev (rev u) = 0%nat /\ value_char x = false).
  { destruct Hu as [->|[->|Hu]]; [now left| |]; right.
    - eexists _, _. split; [reflexivity|]. split; [cbn; tauto|]. split; reflexivity.
    - cbn [units In] in Hu.
      repeat (destruct Hu as [Hu|Hu];
        [injection Hu as <- <-; eexists _, _; split; [reflexivity|]; split; [cbn; tauto|]; split; reflexivity|]).
      contradiction. }
  destruct Hcase as [->|(x & y & -> & Hx & Hr & Hv)].
  - split.
    + apply trim_blank; auto.
    + apply HB; [assumption|]. cbn [app]. rewrite <- (app_nil_r w2). now apply HB.
  - split.
    + apply trim_blank; auto; right; now apply Hlet.
    + apply HB; [assumption|]. exact Hv.
Qed.

Lemma digits_value_chars : forall s, digits s -> Forall (fun c => value_char c = true) s.
Proof.
  intros s [_ H]. eapply Forall_impl; [|exact H]. intros c Hc. unfold value_char.
  apply is_digit_iff in Hc. now rewrite Hc.
Qed.

Lemma split_on_none : forall c s, Forall (fun b => b <> c) s -> split_on c s = [s].
Proof.
  induction s as [|b s IH]; intros H; [reflexivity|]. inversion H as [|? ? Hb Hs]; subst.
  cbn [split_on]. rewrite (IH Hs). destruct (Byte.eqb b c) eqn:E; [apply Byte.byte_dec_bl in E; contradiction|].
  reflexivity.
Qed.

Lemma split_on_one : forall c s t, Forall (fun b => b <> c) s -> Forall (fun b => b <> c) t ->
  split_on c (s ++ c :: t) = [s; t].
Proof.
  induction s as [|b s IH]; intros t H Ht.
  - cbn [app split_on]. replace (Byte.eqb c c) with true by (symmetry; now apply Byte.byte_dec_lb).
    now rewrite split_on_none.
  - inversion H as [|? ? Hb Hs]; subst. cbn [app split_on]. rewrite (IH t Hs Ht).
    destruct (Byte.eqb b c) eqn:E; [apply Byte.byte_dec_bl in E; contradiction|]. reflexivity.
Qed.

Lemma split_on_join : forall c s, exists p ps, split_on c s = p :: ps /\
  s = p ++ concat (map (fun q => c :: q) ps) /\ Forall (fun b => b <> c) p.
Proof.
  induction s as [|b s IH]; cbn [split_on].
  - exists [], []. repeat split; constructor.
  - destruct IH as (p & ps & -> & -> & Hp). destruct (Byte.eqb b c) eqn:E.
    + apply Byte.byte_dec_bl in E. subst b. exists [], (p :: ps). repeat split. constructor.
    + exists (b :: p), ps. repeat split. constructor; [|assumption]. intros ->.
      rewrite (Byte.byte_dec_lb (eq_refl c)) in E. discriminate.
Qed.

Lemma digit_not_dot : forall c, digit c -> c <> "."%byte.
Proof. intros c H ->. unfold digit, b2n in H. cbn in H. lia. Qed.

Lemma scaling_factor_units : forall u e, In (u, e) units -> scaling_factor u = Some (Z.of_N e - 24)%Z.
Proof.
  intros u e H. cbn [units In] in H.
  repeat (destruct H as [H|H]; [injection H as <- <-; reflexivity|]). contradiction.
Qed.

Lemma scaling_factor_inv : forall u z, scaling_factor u = Some z ->
  exists e, In (u, e) units /\ z = (Z.of_N e - 24)%Z.
Proof.
  intros u z H. unfold scaling_factor in H. cbv zeta in H.
  Local Ltac unit_case H e :=
    match type of H with
    | (if (if list_eq_dec Byte.byte_eq_dec ?u ?t then true else false) then _ else _) = _ =>
      destruct (list_eq_dec Byte.byte_eq_dec u t) as [->|];
      [injection H as <-; exists e; split; [vm_compute; tauto|reflexivity]|]
    end.
  unit_case H 12. unit_case H 15. unit_case H 18. unit_case H 21. unit_case H 24. unit_case H 27.
  unit_case H 30. unit_case H 33. unit_case H 36. discriminate.
Qed.

(** The scaling arithmetic at the end of [parse_currency]. *)
Definition scaled (p : profile) (scale : Z) (i f : u128) (frac_digits : Z)
  : outcome (currency + currency_error) :=
  obind (i32_arith p (24 + scale)%Z) (fun e1 =>
  obind (pow10 p (as_u32 e1)) (fun k1 =>
  obind (u_mul p i k1) (fun integer =>
  obind (i32_arith p (24 - frac_digits)%Z) (fun d =>
  obind (i32_arith p (d + scale)%Z) (fun e2 =>
  obind (pow10 p (as_u32 e2)) (fun k2 =>
  obind (u_mul p f k2) (fun fraction =>
  obind (u_add p integer fraction) (fun r => Val (inl r))))))))).

Lemma i32_arith_ok : forall p z, (- 2 ^ 31 <= z < 2 ^ 31)%Z -> i32_arith p z = Val z.
Proof.
  intros p z H. destruct p; cbn [i32_arith].
  - assert (E : ((- 2 ^ 31 <=? z)%Z && (z <? 2 ^ 31)%Z) = true) by lia. now rewrite E.
  - f_equal. apply swrap_Z_id; [discriminate|exact H].
Qed.

Lemma as_u32_ok : forall e, e <= 36 -> uval (as_u32 (Z.of_N e)) = e.
Proof.
  intros e H. unfold as_u32. rewrite Z.mod_small by lia. rewrite N2Z.id. apply uwrap_small.
  change (2 ^ 32) with 4294967296. lia.
Qed.

Lemma pow10_le : forall e, e <= 36 -> 10 ^ e < 2 ^ 128.
Proof.
  intros e H. eapply N.le_lt_trans; [apply (N.pow_le_mono_r 10 e 36); lia|]. reflexivity.
Qed.

Lemma pow10_ok : forall p e, e <= 36 -> pow10 p (as_u32 (Z.of_N e)) = Val (uwrap 128 (10 ^ e)).
Proof.
  intros p e H. unfold pow10. rewrite as_u32_ok by assumption.
  assert (E1 : (e <? 39) = true) by (apply N.ltb_lt; lia).
  assert (E2 : (e <? 128) = true) by (apply N.ltb_lt; lia).
  rewrite E1, E2. now destruct p.
Qed.

Lemma u_mul_ok : forall p w (a b : uint w), uval a * uval b < 2 ^ w ->
  u_mul p a b = Val (uwrap w (uval a * uval b)).
Proof. intros p w a b H. unfold u_mul. apply N.ltb_lt in H. rewrite H. now destruct p. Qed.

Lemma u_add_ok : forall p w (a b : uint w), uval a + uval b < 2 ^ w ->
  u_add p a b = Val (uwrap w (uval a + uval b)).
Proof. intros p w a b H. unfold u_add. apply N.ltb_lt in H. rewrite H. now destruct p. Qed.

Lemma u_mul_debug : forall w (a b c : uint w), u_mul Debug a b = Val c ->
  uval c = uval a * uval b.
Proof.
  intros w a b c H. unfold u_mul in H. destruct (N.ltb_spec (uval a * uval b) (2 ^ w)) as [E|E]; [|discriminate].
  injection H as <-. now apply uwrap_small.
Qed.

Lemma u_add_debug : forall w (a b c : uint w), u_add Debug a b = Val c ->
  uval c = uval a + uval b.
Proof.
  intros w a b c H. unfold u_add in H. destruct (N.ltb_spec (uval a + uval b) (2 ^ w)) as [E|E]; [|discriminate].
  injection H as <-. now apply uwrap_small.
Qed.

Lemma scaled_exact : forall p e i f (n : nat), e <= 36 -> N.of_nat n <= e ->
  uval i * 10 ^ e + uval f * 10 ^ (e - N.of_nat n) < 2 ^ 128 ->
  scaled p (Z.of_N e - 24) i f (Z.of_nat n) =
    Val (inl (uwrap 128 (uval i * 10 ^ e + uval f * 10 ^ (e - N.of_nat n)))).
Proof.
  intros p e i f n He Hn H. unfold scaled.
  replace (24 + (Z.of_N e - 24))%Z with (Z.of_N e) by lia.
  rewrite i32_arith_ok by lia. cbn [obind]. rewrite pow10_ok by assumption. cbn [obind].
  pose proof (pow10_le e He) as P1.
  assert (P2 : 10 ^ (e - N.of_nat n) < 2 ^ 128) by (apply pow10_le; lia).
  set (A := uval i * 10 ^ e) in *. set (B := uval f * 10 ^ (e - N.of_nat n)) in *.
  assert (EA : uval i * uval (uwrap 128 (10 ^ e)) = A).
  { rewrite (uwrap_small 128 (10 ^ e) P1). reflexivity. }
  assert (EB : uval f * uval (uwrap 128 (10 ^ (e - N.of_nat n))) = B).
  { rewrite (uwrap_small 128 (10 ^ (e - N.of_nat n)) P2). reflexivity. }
  assert (HA : A < 2 ^ 128) by lia. assert (HB : B < 2 ^ 128) by lia.
  rewrite u_mul_ok by now rewrite EA. rewrite EA. cbn [obind].
  rewrite i32_arith_ok by lia. cbn [obind].
  rewrite i32_arith_ok by lia. cbn [obind].
  replace (24 - Z.of_nat n + (Z.of_N e - 24))%Z with (Z.of_N (e - N.of_nat n)) by lia.
  rewrite pow10_ok by lia. cbn [obind].
  rewrite u_mul_ok by now rewrite EB. rewrite EB. cbn [obind].
  assert (EAB : uval (uwrap 128 A) + uval (uwrap 128 B) = A + B)
    by (rewrite (uwrap_small 128 A HA), (uwrap_small 128 B HB); reflexivity).
  rewrite u_add_ok by now rewrite EAB. rewrite EAB. reflexivity.
Qed.

Lemma scaled_debug : forall e i f (n : nat) c, e <= 36 -> N.of_nat n < 2 ^ 31 ->
  scaled Debug (Z.of_N e - 24) i f (Z.of_nat n) = Val c ->
  N.of_nat n <= e /\
  exists v, c = inl v /\ uval v = uval i * 10 ^ e + uval f * 10 ^ (e - N.of_nat n).
Proof.
  intros e i f n c He Hn H. unfold scaled in H.
  replace (24 + (Z.of_N e - 24))%Z with (Z.of_N e) in H by lia.
  change (2 ^ 31) with 2147483648 in Hn.
  rewrite i32_arith_ok in H by lia. cbn [obind] in H. rewrite pow10_ok in H by assumption. cbn [obind] in H.
  destruct (u_mul Debug i (uwrap 128 (10 ^ e))) as [A|] eqn:EA; [|discriminate]. cbn [obind] in H.
  rewrite i32_arith_ok in H by lia. cbn [obind] in H.
  rewrite i32_arith_ok in H by lia. cbn [obind] in H.
  replace (24 - Z.of_nat n + (Z.of_N e - 24))%Z with (Z.of_N e - Z.of_nat n)%Z in H by lia.
  destruct (N.leb_spec (N.of_nat n) e) as [Hle|Hgt].
  - split; [assumption|]. replace (Z.of_N e - Z.of_nat n)%Z with (Z.of_N (e - N.of_nat n)) in H by lia.
    rewrite pow10_ok in H by lia. cbn [obind] in H.
    destruct (u_mul Debug f (uwrap 128 (10 ^ (e - N.of_nat n)))) as [B|] eqn:EB; [|discriminate]. cbn [obind] in H.
    destruct (u_add Debug A B) as [r|] eqn:ER; [|discriminate]. cbn [obind] in H. injection H as <-.
    exists r. split; [reflexivity|]. apply u_add_debug in ER. apply u_mul_debug in EA, EB.
    rewrite ER, EA, EB. rewrite (uwrap_small 128 (10 ^ e)) by now apply pow10_le.
    rewrite (uwrap_small 128 (10 ^ (e - N.of_nat n))) by (apply pow10_le; lia). reflexivity.
  - exfalso. unfold pow10 in H.
    assert (E : (uval (as_u32 (Z.of_N e - Z.of_nat n)) <? 39) = false).
    { apply N.ltb_ge. unfold as_u32.
      replace ((Z.of_N e - Z.of_nat n) mod 2 ^ 32)%Z with (Z.of_N e - Z.of_nat n + 2 ^ 32)%Z.
      - rewrite uwrap_small; [lia|]. change (2 ^ 32) with 4294967296. lia.
      - rewrite <- (Z.mod_small (Z.of_N e - Z.of_nat n + 2 ^ 32) (2 ^ 32)) by lia.
        replace (Z.of_N e - Z.of_nat n + 2 ^ 32)%Z with (Z.of_N e - Z.of_nat n + 1 * 2 ^ 32)%Z by lia.
        now rewrite Z.mod_add by lia. }
    rewrite E in H. discriminate.
Qed.

(** What the parser does on a well-formed text. *)
Lemma parse_hastings : forall p int w1 u w2, digits int -> blank w1 -> blank w2 ->
  u = [] \/ u = ascii "H" ->
  parse_currency p (int ++ w1 ++ u ++ w2) =
    if dec_value int <? 2 ^ 128 then Val (inl (uwrap 128 (dec_value int)))
    else Val (inr (ParseIntErr IPosOverflow)).
Proof.
  intros p int w1 u w2 Hi B1 B2 Hu. unfold parse_currency.
  destruct (unit_trim u w1 w2 0 B1 B2) as [Ht Hc]; [tauto|].
  rewrite span_value_app by (auto using digits_value_chars). rewrite Ht.
  rewrite trim_value by now apply digits_value_chars.
  assert (E : ((match u with [] => true | _ => false end)
     || (if list_eq_dec Byte.byte_eq_dec u (ascii "H") then true else false)) = true)
    by (destruct Hu as [->| ->]; reflexivity).
  rewrite E, parse_uint_digits by assumption. now destruct (dec_value int <? 2 ^ 128).
Qed.

Lemma not_hastings : forall u e, In (u, e) units ->
  ((match u with [] => true | _ => false end)
     || (if list_eq_dec Byte.byte_eq_dec u (ascii "H") then true else false)) = false.
Proof.
  intros u e H. cbn [units In] in H.
  repeat (destruct H as [H|H]; [injection H as <- <-; reflexivity|]). contradiction.
Qed.

Lemma parse_integer : forall p int w1 u e w2, digits int -> blank w1 -> blank w2 -> In (u, e) units ->
  parse_currency p (int ++ w1 ++ u ++ w2) =
    if dec_value int <? 2 ^ 128
    then scaled p (Z.of_N e - 24) (uwrap 128 (dec_value int)) (uwrap 128 0) (Z.of_nat 0)
    else Val (inr (InvalidFormat "invalid integer part")).
Proof.
  intros p int w1 u e w2 Hi B1 B2 Hu. unfold parse_currency.
  destruct (unit_trim u w1 w2 e B1 B2) as [Ht Hc]; [tauto|].
  rewrite span_value_app by (auto using digits_value_chars). rewrite Ht.
  rewrite trim_value by now apply digits_value_chars.
  rewrite (not_hastings u e Hu), (scaling_factor_units u e Hu).
  rewrite split_on_none.
  2:{ destruct Hi as [_ Hi]. eapply Forall_impl; [|exact Hi]. apply digit_not_dot. }
  rewrite parse_uint_digits by assumption. now destruct (dec_value int <? 2 ^ 128).
Qed.

Lemma parse_fraction : forall p int frac w1 u e w2, digits int -> digits frac -> blank w1 -> blank w2 ->
  In (u, e) units ->
  parse_currency p (int ++ ascii "." ++ frac ++ w1 ++ u ++ w2) =
    if (dec_value int <? 2 ^ 128) && (dec_value frac <? 2 ^ 128)
    then scaled p (Z.of_N e - 24) (uwrap 128 (dec_value int)) (uwrap 128 (dec_value frac))
           (swrap_Z 32 (Z.of_nat (length frac)))
    else Val (inr (InvalidFormat "invalid integer part")).
Proof.
  intros p int frac w1 u e w2 Hi Hf B1 B2 Hu. unfold parse_currency.
  destruct (unit_trim u w1 w2 e B1 B2) as [Ht Hc]; [tauto|].
  replace (int ++ ascii "." ++ frac ++ w1 ++ u ++ w2) with ((int ++ "."%byte :: frac) ++ w1 ++ u ++ w2)
    by (cbn; now rewrite <- !app_assoc).
  assert (Hv : Forall (fun c => value_char c = true) (int ++ "."%byte :: frac)).
  { apply Forall_app; split; [now apply digits_value_chars|]. constructor; [reflexivity|].
    now apply digits_value_chars. }
  rewrite span_value_app by auto. rewrite Ht.
  rewrite trim_value by assumption.
  rewrite (not_hastings u e Hu), (scaling_factor_units u e Hu).
  destruct Hi as [Hi1 Hi2]. destruct Hf as [Hf1 Hf2].
  rewrite split_on_one.
  2:{ eapply Forall_impl; [|exact Hi2]. apply digit_not_dot. }
  2:{ eapply Forall_impl; [|exact Hf2]. apply digit_not_dot. }
  rewrite !parse_uint_digits by (split; assumption). destruct (dec_value int <? 2 ^ 128); [|reflexivity].
  cbn [andb]. now destruct (dec_value frac <? 2 ^ 128).
Qed.

Lemma units_range : forall u e, In (u, e) units -> 12 <= e <= 36.
Proof.
  intros u e H. cbn [units In] in H.
  repeat (destruct H as [H|H]; [injection H as <- <-; split; discriminate|]). contradiction.
Qed.

Lemma dec_value_0 : dec_value [] = 0. Proof. reflexivity. Qed.

(** Well-formed, representable: the exact amount, in both profiles. *)
Lemma parse_currency_exact : forall p s int frac e,
  CurrencyText s int frac e -> N.of_nat (length frac) <= e -> hastings int frac e < 2 ^ 128 ->
  parse_currency p s = Val (inl (uwrap 128 (hastings int frac e))).
Proof.
  intros p s int frac e H Hf Hlt. unfold hastings in *. destruct H.
  - rewrite parse_hastings by assumption. rewrite dec_value_0 in *. change (10 ^ 0) with 1 in *.
    rewrite N.mul_1_r, N.mul_0_l, N.add_0_r in *. apply N.ltb_lt in Hlt. now rewrite Hlt.
  - pose proof (units_range _ _ H2) as He. rewrite (parse_integer p int w1 u e w2) by assumption.
    rewrite dec_value_0, N.mul_0_l, N.add_0_r in *.
    assert (Hp : 10 ^ e <> 0) by (apply N.pow_nonzero; discriminate).
    assert (Hi : dec_value int < 2 ^ 128) by (eapply N.le_lt_trans; [|exact Hlt]; nia).
    pose proof Hi as Hi'. apply N.ltb_lt in Hi'. rewrite Hi'.
    rewrite scaled_exact; rewrite ?(uwrap_small 128 (dec_value int) Hi); change (uval (uwrap 128 0)) with 0;
      rewrite ?N.mul_0_l, ?N.add_0_r; [reflexivity|lia|lia|assumption].
  - pose proof (units_range _ _ H3) as He. rewrite (parse_fraction p int frac w1 u e w2) by assumption.
    assert (Hp : 10 ^ e <> 0) by (apply N.pow_nonzero; discriminate).
    assert (Hp' : 10 ^ (e - N.of_nat (length frac)) <> 0) by (apply N.pow_nonzero; discriminate).
    set (P := 10 ^ e) in *. set (Q := 10 ^ (e - N.of_nat (length frac))) in *.
    assert (Hi : dec_value int < 2 ^ 128) by (eapply N.le_lt_trans; [|exact Hlt]; nia).
    assert (Hfr : dec_value frac < 2 ^ 128) by (eapply N.le_lt_trans; [|exact Hlt]; nia).
    pose proof Hi as Hi'. apply N.ltb_lt in Hi'. rewrite Hi'.
    pose proof Hfr as Hfr'. apply N.ltb_lt in Hfr'. rewrite Hfr'. cbn [andb].
    rewrite swrap_Z_id; [|discriminate|].
    2:{ change (2 ^ (Z.of_N 32 - 1))%Z with 2147483648%Z. lia. }
    rewrite scaled_exact; rewrite ?(uwrap_small 128 (dec_value int) Hi), ?(uwrap_small 128 (dec_value frac) Hfr);
      [reflexivity|lia|assumption|assumption].
Qed.

(** Well-formed but not representable: in [Debug], never a value. *)
Lemma parse_currency_debug : forall s int frac e c,
  CurrencyText s int frac e -> N.of_nat (length frac) < 2 ^ 31 ->
  parse_currency Debug s = Val (inl c) ->
  N.of_nat (length frac) <= e /\ uval c = hastings int frac e.
Proof.
  intros s int frac e c H Hl E. unfold hastings. destruct H.
  - rewrite parse_hastings in E by assumption. rewrite dec_value_0. change (10 ^ 0) with 1.
    rewrite N.mul_1_r, N.mul_0_l, N.add_0_r.
    destruct (N.ltb_spec (dec_value int) (2 ^ 128)) as [Hlt|Hge]; [|discriminate].
    injection E as <-. split; [cbn; lia|]. now apply uwrap_small.
  - pose proof (units_range _ _ H2) as He. rewrite (parse_integer Debug int w1 u e w2) in E by assumption.
    destruct (N.ltb_spec (dec_value int) (2 ^ 128)) as [Hlt|Hge]; [|discriminate].
    apply scaled_debug in E; [|lia|exact Hl]. destruct E as [E1 (v & E2 & E3)].
    injection E2 as <-. split; [exact E1|]. rewrite E3.
    rewrite (uwrap_small 128 (dec_value int) Hlt). reflexivity.
  - pose proof (units_range _ _ H3) as He. rewrite (parse_fraction Debug int frac w1 u e w2) in E by assumption.
    destruct (N.ltb_spec (dec_value int) (2 ^ 128)) as [Hlt|Hge]; [|discriminate].
    destruct (N.ltb_spec (dec_value frac) (2 ^ 128)) as [Hltf|Hgef]; [|discriminate]. cbn [andb] in E.
    rewrite swrap_Z_id in E; [|discriminate|].
    2:{ change (2 ^ 31) with 2147483648 in Hl. change (2 ^ (Z.of_N 32 - 1))%Z with 2147483648%Z. lia. }
    apply scaled_debug in E; [|lia|exact Hl]. destruct E as [E1 (v & E2 & E3)].
    injection E2 as <-. split; [exact E1|]. rewrite E3.
    rewrite (uwrap_small 128 (dec_value int) Hlt), (uwrap_small 128 (dec_value frac) Hltf). reflexivity.
Qed.

(** Not well-formed: an error, in both profiles. *)
Lemma value_char_no_plus : forall v, Forall (fun c => value_char c = true) v -> Forall (fun c => c <> "+"%byte) v.
Proof. intros v H. eapply Forall_impl; [|exact H]. intros c Hc ->. discriminate. Qed.

Lemma parse_currency_wf : forall p s,
  (exists e, parse_currency p s = Val (inr e)) \/ (exists int frac e, CurrencyText s int frac e).
Proof.
  intros p s. unfold parse_currency. destruct (span_value s) as [v u] eqn:Es.
  apply span_value_spec in Es. destruct Es as [-> Hv].
  rewrite (trim_value v Hv).
  destruct (trim_spec u) as (w1 & w2 & Hu & B1 & B2). set (t := trim u) in *. clearbody t. subst u.
  destruct ((match t with [] => true | _ => false end)
     || (if list_eq_dec Byte.byte_eq_dec t (ascii "H") then true else false)) eqn:EH.
  - destruct (parse_uint 128 v) as [n|e] eqn:Ep; [|left; eauto]. right.
    exists v, [], 0. constructor; auto.
    + eapply parse_uint_inv; [|exact Ep]. now apply value_char_no_plus.
    + apply orb_true_iff in EH. destruct EH as [EH|EH].
      * left. now destruct t.
      * right. now destruct (list_eq_dec Byte.byte_eq_dec t (ascii "H")).
  - destruct (scaling_factor t) as [z|] eqn:Ez; [|left; eauto].
    apply scaling_factor_inv in Ez. destruct Ez as (e & Hin & ->).
    destruct (split_on_join "." v) as (q & qs & -> & -> & Hq).
    destruct qs as [|q2 [|q3 qs]]; [| |left; eauto].
    + destruct (parse_uint 128 q) as [n|er] eqn:Ep; [|left; eauto]. right.
      cbn [map concat] in *. rewrite app_nil_r in *.
      exists q, [], e. econstructor; eauto. eapply parse_uint_inv; [|exact Ep]. now apply value_char_no_plus.
    + destruct (parse_uint 128 q) as [n|er] eqn:Ep; [|left; eauto].
      destruct (parse_uint 128 q2) as [n2|er] eqn:Ep2; [|left; eauto]. right.
      cbn [map concat] in *. rewrite app_nil_r in *. apply Forall_app in Hv. destruct Hv as [Hv1 Hv2].
      inversion Hv2; subst.
      exists q, q2, e. rewrite <- app_assoc. cbn [app].
      apply (text_fraction q q2 w1 t e w2); auto;
        (eapply parse_uint_inv; [|eassumption]; now apply value_char_no_plus).
Qed.

(** ** Text round trip *)

Lemma parse_currency_text : forall p c, parse_currency p (currency_text c) = Val (inl c).
Proof.
  intros p c. unfold currency_text. destruct (dec_text_spec (uval c)) as (Hd & Hv & _).
  pose proof (uint_lt 128 c) as Hlt.
  assert (CT : CurrencyText (dec_text (uval c)) (dec_text (uval c)) [] 0).
  { pose proof (text_hastings (dec_text (uval c)) [] [] [] Hd blank_nil blank_nil (or_introl eq_refl)) as H.
    rewrite !app_nil_r in H. exact H. }
  assert (EH : hastings (dec_text (uval c)) [] 0 = uval c).
  { unfold hastings. rewrite Hv. change (10 ^ 0) with 1. rewrite dec_value_0. lia. }
  rewrite (parse_currency_exact p _ _ _ _ CT); [|cbn; lia|rewrite EH; exact Hlt].
  rewrite EH. now rewrite uwrap_id.
Qed.

(** ** Arithmetic *)

Lemma checked_add_spec : forall a b,
  match checked_add a b with
  | Some c => uval c = uval a + uval b
  | None => 2 ^ 128 <= uval a + uval b
  end.
Proof.
  intros a b. unfold checked_add. destruct (N.ltb_spec (uval a + uval b) (2 ^ 128)); [|assumption].
  now apply uwrap_small.
Qed.
Lemma checked_sub_spec : forall a b,
  match checked_sub a b with
  | Some c => uval c + uval b = uval a
  | None => uval a < uval b
  end.
Proof.
  intros a b. unfold checked_sub. destruct (N.leb_spec (uval b) (uval a)); [|assumption].
  pose proof (uint_lt 128 a). rewrite uwrap_small by lia. lia.
Qed.
Lemma checked_mul_spec : forall a b,
  match checked_mul a b with
  | Some c => uval c = uval a * uval b
  | None => 2 ^ 128 <= uval a * uval b
  end.
Proof.
  intros a b. unfold checked_mul. destruct (N.ltb_spec (uval a * uval b) (2 ^ 128)); [|assumption].
  now apply uwrap_small.
Qed.
Lemma checked_div_spec : forall a b,
  match checked_div a b with
  | Some c => uval b <> 0 /\ uval b * uval c <= uval a < uval b * (uval c + 1)
  | None => uval b = 0
  end.
Proof.
  intros a b. unfold checked_div. destruct (N.eqb_spec (uval b) 0) as [E|E]; [assumption|].
  split; [assumption|]. pose proof (uint_lt 128 a).
  assert (uval a / uval b <= uval a) by (apply N.div_le_upper_bound; nia).
  rewrite uwrap_small by lia.
  pose proof (N.mul_div_le (uval a) (uval b) E). pose proof (N.mul_succ_div_gt (uval a) (uval b) E). lia.
Qed.

(** The operators: exact when representable, in both profiles ... *)
Lemma currency_add_exact : forall p a b, uval a + uval b < 2 ^ 128 ->
  exists c, currency_add p a b = Val c /\ uval c = uval a + uval b.
Proof. intros p a b H. unfold currency_add. rewrite u_add_ok by assumption. eexists; split; [reflexivity|]. now apply uwrap_small. Qed.
Lemma currency_sub_exact : forall p a b, uval b <= uval a ->
  exists c, currency_sub p a b = Val c /\ uval c = uval a - uval b.
Proof.
  intros p a b H. unfold currency_sub, u_sub. assert (E : (uval b <=? uval a) = true) by now apply N.leb_le.
  rewrite E. eexists; split; [reflexivity|]. pose proof (uint_lt 128 a). apply uwrap_small. lia.
Qed.
Lemma currency_mul_exact : forall p a b, uval a * uval b < 2 ^ 128 ->
  exists c, currency_mul p a b = Val c /\ uval c = uval a * uval b.
Proof. intros p a b H. unfold currency_mul. rewrite u_mul_ok by assumption. eexists; split; [reflexivity|]. now apply uwrap_small. Qed.

(** ... and otherwise a panic in [Debug] and the wrapped amount in [Release]. *)
Lemma currency_add_overflow : forall a b, 2 ^ 128 <= uval a + uval b ->
  currency_add Debug a b = Panic ArithOverflow /\
  exists c, currency_add Release a b = Val c /\ uval c = uval a + uval b - 2 ^ 128.
Proof.
  intros a b H. unfold currency_add, u_add. assert (E : (uval a + uval b <? 2 ^ 128) = false) by now apply N.ltb_ge.
  rewrite E. split; [reflexivity|]. eexists; split; [reflexivity|]. cbn [uwrap uval].
  pose proof (uint_lt 128 a). pose proof (uint_lt 128 b).
  replace (uval a + uval b) with (uval a + uval b - 2 ^ 128 + 1 * 2 ^ 128) at 1 by lia.
  rewrite N.mod_add by discriminate. apply N.mod_small. lia.
Qed.
Lemma currency_sub_underflow : forall a b, uval a < uval b ->
  currency_sub Debug a b = Panic ArithOverflow /\
  exists c, currency_sub Release a b = Val c /\ uval c = 2 ^ 128 + uval a - uval b.
Proof.
  intros a b H. unfold currency_sub, u_sub. assert (E : (uval b <=? uval a) = false) by now apply N.leb_gt.
  rewrite E. split; [reflexivity|]. eexists; split; [reflexivity|]. apply uwrap_small.
  pose proof (uint_lt 128 b). lia.
Qed.
Lemma currency_mul_overflow : forall a b, 2 ^ 128 <= uval a * uval b ->
  currency_mul Debug a b = Panic ArithOverflow /\
  exists c, currency_mul Release a b = Val c /\ uval c = (uval a * uval b) mod 2 ^ 128.
Proof.
  intros a b H. unfold currency_mul, u_mul. assert (E : (uval a * uval b <? 2 ^ 128) = false) by now apply N.ltb_ge.
  rewrite E. split; [reflexivity|]. eexists; split; reflexivity.
Qed.
Lemma currency_div_spec : forall a b,
  (uval b = 0 /\ currency_div a b = Panic DivByZero) \/
  (uval b <> 0 /\ exists c, currency_div a b = Val c /\ uval b * uval c <= uval a < uval b * (uval c + 1)).
Proof.
  intros a b. pose proof (checked_div_spec a b) as H. unfold checked_div in H. unfold currency_div, u_div.
  destruct (N.eqb_spec (uval b) 0) as [E|E]; [now left|]. right. split; [assumption|].
  eexists; split; [reflexivity|]. exact (proj2 H).
Qed.
Lemma currency_rem_spec : forall a b,
  (uval b = 0 /\ currency_rem a b = Panic DivByZero) \/
  (uval b <> 0 /\ exists c, currency_rem a b = Val c /\ uval c < uval b /\ exists q, uval a = q * uval b + uval c).
Proof.
  intros a b. unfold currency_rem, u_rem.
  destruct (N.eqb_spec (uval b) 0) as [E|E]; [now left|]. right. split; [assumption|].
  eexists; split; [reflexivity|]. pose proof (N.mod_lt (uval a) (uval b) E). pose proof (uint_lt 128 b).
  rewrite uwrap_small by lia. split; [assumption|]. exists (uval a / uval b).
  pose proof (N.div_mod (uval a) (uval b) E). lia.
Qed.

Definition total (l : list currency) : N := fold_right (fun c s => uval c + s) 0 l.

Lemma currency_sum_fold : forall p l acc,
  fold_left (fun a c => obind a (fun s => currency_add p s c)) l (Panic acc) = Panic acc.
Proof. induction l as [|c l IH]; intros acc; [reflexivity|]. cbn [fold_left obind]. apply IH. Qed.

Lemma currency_sum_exact : forall p l, total l < 2 ^ 128 ->
  exists c, currency_sum p l = Val c /\ uval c = total l.
Proof.
  intros p l H. unfold currency_sum.
  assert (G : forall l acc, uval acc + total l < 2 ^ 128 ->
    exists c, fold_left (fun a c => obind a (fun s => currency_add p s c)) l (Val acc) = Val c /\
              uval c = uval acc + total l).
  { clear. induction l as [|x l IH]; intros acc H; cbn [fold_left total fold_right] in *.
    - exists acc. split; [reflexivity|lia].
    - fold (total l) in *. destruct (currency_add_exact p acc x) as (c & Ec & Hc); [lia|].
      change (obind (Val acc) (fun s => currency_add p s x)) with (currency_add p acc x). rewrite Ec.
      destruct (IH c) as (c' & Ec' & Hc'); [rewrite Hc; lia|]. exists c'. split; [exact Ec'|]. lia. }
  destruct (G l currency_zero) as (c & Hc & Hv).
  - change (uval currency_zero) with 0. lia.
  - exists c. split; [exact Hc|]. rewrite Hv. change (uval currency_zero) with 0. lia.
Qed.

Lemma currency_sum_debug : forall l, 2 ^ 128 <= total l -> currency_sum Debug l = Panic ArithOverflow.
Proof.
  intros l H. unfold currency_sum.
  assert (G : forall l acc, 2 ^ 128 <= uval acc + total l ->
    fold_left (fun a c => obind a (fun s => currency_add Debug s c)) l (Val acc) = Panic ArithOverflow).
  { clear. induction l as [|x l IH]; intros acc H; cbn [fold_left total fold_right] in *.
    - pose proof (uint_lt 128 acc). lia.
    - change (obind (Val acc) (fun s => currency_add Debug s x)) with (currency_add Debug acc x).
      fold (total l) in *. destruct (N.ltb_spec (uval acc + uval x) (2 ^ 128)) as [Hlt|Hge].
      + destruct (currency_add_exact Debug acc x Hlt) as (c & -> & Hc). apply IH. rewrite Hc. lia.
      + destruct (currency_add_overflow acc x Hge) as [-> _]. apply currency_sum_fold. }
  apply G. change (uval currency_zero) with 0. lia.
Qed.
