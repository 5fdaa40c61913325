(** Proofs about the texts of SpecDoc.v: hexadecimal, decimal and RFC 3339. *)

From Coq Require Import DecimalString DecimalN DecimalPos Decimal.
From Verif Require Import Base Blake2b SpecText SpecDoc Model_encoding Model_currency Model_text Model_json
  CurrencyProofs TextProofs TimeProofs.
Local Open Scope Z_scope.

(** ** The calendar *)

Lemma days_in : forall y m, 1 <= m <= 12 -> DaysIn y m (month_days y m).
Proof.
  intros y m H. unfold DaysIn, month_days, is_leap. pose proof (leap_mod y) as L.
  assert (C : m = 1 \/ m = 2 \/ m = 3 \/ m = 4 \/ m = 5 \/ m = 6 \/ m = 7 \/ m = 8 \/ m = 9 \/ m = 10 \/
              m = 11 \/ m = 12) by lia.
  destruct C as [->|[->|[->|[->|[->|[->|[->|[->|[->|[->|[->| ->]]]]]]]]]]]; cbn [Z.eqb Pos.eqb orb];
    try (left; split; [cbn; tauto|reflexivity]);
    try (right; left; split; [cbn; tauto|reflexivity]).
  destruct (leap_year y) eqn:E.
  - right; right; left. split; [reflexivity|]. split; [now apply L|reflexivity].
  - right; right; right. split; [reflexivity|]. split; [|reflexivity]. intros X. apply L in X. discriminate.
Qed.

Lemma days_in_eq : forall y m n, DaysIn y m n -> 1 <= m <= 12 /\ n = month_days y m.
Proof.
  intros y m n H. unfold DaysIn, is_leap in H. pose proof (leap_mod y) as L. unfold month_days.
  destruct H as [[H ->]|[[H ->]|[(-> & H & ->)|(-> & H & ->)]]].
  - cbn [In] in H. intuition (subst; try lia); reflexivity.
  - cbn [In] in H. intuition (subst; try lia); reflexivity.
  - split; [lia|]. cbn. apply L in H. now rewrite H.
  - split; [lia|]. cbn. destruct (leap_year y); [|reflexivity]. exfalso. apply H. now apply L.
Qed.

Lemma month_days_range : forall y m, 28 <= month_days y m <= 31.
Proof.
  intros y m. unfold month_days. destruct (m =? 2); [destruct (leap_year y); lia|].
  destruct (_ || _)%bool; lia.
Qed.

Lemma before_next : forall y m, 1 <= m < 12 ->
  days_before_month y (m + 1) = days_before_month y m + month_days y m.
Proof.
  intros y m H.
  assert (C : m = 1 \/ m = 2 \/ m = 3 \/ m = 4 \/ m = 5 \/ m = 6 \/ m = 7 \/ m = 8 \/ m = 9 \/ m = 10 \/
              m = 11) by lia.
  unfold days_before_month, month_days.
  destruct C as [->|[->|[->|[->|[->|[->|[->|[->|[->|[->| ->]]]]]]]]]];
    destruct (leap_year y); reflexivity.
Qed.

Lemma day_forward : forall y m k, 1 <= m <= 12 -> Day y m 1 k ->
  forall i, 0 <= i -> i + 1 <= month_days y m -> Day y m (i + 1) (k + i).
Proof.
  intros y m k Hm H. apply (natlike_ind (fun i => i + 1 <= month_days y m -> Day y m (i + 1) (k + i))).
  - intros _. now rewrite Z.add_0_r.
  - intros i Hi IH B. replace (Z.succ i + 1) with ((i + 1) + 1) by lia.
    replace (k + Z.succ i) with (k + i + 1) by lia.
    apply day_next with (n := month_days y m); [apply IH; lia|now apply days_in|lia].
Qed.

Lemma month_forward : forall y m k, 1 <= m < 12 -> Day y m 1 k -> Day y (m + 1) 1 (k + month_days y m).
Proof.
  intros y m k Hm H. pose proof (month_days_range y m) as R.
  pose proof (day_forward y m k ltac:(lia) H (month_days y m - 1) ltac:(lia) ltac:(lia)) as D.
  replace (k + month_days y m) with (k + (month_days y m - 1) + 1) by lia.
  apply day_next_month with (d := month_days y m - 1 + 1); [exact D| |lia].
  replace (month_days y m - 1 + 1) with (month_days y m) by lia. apply days_in. lia.
Qed.

Lemma months_forward : forall y k, Day y 1 1 k -> forall m, 1 <= m <= 12 ->
  Day y m 1 (k + days_before_month y m).
Proof.
  intros y k H.
  assert (P : forall i, 0 <= i -> i + 1 <= 12 -> Day y (i + 1) 1 (k + days_before_month y (i + 1))).
  { apply (natlike_ind (fun i => i + 1 <= 12 -> Day y (i + 1) 1 (k + days_before_month y (i + 1)))).
    - intros _. change (days_before_month y (0 + 1)) with (0 + (if (2 <? 1) && leap_year y then 1 else 0)).
      cbn. now rewrite Z.add_0_r.
    - intros i Hi IH B. replace (Z.succ i + 1) with ((i + 1) + 1) by lia.
      rewrite before_next by lia. rewrite Z.add_assoc. apply month_forward; [lia|]. apply IH. lia. }
  intros m Hm. replace m with (m - 1 + 1) by lia. apply P; lia.
Qed.

Lemma year_forward : forall y k, Day y 1 1 k ->
  Day (y + 1) 1 1 (k + 365 + (if leap_year y then 1 else 0)).
Proof.
  intros y k H. pose proof (months_forward y k H 12 ltac:(lia)) as D.
  pose proof (day_forward y 12 _ ltac:(lia) D 30 ltac:(lia) ltac:(unfold month_days; cbn; lia)) as E.
  apply day_next_year in E.
  replace (k + 365 + (if leap_year y then 1 else 0)) with (k + days_before_month y 12 + 30 + 1); [exact E|].
  unfold days_before_month. change (nth (Z.to_nat (12 - 1)) _ 0) with 334. cbn [Z.ltb Z.compare Pos.compare Pos.compare_cont andb].
  destruct (leap_year y); lia.
Qed.

Lemma day_backward : forall y m n k, 1 <= m <= 12 -> Day y m n k ->
  forall i, 0 <= i -> i < n -> Day y m (n - i) (k - i).
Proof.
  intros y m n k Hm H. apply (natlike_ind (fun i => i < n -> Day y m (n - i) (k - i))).
  - intros _. now rewrite !Z.sub_0_r.
  - intros i Hi IH B. replace (n - Z.succ i) with (n - i - 1) by lia.
    replace (k - Z.succ i) with (k - i - 1) by lia. apply day_back; [apply IH; lia|lia].
Qed.

Lemma month_backward : forall y m k, 1 < m <= 12 -> Day y m 1 k ->
  Day y (m - 1) 1 (k - month_days y (m - 1)).
Proof.
  intros y m k Hm H. pose proof (month_days_range y (m - 1)) as R.
  pose proof (day_back_month y m k _ H ltac:(lia) (days_in y (m - 1) ltac:(lia))) as D.
  pose proof (day_backward y (m - 1) _ _ ltac:(lia) D (month_days y (m - 1) - 1) ltac:(lia) ltac:(lia)) as E.
  replace (month_days y (m - 1) - (month_days y (m - 1) - 1)) with 1 in E by lia.
  replace (k - 1 - (month_days y (m - 1) - 1)) with (k - month_days y (m - 1)) in E by lia. exact E.
Qed.

Lemma year_backward : forall y k, Day y 1 1 k ->
  Day (y - 1) 1 1 (k - 365 - (if leap_year (y - 1) then 1 else 0)).
Proof.
  intros y k H. apply day_back_year in H.
  pose proof (day_backward (y - 1) 12 31 _ ltac:(lia) H 30 ltac:(lia) ltac:(lia)) as E.
  replace (31 - 30) with 1 in E by lia.
  assert (P : forall i, 0 <= i -> i <= 11 -> Day (y - 1) (12 - i) 1
      (k - 1 - 30 - (days_before_month (y - 1) 12 - days_before_month (y - 1) (12 - i)))).
  { apply (natlike_ind (fun i => i <= 11 -> Day (y - 1) (12 - i) 1
      (k - 1 - 30 - (days_before_month (y - 1) 12 - days_before_month (y - 1) (12 - i))))).
    - intros _. rewrite Z.sub_0_r, Z.sub_diag, Z.sub_0_r. exact E.
    - intros i Hi IH B. replace (12 - Z.succ i) with (12 - i - 1) by lia.
      pose proof (before_next (y - 1) (12 - i - 1) ltac:(lia)) as N.
      replace (12 - i - 1 + 1) with (12 - i) in N by lia.
      pose proof (month_backward (y - 1) (12 - i) _ ltac:(lia) (IH ltac:(lia))) as M.
      match goal with |- Day _ _ _ ?a => match type of M with Day _ _ _ ?b => replace a with b by lia end end.
      exact M. }
  specialize (P 11 ltac:(lia) ltac:(lia)). replace (12 - 11) with 1 in P by lia.
  match goal with |- Day _ _ _ ?a => match type of P with Day _ _ _ ?b => replace a with b; [exact P|] end end.
  unfold days_before_month. change (nth (Z.to_nat (12 - 1)) _ 0) with 334. change (nth (Z.to_nat (1 - 1)) _ 0) with 0.
  cbn [Z.ltb Z.compare Pos.compare Pos.compare_cont andb]. destruct (leap_year (y - 1)); lia.
Qed.

Lemma year_start : forall y, Day y 1 1 (days_before_year y - 719528).
Proof.
  assert (P : forall i, 0 <= i -> Day (1970 + i) 1 1 (days_before_year (1970 + i) - 719528)).
  { apply natlike_ind.
    - exact day_epoch.
    - intros i Hi IH. apply year_forward in IH. rewrite <- Z.add_1_r, Z.add_assoc, year_length.
      match goal with |- Day _ _ _ ?a => match type of IH with Day _ _ _ ?b => replace a with b by lia end end.
      exact IH. }
  assert (Q : forall i, 0 <= i -> Day (1970 - i) 1 1 (days_before_year (1970 - i) - 719528)).
  { apply natlike_ind.
    - exact day_epoch.
    - intros i Hi IH. apply year_backward in IH. replace (1970 - Z.succ i) with (1970 - i - 1) by lia.
      pose proof (year_length (1970 - i - 1)) as L. replace (1970 - i - 1 + 1) with (1970 - i) in L by lia.
      match goal with |- Day _ _ _ ?a => match type of IH with Day _ _ _ ?b => replace a with b by lia end end.
      exact IH. }
  intros y. destruct (Z.le_gt_cases 1970 y).
  - replace y with (1970 + (y - 1970)) by lia. apply P. lia.
  - replace y with (1970 - (1970 - y)) by lia. apply Q. lia.
Qed.

Lemma day_of : forall y m d, ValidDate y m d -> Day y m d (days_of_date y m d).
Proof.
  intros y m d [Hm Hd]. unfold days_of_date.
  pose proof (months_forward y _ (year_start y) m Hm) as M.
  pose proof (day_forward y m _ Hm M (d - 1) ltac:(lia) ltac:(lia)) as D.
  replace (d - 1 + 1) with d in D by lia.
  match goal with |- Day _ _ _ ?a => match type of D with Day _ _ _ ?b => replace a with b by lia end end.
  exact D.
Qed.

(** The day of a date is unique. *)
Lemma day_unique : forall y m d k, Day y m d k -> ValidDate y m d /\ k = days_of_date y m d.
Proof.
  unfold ValidDate. induction 1 as [|y m d k n H IH D L|y m d k H IH D L|y k H IH|y m d k H IH L|y m k n H IH L D|y k H IH].
  - split; [cbn; lia|reflexivity].
  - apply days_in_eq in D. destruct IH as [V ->]. split; [lia|]. unfold days_of_date. lia.
  - apply days_in_eq in D. destruct IH as [V ->]. pose proof (month_days_range y (m + 1)). split; [lia|].
    unfold days_of_date. rewrite before_next by lia. lia.
  - destruct IH as [V ->]. split; [cbn; lia|]. unfold days_of_date. rewrite year_length.
    unfold days_before_month. cbn [Z.ltb Z.compare Pos.compare Pos.compare_cont andb].
    change (nth (Z.to_nat (12 - 1)) _ 0) with 334. change (nth (Z.to_nat (1 - 1)) _ 0) with 0.
    destruct (leap_year y); lia.
  - destruct IH as [V ->]. split; [lia|]. unfold days_of_date. lia.
  - apply days_in_eq in D. destruct D as [M ->]. destruct IH as [V ->].
    pose proof (month_days_range y (m - 1)). split; [lia|]. unfold days_of_date.
    pose proof (before_next y (m - 1) ltac:(lia)) as N. replace (m - 1 + 1) with m in N by lia. lia.
  - destruct IH as [V ->]. split; [cbn; lia|]. unfold days_of_date.
    pose proof (year_length (y - 1)) as L. replace (y - 1 + 1) with y in L by lia.
    unfold days_before_month. cbn [Z.ltb Z.compare Pos.compare Pos.compare_cont andb].
    change (nth (Z.to_nat (12 - 1)) _ 0) with 334. change (nth (Z.to_nat (1 - 1)) _ 0) with 0.
    destruct (leap_year (y - 1)); lia.
Qed.

(** ** Digits *)

Local Open Scope N_scope.

Lemma digit_value_digit : forall b, digit_value b <> None -> digit b.
Proof.
  intros b. unfold digit_value, in_range, digit. intros H.
  destruct (N.leb_spec 48 (b2n b)); [|now destruct H]. destruct (N.leb_spec (b2n b) 57); [lia|now destruct H].
Qed.

Lemma dec_value_app : forall a b, dec_value (a ++ b) = dec_value a * 10 ^ N.of_nat (length b) + dec_value b.
Proof.
  assert (P : forall b x, fold_left (fun a c => 10 * a + (b2n c - 48)) b x = x * 10 ^ N.of_nat (length b) + dec_value b).
  { unfold dec_value. induction b as [|c b IH]; intros x; cbn [fold_left length].
    - change (10 ^ N.of_nat 0) with 1. lia.
    - rewrite IH, (IH (10 * 0 + _)), Nat2N.inj_succ, N.pow_succ_r by lia. lia. }
  intros a b. unfold dec_value at 1. rewrite fold_left_app, P. reflexivity.
Qed.

Lemma digit_char_digit : forall d, d < 10 -> b2n (digit_char d) = 48 + d.
Proof. intros d H. unfold digit_char. rewrite b2n_n2b, N.mod_small by lia. reflexivity. Qed.

Lemma pad_value : forall k n, n < 10 ^ N.of_nat k -> dec_value (pad_digits k n) = n.
Proof.
  induction k as [|k IH]; intros n H; cbn [pad_digits].
  - change (10 ^ N.of_nat 0) with 1 in H. cbn. lia.
  - rewrite Nat2N.inj_succ, N.pow_succ_r in H by lia.
    rewrite dec_value_app, IH by (apply N.div_lt_upper_bound; lia).
    unfold dec_value. cbn [fold_left length].
    rewrite digit_char_digit by (apply N.mod_lt; discriminate).
    change (10 ^ N.of_nat 1) with 10. pose proof (N.div_mod n 10 ltac:(discriminate)). lia.
Qed.

Lemma padded : forall k n, n < 10 ^ N.of_nat k -> Padded k n (pad_digits k n).
Proof.
  intros k n H. split; [apply pad_length|]. split; [|now apply pad_value].
  apply Forall_forall. intros b Hb. apply digit_value_digit.
  pose proof (pad_digit k n) as P. rewrite Forall_forall in P. auto.
Qed.

Lemma strip_head : forall l r, strip_char_zeros l <> "0"%byte :: r.
Proof.
  induction l as [|b l IH]; intros r; cbn [strip_char_zeros]; [discriminate|].
  destruct (Byte.eqb b "0") eqn:E; [apply IH|]. intros X. inversion X; subst. now rewrite (Byte.byte_dec_lb eq_refl) in E.
Qed.

Lemma trim_last : forall l r, trim_fraction l <> r ++ ["0"%byte].
Proof.
  intros l r H. unfold trim_fraction in H. apply (f_equal (@rev byte)) in H.
  rewrite rev_involutive, rev_app_distr in H. now apply strip_head in H.
Qed.

Lemma dec_zeros : forall k, dec_value (repeat "0"%byte k) = 0.
Proof. induction k as [|k IH]; [reflexivity|]. change (repeat "0"%byte (S k)) with (["0"%byte] ++ repeat "0"%byte k). rewrite dec_value_app, IH. change (dec_value ["0"%byte]) with 0. lia. Qed.

Lemma fraction_text : forall n, n < 1000000000 ->
  Fraction n (if n =? 0 then [] else ascii "." ++ trim_fraction (pad_digits 9 n)).
Proof.
  intros n H. destruct (N.eqb_spec n 0) as [->|Z]; [now left|right].
  exists (trim_fraction (pad_digits 9 n)). split; [reflexivity|].
  destruct (trim_split (pad_digits 9 n)) as [k E].
  pose proof (padded 9 n ltac:(exact H)) as (L & D & V).
  rewrite E in L, D, V. rewrite app_length, repeat_length in L. rewrite dec_value_app, dec_zeros, repeat_length in V.
  apply Forall_app in D. split; [tauto|].
  set (t := trim_fraction (pad_digits 9 n)) in *.
  replace (9 - length t)%nat with k by lia. split; [|split; [lia|apply trim_last]].
  split; [|lia]. destruct t as [|c t]; [exfalso; apply Z; cbn [dec_value fold_left] in V; lia|cbn [length]; lia].
Qed.

Lemma rfc3339_form : forall t s, rfc3339_text t = Some s -> Rfc3339 t s.
Proof.
  intros t s H. unfold rfc3339_text in H.
  pose proof (date_of_days_ok (odt_secs t / 86400)) as Hd.
  destruct (date_of_days (odt_secs t / 86400)) as [[y m] d]. destruct Hd as [[Vm Vd] D].
  destruct (Z.ltb_spec y 0) as [|Y0]; [discriminate|]. destruct (Z.ltb_spec 9999 y) as [|Y1]; [discriminate|].
  cbn [orb] in H. apply (f_equal (fun o => match o with Some x => x | None => s end)) in H; cbv beta iota in H; subst s.
  pose proof (month_days_range y m) as Md. pose proof (odt_bounds t) as [_ Bn].
  pose proof (Z.mod_pos_bound (odt_secs t) 86400 ltac:(reflexivity)) as Bs.
  pose proof (Z.div_mod (odt_secs t) 86400 ltac:(discriminate)) as Es.
  assert (Bsn : Z.to_N (odt_secs t mod 86400) < 86400) by lia.
  assert (Esn : Z.of_N (Z.to_N (odt_secs t mod 86400)) = (odt_secs t mod 86400)%Z) by lia.
  remember (Z.to_N (odt_secs t mod 86400)) as sn eqn:Hsn.
  assert (H24 : sn / 3600 < 24) by (apply N.div_lt_upper_bound; lia).
  assert (H60 : sn / 60 mod 60 < 60) by (apply N.mod_lt; discriminate).
  assert (H60' : sn mod 60 < 60) by (apply N.mod_lt; discriminate).
  exists (Z.to_N y), (Z.to_N m), (Z.to_N d), (odt_secs t / 86400)%Z, (sn / 3600), (sn / 60 mod 60), (sn mod 60).
  do 7 eexists.
  split. { rewrite !Z2N.id by lia. rewrite <- D. apply day_of. now split. }
  split; [exact H24|]. split; [exact H60|]. split; [exact H60'|].
  split.
  { rewrite Es at 1. f_equal. rewrite <- Esn. f_equal.
    pose proof (N.div_mod' sn 60). pose proof (N.div_mod' (sn / 60) 60).
    pose proof (N.div_div sn 60 60 ltac:(discriminate) ltac:(discriminate)) as Q. change (60 * 60) with 3600 in Q. lia. }
  split; [apply padded; change (10 ^ N.of_nat 4) with 10000; lia|].
  split; [apply padded; change (10 ^ N.of_nat 2) with 100; lia|].
  split; [apply padded; change (10 ^ N.of_nat 2) with 100; lia|].
  split; [apply padded; change (10 ^ N.of_nat 2) with 100; lia|].
  split; [apply padded; change (10 ^ N.of_nat 2) with 100; lia|].
  split; [apply padded; change (10 ^ N.of_nat 2) with 100; lia|].
  split; [now apply fraction_text|]. reflexivity.
Qed.

(** ** Hexadecimal *)

Lemma hex_char_nth : forall n, n < 16 -> hex_char n = nth (N.to_nat n) hex_digits_lower x00.
Proof.
  intros n H. assert (E : forallb (fun i => Byte.eqb (hex_char (N.of_nat i)) (nth i hex_digits_lower x00)) (seq 0 16) = true) by reflexivity.
  rewrite forallb_forall in E. specialize (E (N.to_nat n)). rewrite N2Nat.id in E.
  apply Byte.byte_dec_bl. apply E. apply in_seq. lia.
Qed.

Lemma hex_encode_hex : forall l, hex_encode l = hex l.
Proof.
  unfold hex. induction l as [|b l IH]; [reflexivity|]. cbn [hex_encode flat_map app]. rewrite IH.
  pose proof (b2n_lt b). rewrite !hex_char_nth; [reflexivity|apply N.mod_lt; discriminate|].
  apply N.div_lt_upper_bound; lia.
Qed.

(** ** Decimal *)

Lemma dec_value_lt : forall s, Forall digit s -> dec_value s < 10 ^ N.of_nat (length s).
Proof.
  induction s as [|c s IH] using rev_ind; intros H; [reflexivity|]. apply Forall_app in H. destruct H as [H1 H2].
  inversion H2; subst. unfold digit in *. specialize (IH H1).
  rewrite dec_value_app, app_length, (Nat.add_comm (length s)). cbn [length Nat.add].
  rewrite !Nat2N.inj_succ, !N.pow_succ_r'. change (10 ^ N.of_nat 0) with 1.
  change (dec_value [c]) with (b2n c - 48). lia.
Qed.

Lemma same_length_value : forall s t, Forall digit s -> Forall digit t -> length s = length t ->
  dec_value s = dec_value t -> s = t.
Proof.
  induction s as [|c s IH] using rev_ind; intros t Hs Ht L E.
  - destruct t; [reflexivity|discriminate].
  - destruct t as [|d t _] using rev_ind.
    + rewrite app_length in L. cbn in L. lia.
    + rewrite !app_length in L. cbn [length] in L.
      apply Forall_app in Hs. apply Forall_app in Ht. destruct Hs as [Hs Hc], Ht as [Ht Hd].
      inversion Hc; inversion Hd; subst. unfold digit in *.
      rewrite !dec_value_app in E. cbn [length] in E. change (10 ^ N.of_nat 1) with 10 in E.
      change (dec_value [c]) with (b2n c - 48) in E. change (dec_value [d]) with (b2n d - 48) in E.
      rewrite (IH t) by (auto; lia). f_equal. f_equal. apply b2n_inj. lia.
Qed.

Lemma head_value : forall c s, Forall digit (c :: s) -> c <> "0"%byte -> 10 ^ N.of_nat (length s) <= dec_value (c :: s).
Proof.
  intros c s H N. change (c :: s) with ([c] ++ s). rewrite dec_value_app.
  inversion H; subst. unfold digit in *. change (dec_value [c]) with (b2n c - 48).
  assert (b2n c <> 48). { intros E. apply N. apply b2n_inj. rewrite E. reflexivity. }
  assert (1 * 10 ^ N.of_nat (length s) <= (b2n c - 48) * 10 ^ N.of_nat (length s)) by (apply N.mul_le_mono_r; lia). lia.
Qed.

Lemma decimal_unique : forall s t, Forall digit s -> Forall digit t ->
  (forall r, s <> "0"%byte :: r) -> (forall r, t <> "0"%byte :: r) -> dec_value s = dec_value t -> s = t.
Proof.
  intros s t Hs Ht Ns Nt E. apply same_length_value; auto.
  pose proof (dec_value_lt s Hs) as Ls. pose proof (dec_value_lt t Ht) as Lt.
  assert (P : forall a b : bytes, Forall digit a -> (forall r, a <> "0"%byte :: r) ->
             dec_value a < 10 ^ N.of_nat (length b) -> (length a <= length b)%nat).
  { intros a b Ha Na La. destruct a as [|c a]; [cbn; lia|].
    pose proof (head_value c a Ha ltac:(intros ->; now apply (Na a))) as G.
    pose proof (N.le_lt_trans _ _ _ G La) as X. apply N.pow_lt_mono_r_iff in X; [|lia]. cbn [length]. lia. }
  pose proof (P s t Hs Ns ltac:(lia)). pose proof (P t s Ht Nt ltac:(lia)). lia.
Qed.

Definition dec_step (a : N) (c : byte) : N := 10 * a + (b2n c - 48).

Lemma ascii_cons : forall c s, ascii (String c s) = Ascii.byte_of_ascii c :: ascii s.
Proof. reflexivity. Qed.

Lemma uint_acc_value : forall u p, fold_left dec_step (ascii (NilEmpty.string_of_uint u)) (Npos p) = Npos (Pos.of_uint_acc u p).
Proof.
  induction u; intros p; cbn [NilEmpty.string_of_uint Pos.of_uint_acc]; [reflexivity|..];
    rewrite ascii_cons; cbn [fold_left]; rewrite <- IHu; f_equal; unfold dec_step;
    match goal with |- context [b2n ?b - 48] => let v := eval vm_compute in (b2n b - 48) in change (b2n b - 48) with v end; lia.
Qed.

Lemma uint_value : forall u, dec_value (ascii (NilEmpty.string_of_uint u)) = N.of_uint u.
Proof.
  unfold dec_value, N.of_uint. change (fun a c => 10 * a + (b2n c - 48)) with dec_step.
  induction u; cbn [NilEmpty.string_of_uint Pos.of_uint]; [reflexivity|..];
    rewrite ascii_cons; cbn [fold_left];
    [exact IHu|..]; rewrite <- uint_acc_value; f_equal.
Qed.

Lemma uint_digits : forall u, Forall digit (ascii (NilEmpty.string_of_uint u)).
Proof.
  induction u; cbn [NilEmpty.string_of_uint]; [constructor|..]; rewrite ascii_cons; constructor; auto;
    unfold digit; cbn; lia.
Qed.

Lemma nzhead_not_zero : forall u r, Decimal.nzhead u <> D0 r.
Proof. induction u; intros r; cbn [Decimal.nzhead]; try discriminate. apply IHu. Qed.

Lemma to_uint_head : forall n, n <> 0 -> Decimal.nzhead (N.to_uint n) = N.to_uint n.
Proof.
  intros n H. pose proof (DecimalN.Unsigned.to_of (N.to_uint n)) as E.
  rewrite DecimalN.Unsigned.of_to in E. unfold Decimal.unorm in E.
  destruct (Decimal.nzhead (N.to_uint n)) eqn:Z; try (symmetry; exact E).
  exfalso. apply H. rewrite <- (DecimalN.Unsigned.of_to n), E. reflexivity.
Qed.

Lemma dec_text_decimal : forall n, dec_text n = decimal n.
Proof.
  intros n. destruct (dec_text_spec n) as (D & V & NZ & Z).
  destruct (N.eq_dec n 0) as [->|Hn]; [rewrite Z by reflexivity; reflexivity|].
  assert (E : decimal n = ascii (NilEmpty.string_of_uint (N.to_uint n))).
  { unfold decimal, NilZero.string_of_uint. pose proof (to_uint_head n Hn) as Hz.
    destruct (N.to_uint n) eqn:U; try reflexivity. exfalso. apply Hn.
    rewrite <- (DecimalN.Unsigned.of_to n), U. reflexivity. }
  rewrite E. apply decimal_unique.
  - apply D.
  - apply uint_digits.
  - intros r X. now apply (NZ Hn "0"%byte r X).
  - intros r X. destruct (N.to_uint n) eqn:U; cbn [NilEmpty.string_of_uint] in X; try discriminate X.
    apply (nzhead_not_zero (N.to_uint n) u). now rewrite to_uint_head.
  - rewrite V, uint_value. symmetry. apply DecimalN.Unsigned.of_to.
Qed.
