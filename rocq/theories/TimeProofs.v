(** Proofs about RFC 3339 timestamps. *)

From Verif Require Import Base Model_encoding Model_json.
Local Open Scope Z_scope.

Ltac zdiv := Z.to_euclidean_division_equations; lia.

(** ** The calendar *)

Fixpoint check_range (P : Z -> bool) (k : nat) (lo : Z) : bool :=
  match k with
  | O => P lo
  | S k' => check_range P k' lo && check_range P k' (lo + 2 ^ Z.of_nat k')
  end.

Lemma check_range_ok : forall P k lo, check_range P k lo = true ->
  forall x, lo <= x < lo + 2 ^ Z.of_nat k -> P x = true.
Proof.
  intros P. induction k as [|k IH]; intros lo H x Hx.
  - cbn [check_range] in H. change (2 ^ Z.of_nat 0) with 1 in Hx. replace x with lo by lia. exact H.
  - cbn [check_range] in H. apply andb_true_iff in H. destruct H as [H1 H2].
    rewrite Nat2Z.inj_succ, Z.pow_succ_r in Hx by lia.
    destruct (Z.lt_ge_cases x (lo + 2 ^ Z.of_nat k)).
    + apply (IH lo); auto; lia.
    + apply (IH _ H2). lia.
Qed.

(** the date of a day of an era, with the year relative to the era *)
Definition era_date (doe : Z) : Z * Z * Z :=
  let yoe := (doe - doe / 1460 + doe / 36524 - doe / 146096) / 365 in
  let doy := doe - (365 * yoe + yoe / 4 - yoe / 100) in
  let mp := (5 * doy + 2) / 153 in
  let d := doy - (153 * mp + 2) / 5 + 1 in
  let m := if mp <? 10 then mp + 3 else mp - 9 in
  (yoe + (if m <=? 2 then 1 else 0), m, d).

Definition era_check (doe : Z) : bool :=
  if 146097 <=? doe then true
  else
    let '(y, m, d) := era_date doe in
    (1 <=? m) && (m <=? 12) && (1 <=? d) && (d <=? month_days y m) &&
    (days_before_year y + days_before_month y m + (d - 1) =? doe + 60).

Lemma era_checked : check_range era_check 18 0 = true.
Proof. vm_cast_no_check (eq_refl true). Qed.

Lemma leap_shift : forall y e, leap_year (y + e * 400) = leap_year y.
Proof.
  intros y e. unfold leap_year.
  replace ((y + e * 400) mod 4) with (y mod 4) by zdiv.
  replace ((y + e * 400) mod 100) with (y mod 100) by zdiv.
  now rewrite Z.mod_add by lia.
Qed.

Lemma year_shift : forall y e, days_before_year (y + e * 400) = days_before_year y + 146097 * e.
Proof. intros y e. unfold days_before_year. zdiv. Qed.

Definition ValidDate (y m d : Z) : Prop := 1 <= m <= 12 /\ 1 <= d <= month_days y m.

Lemma date_of_days_ok : forall z,
  let '(y, m, d) := date_of_days z in ValidDate y m d /\ days_of_date y m d = z.
Proof.
  intros z.
  pose proof (Z.div_mod (z + 719468) 146097 ltac:(discriminate)) as E.
  pose proof (Z.mod_pos_bound (z + 719468) 146097 ltac:(reflexivity)) as B.
  assert (D : date_of_days z =
    let '(y, m, d) := era_date ((z + 719468) mod 146097) in (y + (z + 719468) / 146097 * 400, m, d)).
  { unfold date_of_days, era_date. cbv zeta.
    match goal with |- context [if ?b then 1 else 0] => destruct b end; f_equal; f_equal; lia. }
  rewrite D. clear D.
  pose proof (check_range_ok _ _ _ era_checked ((z + 719468) mod 146097)) as C.
  change (0 + 2 ^ Z.of_nat 18) with 262144 in C. specialize (C ltac:(lia)).
  unfold era_check in C. destruct (Z.leb_spec 146097 ((z + 719468) mod 146097)) as [X|_]; [lia|].
  generalize dependent ((z + 719468) mod 146097). intros doe E B C.
  generalize dependent ((z + 719468) / 146097). intros era E.
  destruct (era_date doe) as [[y m] d].
  rewrite !andb_true_iff, !Z.leb_le, Z.eqb_eq in C. destruct C as [[[[C1 C2] C3] C4] C5].
  unfold ValidDate, month_days, days_of_date, days_before_month in *.
  rewrite year_shift, leap_shift. split; [split; [lia|]|lia]. split; [lia|]. exact C4.
Qed.

Lemma year_monotone : forall y y', y <= y' -> days_before_year y <= days_before_year y'.
Proof. intros y y' H. unfold days_before_year. zdiv. Qed.

Lemma leap_mod : forall y, leap_year y = true <-> y mod 4 = 0 /\ (y mod 100 <> 0 \/ y mod 400 = 0).
Proof.
  intros y. unfold leap_year.
  rewrite andb_true_iff, orb_true_iff, negb_true_iff, Z.eqb_eq, Z.eqb_neq, Z.eqb_eq. tauto.
Qed.

Lemma year_length : forall y, days_before_year (y + 1) = days_before_year y + 365 + (if leap_year y then 1 else 0).
Proof.
  intros y. destruct (leap_year y) eqn:L.
  - apply leap_mod in L. unfold days_before_year. zdiv.
  - assert (~ (y mod 4 = 0 /\ (y mod 100 <> 0 \/ y mod 400 = 0))) by (rewrite <- leap_mod, L; discriminate).
    unfold days_before_year. zdiv.
Qed.

Lemma day_of_year : forall y m d, ValidDate y m d ->
  0 <= days_before_month y m + (d - 1) < 365 + (if leap_year y then 1 else 0).
Proof.
  intros y m d [Hm Hd]. unfold days_before_month, month_days in *.
  assert (C : m = 1 \/ m = 2 \/ m = 3 \/ m = 4 \/ m = 5 \/ m = 6 \/ m = 7 \/ m = 8 \/ m = 9 \/ m = 10 \/ m = 11 \/ m = 12) by lia.
  destruct (leap_year y); repeat (destruct C as [C|C]);
    (clear Hm; subst m; cbn [Z.eqb Pos.eqb orb] in *;
     match goal with |- context [nth ?a ?b ?c] => let v := eval compute in (nth a b c) in change (nth a b c) with v end;
     match goal with |- context [(2 <? ?a)%Z] => let v := eval compute in (2 <? a)%Z in change (2 <? a)%Z with v end;
     cbn [andb]; lia).
Qed.

Lemma date_range : forall z, -719528 <= z <= 2932896 ->
  let '(y, m, d) := date_of_days z in 0 <= y <= 9999.
Proof.
  intros z Hz. pose proof (date_of_days_ok z) as H. destruct (date_of_days z) as [[y m] d].
  destruct H as [V D]. pose proof (day_of_year _ _ _ V) as R. pose proof (year_length y) as L.
  unfold days_of_date in D. split.
  - destruct (Z.le_gt_cases 0 y); [auto|]. exfalso.
    pose proof (year_monotone (y + 1) 0 ltac:(lia)) as M. change (days_before_year 0) with 0 in M. lia.
  - destruct (Z.le_gt_cases y 9999); [auto|]. exfalso.
    pose proof (year_monotone 10000 y ltac:(lia)) as M. change (days_before_year 10000) with 3652425 in M. lia.
Qed.

Lemma date_before : forall z, z < -719528 -> let '(y, m, d) := date_of_days z in y < 0.
Proof.
  intros z Hz. pose proof (date_of_days_ok z) as H. destruct (date_of_days z) as [[y m] d].
  destruct H as [V D]. pose proof (day_of_year _ _ _ V) as R.
  unfold days_of_date in D. destruct (Z.lt_ge_cases y 0); [auto|]. exfalso.
  pose proof (year_monotone 0 y ltac:(lia)) as M. change (days_before_year 0) with 0 in M. lia.
Qed.

(** ** Digits *)

Local Open Scope N_scope.

Lemma digit_char_value : forall d, d < 10 -> digit_value (digit_char d) = Some d.
Proof.
  intros d H. unfold digit_value, digit_char, in_range. rewrite b2n_n2b, N.mod_small by lia.
  destruct (N.leb_spec 48 (48 + d)); [|lia]. destruct (N.leb_spec (48 + d) 57); [|lia].
  cbn [andb]. f_equal. lia.
Qed.

Lemma take_digits_snoc : forall k acc s v b x r,
  take_digits k acc s = Some (v, b :: r) -> digit_value b = Some x ->
  take_digits (S k) acc s = Some (v * 10 + x, r).
Proof.
  induction k as [|k IH]; intros acc s v b x r H D.
  - cbn [take_digits] in H. inversion H; subst. cbn [take_digits]. now rewrite D.
  - cbn [take_digits] in H. destruct s as [|c s]; [discriminate|].
    destruct (digit_value c) as [y|] eqn:E; [|discriminate].
    change (take_digits (S (S k)) acc (c :: s)) with
      (match digit_value c with Some d => take_digits (S k) (acc * 10 + d) s | None => None end).
    rewrite E. now apply (IH _ _ _ b).
Qed.

Lemma take_digits_pad : forall k n acc s, n < 10 ^ N.of_nat k ->
  take_digits k acc (pad_digits k n ++ s) = Some (acc * 10 ^ N.of_nat k + n, s).
Proof.
  induction k as [|k IH]; intros n acc s H.
  - cbn [pad_digits take_digits app]. change (10 ^ N.of_nat 0) with 1 in *. do 2 f_equal. lia.
  - cbn [pad_digits]. rewrite <- app_assoc. cbn [app].
    rewrite Nat2N.inj_succ, N.pow_succ_r in H by lia.
    rewrite (take_digits_snoc _ _ _ _ _ _ _ (IH (n / 10) acc _ ltac:(apply N.div_lt_upper_bound; lia))
               (digit_char_value (n mod 10) ltac:(apply N.mod_lt; discriminate))).
    do 2 f_equal. rewrite Nat2N.inj_succ, N.pow_succ_r by lia.
    pose proof (N.div_mod n 10 ltac:(discriminate)). lia.
Qed.

Lemma pad2 : forall n s, n < 100 -> take_digits 2 0 (pad_digits 2 n ++ s) = Some (n, s).
Proof. intros. rewrite take_digits_pad by exact H. reflexivity. Qed.
Lemma pad4 : forall n s, n < 10000 -> take_digits 4 0 (pad_digits 4 n ++ s) = Some (n, s).
Proof. intros. rewrite take_digits_pad by exact H. reflexivity. Qed.

(** ** Fractions *)

Definition dig (b : byte) : N := match digit_value b with Some d => d | None => 0 end.
Fixpoint frac (w : N) (l : bytes) : N :=
  match l with [] => 0 | b :: r => dig b * w + frac (w / 10) r end.

Lemma take_fraction_app : forall l v w r, Forall (fun b => digit_value b <> None) l ->
  match r with b :: _ => digit_value b = None | [] => True end ->
  take_fraction v w (l ++ r) = (v + frac w l, r).
Proof.
  induction l as [|b l IH]; intros v w r F R; cbn [app frac].
  - rewrite N.add_0_r. destruct r as [|c r]; [reflexivity|]. cbn [take_fraction]. now rewrite R.
  - inversion F; subst. cbn [take_fraction]. unfold dig.
    destruct (digit_value b); [|congruence]. rewrite IH by assumption. f_equal. lia.
Qed.

Lemma frac_snoc : forall l w b, frac w (l ++ [b]) = frac w l + dig b * (w / 10 ^ N.of_nat (length l)).
Proof.
  induction l as [|a l IH]; intros w b; cbn [app frac length].
  - change (10 ^ N.of_nat 0) with 1. rewrite N.div_1_r. lia.
  - rewrite IH, Nat2N.inj_succ, N.pow_succ_r, <- N.div_div by (try apply N.pow_nonzero; lia). lia.
Qed.

Lemma frac_zeros : forall k l w, frac w (l ++ repeat "0"%byte k) = frac w l.
Proof.
  induction k as [|k IH]; intros l w.
  - now rewrite app_nil_r.
  - change (repeat "0"%byte (S k)) with (["0"%byte] ++ repeat "0"%byte k).
    rewrite app_assoc, IH, frac_snoc. change (dig "0"%byte) with 0. lia.
Qed.

Lemma pad_length : forall k n, length (pad_digits k n) = k.
Proof. induction k; intros n; cbn [pad_digits]; [reflexivity|]. rewrite app_length, IHk. cbn. lia. Qed.

Lemma pad_digit : forall k n, Forall (fun b => digit_value b <> None) (pad_digits k n).
Proof.
  induction k as [|k IH]; intros n; cbn [pad_digits]; [constructor|].
  apply Forall_app. split; [apply IH|]. constructor; [|constructor].
  rewrite digit_char_value by (apply N.mod_lt; discriminate). discriminate.
Qed.

Lemma pow10_div : forall K k, k <= K -> 10 ^ K / 10 ^ k = 10 ^ (K - k).
Proof.
  intros K k H. replace K with ((K - k) + k) at 1 by lia. rewrite N.pow_add_r.
  apply N.div_mul. apply N.pow_nonzero. discriminate.
Qed.

Lemma frac_pad : forall k K n, N.of_nat k <= K + 1 -> n < 10 ^ N.of_nat k ->
  frac (10 ^ K) (pad_digits k n) = n * 10 ^ (K + 1 - N.of_nat k).
Proof.
  induction k as [|k IH]; intros K n Hk Hn.
  - change (10 ^ N.of_nat 0) with 1 in Hn. replace n with 0 by lia. reflexivity.
  - cbn [pad_digits]. rewrite Nat2N.inj_succ in *. rewrite N.pow_succ_r in Hn by lia.
    rewrite frac_snoc, IH, pad_length by (try (apply N.div_lt_upper_bound); lia).
    unfold dig. rewrite digit_char_value by (apply N.mod_lt; discriminate).
    rewrite pow10_div by lia.
    replace (K + 1 - N.of_nat k) with (N.succ (K - N.of_nat k)) by lia.
    replace (K + 1 - N.succ (N.of_nat k)) with (K - N.of_nat k) by lia.
    rewrite N.pow_succ_r by lia.
    pose proof (N.div_mod n 10 ltac:(discriminate)) as E.
    rewrite E at 3. lia.
Qed.

Lemma strip_zeros_split : forall l, exists k, l = repeat "0"%byte k ++ strip_char_zeros l.
Proof.
  induction l as [|b l [k IH]]; [now exists 0%nat|]. cbn [strip_char_zeros].
  destruct (Byte.eqb b "0") eqn:E.
  - apply Byte.byte_dec_bl in E. subst b. exists (S k). cbn [repeat app]. now f_equal.
  - now exists 0%nat.
Qed.

Lemma rev_repeat : forall A (x : A) k, rev (repeat x k) = repeat x k.
Proof.
  intros A x. induction k as [|k IH]; [reflexivity|]. cbn [repeat rev]. rewrite IH.
  clear IH. induction k as [|k IH]; [reflexivity|]. cbn [repeat app]. now rewrite IH.
Qed.

Lemma trim_split : forall l, exists k, l = trim_fraction l ++ repeat "0"%byte k.
Proof.
  intros l. destruct (strip_zeros_split (rev l)) as [k E]. exists k.
  unfold trim_fraction. apply (f_equal (@rev byte)) in E.
  rewrite rev_involutive, rev_app_distr, rev_repeat in E. exact E.
Qed.

Lemma parse_fraction_text : forall n r, n < 1000000000 ->
  match r with b :: _ => digit_value b = None /\ Byte.eqb b "." = false | [] => True end ->
  parse_fraction ((if n =? 0 then [] else ascii "." ++ trim_fraction (pad_digits 9 n)) ++ r) = Some (n, r).
Proof.
  intros n r Hn Hr. destruct (N.eqb_spec n 0) as [->|Hz].
  - cbn [app]. unfold parse_fraction, take_char. destruct r as [|b r]; [reflexivity|].
    destruct Hr as [_ ->]. reflexivity.
  - rewrite <- app_assoc. destruct (trim_split (pad_digits 9 n)) as [k E].
    set (l := trim_fraction (pad_digits 9 n)) in *.
    assert (F : frac (10 ^ 8) l = n).
    { rewrite <- (frac_zeros k), <- E, frac_pad; [|reflexivity|exact Hn].
      change (10 ^ (8 + 1 - N.of_nat 9)) with 1. lia. }
    assert (D : Forall (fun b => digit_value b <> None) l).
    { pose proof (pad_digit 9 n) as P. rewrite E in P. now apply Forall_app in P. }
    change (ascii "." ++ l ++ r) with ("."%byte :: (l ++ r)).
    unfold parse_fraction, take_char. change (Byte.eqb "." ".") with true. cbv iota.
    change 100000000 with (10 ^ 8). rewrite take_fraction_app by (auto; destruct r; tauto).
    rewrite F, N.add_0_l.
    destruct l as [|b l]; [change (frac (10 ^ 8) []) with 0 in F; congruence|].
    cbn [app]. apply Forall_inv in D. destruct (digit_value b); [reflexivity|congruence].
Qed.

(** ** Whole timestamps *)

Lemma mk_odt_eq : forall t, mk_odt (odt_secs t) (odt_nanos t) = Some t.
Proof.
  intros t. unfold mk_odt. destruct (bool_dec _ true) as [h|h].
  - f_equal. now apply odt_eq.
  - destruct h, t; assumption.
Qed.

Definition year0 : Z := (-62167219200)%Z.

Lemma odt_bounds : forall t, (ts_min <= odt_secs t <= ts_max)%Z /\ odt_nanos t < 1000000000.
Proof. intros [s n h]; cbn. rewrite !andb_true_iff in h. lia. Qed.

Lemma oand_some : forall A B (a : A) (f : A -> option B), oand (Some a) f = f a.
Proof. reflexivity. Qed.
Lemma oand_pad4 : forall B n s (f : N * bytes -> option B), n < 10000 ->
  oand (take_digits 4 0 (pad_digits 4 n ++ s)) f = f (n, s).
Proof. intros. now rewrite pad4. Qed.
Lemma oand_pad2 : forall B n s (f : N * bytes -> option B), n < 100 ->
  oand (take_digits 2 0 (pad_digits 2 n ++ s)) f = f (n, s).
Proof. intros. now rewrite pad2. Qed.
Lemma oand_char : forall c t s B (f : bytes -> option B), ascii t = [c] ->
  oand (take_char c (ascii t ++ s)) f = f s.
Proof. intros c t s B f H. rewrite H. cbn [app take_char]. now rewrite (Byte.byte_dec_lb eq_refl). Qed.

Lemma rfc3339_text_some : forall t, (year0 <= odt_secs t)%Z -> exists s, rfc3339_text t = Some s.
Proof.
  intros t H. unfold rfc3339_text. pose proof (odt_bounds t) as [B _].
  unfold year0, ts_max in *.
  pose proof (date_range (odt_secs t / 86400) ltac:(zdiv)) as R.
  destruct (date_of_days (odt_secs t / 86400)) as [[y m] d].
  destruct (Z.ltb_spec y 0); [lia|]. destruct (Z.ltb_spec 9999 y); [lia|]. cbn [orb]. eauto.
Qed.

Lemma rfc3339_text_none : forall t, (odt_secs t < year0)%Z -> rfc3339_text t = None.
Proof.
  intros t H. unfold rfc3339_text. unfold year0 in *.
  pose proof (date_before (odt_secs t / 86400) ltac:(zdiv)) as R.
  destruct (date_of_days (odt_secs t / 86400)) as [[y m] d].
  destruct (Z.ltb_spec y 0); [reflexivity|lia].
Qed.

Lemma parse_rfc3339_text : forall t s, rfc3339_text t = Some s -> parse_rfc3339 s = Some t.
Proof.
  intros t s H. unfold rfc3339_text in H.
  pose proof (date_of_days_ok (odt_secs t / 86400)) as Hd.
  destruct (date_of_days (odt_secs t / 86400)) as [[y m] d]. destruct Hd as [[Vm Vd] D].
  destruct (Z.ltb_spec y 0) as [|Y0]; [discriminate|]. destruct (Z.ltb_spec 9999 y) as [|Y1]; [discriminate|].
  cbn [orb] in H. apply (f_equal (fun o => match o with Some x => x | None => s end)) in H; cbv beta iota in H; subst s.
  assert (Md : (month_days y m <= 31)%Z).
  { unfold month_days. destruct (m =? 2)%Z; [destruct (leap_year y); lia|]. destruct (_ || _); lia. }
  pose proof (odt_bounds t) as [_ Bn].
  pose proof (Z.mod_pos_bound (odt_secs t) 86400 ltac:(reflexivity)) as Bs.
  pose proof (Z.div_mod (odt_secs t) 86400 ltac:(discriminate)) as Es.
  set (q := (odt_secs t / 86400)%Z) in *.
  set (sz := (odt_secs t mod 86400)%Z) in *.
  assert (Hs : Z.of_N (Z.to_N sz) = sz) by (apply Z2N.id; lia).
  set (sec := Z.to_N sz) in *.
  assert (Hsec : sec < 86400) by lia.
  assert (Hh : sec / 3600 < 24) by (apply N.div_lt_upper_bound; lia).
  assert (Hmi : sec / 60 mod 60 < 60) by (apply N.mod_lt; discriminate).
  assert (Hse : sec mod 60 < 60) by (apply N.mod_lt; discriminate).
  unfold parse_rfc3339.
  rewrite oand_pad4 by lia. cbv beta iota.
  rewrite (oand_char "-") by reflexivity. rewrite oand_pad2 by lia. cbv beta iota.
  rewrite (oand_char "-") by reflexivity. rewrite oand_pad2 by lia. cbv beta iota.
  change (ascii "T" ++ ?x) with ("T"%byte :: x). cbv iota. rewrite oand_some.
  rewrite oand_pad2 by lia. cbv beta iota.
  rewrite (oand_char ":") by reflexivity. rewrite oand_pad2 by lia. cbv beta iota.
  rewrite (oand_char ":") by reflexivity. rewrite oand_pad2 by lia. cbv beta iota.
  rewrite parse_fraction_text; [|exact Bn|split; reflexivity]. rewrite oand_some.
  change (parse_offset (ascii "Z")) with (Some (0%Z, @nil byte)). rewrite oand_some. cbv zeta.
  destruct (N.eqb_spec (sec mod 60) 60) as [E|_]; [lia|].
  cbn [negb andb].
  rewrite !Z2N.id by lia.
  destruct (Z.leb_spec 1 m); [|lia]. destruct (Z.leb_spec m 12); [|lia].
  destruct (Z.leb_spec 1 d); [|lia]. destruct (Z.leb_spec d (month_days y m)); [|lia].
  destruct (N.leb_spec (sec / 3600) 23); [|lia]. destruct (N.leb_spec (sec / 60 mod 60) 59); [|lia].
  destruct (N.leb_spec (sec mod 60) 59); [|lia]. cbn [andb negb].
  rewrite D. rewrite <- (mk_odt_eq t). f_equal.
  assert (S : sec / 3600 * 3600 + sec / 60 mod 60 * 60 + sec mod 60 = sec).
  { replace (sec / 3600) with (sec / 60 / 60) by (rewrite N.div_div by discriminate; reflexivity).
    pose proof (N.div_mod sec 60 ltac:(discriminate)). pose proof (N.div_mod (sec / 60) 60 ltac:(discriminate)). lia. }
  rewrite S, Hs. lia.
Qed.

Lemma digit_ascii : forall b, digit_value b <> None -> b2n b < 128.
Proof.
  intros b. unfold digit_value, in_range. destruct (N.leb_spec 48 (b2n b)); destruct (N.leb_spec (b2n b) 57); cbn; try congruence. lia.
Qed.

Lemma pad_ascii : forall k n, Forall (fun b => b2n b < 128) (pad_digits k n).
Proof. intros. eapply Forall_impl; [|apply pad_digit]. intros b; apply digit_ascii. Qed.

Lemma rfc3339_ascii : forall t s, rfc3339_text t = Some s ->
  Forall (fun b => b2n b < 128) s /\ (length s <= 30)%nat.
Proof.
  intros t s H. unfold rfc3339_text in H.
  destruct (date_of_days (odt_secs t / 86400)) as [[y m] d].
  destruct (_ || _)%bool; [discriminate|]. apply (f_equal (fun o => match o with Some x => x | None => s end)) in H; cbv beta iota in H; subst s.
  assert (T : Forall (fun b => b2n b < 128) (trim_fraction (pad_digits 9 (odt_nanos t))) /\
              (length (trim_fraction (pad_digits 9 (odt_nanos t))) <= 9)%nat).
  { destruct (trim_split (pad_digits 9 (odt_nanos t))) as [k E].
    pose proof (pad_ascii 9 (odt_nanos t)) as P. pose proof (pad_length 9 (odt_nanos t)) as L.
    rewrite E in P, L. apply Forall_app in P. rewrite app_length in L. split; [tauto|lia]. }
  split.
  - repeat match goal with |- Forall _ (_ ++ _) => apply Forall_app; split end;
      try apply pad_ascii; try (repeat constructor; reflexivity).
    destruct (odt_nanos t =? 0); [constructor|]. apply Forall_app; split; [repeat constructor; reflexivity|exact (proj1 T)].
  - rewrite !app_length, !pad_length.
    assert (E : (length (if (odt_nanos t =? 0)%N then [] else ascii "." ++ trim_fraction (pad_digits 9 (odt_nanos t))) <= 10)%nat).
    { destruct (odt_nanos t =? 0); [cbn; lia|]. rewrite app_length. change (length (ascii ".")) with 1%nat. lia. }
    change (length (ascii "-")) with 1%nat. change (length (ascii "T")) with 1%nat.
    change (length (ascii ":")) with 1%nat. change (length (ascii "Z")) with 1%nat. lia.
Qed.
