(** Proofs: timestamps with an offset from UTC. *)

From Verif Require Import Base Io Codec SpecText Model_encoding Model_text Model_json Model_zoned SpecDoc SpecZoned TimeProofs DocTime
  EncodingProofs BasicProofs Model_jsontypes JsonProofs.
Local Open Scope N_scope.

(** ** Digits *)

Lemma digit_value_some : forall b, digit b -> digit_value b = Some (b2n b - 48).
Proof.
  intros b H. unfold digit_value, in_range, digit in *. destruct (N.leb_spec 48 (b2n b)); [|lia].
  destruct (N.leb_spec (b2n b) 57); [|lia]. reflexivity.
Qed.

Lemma digit_value_inv : forall b d, digit_value b = Some d -> digit b /\ d = b2n b - 48.
Proof.
  intros b d H. assert (digit b) by (apply digit_value_digit; congruence).
  split; [assumption|]. rewrite digit_value_some in H by assumption. congruence.
Qed.

Lemma dec_cons : forall c s, dec_value (c :: s) = (b2n c - 48) * 10 ^ N.of_nat (length s) + dec_value s.
Proof. intros c s. change (c :: s) with ([c] ++ s). rewrite dec_value_app. f_equal. Qed.

Lemma take_digits_inv : forall k acc s n r, take_digits k acc s = Some (n, r) ->
  exists p v, s = p ++ r /\ Padded k v p /\ n = acc * 10 ^ N.of_nat k + v.
Proof.
  induction k as [|k IH]; intros acc s n r H; cbn [take_digits] in H.
  - injection H as <- <-. exists [], 0. split; [reflexivity|]. split; [split; [reflexivity|split; [constructor|reflexivity]]|].
    change (10 ^ N.of_nat 0) with 1. lia.
  - destruct s as [|b s]; [discriminate|]. destruct (digit_value b) as [d|] eqn:E; [|discriminate].
    apply digit_value_inv in E as [D ->]. apply IH in H as (p & v & -> & (L & F & V) & ->).
    exists (b :: p), ((b2n b - 48) * 10 ^ N.of_nat k + v). split; [reflexivity|]. split.
    + split; [cbn; lia|]. split; [now constructor|]. rewrite dec_cons, L, V. reflexivity.
    + rewrite Nat2N.inj_succ, N.pow_succ_r by lia. lia.
Qed.

Lemma take_digits_padded : forall k p v acc r, Padded k v p ->
  take_digits k acc (p ++ r) = Some (acc * 10 ^ N.of_nat k + v, r).
Proof.
  induction k as [|k IH]; intros p v acc r (L & F & V).
  - destruct p; [|discriminate]. cbn [take_digits app]. cbn in V. subst v. change (10 ^ N.of_nat 0) with 1. do 2 f_equal. lia.
  - destruct p as [|b p]; [discriminate|]. cbn [length] in L. apply Forall_cons_iff in F as [D F].
    cbn [app take_digits]. rewrite digit_value_some by exact D.
    rewrite (IH p (dec_value p)) by (split; [lia|split; [exact F|reflexivity]]).
    rewrite dec_cons in V. replace (length p) with k in V by lia. rewrite Nat2N.inj_succ, N.pow_succ_r by lia. do 2 f_equal. lia.
Qed.

Lemma take_char_inv : forall c s r, take_char c s = Some r -> s = c :: r.
Proof.
  intros c [|b s] r H; cbn [take_char] in H; [discriminate|]. destruct (Byte.eqb b c) eqn:E; [|discriminate].
  apply Byte.byte_dec_bl in E. congruence.
Qed.

Lemma take_char_here : forall c r, take_char c (c :: r) = Some r.
Proof. intros. cbn [take_char]. now rewrite (Byte.byte_dec_lb eq_refl). Qed.

Lemma oand_inv : forall A B (o : option A) (f : A -> option B) b, oand o f = Some b -> exists a, o = Some a /\ f a = Some b.
Proof. intros A B [a|] f b H; [eauto|discriminate]. Qed.

(** ** Fractions *)

Lemma take_fraction_inv : forall s v w n r, take_fraction v w s = (n, r) ->
  exists f, s = f ++ r /\ Forall digit f /\ match r with b :: _ => digit_value b = None | [] => True end /\ n = v + frac w f.
Proof.
  induction s as [|b s IH]; intros v w n r H; cbn [take_fraction] in H.
  - injection H as <- <-. exists []. cbn. repeat split; auto. lia.
  - destruct (digit_value b) as [d|] eqn:E.
    + apply IH in H as (f & -> & F & R & ->). exists (b :: f). split; [reflexivity|].
      split; [constructor; [now apply digit_value_inv in E|exact F]|]. split; [exact R|].
      cbn [frac]. unfold dig. rewrite E. lia.
    + injection H as <- <-. exists []. cbn. repeat split; auto. lia.
Qed.

Lemma frac_none : forall f, frac 0 f = 0.
Proof. induction f as [|b f IH]; [reflexivity|]. cbn [frac]. change (0 / 10) with 0. lia. Qed.

Lemma firstn_zeros : forall n k, firstn n (repeat "0"%byte (n + k)) = repeat "0"%byte n.
Proof. induction n as [|n IH]; intros k; [reflexivity|]. cbn [Nat.add repeat firstn]. now rewrite IH. Qed.

Lemma frac_first : forall w f k, Forall digit f ->
  frac (10 ^ N.of_nat w) f = dec_value (firstn (S w) (f ++ repeat "0"%byte (S w + k))).
Proof.
  induction w as [|w IH]; intros f k F.
  - destruct f as [|b f].
    + cbn [app]. rewrite firstn_zeros, dec_zeros. reflexivity.
    + apply Forall_cons_iff in F as [D F]. cbn [app firstn frac]. change (10 ^ N.of_nat 0 / 10) with 0.
      rewrite frac_none. rewrite dec_cons. unfold dig. rewrite digit_value_some by exact D.
      change (dec_value []) with 0. reflexivity.
  - destruct f as [|b f].
    + cbn [app]. rewrite firstn_zeros, dec_zeros. reflexivity.
    + apply Forall_cons_iff in F as [D F]. cbn [app frac].
      replace (10 ^ N.of_nat (S w) / 10) with (10 ^ N.of_nat w)
        by (rewrite Nat2N.inj_succ, N.pow_succ_r by lia; rewrite N.mul_comm, N.div_mul by discriminate; reflexivity).
      rewrite (IH f (S k)) by exact F. replace (S w + S k)%nat with (S (S w) + k)%nat by lia.
      change (firstn (S (S w)) (b :: ?x)) with (b :: firstn (S w) x). rewrite dec_cons.
      rewrite firstn_length_le by (rewrite app_length, repeat_length; lia).
      unfold dig. rewrite digit_value_some by exact D. reflexivity.
Qed.

Lemma frac_nine : forall f, Forall digit f -> frac 100000000 f = dec_value (firstn 9 (f ++ repeat "0"%byte 9)).
Proof. intros f F. exact (frac_first 8 f 0 F). Qed.

Lemma frac_bound : forall f, Forall digit f -> frac 100000000 f < 1000000000.
Proof.
  intros f F. rewrite frac_nine by exact F. set (g := firstn 9 (f ++ repeat "0"%byte 9)).
  assert (L : length g = 9%nat) by (apply firstn_length_le; rewrite app_length, repeat_length; lia).
  assert (G : Forall digit g).
  2:{ apply dec_value_lt in G. rewrite L in G. exact G. }
  cut (Forall digit (f ++ repeat "0"%byte 9)).
  { rewrite <- (firstn_skipn 9 (f ++ repeat "0"%byte 9)) at 1. intros A. now apply Forall_app in A. }
  apply Forall_app. split; [exact F|].
  apply Forall_forall. intros x H. apply repeat_spec in H. subst x. unfold digit. cbn. lia.
Qed.

Lemma parse_fraction_inv : forall s n r, parse_fraction s = Some (n, r) ->
  n < 1000000000 /\ exists f, s = f ++ r /\ ReadFraction n f.
Proof.
  intros s n r H. unfold parse_fraction in H. destruct (take_char "." s) as [q|] eqn:E.
  - apply take_char_inv in E as ->. destruct q as [|b q]; [discriminate|].
    destruct (digit_value b) as [d|] eqn:Eb; [|discriminate].
    apply (f_equal (fun o => match o with Some x => x | None => (n, r) end)) in H; cbv beta iota in H.
    apply take_fraction_inv in H as (f & E & F & R & ->). rewrite N.add_0_l. split; [now apply frac_bound|].
    exists ("."%byte :: f). split; [rewrite E; reflexivity|]. right. exists f. split; [reflexivity|].
    split; [exact F|]. split; [|now apply frac_nine].
    intros ->. cbn [app] in E. subst r. congruence.
  - injection H as <- <-. split; [lia|]. exists []. split; [reflexivity|]. now left.
Qed.

Lemma parse_fraction_here : forall n f r, ReadFraction n f ->
  match r with b :: _ => digit_value b = None /\ Byte.eqb b "." = false | [] => True end ->
  parse_fraction (f ++ r) = Some (n, r).
Proof.
  intros n f r [[-> ->]|(g & -> & F & NE & ->)] R.
  - cbn [app]. unfold parse_fraction, take_char. destruct r as [|b r]; [reflexivity|]. now destruct R as [_ ->].
  - cbn [app]. unfold parse_fraction. rewrite take_char_here.
    destruct g as [|b g]; [congruence|]. cbn [app].
    assert (D : digit b) by now apply Forall_cons_iff in F.
    rewrite (digit_value_some b D). rewrite app_comm_cons.
    rewrite take_fraction_app.
    + now rewrite N.add_0_l, frac_nine by exact F.
    + eapply Forall_impl; [|exact F]. intros a A. rewrite digit_value_some by exact A. discriminate.
    + destruct r; tauto.
Qed.

(** ** Offsets *)

Lemma parse_offset_inv : forall s o r, parse_offset s = Some (o, r) ->
  (-93599 <= o <= 93599)%Z /\ exists p, s = p ++ r /\ ReadOffset o p.
Proof.
  intros [|b s] o r H; cbn [parse_offset] in H; [discriminate|].
  destruct (Byte.eqb b "Z" || Byte.eqb b "z") eqn:EZ.
  - injection H as <- <-. split; [lia|]. exists [b]. split; [reflexivity|]. left. split; [reflexivity|].
    apply orb_true_iff in EZ as [E|E]; apply Byte.byte_dec_bl in E as ->; [now left|now right].
  - destruct (Byte.eqb b "+" || Byte.eqb b "-") eqn:ES; [|discriminate].
    apply oand_inv in H as ((h & s1) & H1 & H). apply oand_inv in H as (s2 & H2 & H).
    apply oand_inv in H as ((m & s3) & H3 & H).
    apply take_digits_inv in H1 as (ph & vh & -> & Ph & ->). apply take_char_inv in H2 as ->.
    apply take_digits_inv in H3 as (pm & vm & -> & Pm & ->). rewrite !N.mul_0_l, !N.add_0_l in H.
    destruct ((vh <=? 25) && (vm <=? 59)) eqn:B; [|discriminate].
    injection H as <- <-.
    assert (vh <= 25 /\ vm < 60) as [Bh Bm] by lia.
    split; [destruct (Byte.eqb b "-"); lia|].
    exists ([b] ++ ph ++ ascii ":" ++ pm). split; [cbn [app]; rewrite <- !app_assoc; reflexivity|].
    right. exists vh, vm, ph, pm. split; [exact Ph|]. split; [exact Pm|]. split; [exact Bh|]. split; [exact Bm|].
    destruct (Byte.eqb b "-") eqn:EM.
    + apply Byte.byte_dec_bl in EM as ->. right. split; [lia|reflexivity].
    + rewrite orb_false_r in ES. apply Byte.byte_dec_bl in ES as ->. left. split; [lia|reflexivity].
Qed.

Lemma parse_offset_here : forall o p, ReadOffset o p -> parse_offset p = Some (o, []).
Proof.
  intros o p [[-> [->| ->]]|(h & m & sh & sm & Ph & Pm & Bh & Bm & H)]; [reflexivity|reflexivity|].
  assert (K : forall c o', (c = "+"%byte /\ o' = Z.of_N (3600 * h + 60 * m)) \/ (c = "-"%byte /\ o' = (- Z.of_N (3600 * h + 60 * m))%Z) ->
    parse_offset (c :: sh ++ ascii ":" ++ sm) = Some (o', [])).
  { intros c o' C. cbn [parse_offset].
    assert (E1 : Byte.eqb c "Z" || Byte.eqb c "z" = false) by (destruct C as [[-> _]|[-> _]]; reflexivity).
    assert (E2 : Byte.eqb c "+" || Byte.eqb c "-" = true) by (destruct C as [[-> _]|[-> _]]; reflexivity).
    rewrite E1, E2. rewrite (take_digits_padded 2 sh h 0) by exact Ph. cbn [oand].
    change (ascii ":" ++ sm) with (":"%byte :: sm). rewrite take_char_here. cbn [oand].
    rewrite <- (app_nil_r sm). rewrite (take_digits_padded 2 sm m 0) by exact Pm. cbn [oand].
    rewrite !N.mul_0_l, !N.add_0_l.
    destruct (N.leb_spec h 25); [|lia]. destruct (N.leb_spec m 59); [|lia]. cbn [andb].
    destruct C as [[-> ->]|[-> ->]].
    - change (Byte.eqb "+" "-") with false. cbv iota. do 2 f_equal. lia.
    - change (Byte.eqb "-" "-") with true. cbv iota. do 2 f_equal. lia. }
  destruct H as [[-> ->]|[-> ->]]; apply (K _ _); [left|right]; now split.
Qed.

Lemma offset_head : forall o p, ReadOffset o p ->
  match p with b :: _ => digit_value b = None /\ Byte.eqb b "." = false | [] => True end.
Proof.
  intros o p [[-> [->| ->]]|(h & m & sh & sm & Ph & Pm & Bh & Bm & [[-> ->]|[-> ->]])]; cbn; now split.
Qed.

(** ** The end of a month *)

Lemma months_apart : forall y m, (1 <= m)%Z -> forall k, (0 <= k)%Z -> (m + 1 + k <= 12)%Z ->
  (days_before_month y m + month_days y m <= days_before_month y (m + 1 + k))%Z.
Proof.
  intros y m Hm. apply (natlike_ind (fun k => (m + 1 + k <= 12)%Z ->
    (days_before_month y m + month_days y m <= days_before_month y (m + 1 + k))%Z)).
  - intros B. rewrite Z.add_0_r, before_next by lia. lia.
  - intros k K IH B. pose proof (month_days_range y (m + 1 + k)).
    replace (m + 1 + Z.succ k)%Z with (m + 1 + k + 1)%Z by lia. rewrite before_next by lia. lia.
Qed.

Lemma date_unique : forall y m d y' m' d', ValidDate y m d -> ValidDate y' m' d' ->
  days_of_date y m d = days_of_date y' m' d' -> y = y' /\ m = m' /\ d = d'.
Proof.
  assert (Y : forall y m d y' m' d', ValidDate y m d -> ValidDate y' m' d' ->
    days_of_date y m d = days_of_date y' m' d' -> ~ (y < y')%Z).
  { intros y m d y' m' d' V V' E L. pose proof (day_of_year _ _ _ V). pose proof (day_of_year _ _ _ V').
    pose proof (year_length y). pose proof (year_monotone (y + 1) y' ltac:(lia)). unfold days_of_date in E. lia. }
  assert (M : forall y m d m' d', ValidDate y m d -> ValidDate y m' d' ->
    days_of_date y m d = days_of_date y m' d' -> ~ (m < m')%Z).
  { intros y m d m' d' [V1 V2] [W1 W2] E L.
    pose proof (months_apart y m ltac:(lia) (m' - m - 1) ltac:(lia) ltac:(lia)) as A.
    replace (m + 1 + (m' - m - 1))%Z with m' in A by lia. unfold days_of_date in E. lia. }
  intros y m d y' m' d' V V' E.
  assert (y = y').
  { pose proof (Y _ _ _ _ _ _ V V' E). pose proof (Y _ _ _ _ _ _ V' V (eq_sym E)). lia. }
  subst y'. assert (m = m').
  { pose proof (M _ _ _ _ _ V V' E). pose proof (M _ _ _ _ _ V' V (eq_sym E)). lia. }
  subst m'. unfold days_of_date in E. repeat split; lia.
Qed.

Lemma end_of_month : forall t,
  (let '(y, m, d) := date_of_days (t / 86400) in ((t mod 86400 =? 86399) && (d =? month_days y m))%Z) = true <-> EndOfMonth t.
Proof.
  intros t. pose proof (date_of_days_ok (t / 86400)) as H.
  pose proof (Z.div_mod t 86400 ltac:(discriminate)) as E.
  destruct (date_of_days (t / 86400)) as [[y m] d]. destruct H as [V D]. split.
  - intros B. apply andb_true_iff in B as [B1 B2]. apply Z.eqb_eq in B1. apply Z.eqb_eq in B2.
    exists y, m, d, (t / 86400)%Z. split; [rewrite <- D; now apply day_of|].
    split; [rewrite B2; apply days_in; apply V|]. lia.
  - intros (y' & m' & d' & day & Dd & Dn & ->). apply day_unique in Dd as [V' ->].
    replace ((86400 * days_of_date y' m' d' + 86399) / 86400)%Z with (days_of_date y' m' d') in D by zdiv.
    destruct (date_unique _ _ _ _ _ _ V V' D) as (-> & -> & ->).
    apply days_in_eq in Dn as [_ Dn].
    apply andb_true_iff. split; apply Z.eqb_eq; [zdiv|exact Dn].
Qed.

(** ** Whole texts *)

Lemma mk_zoned_some : forall l n o z, mk_zoned l n o = Some z <-> z_local z = l /\ z_nanos z = n /\ z_offset z = o.
Proof.
  intros l n o z. unfold mk_zoned. destruct (bool_dec _ true) as [h|h].
  - split.
    + intros E. injection E as <-. repeat split.
    + intros (A & B & C). f_equal. apply zoned_eq; cbn; congruence.
  - split; [discriminate|]. intros (A & B & C). destruct h. subst. apply (z_ok z).
Qed.

(** What both readers take from a text. *)
Definition Taken (s : bytes) (y m d h mi sec fr : N) (off : Z) : Prop :=
  exists sy sm sd sep sh smi ss sf so,
    Padded 4 y sy /\ Padded 2 m sm /\ Padded 2 d sd /\ Padded 2 h sh /\ Padded 2 mi smi /\
    Padded 2 sec ss /\ ReadFraction fr sf /\ ReadOffset off so /\ 
    s = sy ++ ascii "-" ++ sm ++ ascii "-" ++ sd ++ [sep] ++ sh ++ ascii ":" ++ smi ++ ascii ":" ++ ss ++ sf ++ so.

Definition chain (A : Type) (k : N -> N -> N -> N -> N -> N -> N -> Z -> bytes -> option A) (s : bytes) : option A :=
  oand (take_digits 4 0 s) (fun '(y, s) =>
  oand (take_char "-" s) (fun s =>
  oand (take_digits 2 0 s) (fun '(mo, s) =>
  oand (take_char "-" s) (fun s =>
  oand (take_digits 2 0 s) (fun '(d, s) =>
  oand (match s with _ :: r => Some r | [] => None end) (fun s =>
  oand (take_digits 2 0 s) (fun '(h, s) =>
  oand (take_char ":" s) (fun s =>
  oand (take_digits 2 0 s) (fun '(mi, s) =>
  oand (take_char ":" s) (fun s =>
  oand (take_digits 2 0 s) (fun '(sec, s) =>
  oand (parse_fraction s) (fun '(nanos, s) =>
  oand (parse_offset s) (fun '(off, s) => k y mo d h mi sec nanos off s))))))))))))).

Lemma chain_some : forall A k s (a : A),
  (forall y m d h mi sec fr off r, k y m d h mi sec fr off r = Some a -> r = []) ->
  chain A k s = Some a <-> exists y m d h mi sec fr off, Taken s y m d h mi sec fr off /\ k y m d h mi sec fr off [] = Some a.
Proof.
  intros A k s a K. unfold chain. split.
  - intros H.
    apply oand_inv in H as ((y & s1) & H1 & H). apply oand_inv in H as (s2 & H2 & H).
    apply oand_inv in H as ((m & s3) & H3 & H). apply oand_inv in H as (s4 & H4 & H).
    apply oand_inv in H as ((d & s5) & H5 & H). apply oand_inv in H as (s6 & H6 & H).
    apply oand_inv in H as ((h & s7) & H7 & H). apply oand_inv in H as (s8 & H8 & H).
    apply oand_inv in H as ((mi & s9) & H9 & H). apply oand_inv in H as (s10 & H10 & H).
    apply oand_inv in H as ((sec & s11) & H11 & H). apply oand_inv in H as ((fr & s12) & H12 & H).
    apply oand_inv in H as ((off & s13) & H13 & H). cbv beta iota in H.
    pose proof (K _ _ _ _ _ _ _ _ _ H) as ->.
    apply take_digits_inv in H1 as (sy & vy & -> & Py & ->). apply take_char_inv in H2 as ->.
    apply take_digits_inv in H3 as (sm & vm & -> & Pm & ->). apply take_char_inv in H4 as ->.
    apply take_digits_inv in H5 as (sd & vd & -> & Pd & ->).
    destruct s5 as [|sep s5]; [discriminate|]. injection H6 as ->.
    apply take_digits_inv in H7 as (sh & vh & -> & Ph & ->). apply take_char_inv in H8 as ->.
    apply take_digits_inv in H9 as (smi & vmi & -> & Pmi & ->). apply take_char_inv in H10 as ->.
    apply take_digits_inv in H11 as (ss & vs & -> & Ps & ->).
    apply parse_fraction_inv in H12 as (_ & sf & -> & Pf). apply parse_offset_inv in H13 as (_ & so & -> & Po).
    rewrite !N.mul_0_l, !N.add_0_l in H. rewrite app_nil_r.
    exists vy, vm, vd, vh, vmi, vs, fr, off. split; [|exact H].
    exists sy, sm, sd, sep, sh, smi, ss, sf, so. repeat (split; [assumption|]). reflexivity.
  - intros (y & m & d & h & mi & sec & fr & off & (sy & sm & sd & sep & sh & smi & ss & sf & so & Py & Pm & Pd & Ph & Pmi & Ps & Pf & Po & ->) & H).
    change (ascii "-" ++ ?x) with ("-"%byte :: x). change (ascii ":" ++ ?x) with (":"%byte :: x).
    change (ascii "-" ++ ?x) with ("-"%byte :: x). change (ascii ":" ++ ?x) with (":"%byte :: x).
    rewrite (take_digits_padded 4 sy y) by exact Py. cbn [oand]. rewrite take_char_here. cbn [oand].
    rewrite (take_digits_padded 2 sm m) by exact Pm. cbn [oand]. 
    repeat (change (ascii "-" ++ ?x) with ("-"%byte :: x)). rewrite take_char_here. cbn [oand].
    rewrite (take_digits_padded 2 sd d) by exact Pd. cbn [oand app].
    rewrite (take_digits_padded 2 sh h) by exact Ph. cbn [oand].
    repeat (change (ascii ":" ++ ?x) with (":"%byte :: x)). rewrite take_char_here. cbn [oand].
    rewrite (take_digits_padded 2 smi mi) by exact Pmi. cbn [oand]. rewrite take_char_here. cbn [oand].
    rewrite (take_digits_padded 2 ss sec) by exact Ps. cbn [oand].
    rewrite (parse_fraction_here fr) by (try exact Pf; now apply offset_head in Po). cbn [oand].
    rewrite (parse_offset_here off) by exact Po. cbn [oand]. rewrite !N.mul_0_l, !N.add_0_l. exact H.
Qed.

(** Date and time, when they are valid. *)
Definition ends (A : Type) (mk : Z -> N -> Z -> option A) (y mo d h mi sec nanos : N) (off : Z) (s : bytes) : option A :=
  let leap := sec =? 60 in
  let sec := if leap then 59 else sec in
  let nanos := if leap then 999999999 else nanos in
  let y := Z.of_N y in let mo := Z.of_N mo in let d := Z.of_N d in
  if negb (match s with [] => true | _ => false end) then None
  else if negb ((1 <=? mo)%Z && (mo <=? 12)%Z && (1 <=? d)%Z && (d <=? month_days y mo)%Z) then None
  else if negb ((h <=? 23) && (mi <=? 59) && (sec <=? 59)) then None
  else
    let local := (days_of_date y mo d * 86400 + Z.of_N (h * 3600 + mi * 60 + sec))%Z in
    let utc := (local - off)%Z in
    if leap && negb (let '(y', m', d') := date_of_days (utc / 86400) in
                     ((utc mod 86400 =? 86399) && (d' =? month_days y' m'))%Z) then None
    else mk local nanos off.

Lemma ends_nil : forall A mk y mo d h mi sec nanos off s (a : A), ends A mk y mo d h mi sec nanos off s = Some a -> s = [].
Proof. intros. unfold ends in H. destruct s; [reflexivity|discriminate]. Qed.

Lemma ends_some : forall A mk y m d h mi sec fr off (a : A),
  ends A mk y m d h mi sec fr off [] = Some a <->
  exists day local nanos, Day (Z.of_N y) (Z.of_N m) (Z.of_N d) day /\ h < 24 /\ mi < 60 /\
    ((sec < 60 /\ nanos = fr /\ local = (86400 * day + Z.of_N (3600 * h + 60 * mi + sec))%Z) \/
     (sec = 60 /\ nanos = 999999999 /\ local = (86400 * day + Z.of_N (3600 * h + 60 * mi + 59))%Z /\ EndOfMonth (local - off))) /\
    mk local nanos off = Some a.
Proof.
  intros A mk y m d h mi sec fr off a. unfold ends. cbv zeta. cbn [negb]. cbv iota. split.
  - intros H. destruct (negb (_ && (Z.of_N d <=? _)%Z)) eqn:V in H; [discriminate|].
    destruct (negb ((h <=? 23) && _ && _)) eqn:T in H; [discriminate|].
    destruct ((sec =? 60) && _) eqn:L in H; [discriminate|].
    apply negb_false_iff in V. apply negb_false_iff in T.
    rewrite !andb_true_iff, !Z.leb_le in V. rewrite !andb_true_iff, !N.leb_le in T.
    assert (VD : ValidDate (Z.of_N y) (Z.of_N m) (Z.of_N d)) by (split; lia).
    exists (days_of_date (Z.of_N y) (Z.of_N m) (Z.of_N d)). eexists _, _.
    split; [now apply day_of|]. split; [lia|]. split; [lia|]. split; [|exact H].
    destruct (N.eqb_spec sec 60) as [->|NE].
    + right. split; [reflexivity|]. split; [reflexivity|]. split; [lia|]. apply end_of_month.
      cbn [andb] in L. now apply negb_false_iff in L.
    + left. split; [lia|]. split; [reflexivity|]. lia.
  - intros (day & local & nanos & Dd & Hh & Hmi & C & H). apply day_unique in Dd as [[V1 V2] ->].
    destruct (Z.leb_spec 1 (Z.of_N m)); [|lia]. destruct (Z.leb_spec (Z.of_N m) 12); [|lia].
    destruct (Z.leb_spec 1 (Z.of_N d)); [|lia]. destruct (Z.leb_spec (Z.of_N d) (month_days (Z.of_N y) (Z.of_N m))); [|lia].
    destruct (N.leb_spec h 23); [|lia]. destruct (N.leb_spec mi 59); [|lia]. cbn [andb negb].
    destruct C as [(S & -> & ->)|(-> & -> & -> & E)].
    + destruct (N.eqb_spec sec 60); [lia|]. destruct (N.leb_spec sec 59); [|lia]. cbn [negb andb].
      rewrite <- H. f_equal; lia.
    + change (60 =? 60) with true. change (59 <=? 59) with true. cbn [negb andb].
      apply end_of_month in E.
      replace (86400 * days_of_date (Z.of_N y) (Z.of_N m) (Z.of_N d) + Z.of_N (3600 * h + 60 * mi + 59))%Z
        with (days_of_date (Z.of_N y) (Z.of_N m) (Z.of_N d) * 86400 + Z.of_N (h * 3600 + mi * 60 + 59))%Z in E, H by lia.
      rewrite E. exact H.
Qed.

Lemma whole : forall A mk s (a : A), chain A (ends A mk) s = Some a <->
  exists local nanos offset, ReadRfc3339 local nanos offset s /\ mk local nanos offset = Some a.
Proof.
  intros A mk s a. rewrite chain_some by (intros; eapply ends_nil; eassumption). split.
  - intros (y & m & d & h & mi & sec & fr & off & (sy & sm & sd & sep & sh & smi & ss & sf & so & Py & Pm & Pd & Ph & Pmi & Ps & Pf & Po & ->) & H).
    apply ends_some in H as (day & local & nanos & Dd & Hh & Hmi & C & H). exists local, nanos, off. split; [|exact H].
    exists y, m, d, day, h, mi, sec, sy, sm, sd, sep, sh, smi, ss, sf, so, fr. repeat (split; [assumption|]). split; [reflexivity|exact C].
  - intros (local & nanos & off & (y & m & d & day & h & mi & sec & sy & sm & sd & sep & sh & smi & ss & sf & so & fr & Dd & Hh & Hmi & Py & Pm & Pd & Ph & Pmi & Ps & Pf & Po & -> & C) & H).
    exists y, m, d, h, mi, sec, fr, off. split.
    + exists sy, sm, sd, sep, sh, smi, ss, sf, so. repeat (split; [assumption|]). reflexivity.
    + apply ends_some. exists day, local, nanos. repeat (split; [assumption|]). exact H.
Qed.

Lemma parse_zoned_chain : forall s, parse_zoned s = chain zoned (ends zoned mk_zoned) s.
Proof. reflexivity. Qed.

Lemma parse_rfc3339_chain : forall s, parse_rfc3339 s = chain odt (ends odt (fun local nanos off => mk_odt (local - off) nanos)) s.
Proof. reflexivity. Qed.

Theorem read_zoned : forall s z, parse_zoned s = Some z <-> ZonedText z s.
Proof.
  intros s z. rewrite parse_zoned_chain, whole. unfold ZonedText. split.
  - intros (l & n & o & R & H). apply mk_zoned_some in H as (-> & -> & ->). exact R.
  - intros R. exists (z_local z), (z_nanos z), (z_offset z). split; [exact R|]. now apply mk_zoned_some.
Qed.

Lemma padded_bound : forall k n s, Padded k n s -> n < 10 ^ N.of_nat k.
Proof. intros k n s (L & F & <-). rewrite <- L. now apply dec_value_lt. Qed.

(** Every text denotes a timestamp. *)
Lemma read_range : forall l n o s, ReadRfc3339 l n o s -> exists z, z_local z = l /\ z_nanos z = n /\ z_offset z = o.
Proof.
  intros l n o s R. pose proof R as R0.
  destruct R as (y & m & d & day & h & mi & sec & sy & sm & sd & sep & sh & smi & ss & sf & so & fr & Dd & Hh & Hmi & Py & Pm & Pd & Ph & Pmi & Ps & Pf & Po & -> & C).
  assert (B : ((ts_min <=? l)%Z && (l <=? ts_max)%Z && (n <? 1000000000) && (-93599 <=? o)%Z && (o <=? 93599)%Z) = true).
  { apply padded_bound in Py. change (10 ^ N.of_nat 4) with 10000 in Py.
    apply day_unique in Dd as [V ->]. pose proof (day_of_year _ _ _ V) as Dy.
    pose proof (year_length (Z.of_N y)) as YL.
    pose proof (year_monotone 0 (Z.of_N y) ltac:(lia)) as Y0. pose proof (year_monotone (Z.of_N y + 1) 10000 ltac:(lia)) as Y1.
    change (days_before_year 0) with 0%Z in Y0. change (days_before_year 10000) with 3652425%Z in Y1.
    assert (Fr : fr < 1000000000).
    { destruct Pf as [[-> _]|(f & _ & F & _ & ->)]; [lia|]. rewrite <- frac_nine by exact F. now apply frac_bound. }
    assert (O : (-93599 <= o <= 93599)%Z).
    { destruct Po as [[-> _]|(oh & om & a & b & _ & _ & Ha & Hb & [[-> _]|[-> _]])]; lia. }
    unfold days_of_date in C. unfold ts_min, ts_max. rewrite !andb_true_iff, !Z.leb_le, N.ltb_lt. lia. }
  exists (MkZoned l n o B). repeat split.
Qed.

Lemma mk_odt_some : forall l n t, mk_odt l n = Some t <-> odt_secs t = l /\ odt_nanos t = n.
Proof.
  intros l n t. unfold mk_odt. destruct (bool_dec _ true) as [h|h].
  - split.
    + intros E. injection E as <-. repeat split.
    + intros (A & B). f_equal. apply odt_eq; cbn; congruence.
  - split; [discriminate|]. intros (A & B). destruct h. subst. destruct t; assumption.
Qed.

Theorem read_instant : forall s t, parse_rfc3339 s = Some t <->
  exists z, ZonedText z s /\ odt_secs t = instant z /\ odt_nanos t = z_nanos z.
Proof.
  intros s t. rewrite parse_rfc3339_chain, whole. unfold ZonedText, instant. split.
  - intros (l & n & o & R & H). apply mk_odt_some in H as (E1 & E2).
    destruct (read_range _ _ _ _ R) as (z & <- & <- & <-). exists z. now split.
  - intros (z & R & E1 & E2). exists (z_local z), (z_nanos z), (z_offset z). split; [exact R|]. now apply mk_odt_some.
Qed.

(** ** Written texts *)

Lemma zoned_bounds : forall z, (ts_min <= z_local z <= ts_max)%Z /\ z_nanos z < 1000000000 /\ (-93599 <= z_offset z <= 93599)%Z.
Proof. intros [l n o h]; cbn. rewrite !andb_true_iff in h. lia. Qed.

Definition Minutes (o : Z) : Prop := (Z.abs o < 86400)%Z /\ (o mod 60 = 0)%Z.

Lemma abs_mod : forall o, (Z.abs o mod 60 = 0 <-> o mod 60 = 0)%Z.
Proof. intros o. destruct (Z.abs_spec o) as [[_ ->]|[_ ->]]; [tauto|]. zdiv. Qed.

Lemma offset_text_some : forall o, (exists s, offset_text o = Some s) <-> Minutes o.
Proof.
  intros o. unfold offset_text, Minutes. pose proof (abs_mod o).
  destruct (Z.leb_spec 86400 (Z.abs o)); [split; [intros [s E]; discriminate|lia]|].
  destruct (Z.eqb_spec (Z.abs o mod 60) 0); cbn [negb]; [|split; [intros [s E]; discriminate|tauto]].
  split; [intros _; tauto|]. intros _. destruct (o =? 0)%Z; eauto.
Qed.

Lemma offset_form : forall o s, offset_text o = Some s -> WrittenOffset o s.
Proof.
  intros o s H. unfold offset_text in H.
  destruct (Z.leb_spec 86400 (Z.abs o)) as [|L]; [discriminate|].
  destruct (Z.eqb_spec (Z.abs o mod 60) 0) as [M|]; cbn [negb] in H; [|discriminate].
  destruct (Z.eqb_spec o 0) as [->|NZ].
  - apply (f_equal (fun o => match o with Some x => x | None => s end)) in H; cbv beta iota in H. left. now split.
  - apply (f_equal (fun o => match o with Some x => x | None => s end)) in H; cbv beta iota zeta in H. right.
    assert (Ha : Z.of_N (Z.to_N (Z.abs o)) = Z.abs o) by lia.
    assert (Hm : Z.to_N (Z.abs o) mod 60 = 0).
    { apply N2Z.inj. rewrite N2Z.inj_mod. rewrite Ha. exact M. }
    remember (Z.to_N (Z.abs o)) as a eqn:Ea. clear Ea.
    assert (B : a < 86400) by lia.
    assert (H24 : a / 3600 < 24) by (apply N.div_lt_upper_bound; lia).
    assert (H60 : a / 60 mod 60 < 60) by (apply N.mod_lt; discriminate).
    assert (Q : a = 3600 * (a / 3600) + 60 * (a / 60 mod 60)).
    { pose proof (N.div_mod' a 60). pose proof (N.div_mod' (a / 60) 60).
      pose proof (N.div_div a 60 60 ltac:(discriminate) ltac:(discriminate)) as Q. change (60 * 60) with 3600 in Q. lia. }
    exists (a / 3600), (a / 60 mod 60), (pad_digits 2 (a / 3600)), (pad_digits 2 (a / 60 mod 60)),
      (if (o <? 0)%Z then "-"%byte else "+"%byte).
    split; [apply padded; change (10 ^ N.of_nat 2) with 100; lia|].
    split; [apply padded; change (10 ^ N.of_nat 2) with 100; lia|].
    split; [exact H24|]. split; [exact H60|]. split; [exact NZ|].
    rewrite <- Q, <- H. destruct (Z.ltb_spec o 0).
    + split; [reflexivity|]. right. split; [lia|reflexivity].
    + split; [reflexivity|]. left. split; [lia|reflexivity].
Qed.

Theorem written_form : forall z s, zoned_text z = Some s -> WrittenRfc3339 z s.
Proof.
  intros z s H. unfold zoned_text in H.
  pose proof (date_of_days_ok (z_local z / 86400)) as Hd.
  destruct (date_of_days (z_local z / 86400)) as [[y m] d]. destruct Hd as [[Vm Vd] D].
  destruct (Z.ltb_spec y 0) as [|Y0]; [discriminate|]. destruct (Z.ltb_spec 9999 y) as [|Y1]; [discriminate|].
  cbn [orb] in H. apply oand_inv in H as (so & Ho & H). apply offset_form in Ho.
  apply (f_equal (fun o => match o with Some x => x | None => s end)) in H; cbv beta iota zeta in H; subst s.
  pose proof (month_days_range y m) as Md. pose proof (zoned_bounds z) as (_ & Bn & _).
  pose proof (Z.mod_pos_bound (z_local z) 86400 ltac:(reflexivity)) as Bs.
  pose proof (Z.div_mod (z_local z) 86400 ltac:(discriminate)) as Es.
  assert (Bsn : Z.to_N (z_local z mod 86400) < 86400) by lia.
  assert (Esn : Z.of_N (Z.to_N (z_local z mod 86400)) = (z_local z mod 86400)%Z) by lia.
  remember (Z.to_N (z_local z mod 86400)) as sn eqn:Hsn.
  assert (H24 : sn / 3600 < 24) by (apply N.div_lt_upper_bound; lia).
  assert (H60 : sn / 60 mod 60 < 60) by (apply N.mod_lt; discriminate).
  assert (H60' : sn mod 60 < 60) by (apply N.mod_lt; discriminate).
  exists (Z.to_N y), (Z.to_N m), (Z.to_N d), (z_local z / 86400)%Z, (sn / 3600), (sn / 60 mod 60), (sn mod 60).
  do 8 eexists.
  split. { rewrite !Z2N.id by lia. rewrite <- D. apply day_of. now split. }
  split; [exact H24|]. split; [exact H60|]. split; [exact H60'|].
  split.
  { rewrite Es at 1. f_equal. rewrite <- Esn. f_equal.
    pose proof (N.div_mod' sn 60). pose proof (N.div_mod' (sn / 60) 60).
    pose proof (N.div_div sn 60 60 ltac:(discriminate) ltac:(discriminate)) as Q. change (60 * 60) with 3600 in Q. lia. }
  split; [apply padded; change (10 ^ N.of_nat 4) with 10000; lia|].
  split; [apply padded; change (10 ^ N.of_nat 2) with 100; lia|].
  split; [apply padded; change (10 ^ N.of_nat 2) with 100; lia|].
  split; [apply padded; change (10 ^ N.of_nat 2) with 100; lia|].
  split; [apply padded; change (10 ^ N.of_nat 2) with 100; lia|].
  split; [apply padded; change (10 ^ N.of_nat 2) with 100; lia|].
  split; [now apply fraction_text|]. split; [exact Ho|]. reflexivity.
Qed.

Theorem written_when : forall z, (exists s, zoned_text z = Some s) <->
  (year0 <= z_local z)%Z /\ (Z.abs (z_offset z) < 86400)%Z /\ (z_offset z mod 60 = 0)%Z.
Proof.
  intros z. change (_ /\ (z_offset z mod 60 = 0)%Z) with (Minutes (z_offset z)). rewrite <- offset_text_some.
  unfold zoned_text. pose proof (zoned_bounds z) as (B & _ & _). unfold year0, ts_max in *.
  destruct (Z.le_gt_cases (-62167219200) (z_local z)) as [L|L].
  - pose proof (date_range (z_local z / 86400) ltac:(zdiv)) as R.
    destruct (date_of_days (z_local z / 86400)) as [[y m] d].
    destruct (Z.ltb_spec y 0); [lia|]. destruct (Z.ltb_spec 9999 y); [lia|]. cbn [orb].
    destruct (offset_text (z_offset z)) as [o|].
    + rewrite oand_some. split; eauto.
    + cbn [oand]. split; [intros [s E]; discriminate|intros [_ [s E]]; discriminate].
  - pose proof (date_before (z_local z / 86400) ltac:(zdiv)) as R.
    destruct (date_of_days (z_local z / 86400)) as [[y m] d]. destruct (Z.ltb_spec y 0); [|lia]. cbn [orb].
    split; [intros [s E]; discriminate|lia].
Qed.

Lemma fraction_read : forall n s, Fraction n s -> ReadFraction n s.
Proof.
  intros n s [[-> ->]|(f & -> & F & L & V & _)]; [now left|right]. exists f. split; [reflexivity|].
  split; [exact F|]. split; [intros ->; cbn in L; lia|].
  rewrite firstn_app, firstn_all2 by lia.
  replace (firstn (9 - length f) (repeat "0"%byte 9)) with (repeat "0"%byte (9 - length f)).
  - rewrite dec_value_app, repeat_length, dec_zeros. lia.
  - rewrite <- (firstn_zeros (9 - length f) (length f)). f_equal. f_equal. lia.
Qed.

Lemma offset_read : forall o s, WrittenOffset o s -> ReadOffset o s.
Proof.
  intros o s [[-> ->]|(h & m & sh & sm & sg & Ph & Pm & Bh & Bm & NZ & -> & C)]; [left; auto|right].
  exists h, m, sh, sm. split; [exact Ph|]. split; [exact Pm|]. split; [lia|]. split; [exact Bm|].
  destruct C as [[-> ->]|[-> ->]]; [left|right]; now split.
Qed.

Lemma written_read : forall z s, WrittenRfc3339 z s -> ZonedText z s.
Proof.
  intros z s (y & m & d & day & h & mi & sec & sy & sm & sd & sh & smi & ss & sf & so & Dd & Hh & Hmi & Hs & E & Py & Pm & Pd & Ph & Pmi & Ps & Pf & Po & ->).
  exists y, m, d, day, h, mi, sec, sy, sm, sd, "T"%byte, sh, smi, ss, sf, so, (z_nanos z).
  apply fraction_read in Pf. apply offset_read in Po.
  repeat (split; [assumption|]). split; [reflexivity|]. left. repeat (split; [assumption || reflexivity|]). exact E.
Qed.

Lemma padded_plain : forall k n s, Padded k n s -> Forall (fun b => b2n b < 128) s /\ length s = k.
Proof.
  intros k n s (L & F & _). split; [|exact L]. eapply Forall_impl; [|exact F]. unfold digit. intros b B. lia.
Qed.

Lemma written_plain : forall z s, WrittenRfc3339 z s -> Forall (fun b => b2n b < 128) s /\ (length s <= 35)%nat.
Proof.
  intros z s (y & m & d & day & h & mi & sec & sy & sm & sd & sh & smi & ss & sf & so & Dd & Hh & Hmi & Hs & E & Py & Pm & Pd & Ph & Pmi & Ps & Pf & Po & ->).
  apply padded_plain in Py as [Ay Ly]. apply padded_plain in Pm as [Am Lm]. apply padded_plain in Pd as [Ad Ld].
  apply padded_plain in Ph as [Ah Lh]. apply padded_plain in Pmi as [Ami Lmi]. apply padded_plain in Ps as [As Ls].
  assert (F : Forall (fun b => b2n b < 128) sf /\ (length sf <= 10)%nat).
  { destruct Pf as [[_ ->]|(f & -> & F & L & _)]; [split; [constructor|cbn; lia]|].
    split; [|cbn [length]; lia]. constructor; [cbn; lia|]. eapply Forall_impl; [|exact F]. unfold digit. intros b B. lia. }
  assert (O : Forall (fun b => b2n b < 128) so /\ (length so <= 6)%nat).
  { destruct Po as [[_ ->]|(oh & om & a & b & sg & Pa & Pb & _ & _ & _ & -> & C)].
    - split; [repeat constructor; cbn; lia|cbn; lia].
    - apply padded_plain in Pa as [Aa La]. apply padded_plain in Pb as [Ab Lb].
      split.
      + apply Forall_app; split; [constructor; [destruct C as [[_ ->]|[_ ->]]; cbn; lia|constructor]|].
        apply Forall_app; split; [exact Aa|]. apply Forall_app; split; [repeat constructor; cbn; lia|exact Ab].
      + rewrite !app_length. change (length (ascii ":")) with 1%nat. cbn [length]. lia. }
  destruct F as [Af Lf]. destruct O as [Ao Lo]. split.
  - repeat match goal with |- Forall _ (_ ++ _) => apply Forall_app; split end; try assumption;
      repeat constructor; cbn; lia.
  - rewrite !app_length. change (length (ascii ":")) with 1%nat. change (length (ascii "-")) with 1%nat. change (length (ascii "T")) with 1%nat. lia.
Qed.

(** ** JSON *)

Lemma de_text_some : forall A (f : bytes -> option A) j a, de_text (fun s => jopt (f s)) j = JOk a <->
  exists s : rstring, j = JStr (vlist (sbytes s)) /\ f (vlist (sbytes s)) = Some a.
Proof.
  intros A f j a. unfold de_text. split.
  - intros H. destruct (de_string j) as [s| |p] eqn:E; [|discriminate|discriminate].
    exists s. cbn [jbind] in H. unfold de_string in E. destruct j as [| | | | |t| |]; try discriminate E.
    destruct (vec_of 1 t) as [v|] eqn:Ev; cbn [jopt jbind] in E; [|discriminate E].
    destruct (rstring_of v) as [q|] eqn:Er; cbn [jopt] in E; [|discriminate E].
    injection E as ->. apply vec_of_some in Ev. apply rstring_of_some in Er. split; [congruence|].
    unfold jopt in H. cbn in H. destruct (f (vlist (sbytes s))); [congruence|discriminate].
  - intros (s & -> & E). rewrite de_string_id. cbn [jbind]. unfold jopt. cbn. rewrite E. reflexivity.
Qed.

Theorem zoned_json : forall j z, de_zoned j = JOk z <->
  exists s : rstring, j = JStr (vlist (sbytes s)) /\ ZonedText z (vlist (sbytes s)).
Proof.
  intros j z. unfold de_zoned. rewrite de_text_some. split; intros (s & -> & H); exists s; (split; [reflexivity|]); now apply read_zoned.
Qed.

Theorem instant_json : forall j t, c_de j_odt j = JOk t <->
  exists (s : rstring) z, j = JStr (vlist (sbytes s)) /\ ZonedText z (vlist (sbytes s)) /\
    odt_secs t = instant z /\ odt_nanos t = z_nanos z.
Proof.
  intros j t. change (c_de j_odt) with (de_text (fun s => jopt (parse_rfc3339 s))). rewrite de_text_some. split.
  - intros (s & -> & H). apply read_instant in H as (z & H). exists s, z. now split.
  - intros (s & z & -> & H). exists s. split; [reflexivity|]. apply read_instant. now exists z.
Qed.

Theorem written_json : forall z,
  ((exists j, ser_zoned z = JOk j) <->
    (year0 <= z_local z)%Z /\ (Z.abs (z_offset z) < 86400)%Z /\ (z_offset z mod 60 = 0)%Z) /\
  (forall j, ser_zoned z = JOk j -> exists s, j = JStr s /\ WrittenRfc3339 z s) /\
  (forall p, ser_zoned z <> JPanic p).
Proof.
  intros z. unfold ser_zoned. rewrite <- written_when. split; [|split].
  - destruct (zoned_text z) as [s|]; split; eauto; intros [x E]; discriminate.
  - intros j H. destruct (zoned_text z) as [s|] eqn:E; [|discriminate]. injection H as <-. exists s. split; [reflexivity|]. now apply written_form.
  - intros p H. destruct (zoned_text z); discriminate.
Qed.

Theorem written_back : forall z j, ser_zoned z = JOk j -> de_zoned j = JOk z.
Proof.
  intros z j H. apply written_json in H as (s & -> & W). pose proof (written_plain _ _ W) as [A L]. apply written_read in W.
  unfold de_zoned. rewrite de_text_ok; [|now apply utf8_ascii|unfold isize_max; lia].
  apply read_zoned in W. rewrite W. reflexivity.
Qed.

Lemma read_minutes : forall z s, ZonedText z s -> (year0 <= z_local z)%Z /\ (z_offset z mod 60 = 0)%Z.
Proof.
  intros z s (y & m & d & day & h & mi & sec & sy & sm & sd & sep & sh & smi & ss & sf & so & fr & Dd & Hh & Hmi & Py & Pm & Pd & Ph & Pmi & Ps & Pf & Po & -> & C).
  split.
  - apply day_unique in Dd as [V ->]. pose proof (day_of_year _ _ _ V) as Dy.
    pose proof (year_monotone 0 (Z.of_N y) ltac:(lia)) as Y0. change (days_before_year 0) with 0%Z in Y0.
    unfold days_of_date in C. unfold year0. lia.
  - destruct Po as [[-> _]|(oh & om & a & b & _ & _ & Ha & Hb & [[-> _]|[-> _]])]; [reflexivity| |].
    + replace (Z.of_N (3600 * oh + 60 * om)) with (Z.of_N (60 * oh + om) * 60)%Z by lia. now apply Z.mod_mul.
    + replace (- Z.of_N (3600 * oh + 60 * om))%Z with (- Z.of_N (60 * oh + om) * 60)%Z by lia. now apply Z.mod_mul.
Qed.

Theorem kept : forall j z, de_zoned j = JOk z ->
  ((Z.abs (z_offset z) < 86400)%Z -> exists j', ser_zoned z = JOk j' /\ de_zoned j' = JOk z) /\
  ((86400 <= Z.abs (z_offset z))%Z -> ser_zoned z = JErr).
Proof.
  intros j z H. apply zoned_json in H as (s & _ & H). apply read_minutes in H as [Y M].
  pose proof (written_json z) as (W & _ & NP). split.
  - intros L. destruct (proj2 W) as [j' E]; [now repeat split|]. exists j'. split; [exact E|]. now apply written_back.
  - intros L. destruct (ser_zoned z) as [j'| |p] eqn:E; [|reflexivity|now destruct (NP p)].
    exfalso. destruct (proj1 W (ex_intro _ _ eq_refl)). lia.
Qed.

(** ** The wire *)

Lemma zoned_wire_bytes : forall z, length (wbytes (encode_zoned z)) = 8%nat /\
  run decode_i64 (wbytes (encode_zoned z)) = ROk (zoned_unix z) [].
Proof.
  intros z. unfold encode_zoned. split.
  - unfold encode_i64, encode_sint. rewrite wbytes_write_all. apply le_bytes_length.
  - pose proof (rt_i64 (zoned_unix z) []) as R. rewrite app_nil_r in R. exact R.
Qed.

Theorem zoned_wire : forall z rest,
  ((ts_min <= instant z <= ts_max)%Z -> exists t, run decode_odt (wbytes (encode_zoned z) ++ rest) = ROk t rest /\
     odt_secs t = instant z /\ odt_nanos t = 0) /\
  (~ (ts_min <= instant z <= ts_max)%Z -> run decode_odt (wbytes (encode_zoned z) ++ rest) = RPanic UnwrapNone).
Proof.
  intros z rest. destruct (zoned_wire_bytes z) as [L R]. exact (timestamp_decode _ rest _ L R).
Qed.

Theorem zoned_wire_same : forall a b, wbytes (encode_zoned a) = wbytes (encode_zoned b) <-> instant a = instant b.
Proof.
  intros a b. destruct (zoned_wire_bytes a) as [_ A]. destruct (zoned_wire_bytes b) as [_ B]. split.
  - intros E. rewrite E, B in A. injection A as A. exact (eq_sym A).
  - intros E. unfold encode_zoned. assert (zoned_unix a = zoned_unix b) as ->; [|reflexivity].
    apply sint_eq. exact E.
Qed.

Theorem zoned_equal : forall a b, zoned_same a b = true <-> instant a = instant b /\ z_nanos a = z_nanos b.
Proof. intros a b. unfold zoned_same. rewrite andb_true_iff, Z.eqb_eq, N.eqb_eq. reflexivity. Qed.

(** ** Examples *)

Definition reads_as (s : string) (local : Z) (nanos : N) (offset : Z) : Prop :=
  match de_zoned (JStr (ascii s)) with
  | JOk z => z_local z = local /\ z_nanos z = nanos /\ z_offset z = offset
  | _ => False
  end.

Lemma zoned_examples :
  reads_as "2020-01-01T02:00:00+02:00" 1577844000 0 7200 /\
  reads_as "2019-12-31 22:30:00.5-01:30" 1577831400 500000000 (-5400) /\
  reads_as "2017-01-01T01:59:60+02:00" 1483235999 999999999 7200 /\
  reads_as "2020-01-01T00:00:00.1234567891Z" 1577836800 123456789 0 /\
  de_zoned (JStr (ascii "2017-01-01T01:59:60+01:00")) = JErr /\
  de_zoned (JStr (ascii "2020-01-01T00:00:00+26:00")) = JErr /\
  de_zoned (JStr (ascii "2020-02-30T00:00:00Z")) = JErr.
Proof. vm_compute. repeat split. Qed.

Lemma hours_witness : exists z, de_zoned (JStr (ascii "2020-01-01T00:00:00+24:00")) = JOk z /\ ser_zoned z = JErr.
Proof.
  destruct (mk_zoned 1577836800 0 86400) as [z|] eqn:E; [|exfalso; revert E; vm_compute; discriminate].
  apply mk_zoned_some in E as (E1 & E2 & E3). exists z.
  assert (R : de_zoned (JStr (ascii "2020-01-01T00:00:00+24:00")) = JOk z).
  { assert (reads_as "2020-01-01T00:00:00+24:00" 1577836800 0 86400) as R by (vm_compute; repeat split).
    unfold reads_as in R. destruct (de_zoned _) as [z'| |]; [|contradiction|contradiction].
    destruct R as (F1 & F2 & F3). f_equal. apply zoned_eq; congruence. }
  split; [exact R|]. apply kept in R as [_ K]. apply K. rewrite E3. discriminate.
Qed.

Lemma wire_witness : exists z, de_zoned (JStr (ascii "9999-12-31T23:59:59-00:01")) = JOk z /\
  run decode_odt (wbytes (encode_zoned z)) = RPanic UnwrapNone.
Proof.
  assert (reads_as "9999-12-31T23:59:59-00:01" 253402300799 0 (-60)) as R by (vm_compute; repeat split).
  unfold reads_as in R. destruct (de_zoned _) as [z'| |]; [|contradiction|contradiction].
  destruct R as (F1 & F2 & F3). exists z'. split; [reflexivity|].
  destruct (zoned_wire z' []) as [_ W]. rewrite app_nil_r in W. apply W.
  unfold instant. rewrite F1, F3. unfold ts_max. lia.
Qed.
