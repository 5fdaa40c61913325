(** Which error the parser of currency amounts gives. *)

From Verif Require Import Base Io Spec SpecUtf8 SpecText SpecReject Model_encoding Model_common Model_currency
  CurrencyProofs CurrencyTotal.
Local Open Scope N_scope.

(** ** Trimming leaves no whitespace at the ends *)

Lemma ws_zero : forall s w t, ws_len s = 0%nat -> In w whitespace -> s <> w ++ t.
Proof.
  intros s w t Z H ->. destruct (ws_len_of w t H) as [E N]. rewrite E in Z. destruct w; [now apply N|discriminate Z].
Qed.
Lemma ws_rev_zero : forall s w t, ws_len_rev (rev s) = 0%nat -> In w whitespace -> s <> t ++ w.
Proof.
  intros s w t Z H ->. rewrite rev_app_distr in Z. rewrite (ws_len_rev_of w (rev t) H) in Z.
  destruct (ws_len_of w [] H) as [_ N]. destruct w; [now apply N|discriminate Z].
Qed.

Lemma trim_start_done : forall f s, (length s <= f)%nat -> ws_len (trim_start_fuel f s) = 0%nat.
Proof.
  induction f as [|f IH]; intros s L.
  { destruct s; [reflexivity|cbn in L; lia]. }
  cbn [trim_start_fuel]. destruct (ws_len s) as [|k] eqn:E; [exact E|]. apply IH.
  destruct s as [|b s]; [discriminate E|]. cbn [skipn length] in *. rewrite skipn_length. lia.
Qed.
Lemma trim_rev_done : forall f s, (length s <= f)%nat -> ws_len_rev (trim_rev_fuel f s) = 0%nat.
Proof.
  induction f as [|f IH]; intros s L.
  { destruct s; [reflexivity|cbn in L; lia]. }
  cbn [trim_rev_fuel]. destruct (ws_len_rev s) as [|k] eqn:E; [exact E|]. apply IH.
  destruct s as [|b s]; [discriminate E|]. cbn [skipn length] in *. rewrite skipn_length. lia.
Qed.

Lemma trim_clean : forall s w t, In w whitespace -> trim s <> w ++ t /\ trim s <> t ++ w.
Proof.
  intros s w t H. unfold trim, trim_end, trim_start. set (u := trim_start_fuel (length s) s).
  assert (Z : ws_len u = 0%nat) by (apply trim_start_done; lia). clearbody u.
  pose proof (trim_rev_done (length u) (rev u)) as R. rewrite rev_length in R. specialize (R (le_n _)).
  destruct (trim_rev_fuel_spec (length u) (rev u)) as (x & Hx & _).
  set (v := trim_rev_fuel (length u) (rev u)) in *. clearbody v. split.
  - intros E. apply (ws_zero u w (t ++ x) Z H). rewrite <- (rev_involutive u), Hx, rev_app_distr, rev_involutive, E.
    now rewrite app_assoc.
  - apply ws_rev_zero; [now rewrite rev_involutive|exact H].
Qed.

Lemma span_value_stop : forall s v u, span_value s = (v, u) -> match u with [] => True | c :: _ => value_char c = false end.
Proof.
  induction s as [|c s IH]; intros v u H; cbn [span_value] in H.
  - injection H as <- <-. exact I.
  - destruct (is_digit c || Byte.eqb c ".") eqn:E.
    + destruct (span_value s) as [v' u'] eqn:Es. injection H as <- <-. now apply (IH v' u').
    + injection H as <- <-. exact E.
Qed.

Lemma value_char_iff : forall c, value_char c = true <-> digit c \/ c = "."%byte.
Proof.
  intros c. unfold value_char. rewrite orb_true_iff, is_digit_iff. split; (intros [H|H]; [now left|right]).
  - now apply Byte.byte_dec_bl in H.
  - now apply Byte.byte_dec_lb.
Qed.

(** ** Numbers *)

Lemma parse_digits_error : forall w s acc e, Forall (fun c => digit c \/ c = "."%byte) s -> acc < 2 ^ w ->
  (parse_digits w acc s = inr e <->
   match e with
   | IEmpty => False
   | IInvalidDigit => exists a b, s = a ++ "."%byte :: b /\ Forall digit a /\ dval acc a < 2 ^ w
   | IPosOverflow => exists a b, s = a ++ b /\ Forall digit a /\ 2 ^ w <= dval acc a
   end).
Proof.
  intros w s. induction s as [|c s IH]; intros acc e F A; cbn [parse_digits].
  - split; [discriminate|]. destruct e; [intros []| |].
    + intros (a & b & E & _). now destruct a.
    + intros (a & b & E & _ & L). destruct a; [|discriminate E]. cbn in L. lia.
  - inversion F as [|? ? Hc F']; subst. destruct (is_digit c) eqn:D.
    + assert (Dc : digit c) by now apply is_digit_iff.
      assert (Dv : forall a, dval acc (c :: a) = dval (acc * 10 + digit_val c) a).
      { intros a. unfold dval. cbn [fold_left]. f_equal. unfold digit_val. lia. }
      destruct (N.ltb_spec (acc * 10 + digit_val c) (2 ^ w)) as [L|L].
      * rewrite (IH _ e F' L). destruct e; [reflexivity| |].
        -- split; intros (a & b & E & Fa & La).
           ++ exists (c :: a), b. split; [cbn; now rewrite E|]. split; [now constructor|]. now rewrite Dv.
           ++ destruct a as [|x a]; cbn in E; injection E as -> E; [now apply digit_not_dot in Dc|].
              exists a, b. split; [exact E|]. split; [now inversion Fa|]. now rewrite <- Dv.
        -- split; intros (a & b & E & Fa & La).
           ++ exists (c :: a), b. split; [cbn; now rewrite E|]. split; [now constructor|]. now rewrite Dv.
           ++ destruct a as [|x a]; [cbn in La; lia|]. cbn in E; injection E as -> E.
              exists a, b. split; [exact E|]. split; [now inversion Fa|]. now rewrite <- Dv.
      * split.
        -- intros [= <-]. exists [c], s. split; [reflexivity|]. split; [now constructor|]. rewrite Dv. exact L.
        -- destruct e; [intros []| |reflexivity]. intros (a & b & E & Fa & La). exfalso.
           destruct a as [|x a]; cbn in E; injection E as -> E; [now apply digit_not_dot in Dc|].
           rewrite Dv in La. pose proof (dval_ge a (acc * 10 + digit_val x)). lia.
    + assert (Ec : c = "."%byte).
      { destruct Hc as [Hc|Hc]; [apply is_digit_iff in Hc; congruence|exact Hc]. }
      subst c. split.
      * intros [= <-]. exists [], s. split; [reflexivity|]. split; [constructor|exact A].
      * destruct e; [intros []|reflexivity|]. intros (a & b & E & Fa & La). exfalso.
        destruct a as [|x a]; [cbn in La; lia|]. cbn in E. injection E as <- E. inversion Fa as [|? ? W ?]; subst.
        now apply digit_not_dot in W.
Qed.

Lemma dval_dec : forall s, dec_value s = dval 0 s.
Proof. reflexivity. Qed.

Lemma parse_uint_error : forall s e, Forall (fun c => digit c \/ c = "."%byte) s ->
  (parse_uint 128 s = inr e <->
   match e with
   | IEmpty => s = []
   | IInvalidDigit => exists a b, s = a ++ "."%byte :: b /\ Forall digit a /\ dec_value a < 2 ^ 128
   | IPosOverflow => exists a b, s = a ++ b /\ Forall digit a /\ 2 ^ 128 <= dec_value a
   end).
Proof.
  intros s e F. destruct s as [|c s].
  { cbn [parse_uint]. split; [intros [= <-]; reflexivity|]. destruct e; [reflexivity| |].
    - intros (a & b & E & _). now destruct a.
    - intros (a & b & E & _ & L). destruct a; [|discriminate E]. exfalso. apply L. reflexivity. }
  assert (Plus : Byte.eqb c "+" = false).
  { inversion F as [|? ? [Hc|Hc] _]; subst; [now apply digit_not_plus|reflexivity]. }
  assert (E : parse_uint 128 (c :: s) = match parse_digits 128 0 (c :: s) with inl n => inl (uwrap 128 n) | inr e => inr e end).
  { unfold parse_uint. cbv zeta. rewrite Plus. destruct s as [|d s]; [|reflexivity]. cbn [parse_digits].
    destruct (is_digit c); reflexivity. }
  rewrite E. transitivity (parse_digits 128 0 (c :: s) = inr e).
  { destruct (parse_digits 128 0 (c :: s)) as [n|x]; split; intros Q; try discriminate Q; now injection Q as ->. }
  rewrite (parse_digits_error 128 (c :: s) 0 e F eq_refl). destruct e; [split; [intros []|discriminate]|reflexivity|reflexivity].
Qed.

(** A part without dots. *)
Lemma parse_part : forall q, Forall digit q -> ((exists e, parse_uint 128 q = inr e) <-> BadDigits q).
Proof.
  intros q F. assert (F' : Forall (fun c => digit c \/ c = "."%byte) q) by (eapply Forall_impl; [|exact F]; auto).
  unfold BadDigits. split.
  - intros [e E]. apply (parse_uint_error q e F') in E. destruct e; [now left| |].
    + destruct E as (a & b & -> & _). apply Forall_app in F. destruct F as [_ F]. inversion F as [|? ? W ?]; subst.
      now apply digit_not_dot in W.
    + destruct E as (a & b & -> & _ & L). right. rewrite dval_dec in *. rewrite dval_app.
      pose proof (dval_ge b (dval 0 a)). lia.
  - intros [->|L]; [now exists IEmpty|]. exists IPosOverflow. apply (parse_uint_error q _ F'). exists q, [].
    rewrite app_nil_r. auto.
Qed.

(** ** Amounts *)

Lemma scaled_no_error : forall p z i f d e, scaled p z i f d <> Val (inr e).
Proof.
  intros p z i f d e. unfold scaled.
  repeat match goal with |- obind ?x _ <> _ => destruct x; cbn [obind]; [|discriminate] end. discriminate.
Qed.

Lemma no_dots_digits : forall q, Forall (fun c => digit c \/ c = "."%byte) q -> Forall (fun b => b <> "."%byte) q -> Forall digit q.
Proof.
  intros q F N. rewrite Forall_forall in *. intros c Hc. destruct (F c Hc) as [H|H]; [exact H|]. now apply N in Hc.
Qed.
Lemma digits_no_dots : forall q, Forall digit q -> Forall (fun b => b <> "."%byte) q.
Proof. intros q F. eapply Forall_impl; [|exact F]. intros c. apply digit_not_dot. Qed.

Lemma split_nonempty : forall c s, exists p ps, split_on c s = p :: ps.
Proof. intros c s. destruct (split_on_join c s) as (p & ps & E & _). eauto. Qed.

Lemma split_parts : forall c s, Forall (fun q => Forall (fun b => b <> c) q) (split_on c s).
Proof.
  intros c s. induction s as [|b s IH]; cbn [split_on]; [repeat constructor|]. destruct (Byte.eqb b c) eqn:E.
  - constructor; [constructor|exact IH].
  - destruct (split_nonempty c s) as (q & qs & Eq). rewrite Eq in *. inversion IH as [|? ? Hq Hqs]; subst.
    constructor; [|exact Hqs]. constructor; [|exact Hq]. intros ->. rewrite (Byte.byte_dec_lb (eq_refl c)) in E. discriminate E.
Qed.

Lemma split_app : forall c s t, split_on c (s ++ c :: t) = split_on c s ++ split_on c t.
Proof.
  intros c s t. induction s as [|b s IH]; cbn [app split_on].
  - now rewrite (Byte.byte_dec_lb (eq_refl c)).
  - rewrite IH. destruct (Byte.eqb b c); [reflexivity|]. destruct (split_nonempty c s) as (q & qs & ->). reflexivity.
Qed.

Lemma currency_errors : forall p s, exists value unit, AmountParts s value unit /\
  forall e, parse_currency p s = Val (inr e) <->
    match e with
    | ParseIntErr x => (unit = [] \/ unit = ascii "H") /\
        match x with
        | IEmpty => value = []
        | IInvalidDigit => exists a b, value = a ++ "."%byte :: b /\ Forall digit a /\ dec_value a < 2 ^ 128
        | IPosOverflow => exists a b, value = a ++ b /\ Forall digit a /\ 2 ^ 128 <= dec_value a
        end
    | InvalidUnit u => u = unit /\ unit <> [] /\ unit <> ascii "H" /\ forall k, ~ In (unit, k) units
    | InvalidFormat m => (exists k, In (unit, k) units) /\
        ((m = "too many decimal points"%string /\
          exists a b c, value = a ++ "."%byte :: b ++ "."%byte :: c) \/
         (m = "invalid integer part"%string /\ Forall digit value /\ BadDigits value) \/
         (m = "invalid integer part"%string /\
          exists int frac, value = int ++ "."%byte :: frac /\ Forall digit int /\ Forall digit frac /\
            (BadDigits int \/ BadDigits frac)))
    end.
Proof.
  intros p s. unfold parse_currency. destruct (span_value s) as [v u] eqn:Es.
  pose proof (span_value_stop _ _ _ Es) as St. apply span_value_spec in Es. destruct Es as [-> Hv].
  rewrite (trim_value v Hv). exists v, (trim u).
  assert (F : Forall (fun c => digit c \/ c = "."%byte) v).
  { eapply Forall_impl; [|exact Hv]. intros c. apply value_char_iff. }
  pose proof (trim_clean u) as C. destruct (trim_spec u) as (w1 & w2 & Hu & B1 & B2). set (t := trim u) in *. clearbody t.
  split.
  { exists w1, w2. rewrite Hu. split; [reflexivity|]. split; [exact B1|]. split; [exact B2|]. split; [exact F|]. split; [|exact C].
    intros c r E. rewrite Hu, E in St. split; intros W.
    - assert (X : value_char c = true) by (apply value_char_iff; now left). congruence.
    - assert (X : value_char c = true) by (apply value_char_iff; now right). congruence. }
  clear St Hv Hu C. intros e.
  destruct ((match t with [] => true | _ => false end)
     || (if list_eq_dec Byte.byte_eq_dec t (ascii "H") then true else false)) eqn:EH.
  - assert (T : t = [] \/ t = ascii "H").
    { apply orb_true_iff in EH. destruct EH as [EH|EH]; [left; now destruct t|right].
      now destruct (list_eq_dec Byte.byte_eq_dec t (ascii "H")). }
    pose proof (fun x => parse_uint_error v x F) as H. destruct (parse_uint 128 v) as [n|x].
    + split; [discriminate|]. destruct e as [y|y|m].
      * intros [_ W]. apply (H y) in W. discriminate W.
      * intros (_ & N1 & N2 & _). destruct T; contradiction.
      * intros [[k K] _]. exfalso. clear -T K. destruct T as [-> | ->]; cbn [units In] in K;
          repeat (destruct K as [K|K]; [discriminate K|]); exact K.
    + split.
      * intros [= <-]. split; [exact T|]. now apply (H x).
      * destruct e as [y|y|m].
        -- intros [_ W]. apply (H y) in W. now injection W as ->.
        -- intros (_ & N1 & N2 & _). destruct T; contradiction.
        -- intros [[k K] _]. exfalso. clear -T K. destruct T as [-> | ->]; cbn [units In] in K;
             repeat (destruct K as [K|K]; [discriminate K|]); exact K.
  - assert (T1 : t <> []) by (intros ->; discriminate EH).
    assert (T2 : t <> ascii "H").
    { intros ->. discriminate EH. }
    clear EH. destruct (scaling_factor t) as [z|] eqn:Ez.
    2:{ assert (NU : forall k, ~ In (t, k) units) by (intros k K; apply scaling_factor_units in K; congruence).
        split; [intros [= <-]; auto|]. destruct e as [y|y|m].
        - intros [[W|W] _]; contradiction.
        - intros (-> & _). reflexivity.
        - intros [[k K] _]. now apply NU in K. }
    apply scaling_factor_inv in Ez. destruct Ez as (k & Hin & ->).
    pose proof (split_parts "." v) as SP.
    destruct (split_on_join "." v) as (q & qs & Eq & Ev & Hq). rewrite Eq in *.
    destruct qs as [|q2 [|q3 qs]].
    + cbn [map concat] in Ev. rewrite app_nil_r in Ev. subst q.
      assert (Dv : Forall digit v) by now apply no_dots_digits.
      pose proof (parse_part v Dv) as PP. destruct (parse_uint 128 v) as [n|x].
      * match goal with |- ?l = _ <-> _ => change l with (scaled p (Z.of_N k - 24) n (uwrap 128 0) 0) end.
        split; [intros W; now apply scaled_no_error in W|].
        assert (NB : ~ BadDigits v) by (intros W; apply PP in W; destruct W as [? W]; discriminate W).
        destruct e as [y|y|m].
        -- intros [[W|W] _]; contradiction.
        -- intros (_ & _ & _ & W). now apply W in Hin.
        -- intros [_ [[_ (a & b & c & E)]|[(_ & _ & W)|(_ & int & frac & E & _)]]].
           ++ exfalso. rewrite E in Hq. apply Forall_app in Hq. destruct Hq as [_ Hq]. inversion Hq; congruence.
           ++ contradiction.
           ++ exfalso. rewrite E in Hq. apply Forall_app in Hq. destruct Hq as [_ Hq]. inversion Hq; congruence.
      * split.
        -- intros [= <-]. split; [now exists k|]. right. left. split; [reflexivity|]. split; [exact Dv|]. apply PP. eauto.
        -- destruct e as [y|y|m].
           ++ intros [[W|W] _]; contradiction.
           ++ intros (_ & _ & _ & W). now apply W in Hin.
           ++ intros [_ [[_ (a & b & c & E)]|[(-> & _ & W)|(-> & int & frac & E & _)]]]; try reflexivity.
              exfalso. rewrite E in Hq. apply Forall_app in Hq. destruct Hq as [_ Hq]. inversion Hq; congruence.
    + cbn [map concat] in Ev. rewrite app_nil_r in Ev.
      inversion SP as [|? ? _ SP2]; subst. inversion SP2 as [|? ? Hq2 _]; subst. clear SP SP2.
      apply Forall_app in F. destruct F as [F1 F2]. inversion F2 as [|? ? _ F3]; subst. clear F2.
      assert (D1 : Forall digit q) by now apply no_dots_digits.
      assert (D2 : Forall digit q2) by now apply no_dots_digits.
      assert (ND : ~ Forall digit (q ++ "."%byte :: q2)).
      { intros W. apply Forall_app in W. destruct W as [_ W]. inversion W as [|? ? X ?]; subst. now apply digit_not_dot in X. }
      assert (U : forall int frac, q ++ "."%byte :: q2 = int ++ "."%byte :: frac -> Forall digit int -> Forall digit frac ->
        int = q /\ frac = q2).
      { intros int frac E Fi Ff. rewrite E in Eq. rewrite split_on_one in Eq by now apply digits_no_dots. now injection Eq. }
      assert (N3 : forall a b c, q ++ "."%byte :: q2 <> a ++ "."%byte :: b ++ "."%byte :: c).
      { intros a b c E. rewrite E in Eq. rewrite !split_app in Eq. apply (f_equal (@length _)) in Eq. rewrite !app_length in Eq.
        destruct (split_nonempty "." a) as (? & ? & Ea). destruct (split_nonempty "." b) as (? & ? & Eb).
        destruct (split_nonempty "." c) as (? & ? & Ec). rewrite Ea, Eb, Ec in Eq. cbn [length] in Eq. lia. }
      pose proof (parse_part q D1) as P1. pose proof (parse_part q2 D2) as P2.
      destruct (parse_uint 128 q) as [n|x].
      * assert (G1 : ~ BadDigits q) by (intros W; apply P1 in W; destruct W as [? W]; discriminate W).
        destruct (parse_uint 128 q2) as [n2|x].
        -- match goal with |- ?l = _ <-> _ => change l with (scaled p (Z.of_N k - 24) n n2 (swrap_Z 32 (Z.of_nat (length q2)))) end.
           split; [intros W; now apply scaled_no_error in W|].
           assert (G2 : ~ BadDigits q2) by (intros W; apply P2 in W; destruct W as [? W]; discriminate W).
           destruct e as [y|y|m].
           ++ intros [[W|W] _]; contradiction.
           ++ intros (_ & _ & _ & W). now apply W in Hin.
           ++ intros [_ [[_ (a & b & c & E)]|[(_ & W & _)|(_ & int & frac & E & Fi & Ff & W)]]].
              ** now apply N3 in E.
              ** contradiction.
              ** destruct (U _ _ E Fi Ff) as [-> ->]. destruct W; contradiction.
        -- split.
           ++ intros [= <-]. split; [now exists k|]. right. right. split; [reflexivity|]. exists q, q2.
              repeat (split; [assumption||reflexivity|]). right. apply P2. eauto.
           ++ destruct e as [y|y|m].
              ** intros [[W|W] _]; contradiction.
              ** intros (_ & _ & _ & W). now apply W in Hin.
              ** intros [_ [[_ (a & b & c & E)]|[(-> & _ & _)|(-> & _)]]]; try reflexivity. now apply N3 in E.
      * split.
        -- intros [= <-]. split; [now exists k|]. right. right. split; [reflexivity|]. exists q, q2.
           repeat (split; [assumption||reflexivity|]). left. apply P1. eauto.
        -- destruct e as [y|y|m].
           ++ intros [[W|W] _]; contradiction.
           ++ intros (_ & _ & _ & W). now apply W in Hin.
           ++ intros [_ [[_ (a & b & c & E)]|[(-> & _ & _)|(-> & _)]]]; try reflexivity. now apply N3 in E.
    + cbn [map concat] in Ev. split.
      * intros [= <-]. split; [now exists k|]. left. split; [reflexivity|].
        exists q, q2, (q3 ++ concat (map (fun x => "."%byte :: x) qs)). rewrite Ev. cbn [app]. reflexivity.
      * destruct e as [y|y|m].
        -- intros [[W|W] _]; contradiction.
        -- intros (_ & _ & _ & W). now apply W in Hin.
        -- intros [_ [[-> _]|[(_ & W & _)|(_ & int & frac & E & Fi & Ff & _)]]]; [reflexivity| |]; exfalso.
           ++ rewrite Ev in W. apply Forall_app in W. destruct W as [_ W]. inversion W as [|? ? X ?]; subst. now apply digit_not_dot in X.
           ++ rewrite E, split_on_one in Eq by now apply digits_no_dots. discriminate Eq.
Qed.

Lemma currency_error_examples :
  AmountParts (ascii "1.5 XS ") (ascii "1.5") (ascii "XS") /\
  parse_currency Debug (ascii "1.5 XS ") = Val (inr (InvalidUnit (ascii "XS"))) /\
  parse_currency Debug (ascii "1.5.2KS") = Val (inr (InvalidFormat "too many decimal points")) /\
  parse_currency Debug (ascii ".5 KS") = Val (inr (InvalidFormat "invalid integer part")) /\
  parse_currency Debug (ascii "1.5") = Val (inr (ParseIntErr IInvalidDigit)) /\
  parse_currency Debug (ascii "H") = Val (inr (ParseIntErr IEmpty)).
Proof.
  split; [|repeat split; vm_compute; reflexivity]. exists [x20], [x20].
  assert (B : blank [x20]) by (exists [[x20]]; split; [reflexivity|constructor; [cbn; tauto|constructor]]).
  split; [reflexivity|]. split; [exact B|]. split; [exact B|]. split.
  { constructor; [left; split; cbn; lia|]. constructor; [now right|]. constructor; [left; split; cbn; lia|constructor]. }
  split.
  { intros c r E. injection E as <- _. split; [intros [W _]; cbn in W; lia|discriminate]. }
  intros w t W. cbn [whitespace In] in W. split; intros E.
  - repeat (destruct W as [<-|W]; [discriminate E|]); exact W.
  - apply (f_equal (@rev _)) in E. rewrite rev_app_distr in E. 
    repeat (destruct W as [<-|W]; [discriminate E|]); exact W.
Qed.
