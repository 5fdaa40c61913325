(** Proofs: what is written is in the grammar; UTF-8. *)

From Verif Require Import Base SpecText SpecUtf8 Model_currency CurrencyProofs Model_text TextProofs Model_json Model_jsontypes
  SpecJson BasicProofs JsonProofs Model_jsontext SpecJsonText JsonTextLex JsonTextProofs.
Local Open Scope N_scope.

(** ** What is written is in the grammar *)

Lemma escape_char : forall b, CharText [b] (escape_byte b).
Proof.
  intros b. unfold escape_byte.
  destruct (Byte.eqb b """") eqn:E1; [apply eqb_true in E1; subst; apply char_short; cbn; tauto|].
  destruct (Byte.eqb b "\") eqn:E2; [apply eqb_true in E2; subst; apply char_short; cbn; tauto|].
  destruct (Byte.eqb b x08) eqn:E3; [apply eqb_true in E3; subst; apply char_short; cbn; tauto|].
  destruct (Byte.eqb b x09) eqn:E4; [apply eqb_true in E4; subst; apply char_short; cbn; tauto|].
  destruct (Byte.eqb b x0a) eqn:E5; [apply eqb_true in E5; subst; apply char_short; cbn; tauto|].
  destruct (Byte.eqb b x0c) eqn:E6; [apply eqb_true in E6; subst; apply char_short; cbn; tauto|].
  destruct (Byte.eqb b x0d) eqn:E7; [apply eqb_true in E7; subst; apply char_short; cbn; tauto|].
  destruct (N.ltb_spec (b2n b) 32) as [L|L].
  - replace [b] with (utf8_char (b2n b)).
    + apply char_escape; [|left; lia].
      assert (D : b2n b / 16 < 16) by (apply N.div_lt_upper_bound; lia).
      assert (M : b2n b mod 16 < 16) by (apply N.mod_lt; discriminate).
      exists "0"%byte, "0"%byte, (hex_char (b2n b / 16)), (hex_char (b2n b mod 16)), 0%nat, 0%nat,
        (N.to_nat (b2n b / 16)), (N.to_nat (b2n b mod 16)).
      split; [reflexivity|]. split; [left; reflexivity|]. split; [left; reflexivity|].
      split; [rewrite <- (N2Nat.id (b2n b / 16)) at 1; apply hex_char_digit; lia|].
      split; [rewrite <- (N2Nat.id (b2n b mod 16)) at 1; apply hex_char_digit; lia|].
      rewrite !N2Nat.id. pose proof (N.div_mod (b2n b) 16 ltac:(discriminate)). cbn [N.of_nat]. lia.
    + unfold utf8_char. destruct (N.ltb_spec (b2n b) 0x80); [|lia]. now rewrite n2b_b2n.
  - apply char_plain; [exact L|now apply eqb_false|now apply eqb_false].
Qed.

Lemma print_string_text : forall s, StringText s (print_string s).
Proof.
  intros s. exists (map (fun b => ([b], escape_byte b)) s). split.
  - apply Forall_map. apply Forall_forall. intros b _. apply escape_char.
  - unfold print_string. split.
    + induction s as [|b s IH]; [reflexivity|]. cbn [map concat fst app]. now rewrite <- IH.
    + rewrite map_map. cbn [snd]. now rewrite flat_map_concat_map.
Qed.

Lemma dec_int_text : forall n, IntText n (dec_text n).
Proof.
  intros n. destruct (dec_text_spec n) as (D & V & NZ & Z). split; [exact D|]. split; [exact V|].
  destruct (N.eq_dec n 0) as [->|N0]; [left; now apply Z|right].
  destruct D as [Dn _]. destruct (dec_text n) as [|c r]; [congruence|]. cbn [hd]. now apply (NZ N0 c r).
Qed.

Lemma join_comma : forall l, join_with (ascii ",") l = comma_list l.
Proof. intros l. induction l as [|x [|y l] IH]; [reflexivity|reflexivity|]. cbn [join_with comma_list] in *. now rewrite IH. Qed.

Lemma padded_same : forall (P : bytes -> Prop) t, P t -> Padded P t.
Proof. intros P t H. exists [], t, []. repeat split; try constructor; [exact H|]. now rewrite app_nil_r. Qed.

Lemma padded_left : forall (P : bytes -> Prop) w t, json_space w -> P t -> Padded P (w ++ t).
Proof. intros P w t Hw H. exists w, t, []. split; [exact Hw|]. repeat split; try constructor; [exact H|]. now rewrite app_nil_r. Qed.

Lemma scalar_text : forall j, match j with JArr _ | JObj _ => False | JNeg z => (sval z < 0)%Z | _ => True end ->
  ValueText j (print_scalar j).
Proof.
  intros [|[]|n|z| |s|l|l] H; cbn [print_scalar]; try constructor 1; try constructor 2; try constructor 3; try now destruct H.
  - apply text_number, num_uint, dec_int_text.
  - apply text_number, (num_neg z (Z.to_N (- sval z))); [apply dec_int_text|lia|lia].
  - apply text_number, (num_float [] 0 (ascii "0") (ascii ".0") []); auto.
    + split; [split; [discriminate|constructor; [unfold digit; cbn; lia|constructor]]|]. split; [reflexivity|now left].
    + right. exists (ascii "0"). split; [|reflexivity]. split; [discriminate|]. constructor; [unfold digit; cbn; lia|constructor].
    + left. discriminate.
  - apply text_string, print_string_text.
Qed.

Lemma signed_arr : forall l, SignedDoc (JArr l) -> Forall SignedDoc l.
Proof. intros l H. now inversion H. Qed.
Lemma signed_obj : forall l, SignedDoc (JObj l) -> Forall (fun kv => SignedDoc (snd kv)) l.
Proof. intros l H. inversion H as [| | | | | | |? F]; subst. eapply Forall_impl; [|exact F]. now intros kv [_ K]. Qed.

Lemma signed_scalar : forall j, SignedDoc j -> (forall l, j <> JArr l) -> (forall l, j <> JObj l) ->
  match j with JArr _ | JObj _ => False | JNeg z => (sval z < 0)%Z | _ => True end.
Proof. intros j [] A O; try exact I; try assumption; [now apply (A l)|now apply (O l)]. Qed.

Lemma print_value : forall j, SignedDoc j -> ValueText j (print j).
Proof.
  intros j. induction j as [|b0|n0|z0| |s0|l IH|l IH] using json_rect'; intros S;
    try (match goal with |- ValueText ?j _ =>
           exact (scalar_text j (signed_scalar j S ltac:(discriminate) ltac:(discriminate))) end).
  - change (print (JArr l)) with (ascii "[" ++ join_with (ascii ",") (map print l) ++ ascii "]").
    rewrite join_comma. apply signed_arr in S. destruct l as [|x l]; [exact (text_empty_array [] space_nil)|].
    apply text_array; [discriminate|]. revert IH S. generalize (x :: l). clear x l. intros l IH S.
    induction IH as [|x l Hx IH IHl]; cbn [map]; constructor; inversion S; subst; [|now apply IHl].
    now apply padded_same, Hx.
  - change (print (JObj l)) with (ascii "{" ++
      join_with (ascii ",") (map (fun kv => print_string (fst kv) ++ ascii ":" ++ print (snd kv)) l) ++ ascii "}").
    rewrite join_comma. apply signed_obj in S. destruct l as [|x l]; [exact (text_empty_object [] space_nil)|].
    apply text_object; [discriminate|]. revert IH S. generalize (x :: l). clear x l. intros l IH S.
    induction IH as [|x l Hx IH IHl]; cbn [map]; constructor; inversion S; subst; [|now apply IHl].
    exists (print_string (fst x)), (print (snd x)). split; [apply padded_same, print_string_text|].
    split; [now apply padded_same, Hx|reflexivity].
Qed.

Lemma new_line_space : forall n, json_space (new_line n).
Proof.
  intros n. unfold new_line. constructor; [auto|]. induction n as [|n IH]; [constructor|].
  cbn [repeat concat]. apply space_app; [|exact IH]. repeat constructor.
Qed.

Lemma comma_last : forall ts t w, comma_list (ts ++ [t]) ++ w = comma_list (ts ++ [t ++ w]).
Proof.
  intros ts t w. induction ts as [|x ts IH]; [reflexivity|]. cbn [app]. rewrite !comma_cons, <- app_assoc. f_equal.
  destruct ts as [|y ts]; [reflexivity|]. unfold comma_tail. cbn [app] in *. now rewrite IH.
Qed.

(** elements on lines of their own, and a last line break *)
Lemma lines : forall A (R : A -> bytes -> Prop) (f : A -> bytes) w l, l <> [] ->
  Forall (fun x => R x (f x) /\ forall t, R x t -> R x (t ++ w)) l -> exists ts, comma_list (map f l) ++ w = comma_list ts /\ Forall2 R l ts.
Proof.
  intros A R f w l N H. destruct (exists_last N) as (l0 & x & ->). apply Forall_app in H as [H Hx].
  inversion Hx as [|? ? [Hf Hp] _]; subst. exists (map f l0 ++ [f x ++ w]). split.
  - rewrite map_app. cbn [map]. apply comma_last.
  - apply Forall2_app; [|constructor; [now apply Hp|constructor]]. clear N Hx Hf Hp.
    induction H as [|y l0 [Hy _] H IH]; cbn [map]; constructor; auto.
Qed.

Lemma padded_right : forall (P : bytes -> Prop) w t, json_space w -> Padded P t -> Padded P (t ++ w).
Proof.
  intros P w t Hw (w1 & v & w2 & H1 & H2 & Hv & ->). exists w1, v, (w2 ++ w). split; [exact H1|].
  split; [now apply space_app|]. split; [exact Hv|]. now rewrite <- !app_assoc.
Qed.

Lemma print_pretty_value : forall j n, SignedDoc j -> ValueText j (print_pretty_at n j).
Proof.
  intros j. induction j as [|b0|n0|z0| |s0|l IH|l IH] using json_rect'; intros n S;
    try (match goal with |- ValueText ?j _ =>
           exact (scalar_text j (signed_scalar j S ltac:(discriminate) ltac:(discriminate))) end).
  - apply signed_arr in S. destruct l as [|x l]; [exact (text_empty_array [] space_nil)|].
    assert (NE : x :: l <> []) by discriminate. revert IH S NE.
    replace (print_pretty_at n (JArr (x :: l))) with
      (ascii "[" ++ (join_with (ascii ",") (map (fun x => new_line (Datatypes.S n) ++ print_pretty_at (Datatypes.S n) x) (x :: l)) ++
       new_line n) ++ ascii "]") by (cbn [print_pretty_at]; now rewrite <- app_assoc).
    generalize (x :: l). clear x l. intros l IH S NE. rewrite join_comma.
    destruct (lines _ (fun j => Padded (ValueText j)) (fun x => new_line (Datatypes.S n) ++ print_pretty_at (Datatypes.S n) x)
      (new_line n) l NE) as (ts & E & H);
      [|match goal with |- context [comma_list ?x ++ new_line n] => replace (comma_list x ++ new_line n) with (comma_list ts) by (symmetry; exact E) end;
        now apply text_array].
    clear NE. induction IH as [|x l Hx IH IHl]; constructor; inversion S; subst; [|now apply IHl].
    split; [apply padded_left; [apply new_line_space|now apply Hx]|]. intros t. apply padded_right, new_line_space.
  - apply signed_obj in S. destruct l as [|x l]; [exact (text_empty_object [] space_nil)|].
    assert (NE : x :: l <> []) by discriminate. revert IH S NE.
    replace (print_pretty_at n (JObj (x :: l))) with
      (ascii "{" ++ (join_with (ascii ",") (map (fun kv => new_line (Datatypes.S n) ++ print_string (fst kv) ++ ascii ": " ++ print_pretty_at (Datatypes.S n) (snd kv)) (x :: l)) ++
       new_line n) ++ ascii "}") by (cbn [print_pretty_at]; now rewrite <- app_assoc).
    generalize (x :: l). clear x l. intros l IH S NE. rewrite join_comma.
    destruct (lines _ MemberText (fun kv => new_line (Datatypes.S n) ++ print_string (fst kv) ++ ascii ": " ++ print_pretty_at (Datatypes.S n) (snd kv))
      (new_line n) l NE) as (ts & E & H);
      [|match goal with |- context [comma_list ?x ++ new_line n] => replace (comma_list x ++ new_line n) with (comma_list ts) by (symmetry; exact E) end;
        now apply text_object].
    clear NE. induction IH as [|x l Hx IH IHl]; constructor; inversion S; subst; [|now apply IHl]. split.
    + exists (new_line (Datatypes.S n) ++ print_string (fst x)), (ascii " " ++ print_pretty_at (Datatypes.S n) (snd x)).
      split; [apply padded_left; [apply new_line_space|apply print_string_text]|].
      split; [apply padded_left; [repeat constructor|now apply Hx]|]. now rewrite <- !app_assoc.
    + intros t (k & v & Hk & Hv & ->). exists k, (v ++ new_line n). split; [exact Hk|].
      split; [now apply padded_right; [apply new_line_space|]|]. now rewrite <- !app_assoc.
Qed.

Lemma print_document : forall j, SignedDoc j -> DocumentText j (print j) /\ DocumentText j (print_pretty j).
Proof.
  intros j S. split; apply padded_same; [now apply print_value|now apply print_pretty_value].
Qed.
