(** Proofs: JSON texts and UTF-8. *)

From Verif Require Import Base SpecText SpecUtf8 Model_currency CurrencyProofs Model_text TextProofs Model_json Model_jsontypes
  SpecJson BasicProofs JsonProofs Model_jsontext SpecJsonText JsonTextLex JsonTextProofs JsonTextPrint.
Local Open Scope N_scope.

Definition ascii_only (s : bytes) : Prop := Forall (fun b => b2n b < 128) s.
Definition high_only (s : bytes) : Prop := Forall (fun b => 128 <= b2n b) s.

Lemma char_cases : forall c, scalar c ->
  (exists b, utf8_char c = [b] /\ b2n b < 128) \/ (exists b r, utf8_char c = b :: r /\ high_only (b :: r)).
Proof.
  intros c Hc. unfold scalar in Hc. unfold utf8_char.
  assert (hi : forall x, 128 <= x < 256 -> 128 <= b2n (n2b x)) by (intros x Hx; rewrite b2n_n2b, N.mod_small; lia).
  assert (lo : forall x, 128 <= b2n (n2b (128 + x mod 64))).
  { intros x. apply hi. pose proof (N.mod_lt x 64). lia. }
  destruct (N.ltb_spec c 0x80).
  - left. exists (n2b c). split; [reflexivity|]. rewrite b2n_n2b, N.mod_small; lia.
  - right. destruct (N.ltb_spec c 0x800); [|destruct (N.ltb_spec c 0x10000)].
    + assert (c / 64 < 32) by (apply N.div_lt_upper_bound; lia).
      eexists _, _. split; [reflexivity|]. repeat constructor; [apply hi; lia|apply lo].
    + assert (c / 4096 < 16) by (apply N.div_lt_upper_bound; lia).
      eexists _, _. split; [reflexivity|]. repeat constructor; [apply hi; lia|apply lo|apply lo].
    + assert (c / 262144 < 8) by (apply N.div_lt_upper_bound; lia).
      eexists _, _. split; [reflexivity|]. repeat constructor; [apply hi; lia|apply lo|apply lo|apply lo].
Qed.

Lemma utf8_nil : Utf8 [].
Proof. exists []. split; [constructor|reflexivity]. Qed.

Lemma utf8_cons : forall c s, scalar c -> Utf8 s -> Utf8 (utf8_char c ++ s).
Proof. intros c s Hc (cs & H & ->). exists (c :: cs). split; [now constructor|reflexivity]. Qed.

Lemma utf8_one : forall c, scalar c -> Utf8 (utf8_char c).
Proof. intros c Hc. rewrite <- (app_nil_r (utf8_char c)). apply utf8_cons; [exact Hc|apply utf8_nil]. Qed.

Lemma utf8_app : forall a b, Utf8 a -> Utf8 b -> Utf8 (a ++ b).
Proof.
  intros a b (ca & Ha & ->) (cb & Hb & ->). exists (ca ++ cb). split; [now apply Forall_app|].
  now rewrite map_app, concat_app.
Qed.

Lemma utf8_byte : forall b, b2n b < 128 -> Utf8 [b].
Proof.
  intros b H. replace [b] with (utf8_char (b2n b)).
  - apply utf8_one. left. lia.
  - unfold utf8_char. destruct (N.ltb_spec (b2n b) 0x80); [|lia]. now rewrite n2b_b2n.
Qed.

Lemma utf8_of_ascii : forall s, ascii_only s -> Utf8 s.
Proof.
  intros s H. induction H as [|b s Hb H IH]; [apply utf8_nil|].
  apply (utf8_app [b]); [now apply utf8_byte|exact IH].
Qed.

(** A byte below 128 is a character of its own. *)
Lemma utf8_split : forall x b u, b2n b < 128 -> Utf8 (x ++ b :: u) -> Utf8 x /\ Utf8 u.
Proof.
  intros x b u Hb (cs & Hc & E). revert x E. induction Hc as [|c cs Hc H IH]; intros x E.
  - destruct x; discriminate.
  - cbn [map concat] in E. destruct (char_cases c Hc) as [(b' & Ec & L)|(b' & r & Ec & L)].
    + rewrite Ec in E. cbn [app] in E. destruct x as [|x0 x].
      * injection E as -> ->. split; [apply utf8_nil|exists cs; auto].
      * cbn [app] in E. injection E as -> E. apply IH in E as [Ex Eu]. split; [|exact Eu].
        apply (utf8_app [b']); [now apply utf8_byte|exact Ex].
    + rewrite Ec in E.
      assert (P : exists x', x = (b' :: r) ++ x' /\ x' ++ b :: u = concat (map utf8_char cs)).
      { clear Ec IH. revert x E. induction L as [|h hs Hh L IHl]; intros x E.
        - exists x. split; [reflexivity|exact E].
        - cbn [app] in E. destruct x as [|x0 x]; cbn [app] in E; injection E as E0 E.
          + subst. lia.
          + subst x0. apply IHl in E as (x' & -> & E). exists x'. split; [reflexivity|exact E]. }
      destruct P as (x' & -> & E'). apply IH in E' as [Ex Eu]. split; [|exact Eu].
      rewrite <- Ec. now apply utf8_cons.
Qed.

Lemma utf8_drop : forall a s, ascii_only a -> Utf8 (a ++ s) -> Utf8 s.
Proof.
  intros a s H. induction H as [|b a Hb H IH]; intros U; [exact U|].
  apply IH. now apply (utf8_split [] b).
Qed.

Lemma utf8_take : forall s a, ascii_only a -> Utf8 (s ++ a) -> Utf8 s.
Proof. intros s a H U. destruct H as [|b a Hb H]; [now rewrite app_nil_r in U|]. now apply utf8_split in U. Qed.

(** ** Reading gives UTF-8 *)

Lemma space_ascii : forall w, json_space w -> ascii_only w.
Proof.
  intros w H. eapply Forall_impl; [|exact H]. intros b [-> | [-> | [-> | ->]]]; reflexivity.
Qed.

Lemma utf8_padded : forall (P : bytes -> Prop) t, Padded P t -> Utf8 t -> exists v, P v /\ Utf8 v.
Proof.
  intros P t (w1 & v & w2 & H1 & H2 & Hv & ->) U. exists v. split; [exact Hv|].
  apply space_ascii in H1, H2. apply utf8_drop in U; [|exact H1]. now apply utf8_take in U.
Qed.

Lemma hex_ascii : forall n t, HexEscape n t -> ascii_only t.
Proof.
  intros n t (a & b & c & d & va & vb & vc & vd & -> & Ha & Hb & Hc & Hd & _).
  assert (A : forall c v, hex_digit c v -> b2n c < 128).
  { intros c' v [H|H]; apply nth_error_In in H; revert H; clear;
      intros H; unfold hex_digits_lower, hex_digits_upper in H; cbn in H;
      repeat (destruct H as [<-|H]; [reflexivity|]); destruct H. }
  repeat constructor; eauto.
Qed.

(** a piece is ASCII and stands for a character, or is one byte of a longer character *)
Lemma piece_cases : forall c t, CharText c t ->
  (ascii_only t /\ t <> [] /\ Utf8 c) \/ (exists b, c = [b] /\ t = [b] /\ 128 <= b2n b).
Proof.
  intros c t H. destruct H as [b L N1 N2|c e I|n t E S|n hi lo t u B Eh El Ht Hu].
  - destruct (N.lt_ge_cases (b2n b) 128) as [L'|L']; [left|right; eauto].
    split; [repeat constructor; exact L'|]. split; [discriminate|now apply utf8_byte].
  - left. cbn [In short_escapes] in I.
    repeat (destruct I as [I|I]; [injection I as <- <-; split; [repeat constructor|split; [discriminate|now apply utf8_byte]]|]).
    destruct I.
  - left. split; [now apply (hex_ascii n)|]. split; [|now apply utf8_one].
    destruct E as (? & ? & ? & ? & ? & ? & ? & ? & -> & _). discriminate.
  - left. split; [apply Forall_app; split; [now apply (hex_ascii hi)|now apply (hex_ascii lo)]|].
    split; [|apply utf8_one; right; lia].
    destruct Ht as (? & ? & ? & ? & ? & ? & ? & ? & -> & _). discriminate.
Qed.

Lemma high_pieces : forall hs ps rest, high_only hs -> pieces ps -> hs ++ rest = concat (map snd ps) ->
  exists ps', concat (map fst ps) = hs ++ concat (map fst ps') /\ pieces ps' /\
    rest = concat (map snd ps') /\ (length ps' + length hs = length ps)%nat.
Proof.
  intros hs ps rest H. revert ps. induction H as [|h hs Hh H IH]; intros ps P E.
  - exists ps. cbn [app length]. repeat split; auto.
  - destruct P as [|[c t] ps C P]; [discriminate|]. cbn [map concat fst snd app] in E, C |- *.
    destruct (piece_cases c t C) as [(A & N & _)|(b & -> & -> & Hb)].
    + exfalso. destruct t as [|t0 t]; [congruence|]. cbn [app] in E. injection E as -> _. inversion A; subst. lia.
    + cbn [app] in E. injection E as <- E. apply IH in E as (ps' & E1 & P' & E2 & L); [|exact P].
      exists ps'. cbn [app]. rewrite E1. cbn [length]. repeat split; auto. lia.
Qed.

Lemma string_utf8 : forall n ps, (length ps <= n)%nat -> pieces ps -> Utf8 (concat (map snd ps)) -> Utf8 (concat (map fst ps)).
Proof.
  intros n. induction n as [|n IH]; intros ps L P U.
  { destruct ps; [exact U|cbn in L; lia]. }
  destruct P as [|[c t] ps C P]; [exact U|]. cbn [map concat fst snd length] in C, U, L |- *.
  destruct (piece_cases c t C) as [(A & _ & Uc)|(b & -> & -> & Hb)].
  - apply utf8_app; [exact Uc|]. apply IH; [lia|exact P|]. now apply utf8_drop in U.
  - destruct U as (cs & Hc & E). destruct Hc as [|c cs Hc Hcs]; [discriminate|]. cbn [map concat app] in E.
    destruct (char_cases c Hc) as [(b' & Ec & Hl)|(b' & r & Ec & Hh)]; rewrite Ec in E; cbn [app] in E; injection E as <- E.
    + lia.
    + inversion Hh as [|? ? _ Hr]; subst. symmetry in E.
      destruct (high_pieces r ps (concat (map utf8_char cs)) Hr P E) as (ps' & E1 & P' & E2 & Ln).
      rewrite E1. change ([b] ++ r ++ concat (map fst ps')) with ((b :: r) ++ concat (map fst ps')).
      rewrite <- Ec. apply utf8_cons; [exact Hc|]. apply IH; [|exact P'|].
      { cbn [length] in L. unfold bytes in *. lia. }
      exists cs. split; [exact Hcs|]. symmetry. exact E2.
Qed.

Lemma string_text_utf8 : forall s t, StringText s t -> Utf8 t -> Utf8 s.
Proof.
  intros s t (ps & P & -> & ->) U. apply (string_utf8 (length ps)); [lia|exact P|].
  apply (utf8_drop [""""%byte]) in U; [|repeat constructor]. apply utf8_take in U; [exact U|repeat constructor].
Qed.

Lemma comma_utf8 : forall ts, Utf8 (comma_list ts) -> Forall Utf8 ts.
Proof.
  intros ts. induction ts as [|t ts IH]; intros U; [constructor|]. rewrite comma_cons in U.
  destruct ts as [|u ts].
  - cbn [comma_tail] in U. rewrite app_nil_r in U. repeat constructor. exact U.
  - unfold comma_tail in U. apply utf8_split in U as [Ut Us]; [|reflexivity]. constructor; auto.
Qed.

Lemma utf8_bracket : forall a b s, b2n a < 128 -> b2n b < 128 -> Utf8 ([a] ++ s ++ [b]) -> Utf8 s.
Proof.
  intros a b s Ha Hb U. apply utf8_drop in U; [|repeat constructor; exact Ha].
  apply utf8_take in U; [exact U|repeat constructor; exact Hb].
Qed.

Lemma value_utf8 : forall j v, ValueText j v -> Utf8 v -> Utf8Doc j.
Proof.
  intros j. induction j as [|b0|n0|z0| |s0|l IH|l IH] using json_rect'; intros v H U;
    try (constructor; exact I).
  - inversion H as [| | |? ? K|? ? K| | | | ]; subst; [inversion K|]. constructor. now apply (string_text_utf8 s0 v).
  - inversion H as [| | |? ? K| |w Hw|l' ts N F| | ]; subst; [inversion K| |]; constructor; [constructor|].
    apply (utf8_bracket "[" "]") in U; [|reflexivity|reflexivity]. apply comma_utf8 in U. clear H N.
    induction F as [|x t l ts Px F IHF]; constructor; inversion IH; subst; inversion U; subst.
    + apply utf8_padded in Px as (v & Hv & Uv); [|assumption].
      match goal with K : forall v, ValueText x v -> _ |- _ => exact (K v Hv Uv) end.
    + now apply IHF.
  - inversion H as [| | |? ? K| | | |w Hw|l' ts N F]; subst; [inversion K| |]; constructor; [constructor|].
    apply (utf8_bracket "{" "}") in U; [|reflexivity|reflexivity]. apply comma_utf8 in U. clear H N.
    induction F as [|x t l ts Px F IHF]; constructor; inversion IH; subst; inversion U; subst.
    + destruct Px as (k & v & Pk & Pv & ->).
      match goal with K : Utf8 (k ++ ascii ":" ++ v) |- _ => apply (utf8_split k ":"%byte v) in K as [Uk Uv]; [|reflexivity] end.
      apply utf8_padded in Pk as (kt & Hk & Uk'); [|assumption]. apply utf8_padded in Pv as (vt & Hv & Uv'); [|assumption].
      split; [now apply (string_text_utf8 _ kt)|].
      match goal with K : forall v, ValueText (snd x) v -> _ |- _ => exact (K vt Hv Uv') end.
    + now apply IHF.
Qed.

Theorem document_utf8 : forall j t, DocumentText j t -> Utf8 t -> Utf8Doc j.
Proof. intros j t H U. apply utf8_padded in H as (v & Hv & Uv); [|exact U]. now apply (value_utf8 j v). Qed.

(** ** Writing gives UTF-8 *)

Lemma escape_high : forall b, 128 <= b2n b -> escape_byte b = [b].
Proof.
  intros b H. unfold escape_byte.
  repeat match goal with
         | |- context [Byte.eqb b ?c] => rewrite (eqb_neq b c) by (intros ->; vm_compute in H; congruence)
         end.
  destruct (N.ltb_spec (b2n b) 32); [lia|reflexivity].
Qed.

Lemma escape_low : forall b, b2n b < 128 -> ascii_only (escape_byte b).
Proof.
  intros b H. unfold escape_byte.
  assert (A : forall v, v < 16 -> b2n (hex_char v) < 128).
  { intros v Hv. unfold hex_char. destruct (N.ltb_spec v 10); rewrite b2n_n2b, N.mod_small; lia. }
  repeat match goal with |- context [if ?t then _ else _] => destruct t eqn:? end; repeat constructor; try exact H;
    apply A.
  - apply N.div_lt_upper_bound; lia.
  - apply N.mod_lt. discriminate.
Qed.

Lemma print_string_utf8 : forall s, Utf8 s -> Utf8 (print_string s).
Proof.
  intros s (cs & H & ->). unfold print_string. apply (utf8_app [""""%byte]); [now apply utf8_byte|].
  apply utf8_app; [|now apply utf8_byte].
  induction H as [|c cs Hc H IH]; [apply utf8_nil|]. cbn [map concat]. rewrite flat_map_app.
  apply utf8_app; [|exact IH]. destruct (char_cases c Hc) as [(b & -> & L)|(b & r & E & L)].
  - cbn [flat_map]. rewrite app_nil_r. now apply utf8_of_ascii, escape_low.
  - assert (Q : flat_map escape_byte (utf8_char c) = utf8_char c).
    { rewrite E. clear E. induction L as [|h hs Hh L IHl]; [reflexivity|]. cbn [flat_map]. rewrite escape_high by exact Hh.
      cbn [app]. now rewrite IHl. }
    rewrite Q. now apply utf8_one.
Qed.

Lemma join_utf8 : forall l, Forall Utf8 l -> Utf8 (join_with (ascii ",") l).
Proof.
  intros l H. rewrite join_comma. induction H as [|x l Hx H IH]; [apply utf8_nil|]. rewrite comma_cons.
  apply utf8_app; [exact Hx|]. destruct l; [apply utf8_nil|]. unfold comma_tail.
  apply (utf8_app [","%byte]); [now apply utf8_byte|exact IH].
Qed.

Lemma digits_ascii : forall s, Forall digit s -> ascii_only s.
Proof. intros s H. eapply Forall_impl; [|exact H]. unfold digit. intros b Hb. lia. Qed.

Lemma scalar_utf8 : forall j, Utf8Doc j -> Utf8 (print_scalar j).
Proof.
  intros j H. destruct H; cbn [print_scalar]; try apply utf8_nil; try (apply utf8_of_ascii; repeat constructor; fail).
  - destruct b; apply utf8_of_ascii; repeat constructor.
  - apply utf8_of_ascii, digits_ascii. apply (dec_text_spec (uval n)).
  - apply utf8_of_ascii. constructor; [reflexivity|]. apply digits_ascii. apply (dec_text_spec (Z.to_N (- sval z))).
  - now apply print_string_utf8.
Qed.

Lemma new_line_utf8 : forall n, Utf8 (new_line n).
Proof. intros n. apply utf8_of_ascii, space_ascii, new_line_space. Qed.

Lemma print_utf8 : forall j, Utf8Doc j -> Utf8 (print j).
Proof.
  intros j. induction j as [|b0|n0|z0| |s0|l IH|l IH] using json_rect'; intros U;
    try (match goal with |- Utf8 (print ?j) => exact (scalar_utf8 j U) end).
  - change (print (JArr l)) with (ascii "[" ++ join_with (ascii ",") (map print l) ++ ascii "]").
    apply utf8_app; [now apply utf8_byte|]. apply utf8_app; [|now apply utf8_byte]. apply join_utf8, Forall_map.
    inversion U as [| | | | | |? F|]; subst. rewrite Forall_forall in *. intros x I. exact (IH x I (F x I)).
  - change (print (JObj l)) with (ascii "{" ++
      join_with (ascii ",") (map (fun kv => print_string (fst kv) ++ ascii ":" ++ print (snd kv)) l) ++ ascii "}").
    apply utf8_app; [now apply utf8_byte|]. apply utf8_app; [|now apply utf8_byte]. apply join_utf8, Forall_map.
    inversion U as [| | | | | | |? F]; subst. rewrite Forall_forall in *. intros kv I. destruct (F kv I) as [K V].
    apply utf8_app; [now apply print_string_utf8|]. apply utf8_app; [now apply utf8_byte|]. exact (IH kv I V).
Qed.

Lemma print_pretty_utf8 : forall j n, Utf8Doc j -> Utf8 (print_pretty_at n j).
Proof.
  intros j. induction j as [|b0|n0|z0| |s0|l IH|l IH] using json_rect'; intros n U;
    try (match goal with |- Utf8 (print_pretty_at _ ?j) => exact (scalar_utf8 j U) end).
  - inversion U as [| | | | | |? F|]; subst. destruct l as [|x l]; [apply utf8_of_ascii; repeat constructor|].
    change (print_pretty_at n (JArr (x :: l))) with
      (ascii "[" ++ join_with (ascii ",") (map (fun x => new_line (S n) ++ print_pretty_at (S n) x) (x :: l)) ++
       new_line n ++ ascii "]").
    apply utf8_app; [now apply utf8_byte|]. apply utf8_app; [|apply utf8_app; [apply new_line_utf8|now apply utf8_byte]].
    apply join_utf8, Forall_map. rewrite Forall_forall in *. intros y I. apply utf8_app; [apply new_line_utf8|exact (IH y I (S n) (F y I))].
  - inversion U as [| | | | | | |? F]; subst. destruct l as [|x l]; [apply utf8_of_ascii; repeat constructor|].
    change (print_pretty_at n (JObj (x :: l))) with
      (ascii "{" ++ join_with (ascii ",") (map (fun kv => new_line (S n) ++ print_string (fst kv) ++ ascii ": " ++ print_pretty_at (S n) (snd kv)) (x :: l)) ++
       new_line n ++ ascii "}").
    apply utf8_app; [now apply utf8_byte|]. apply utf8_app; [|apply utf8_app; [apply new_line_utf8|now apply utf8_byte]].
    apply join_utf8, Forall_map. rewrite Forall_forall in *. intros kv I. destruct (F kv I) as [K V].
    apply utf8_app; [apply new_line_utf8|]. apply utf8_app; [now apply print_string_utf8|].
    apply utf8_app; [apply utf8_of_ascii; repeat constructor|]. exact (IH kv I (S n) V).
Qed.
