(** Proofs: what a type reads in full is held to all the rules. *)

From Verif Require Import Base Io SpecText Model_currency Model_text Model_json Model_jsontypes SpecJson
  Model_jsontext SpecJsonText JsonTextLex Model_skip SpecSkip AcceptMore.
Local Open Scope N_scope.

Lemma plain_float : PlainNumbers JFloat -> False.
Proof. intros H. inversion H. now apply H0. Qed.

Lemma lenient_str_some : forall s t r, lenient_str s = Some (Some t, r) -> parse_str s = Some (t, r).
Proof.
  intros s t r H. unfold lenient_str in H. destruct (parse_str s) as [[t' r']|]; [now injection H as <- <-|].
  destruct (skip_str s); discriminate.
Qed.

Definition VStrict (f : nat) : Prop := forall d s j r, lenient_value f d s = Some (j, r) -> PlainNumbers j ->
  parse_value f d s = Some (j, r).
Definition EStrict (f : nat) : Prop := forall d b s l r, lenient_elements f d b s = Some (l, r) -> Forall PlainNumbers l ->
  parse_elements f d b s = Some (l, r).
Definition MStrict (f : nat) : Prop := forall d b s l r, lenient_members f d b s = Some (Some l, r) ->
  Forall (fun kv => PlainNumbers (snd kv)) l -> parse_members f d b s = Some (l, r).

Lemma strict_value : forall f, EStrict f -> MStrict f -> VStrict (S f).
Proof.
  intros f HE HM d s j r H P. cbn [lenient_value parse_value] in *.
  destruct (skip_ws s) as [|b r0]; [discriminate|].
  destruct (Byte.eqb b "n"); [exact H|]. destruct (Byte.eqb b "t"); [exact H|]. destruct (Byte.eqb b "f"); [exact H|].
  destruct (Byte.eqb b "-"); [exact H|]. destruct (is_digit b); [exact H|]. destruct (Byte.eqb b """").
  { destruct (lenient_str r0) as [[[t|] r1]|] eqn:E; [|injection H as <- _; destruct (plain_float P)|discriminate].
    injection H as <- <-. now rewrite (lenient_str_some _ _ _ E). }
  destruct (Byte.eqb b "[").
  { destruct (lenient_elements f (d - 1) true r0) as [[l r1]|] eqn:E; [|discriminate]. injection H as <- <-.
    destruct (d - 1 =? 0); [destruct (plain_float P)|]. rewrite (HE _ _ _ _ _ E); [reflexivity|]. now inversion P. }
  destruct (Byte.eqb b "{"); [|discriminate].
  destruct (lenient_members f (d - 1) true r0) as [[[l|] r1]|] eqn:E; [|injection H as <- _; destruct (plain_float P)|discriminate].
  injection H as <- <-. destruct (d - 1 =? 0); [destruct (plain_float P)|]. rewrite (HM _ _ _ _ _ E); [reflexivity|].
  inversion P as [| | | | | | |? F]; subst. eapply Forall_impl; [|exact F]. intros kv [_ K]. exact K.
Qed.

Lemma strict_elements : forall f, VStrict f -> EStrict f -> EStrict (S f).
Proof.
  intros f HV HE d b s l r H P. cbn [lenient_elements parse_elements] in *. cbv zeta in *.
  assert (element : forall s0, match lenient_value f d s0 with
      | Some (j, r') => match lenient_elements f d false r' with Some (l, r'') => Some (j :: l, r'') | None => None end
      | None => None end = Some (l, r) ->
    match parse_value f d s0 with
      | Some (j, r') => match parse_elements f d false r' with Some (l, r'') => Some (j :: l, r'') | None => None end
      | None => None end = Some (l, r)).
  { intros s0 H0. destruct (lenient_value f d s0) as [[j r']|] eqn:E; [|discriminate].
    destruct (lenient_elements f d false r') as [[l' r'']|] eqn:E'; [|discriminate]. injection H0 as <- <-.
    inversion P; subst. rewrite (HV _ _ _ _ E) by assumption. now rewrite (HE _ _ _ _ _ E') by assumption. }
  destruct (skip_ws s) as [|c r0]; [discriminate|]. destruct (Byte.eqb c "]"); [exact H|].
  destruct b; [now apply element|]. destruct (Byte.eqb c ","); [|discriminate].
  destruct (skip_ws r0) as [|c' r1]; [discriminate|]. destruct (Byte.eqb c' "]"); [discriminate|now apply element].
Qed.

Lemma strict_members : forall f, VStrict f -> MStrict f -> MStrict (S f).
Proof.
  intros f HV HM d b s l r H P. cbn [lenient_members parse_members] in *. cbv zeta in *.
  destruct (skip_ws s) as [|c r0]; [discriminate|]. destruct (Byte.eqb c "}"); [now injection H as <- <-|].
  assert (member : forall k r1,
    match lenient_str r1 with
    | None => None
    | Some (k, r1) =>
      match skip_ws r1 with
      | [] => None
      | c :: r2 =>
        if Byte.eqb c ":" then
          match lenient_value f d r2 with
          | Some (j, r') =>
            match lenient_members f d false r' with
            | Some (l, r'') => Some (match k, l with Some k, Some l => Some ((k, j) :: l) | _, _ => None end, r'')
            | None => None
            end
          | None => None
          end
        else None
      end
    end = Some (Some l, r) -> k = tt ->
    match parse_str r1 with
    | None => None
    | Some (k, r1) =>
      match skip_ws r1 with
      | [] => None
      | c :: r2 =>
        if Byte.eqb c ":" then
          match parse_value f d r2 with
          | Some (j, r') =>
            match parse_members f d false r' with Some (l, r'') => Some ((k, j) :: l, r'') | None => None end
          | None => None
          end
        else None
      end
    end = Some (l, r)).
  { intros _ r1 H0 _. destruct (lenient_str r1) as [[k r2]|] eqn:E; [|discriminate].
    destruct (skip_ws r2) as [|c' r3] eqn:W; [discriminate|]. destruct (Byte.eqb c' ":") eqn:C; [|discriminate].
    destruct (lenient_value f d r3) as [[j r4]|] eqn:E1; [|discriminate].
    destruct (lenient_members f d false r4) as [[l' r5]|] eqn:E2; [|discriminate].
    destruct k as [k|]; [|discriminate]. destruct l' as [l'|]; [|discriminate]. injection H0 as <- <-.
    inversion P; subst. rewrite (lenient_str_some _ _ _ E), W, C. rewrite (HV _ _ _ _ E1) by assumption.
    now rewrite (HM _ _ _ _ _ E2) by assumption. }
  destruct b.
  - destruct (Byte.eqb c """"); [now apply (member tt)|discriminate].
  - destruct (Byte.eqb c ","); [|discriminate]. destruct (skip_ws r0) as [|c' r1]; [discriminate|].
    destruct (Byte.eqb c' """"); [now apply (member tt)|discriminate].
Qed.

Lemma lenient_strict : forall f, VStrict f /\ EStrict f /\ MStrict f.
Proof.
  intros f. induction f as [|f (HV & HE & HM)].
  - repeat split; intros until 1; discriminate.
  - split; [now apply strict_value|]. split; [now apply strict_elements|now apply strict_members].
Qed.

Theorem skipping_strict : forall A (c : codec A) t a, (forall j, c_de c j = JOk a -> PlainNumbers j) ->
  from_str_skipping c t = JOk a -> from_str c t = JOk a.
Proof.
  intros A c t a N H. unfold from_str_skipping, lenient_document in H. unfold from_str, parse_document.
  destruct (lenient_value (2 * length t) text_depth_limit t) as [[j r]|] eqn:E; [|discriminate].
  destruct (skip_ws r) as [|? ?] eqn:W; [|discriminate]. cbn in H.
  rewrite (proj1 (lenient_strict _) _ _ _ _ E) by (now apply N). now rewrite W.
Qed.

(** Texts, numbers, and lists of them *)
Lemma plain_examples :
  (forall j a, c_de j_string j = JOk a -> PlainNumbers j) /\
  (forall j a, c_de j_hash j = JOk a -> PlainNumbers j) /\
  (forall j a, c_de (j_list j_u64) j = JOk a -> PlainNumbers j).
Proof.
  split; [intros [| | | | |s|l|l] a H; try discriminate; now constructor|].
  split; [intros [| | | | |s|l|l] a H; try discriminate; now constructor|].
  intros j a H. apply list_iff in H as (js & -> & F). constructor. induction F as [|x j l js R F IH]; constructor; [|exact IH].
  clear - R. destruct j as [| | | | |s|l|l]; try discriminate R. now constructor.
Qed.
