(** Exactly which texts the unlock key parser and the address macro accept, and which bytes a
    specifier keeps (C19, C20, C21). *)
From Verif Require Import Base Io Spec SpecUtf8 SpecText Model_encoding Model_common Model_v1
  Model_text CurrencyProofs TextProofs TextMore.
Local Open Scope N_scope.

Lemma hex_digit_no_colon : forall c v, hex_digit c v -> c <> ":"%byte.
Proof.
  intros c v [H|H] ->; apply nth_error_In in H; cbn in H;
    repeat (destruct H as [H|H]; [discriminate H|]); exact H.
Qed.

Lemma HexText_no_colon : forall s l, HexText s l -> Forall (fun c => c <> ":"%byte) s.
Proof. induction 1; constructor; [|constructor]; eauto using hex_digit_no_colon. Qed.

Lemma specifier_from_length : forall t,
  length (firstn 16 t ++ repeat x00 (16 - length (firstn 16 t))) = 16%nat.
Proof. intros t. rewrite app_length, repeat_length. pose proof (firstn_le_length 16 t). lia. Qed.

Lemma specifier_from_nth : forall t i, (i < 16)%nat -> nth i (aval (specifier_from t)) x00 = nth i t x00.
Proof.
  intros t i H. unfold specifier_from. cbv zeta. rewrite arr_of_aval by apply specifier_from_length.
  destruct (Nat.ltb_spec i (length (firstn 16 t))) as [L|L].
  - rewrite app_nth1 by assumption. rewrite <- (firstn_skipn 16 t) at 2. now rewrite app_nth1.
  - rewrite app_nth2 by assumption. rewrite nth_repeat. rewrite firstn_length in L.
    rewrite nth_overflow; [reflexivity|lia].
Qed.

Lemma specifier_eq : forall (a b : specifier),
  (forall i, (i < 16)%nat -> nth i (aval a) x00 = nth i (aval b) x00) -> a = b.
Proof.
  intros a b H. apply arr_eq. apply (nth_ext _ _ x00 x00); rewrite ?arr_len; [reflexivity|]. exact H.
Qed.

(** ** C21 *)

Lemma parse_unlock_key_iff : forall (s : rstring) k,
  parse_unlock_key s = inl k <->
  exists prefix body, vlist (sbytes s) = prefix ++ ":"%byte :: body /\
    Forall (fun c => c <> ":"%byte) prefix /\ HexText body (vlist (uk_key k)) /\
    forall i, (i < 16)%nat -> nth i (aval (uk_algorithm k)) x00 = nth i prefix x00.
Proof.
  intros s k. unfold parse_unlock_key. split.
  - pose proof (split_once_inv ":" (vlist (sbytes s))) as I.
    destruct (split_once ":" (vlist (sbytes s))) as [[p r]|]; [|discriminate].
    destruct I as [E F]. destruct (hex_decode r) as [key|er] eqn:Eh; [|discriminate].
    destruct (vec_of 1 key) as [v|] eqn:Ev; [|discriminate]. intros [= <-]. cbn [uk_key uk_algorithm].
    exists p, r. split; [exact E|]. split; [exact F|]. split.
    + apply vec_of_some in Ev. rewrite <- Ev in Eh. now apply hex_decode_iff in Eh.
    + intros i Hi. now apply specifier_from_nth.
  - intros (p & r & E & F & H & S). rewrite E, (split_once_some _ _ _ F).
    apply hex_decode_iff in H. rewrite H, vec_of_vlist. destruct k as [a key]. cbn [uk_key uk_algorithm] in *.
    do 2 f_equal. apply specifier_eq. intros i Hi. rewrite (specifier_from_nth p i Hi). symmetry. now apply S.
Qed.

Lemma printed_colon : forall k (s : rstring), unlock_key_text k = Val (vlist (sbytes s)) ->
  In ":"%byte (aval (uk_algorithm k)) -> exists e, parse_unlock_key s = inr e.
Proof.
  intros k s H Hin. destruct (parse_unlock_key s) as [k'|e] eqn:Ep; [|eauto]. exfalso.
  apply parse_unlock_key_iff in Ep. destruct Ep as (p & r & E & F & Hx & _).
  destruct (unlock_key_text_inv _ _ H) as (a & Ha & Et). rewrite Et in E.
  unfold specifier_text in Ha. destruct (utf8_valid _); [|discriminate]. injection Ha as Ha.
  destruct (trim_zeros_spec (aval (uk_algorithm k))) as [n Hn]. rewrite Ha in Hn. rewrite Hn in Hin.
  apply in_app_or in Hin. destruct Hin as [Hin|Hin]; [|now apply repeat_spec in Hin].
  apply HexText_no_colon in Hx. apply in_split in Hin. destruct Hin as (a1 & a2 & ->).
  rewrite <- app_assoc in E. cbn [app] in E.
  assert (G : forall p1 p2 r1 r2, Forall (fun c => c <> ":"%byte) p2 -> In ":"%byte r1 ->
    p1 ++ ":"%byte :: r1 = p2 ++ ":"%byte :: r2 -> In ":"%byte r2).
  { clear. induction p1 as [|x p1 IH]; intros [|y p2] r1 r2 F2 I E; cbn [app] in E.
    - injection E as ->. exact I.
    - injection E as E1 E2. inversion F2; subst. congruence.
    - injection E as _ <-. apply in_or_app. right. now left.
    - injection E as _ E. inversion F2; subst. now apply (IH p2 r1). }
  assert (I : In ":"%byte r).
  { apply (G _ _ _ _ F) in E; [exact E|]. apply in_or_app. right. now left. }
  rewrite Forall_forall in Hx. now apply (Hx _ I).
Qed.

Lemma printed_parse : forall k (s : rstring), unlock_key_text k = Val (vlist (sbytes s)) ->
  (~ In ":"%byte (aval (uk_algorithm k)) -> parse_unlock_key s = inl k) /\
  (In ":"%byte (aval (uk_algorithm k)) -> exists e, parse_unlock_key s = inr e).
Proof.
  intros k s H. split; [|now apply printed_colon]. intros N. apply parse_unlock_key_text; [exact H|].
  apply Forall_forall. intros c Hc ->. contradiction.
Qed.

Lemma unlock_key_examples :
  (exists s : rstring, vlist (sbytes s) = ascii "entropy-is-very-long:0aFF" /\
     exists k, parse_unlock_key s = inl k /\ aval (uk_algorithm k) = ascii "entropy-is-very-" /\
       vlist (uk_key k) = [x0a; xff]) /\
  aval (specifier_from (ascii "a:b")) = ascii "a:b" ++ repeat x00 13.
Proof.
  split; [|reflexivity].
  exists (MkStr (@MkVec 1 _ (ascii "entropy-is-very-long:0aFF") eq_refl) eq_refl). split; [reflexivity|].
  eexists. split; [vm_compute; reflexivity|]. split; reflexivity.
Qed.
