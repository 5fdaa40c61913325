(** Proofs: skipping reads every JSON text, and any string with well-formed escapes. *)

From Verif Require Import Base Io SpecText SpecUtf8 Model_currency Model_text Model_json Model_jsontypes SpecJson
  Model_jsontext SpecJsonText JsonTextLex JsonTextProofs JsonTextMore JsonProofs Model_skip SpecSkip.
Local Open Scope N_scope.

(** ** Strings *)

Lemma lenient_text : forall s t r, StringText s t -> exists u, t = """"%byte :: u /\ lenient_str (u ++ r) = Some (Some s, r).
Proof.
  intros s t r H. destruct (parse_string_text s t r H) as (u & -> & P). exists u. split; [reflexivity|].
  unfold lenient_str. now rewrite P.
Qed.

Lemma skip_rough : forall ps r, Forall RoughChar ps -> skip_str (concat ps ++ """"%byte :: r) = Some r.
Proof.
  intros ps r H. induction H as [|p ps Hp H IH]; [reflexivity|]. cbn [concat]. rewrite <- app_assoc.
  destruct Hp as [b L Q B|c e He|n t Ht].
  - cbn [app skip_str]. rewrite (eqb_neq _ _ Q), (eqb_neq _ _ B).
    destruct (N.ltb_spec (b2n b) 32); [lia|exact IH].
  - destruct (short_escape_read e c He) as [E U]. cbn [app skip_str]. change (Byte.eqb "\" """") with false.
    change (Byte.eqb "\" "\") with true. cbn match. rewrite (eqb_neq _ _ U), E. exact IH.
  - destruct (hex4_read n t Ht) as (a & b & c & d & -> & E & _). cbn [app skip_str]. change (Byte.eqb "\" """") with false.
    change (Byte.eqb "\" "\") with true. change (Byte.eqb "u" "u") with true. cbn match. rewrite E. exact IH.
Qed.

Lemma skip_sound : forall k s r, (length s <= k)%nat -> skip_str s = Some r ->
  exists ps, Forall RoughChar ps /\ s = concat ps ++ """"%byte :: r.
Proof.
  induction k as [|k IH]; intros [|b s] r L H; cbn [length] in L; try discriminate; [lia|].
  cbn [skip_str] in H. destruct (Byte.eqb b """") eqn:Q.
  { apply eqb_true in Q. injection H as ->. subst. exists []. split; [constructor|reflexivity]. }
  destruct (Byte.eqb b "\") eqn:B.
  - apply eqb_true in B. subst b. destruct s as [|e s]; [discriminate|]. cbn [length] in L.
    destruct (Byte.eqb e "u") eqn:U.
    + apply eqb_true in U. subst e. destruct s as [|h0 [|h1 [|h2 [|h3 s]]]]; try discriminate. cbn [length] in L.
      destruct (hex4 h0 h1 h2 h3) as [n|] eqn:E; [|discriminate].
      destruct (IH s r) as (ps & F & ->); [lia|exact H|]. exists (["\"%byte; "u"%byte; h0; h1; h2; h3] :: ps).
      split; [|reflexivity]. constructor; [|exact F]. exact (rough_escape n _ (proj1 (hex4_some _ _ _ _ _ E))).
    + destruct (short_escape e) as [c|] eqn:E; [|discriminate].
      destruct (IH s r) as (ps & F & ->); [lia|exact H|]. exists (["\"%byte; e] :: ps). split; [|reflexivity].
      constructor; [|exact F]. exact (rough_short c e (short_escape_some e c E)).
  - destruct (N.ltb_spec (b2n b) 32) as [C|C]; [discriminate|].
    destruct (IH s r) as (ps & F & ->); [lia|exact H|]. exists ([b] :: ps). split; [|reflexivity].
    constructor; [|exact F]. apply rough_plain; [exact C|now apply eqb_false|now apply eqb_false].
Qed.

Theorem skip_strings : forall s r, skip_str s = Some r <-> exists t, RoughString (""""%byte :: t) /\ s = t ++ r.
Proof.
  intros s r. split.
  - intros H. destruct (skip_sound _ s r (le_n _) H) as (ps & F & ->). exists (concat ps ++ [""""%byte]).
    split; [exists ps; auto|]. now rewrite <- app_assoc.
  - intros (t & (ps & F & E) & ->). injection E as ->. rewrite <- app_assoc. now apply skip_rough.
Qed.

(** ** Documents *)

Definition Skips (j : json) : Prop := forall v fuel d w s, ValueText j v -> json_space w ->
  (2 * length v <= fuel)%nat -> follows s -> lenient_value fuel d (w ++ v ++ s) = Some (cut d j, s).

Lemma elements_skip : forall d l ts, Forall2 (fun j => Padded (ValueText j)) l ts -> Forall Skips l ->
  forall fuel w s, json_space w -> (2 * length (comma_tail ts) + 1 <= fuel)%nat ->
  lenient_elements fuel d false (w ++ comma_tail ts ++ "]"%byte :: s) = Some (map (cut d) l, s).
Proof.
  intros d l ts H. induction H as [|j t l ts P H IH]; intros C fuel w s Hw L.
  - destruct fuel as [|f]; [cbn in L; lia|]. cbn [lenient_elements comma_tail app]. cbv zeta.
    rewrite skip_ws_app by exact Hw. reflexivity.
  - inversion C as [|? ? Cj Cl]; subst.
    destruct P as (w1 & v & w2 & Hw1 & Hw2 & Hv & ->).
    unfold comma_tail in L |- *. rewrite comma_cons in L |- *. rewrite <- !app_assoc in *.
    cbn [length] in L. rewrite !app_length in L.
    destruct fuel as [|f]; [lia|]. cbn [lenient_elements]. cbv zeta.
    rewrite skip_ws_app by exact Hw. cbn [app].
    rewrite (skip_ws_head ","%byte) by reflexivity. change (Byte.eqb "," "]") with false. change (Byte.eqb "," ",") with true.
    cbn match. rewrite <- !app_assoc. rewrite (skip_to_value _ j) by assumption.
    destruct (value_head j v Hv) as (b & r & Ev & Hb & Nb).
    assert (E : v ++ w2 ++ comma_tail ts ++ "]"%byte :: s = b :: r ++ w2 ++ comma_tail ts ++ "]"%byte :: s) by now rewrite Ev.
    rewrite E. cbn match. rewrite (eqb_neq _ _ Nb). rewrite <- E.
    pose proof (Cj v f d [] (w2 ++ comma_tail ts ++ "]"%byte :: s) Hv space_nil) as K. cbn [app] in K. rewrite K.
    + rewrite IH by (assumption || lia). reflexivity.
    + lia.
    + apply follows_tail; [exact Hw2|]. cbn; tauto.
Qed.

Lemma array_skip : forall d l ts, Forall2 (fun j => Padded (ValueText j)) l ts -> Forall Skips l -> l <> [] ->
  forall fuel s, (2 * length (comma_list ts) + 2 <= fuel)%nat ->
  lenient_elements fuel d true (comma_list ts ++ "]"%byte :: s) = Some (map (cut d) l, s).
Proof.
  intros d l ts H C N fuel s L. destruct H as [|j t l ts P H]; [congruence|].
  inversion C as [|? ? Cj Cl]; subst.
  destruct P as (w1 & v & w2 & Hw1 & Hw2 & Hv & ->).
  rewrite comma_cons in L |- *. rewrite <- !app_assoc in *. rewrite !app_length in L.
  destruct fuel as [|f]; [lia|]. cbn [lenient_elements]. cbv zeta.
  rewrite (skip_to_value _ j) by assumption.
  destruct (value_head j v Hv) as (b & r & Ev & Hb & Nb).
  assert (E : v ++ w2 ++ comma_tail ts ++ "]"%byte :: s = b :: r ++ w2 ++ comma_tail ts ++ "]"%byte :: s) by now rewrite Ev.
  rewrite E. cbn match. rewrite (eqb_neq _ _ Nb). rewrite <- E.
  pose proof (Cj v f d [] (w2 ++ comma_tail ts ++ "]"%byte :: s) Hv space_nil) as K. cbn [app] in K. rewrite K.
  - rewrite (elements_skip d l ts) by (assumption || lia). reflexivity.
  - lia.
  - apply follows_tail; [exact Hw2|]. cbn; tauto.
Qed.

Definition cut_member (d : N) (kv : bytes * json) : bytes * json := (fst kv, cut d (snd kv)).

Lemma members_skip : forall d l ts, Forall2 MemberText l ts -> Forall (fun kv => Skips (snd kv)) l ->
  forall fuel w s, json_space w -> (2 * length (comma_tail ts) + 1 <= fuel)%nat ->
  lenient_members fuel d false (w ++ comma_tail ts ++ "}"%byte :: s) = Some (Some (map (cut_member d) l), s).
Proof.
  intros d l ts H. induction H as [|kv t l ts P H IH]; intros C fuel w s Hw L.
  - destruct fuel as [|f]; [cbn in L; lia|]. cbn [lenient_members comma_tail app]. cbv zeta.
    rewrite skip_ws_app by exact Hw. reflexivity.
  - inversion C as [|? ? Cj Cl]; subst.
    destruct P as (k & v0 & (wk & kt & wk' & Hwk & Hwk' & Hk & ->) & (w1 & v & w2 & Hw1 & Hw2 & Hv & ->) & ->).
    unfold comma_tail in L |- *. rewrite comma_cons in L |- *. rewrite <- !app_assoc in *.
    cbn [length] in L. rewrite !app_length in L.
    destruct fuel as [|f]; [lia|]. cbn [lenient_members]. cbv zeta.
    rewrite skip_ws_app by exact Hw. cbn [app].
    rewrite (skip_ws_head ","%byte) by reflexivity. change (Byte.eqb "," "}") with false. change (Byte.eqb "," ",") with true.
    cbn match. rewrite <- !app_assoc. rewrite skip_ws_app by exact Hwk.
    destruct (lenient_text _ _ (wk' ++ ":"%byte :: w1 ++ v ++ w2 ++ comma_tail ts ++ "}"%byte :: s) Hk) as (u & Ek & Pk).
    subst kt. cbn [app]. rewrite (skip_ws_head """"%byte) by reflexivity. cbn match.
    change (Byte.eqb """" """") with true. cbn match. cbn [app] in Pk. rewrite <- ?app_assoc. change (ascii ":") with [":"%byte]. cbn [app].
    rewrite <- ?app_assoc. rewrite Pk. rewrite skip_ws_app by exact Hwk'.
    rewrite (skip_ws_head ":"%byte) by reflexivity. change (Byte.eqb ":" ":") with true. cbn match.
    rewrite (Cj v f d w1).
    + rewrite IH by (assumption || lia). reflexivity.
    + exact Hv.
    + exact Hw1.
    + lia.
    + apply follows_tail; [exact Hw2|]. cbn; tauto.
Qed.

Lemma object_skip : forall d l ts, Forall2 MemberText l ts -> Forall (fun kv => Skips (snd kv)) l -> l <> [] ->
  forall fuel s, (2 * length (comma_list ts) + 2 <= fuel)%nat ->
  lenient_members fuel d true (comma_list ts ++ "}"%byte :: s) = Some (Some (map (cut_member d) l), s).
Proof.
  intros d l ts H C N fuel s L. destruct H as [|kv t l ts P H]; [congruence|].
  inversion C as [|? ? Cj Cl]; subst.
  destruct P as (k & v0 & (wk & kt & wk' & Hwk & Hwk' & Hk & ->) & (w1 & v & w2 & Hw1 & Hw2 & Hv & ->) & ->).
  rewrite comma_cons in L |- *. rewrite <- !app_assoc in *. rewrite !app_length in L.
  destruct fuel as [|f]; [lia|]. cbn [lenient_members]. cbv zeta.
  rewrite skip_ws_app by exact Hwk.
  destruct (lenient_text _ _ (wk' ++ ":"%byte :: w1 ++ v ++ w2 ++ comma_tail ts ++ "}"%byte :: s) Hk) as (u & Ek & Pk).
  subst kt. cbn [app]. rewrite (skip_ws_head """"%byte) by reflexivity. cbn match.
  change (Byte.eqb """" """") with true. change (Byte.eqb """" "}") with false. cbn match.
  cbn [app] in Pk. rewrite <- ?app_assoc. change (ascii ":") with [":"%byte]. cbn [app].
  rewrite <- ?app_assoc. rewrite Pk. rewrite skip_ws_app by exact Hwk'.
  rewrite (skip_ws_head ":"%byte) by reflexivity. change (Byte.eqb ":" ":") with true. cbn match.
  rewrite (Cj v f d w1).
  - rewrite (members_skip d l ts) by (assumption || lia). reflexivity.
  - exact Hv.
  - exact Hw1.
  - lia.
  - apply follows_tail; [exact Hw2|]. cbn; tauto.
Qed.

Lemma skip_scalar_step : forall f d w v s, json_space w -> (exists j, ValueText j v) ->
  lenient_value (S f) d (w ++ v ++ s) = lenient_value (S f) d (v ++ s).
Proof.
  intros f d w v s Hw (j & Hv). cbn [lenient_value]. rewrite (skip_to_value w j) by assumption.
  rewrite <- (app_nil_l (v ++ s)) at 2. rewrite (skip_to_value [] j v s space_nil Hv). reflexivity.
Qed.

Lemma number_cut : forall j t d, NumText j t -> cut d j = j.
Proof. intros j t d []; reflexivity. Qed.

Lemma number_skip : forall j t f d s, NumText j t -> follows s -> lenient_value (S f) d (t ++ s) = Some (cut d j, s).
Proof.
  intros j t f d s H F. rewrite (number_cut j t d H). destruct (num_head j t s H F) as (pos & u & -> & (b & r & -> & Hb) & P).
  destruct pos; cbn [sign_of app] in *.
  - destruct (digit_plain b Hb) as (W & _ & E1 & E2 & E3 & E4). cbn [lenient_value].
    rewrite (skip_ws_head b) by exact W. rewrite E1, E2, E3, E4, (proj2 (is_digit_iff b) Hb). exact P.
  - change (ascii "-" ++ b :: r) with ("-"%byte :: b :: r). cbn [app lenient_value].
    rewrite (skip_ws_head "-"%byte) by reflexivity. exact P.
Qed.

Lemma zero_le : forall d, (d - 1 =? 0) = (d <=? 1).
Proof. intros d. destruct (N.eqb_spec (d - 1) 0), (N.leb_spec d 1); try reflexivity; lia. Qed.

Lemma value_skip : forall j, Skips j.
Proof.
  intros j. induction j as [|b0|n0|z0| |s0|l IH|l IH] using json_rect'; intros v fuel d w s Hv Hw L F;
    (destruct fuel as [|f];
     [exfalso; destruct (value_head _ _ Hv) as (hb & hr & -> & _); cbn in L; lia|]);
    rewrite skip_scalar_step by eauto;
    inversion Hv as [| | |j' t H|s' t H|w' H|l' ts N H|w' H|l' ts N H]; subst;
    try (now apply number_skip); try reflexivity; try (inversion H; fail).
  - destruct (lenient_text _ _ s H) as (u & -> & P). cbn [app lenient_value].
    rewrite (skip_ws_head """"%byte) by reflexivity.
    change (match lenient_str (u ++ s) with Some (Some t, r') => Some (JStr t, r') | Some (None, r') => Some (JFloat, r') | None => None end
      = Some (JStr s0, s)).
    now rewrite P.
  - change (ascii "[" ++ w' ++ ascii "]") with ("["%byte :: w' ++ ["]"%byte]) in L |- *.
    cbn [app lenient_value]. rewrite (skip_ws_head "["%byte) by reflexivity. rewrite zero_le.
    cbn. rewrite <- app_assoc. destruct f as [|f]; [cbn [length] in L; lia|].
    cbn [lenient_elements]. cbv zeta. now rewrite skip_ws_app by exact H.
  - change (ascii "[" ++ comma_list ts ++ ascii "]") with ("["%byte :: comma_list ts ++ ["]"%byte]) in L |- *.
    cbn [length] in L. rewrite app_length in L. cbn [length] in L.
    cbn [app lenient_value]. rewrite (skip_ws_head "["%byte) by reflexivity. rewrite zero_le.
    cbn. rewrite <- app_assoc. cbn [app].
    rewrite (array_skip (d - 1) l ts) by (assumption || lia). reflexivity.
  - change (ascii "{" ++ w' ++ ascii "}") with ("{"%byte :: w' ++ ["}"%byte]) in L |- *.
    cbn [app lenient_value]. rewrite (skip_ws_head "{"%byte) by reflexivity. rewrite zero_le.
    cbn. rewrite <- app_assoc. destruct f as [|f]; [cbn [length] in L; lia|].
    cbn [lenient_members]. cbv zeta. now rewrite skip_ws_app by exact H.
  - change (ascii "{" ++ comma_list ts ++ ascii "}") with ("{"%byte :: comma_list ts ++ ["}"%byte]) in L |- *.
    cbn [length] in L. rewrite app_length in L. cbn [length] in L.
    cbn [app lenient_value]. rewrite (skip_ws_head "{"%byte) by reflexivity. rewrite zero_le.
    cbn. rewrite <- app_assoc. cbn [app].
    rewrite (object_skip (d - 1) l ts) by (assumption || lia). reflexivity.
Qed.

Theorem skipping_reads : forall A (c : codec A) j t, DocumentText j t -> from_str_skipping c t = c_de c (cut 128 j).
Proof.
  intros A c j t (w1 & v & w2 & H1 & H2 & Hv & ->). unfold from_str_skipping, lenient_document, text_depth_limit.
  rewrite (value_skip j v _ 128 w1 w2 Hv H1).
  - now rewrite (skip_ws_space w2 H2).
  - rewrite !app_length. lia.
  - now apply follows_space.
Qed.

Lemma cut_shallow : forall j d, json_depth j < d -> cut d j = j.
Proof.
  intros j. induction j as [|b0|n0|z0| |s0|l IH|l IH] using json_rect'; intros d D; try reflexivity; cbn [cut].
  - apply JsonTextProofs.depth_arr in D as [D E]. rewrite zero_le in E. rewrite E. f_equal.
    induction IH as [|x l Hx IH IHl]; [reflexivity|]. inversion D; subst. cbn [map]. rewrite Hx by assumption.
    now rewrite IHl.
  - apply JsonTextProofs.depth_obj in D as [D E]. rewrite zero_le in E. rewrite E. f_equal.
    induction IH as [|x l Hx IH IHl]; [reflexivity|]. inversion D; subst. cbn [map]. rewrite Hx by assumption.
    rewrite IHl by assumption. now destruct x.
Qed.

Theorem skipping_same : forall A (c : codec A) j t, DocumentText j t -> json_depth j < 128 ->
  from_str_skipping c t = from_str c t.
Proof. intros A c j t H D. rewrite (skipping_reads A c j t H), (from_str_reads A c j t H D). now rewrite cut_shallow. Qed.

Theorem skipping_more : forall A (c : codec A) t a, from_str c t = JOk a -> from_str_skipping c t = JOk a.
Proof.
  intros A c t a H. rewrite <- H. unfold from_str in H. destruct (parse_document t) as [j|] eqn:E; [|discriminate].
  apply parse_document_spec in E as [E D]. exact (skipping_same A c j t E D).
Qed.
