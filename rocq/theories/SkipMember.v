(** Proofs: a struct reads past a member it does not know, whatever can be skipped it holds. *)

From Verif Require Import Base Io SpecFormat SpecText Model_encoding Model_common Model_consensus Model_text Model_json Model_jsontypes SpecJson SpecDoc
  AcceptProofs AcceptMore Samples DocExamples Model_jsontext SpecJsonText JsonTextLex JsonTextProofs Model_skip SpecSkip SkipProofs SkipMore SkipGrammar
  SpecAccept.
Local Open Scope N_scope.

(** A member, or ([None]) one whose value is only in the rough grammar *)
Definition MixedText (kv : bytes * option json) (t : bytes) : Prop := exists k v,
  SpecJsonText.Padded (StringText (fst kv)) k /\
  SpecJsonText.Padded (match snd kv with Some j => ValueText j | None => RoughText end) v /\ t = k ++ ascii ":" ++ v.

Definition mixed_read (d : N) (kv : bytes * option json) (kv' : bytes * json) : Prop :=
  fst kv = fst kv' /\ match snd kv with Some j => snd kv' = cut d j | None => True end.

Lemma mixed_value : forall (o : option json) v d fuel w s, (match o with Some j => ValueText j | None => RoughText end) v ->
  json_space w -> (2 * length v <= fuel)%nat -> follows s ->
  exists j, lenient_value fuel d (w ++ v ++ s) = Some (j, s) /\ match o with Some j' => j = cut d j' | None => True end.
Proof.
  intros [j|] v d fuel w s H Hw L F.
  - exists (cut d j). split; [now apply value_skip|reflexivity].
  - destruct (rough_reads _ v (le_n _) H fuel d w s Hw L F) as (j & K). eauto.
Qed.

Lemma members_mixed : forall d l ts, Forall2 MixedText l ts -> forall fuel w s, json_space w ->
  (2 * length (comma_tail ts) + 1 <= fuel)%nat ->
  exists l', lenient_members fuel d false (w ++ comma_tail ts ++ "}"%byte :: s) = Some (Some l', s) /\ Forall2 (mixed_read d) l l'.
Proof.
  intros d l ts H. induction H as [|kv t l ts P H IH]; intros fuel w s Hw L.
  - destruct fuel as [|f]; [cbn in L; lia|]. exists []. split; [|constructor]. cbn [lenient_members comma_tail app]. cbv zeta.
    rewrite skip_ws_app by exact Hw. reflexivity.
  - destruct P as (k & v0 & (wk & kt & wk' & Hwk & Hwk' & Hk & ->) & (w1 & v & w2 & Hw1 & Hw2 & Hv & ->) & ->).
    unfold comma_tail in L |- *. rewrite comma_cons in L |- *. rewrite <- !app_assoc in *.
    cbn [length] in L. rewrite !app_length in L.
    destruct fuel as [|f]; [lia|]. cbn [lenient_members]. cbv zeta.
    rewrite skip_ws_app by exact Hw. cbn [app].
    rewrite (skip_ws_head ","%byte) by reflexivity. change (Byte.eqb "," "}") with false. change (Byte.eqb "," ",") with true.
    cbn match. rewrite <- !app_assoc. rewrite skip_ws_app by exact Hwk.
    destruct (lenient_text _ _ (wk' ++ ":"%byte :: w1 ++ v ++ w2 ++ comma_tail ts ++ "}"%byte :: s) Hk) as (u & Ek & Pk).
    subst kt. cbn [app]. rewrite (skip_ws_head """"%byte) by reflexivity. cbn match.
    change (Byte.eqb """" """") with true. cbn match. cbn [app] in Pk. rewrite <- ?app_assoc. change (ascii ":") with [":"%byte]. cbn [app].
    rewrite <- ?app_assoc. rewrite Pk. rewrite skip_ws_app by exact Hwk'.
    rewrite (skip_ws_head ":"%byte) by reflexivity. change (Byte.eqb ":" ":") with true. cbn match.
    destruct (mixed_value (snd kv) v d f w1 (w2 ++ comma_tail ts ++ "}"%byte :: s) Hv Hw1) as (j & K & Ej).
    + lia.
    + apply follows_tail; [exact Hw2|]. cbn; tauto.
    + rewrite K. destruct (IH f w2 s Hw2) as (l' & -> & F); [lia|]. eexists. split; [reflexivity|].
      constructor; [split; [reflexivity|exact Ej]|exact F].
Qed.

Lemma object_mixed : forall d l ts, Forall2 MixedText l ts -> l <> [] -> forall fuel s,
  (2 * length (comma_list ts) + 2 <= fuel)%nat ->
  exists l', lenient_members fuel d true (comma_list ts ++ "}"%byte :: s) = Some (Some l', s) /\ Forall2 (mixed_read d) l l'.
Proof.
  intros d l ts H N fuel s L. destruct H as [|kv t l ts P H]; [congruence|].
  destruct P as (k & v0 & (wk & kt & wk' & Hwk & Hwk' & Hk & ->) & (w1 & v & w2 & Hw1 & Hw2 & Hv & ->) & ->).
  rewrite comma_cons in L |- *. rewrite <- !app_assoc in *. rewrite !app_length in L.
  destruct fuel as [|f]; [lia|]. cbn [lenient_members]. cbv zeta.
  rewrite skip_ws_app by exact Hwk.
  destruct (lenient_text _ _ (wk' ++ ":"%byte :: w1 ++ v ++ w2 ++ comma_tail ts ++ "}"%byte :: s) Hk) as (u & Ek & Pk).
  subst kt. cbn [app]. rewrite (skip_ws_head """"%byte) by reflexivity. cbn match.
  change (Byte.eqb """" """") with true. change (Byte.eqb """" "}") with false. cbn match.
  cbn [app] in Pk. rewrite <- ?app_assoc. change (ascii ":") with [":"%byte]. cbn [app].
  rewrite <- ?app_assoc. rewrite Pk. rewrite skip_ws_app by exact Hwk'.
  rewrite (skip_ws_head ":"%byte) by reflexivity. change (Byte.eqb ":" ":") with true. cbn match.
  destruct (mixed_value (snd kv) v d f w1 (w2 ++ comma_tail ts ++ "}"%byte :: s) Hv Hw1) as (j & K & Ej).
  - lia.
  - apply follows_tail; [exact Hw2|]. cbn; tauto.
  - rewrite K. destruct (members_mixed d l ts H f w2 s Hw2) as (l' & -> & F); [lia|]. eexists. split; [reflexivity|].
    constructor; [split; [reflexivity|exact Ej]|exact F].
Qed.

Definition known (kv : bytes * json) : bytes * option json := (fst kv, Some (snd kv)).

Lemma known_text : forall l ts, Forall2 MemberText l ts -> Forall2 MixedText (map known l) ts.
Proof. intros l ts H. induction H; constructor; auto. Qed.

Lemma known_read : forall d l l', Forall2 (mixed_read d) (map known l) l' -> l' = map (cut_member d) l.
Proof.
  intros d l. induction l as [|[k j] l IH]; intros l' H; inversion H as [|? [k' j'] ? ? [E1 E2] F]; subst; [reflexivity|].
  cbn [fst snd known] in *. cbn [map]. rewrite (IH _ F). subst. reflexivity.
Qed.

Theorem skipping_unknown : forall A (c : codec A) ws, StructReader c ws -> forall l1 k l2 ts1 kt vt ts2 a,
  ~ In k (map (fun w : wanted => ascii (fst w)) (ws a)) ->
  Forall (fun kv => json_depth (snd kv) < 127) (l1 ++ l2) ->
  Forall2 MemberText l1 ts1 -> StringText k kt -> RoughText vt -> Forall2 MemberText l2 ts2 ->
  (from_str_skipping c (ascii "{" ++ comma_list (ts1 ++ (kt ++ ascii ":" ++ vt) :: ts2) ++ ascii "}") = JOk a <->
   c_de c (JObj (l1 ++ l2)) = JOk a).
Proof.
  intros A c ws R l1 k l2 ts1 kt vt ts2 a N F H1 Hk Hv H2.
  assert (M : Forall2 MixedText (map known l1 ++ (k, None) :: map known l2) (ts1 ++ (kt ++ ascii ":" ++ vt) :: ts2)).
  { apply Forall2_app; [now apply known_text|]. constructor; [|now apply known_text]. exists kt, vt.
    assert (pad : forall (P : bytes -> Prop) v, P v -> SpecJsonText.Padded P v).
    { intros P v Hp. exists [], v, []. rewrite app_nil_r. split; [exact space_nil|]. split; [exact space_nil|]. split; [exact Hp|reflexivity]. }
    split; [exact (pad _ _ Hk)|]. split; [exact (pad _ _ Hv)|reflexivity]. }
  set (ts := ts1 ++ (kt ++ ascii ":" ++ vt) :: ts2) in *.
  assert (L : exists l', lenient_document (ascii "{" ++ comma_list ts ++ ascii "}") = Some (JObj l') /\
    Forall2 (mixed_read 127) (map known l1 ++ (k, None) :: map known l2) l').
  { unfold lenient_document, text_depth_limit.
    change (ascii "{" ++ comma_list ts ++ ascii "}") with ("{"%byte :: comma_list ts ++ ["}"%byte]).
    set (n := (2 * length ("{"%byte :: comma_list ts ++ ["}"%byte]))%nat).
    assert (En : n = S (2 * length (comma_list ts) + 3)) by (unfold n; cbn [length]; rewrite app_length; cbn [length]; lia).
    rewrite En. cbn [lenient_value]. rewrite (skip_ws_head "{"%byte) by reflexivity. cbn - [Nat.mul Nat.add].
    destruct (object_mixed 127 _ ts M) with (fuel := (2 * length (comma_list ts) + 3)%nat) (s := @nil byte) as (l' & -> & Fl).
    - destruct (map known l1); discriminate.
    - lia.
    - exists l'. split; [reflexivity|exact Fl]. }
  destruct L as (l' & E & Fl). unfold from_str_skipping. rewrite E.
  apply Forall2_app_inv_l in Fl as (m1 & m2 & F1 & F2 & ->). inversion F2 as [|? [k' j'] ? m3 [E1 _] F3]; subst. cbn [fst] in *.
  apply known_read in F1, F3. apply Forall_app in F as [G1 G2]. rewrite (cut_members 127 _ G1) in F1. rewrite (cut_members 127 _ G2) in F3. subst.
  exact (reader_unknown A c ws R l1 k' j' l2 a N).
Qed.

(** ** Examples *)

Lemma skipping_hypotheses : exists ws, StructReader j_chain_index ws /\
  (forall a, ~ In (ascii "extra") (map (fun w : wanted => ascii (fst w)) (ws a))) /\
  RoughText (ascii """\ud800""") /\ Forall2 MemberOf [(ascii "height", JUint (uwrap 64 7))] [ascii """height"":7"] /\
  ~ RoughDocument (ascii "[1,]").
Proof.
  eexists. split; [exact read_chain_index|]. split; [intros a [E|[E|[]]]; discriminate|]. split; [|split].
  - assert (S : skip_str (ascii "\ud800""") = Some []) by (vm_compute; reflexivity).
    apply skip_strings in S as (t & Ht & E). rewrite app_nil_r in E. subst t. now apply rough_string.
  - constructor; [|constructor]. exists (ascii """height"""), (ascii "7").
    assert (pad : forall (P : bytes -> Prop) v, P v -> SpecJsonText.Padded P v).
    { intros Q v Hp. exists [], v, []. rewrite app_nil_r. split; [exact space_nil|]. split; [exact space_nil|]. split; [exact Hp|reflexivity]. }
    split; [|split; [|reflexivity]]; apply pad.
    + assert (Ps : parse_str (ascii "height""") = Some (ascii "height", [])) by (vm_compute; reflexivity).
      apply string_sound in Ps as (u & Hu & E). rewrite app_nil_r in E. subst u. exact Hu.
    + apply text_number, num_uint. split; [split; [discriminate|constructor; [|constructor]; vm_compute; split; discriminate]|]. split; [reflexivity|right; discriminate].
  - intros H. apply skipping_anything in H. vm_compute in H. discriminate.
Qed.
