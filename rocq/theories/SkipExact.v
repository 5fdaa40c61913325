(** Proofs: the tree that a text is read into, where members may be skipped. *)

From Verif Require Import Base Io SpecText SpecUtf8 Model_currency Model_text Model_json Model_jsontypes SpecJson
  Model_jsontext SpecJsonText JsonTextLex JsonTextProofs JsonTextMore Model_skip SpecSkip SkipProofs SkipGrammar.
Local Open Scope N_scope.

(** ** Strings *)

Definition KeyText (o : option bytes) : bytes -> Prop := match o with Some s => StringText s | None => Unpaired end.

Lemma key_sound : forall s o r, lenient_str s = Some (o, r) -> exists u, KeyText o (""""%byte :: u) /\ s = u ++ r.
Proof.
  intros s o r H. destruct o as [t|].
  - unfold lenient_str in H. destruct (parse_str s) as [[t' r']|] eqn:P; [|destruct (skip_str s); discriminate].
    injection H as <- <-. now apply string_sound in P.
  - destruct (lenient_string s None r H) as (u & Hu & ->). exists u. split; [|reflexivity]. split; [exact Hu|].
    intros t Ht. destruct (parse_string_text t _ r Ht) as (u' & E & P). injection E as <-.
    unfold lenient_str in H. rewrite P in H. discriminate.
Qed.

Lemma key_complete : forall o t r, KeyText o t -> exists u, t = """"%byte :: u /\ lenient_str (u ++ r) = Some (o, r).
Proof.
  intros [s|] t r H; [now apply lenient_text|]. destruct H as [H N].
  destruct (lenient_rough t r H) as (u & o & -> & E). exists u. split; [reflexivity|]. destruct o as [s|]; [|exact E].
  exfalso. apply (N s). unfold lenient_str in E. destruct (parse_str (u ++ r)) as [[t' r']|] eqn:P; [|destruct (skip_str (u ++ r)); discriminate].
  injection E as <- <-. apply string_sound in P as (u' & Hu & E). apply app_inv_tail in E. now subst u'.
Qed.

(** ** Soundness *)

Definition SkimMember (d : N) (kj : option bytes * json) (t : bytes) : Prop := exists k v,
  Padded (KeyText (fst kj)) k /\ Padded (SkimText d (snd kj)) v /\ t = k ++ ascii ":" ++ v.

Definition VExact (f : nat) : Prop := forall d s j r, lenient_value f d s = Some (j, r) ->
  exists w v, s = w ++ v ++ r /\ json_space w /\ SkimText d j v.

Definition EExact (f : nat) : Prop := forall d s l r,
  (lenient_elements f d false s = Some (l, r) ->
   exists w ts, s = w ++ comma_tail ts ++ "]"%byte :: r /\ json_space w /\ Forall2 (fun j => Padded (SkimText d j)) l ts) /\
  (lenient_elements f d true s = Some (l, r) ->
   (l = [] /\ exists w, s = w ++ "]"%byte :: r /\ json_space w) \/
   (l <> [] /\ exists ts, s = comma_list ts ++ "]"%byte :: r /\ Forall2 (fun j => Padded (SkimText d j)) l ts)).

Definition MExact (f : nat) : Prop := forall d s o r,
  (lenient_members f d false s = Some (o, r) ->
   exists l w ts, o = all_keys l /\ s = w ++ comma_tail ts ++ "}"%byte :: r /\ json_space w /\ Forall2 (SkimMember d) l ts) /\
  (lenient_members f d true s = Some (o, r) ->
   (o = Some [] /\ exists w, s = w ++ "}"%byte :: r /\ json_space w) \/
   (exists l ts, o = all_keys l /\ l <> [] /\ s = comma_list ts ++ "}"%byte :: r /\ Forall2 (SkimMember d) l ts)).

Lemma exact_value_step : forall f, EExact f -> MExact f -> VExact (S f).
Proof.
  intros f HE HM d s j r H. cbn [lenient_value] in H.
  destruct (skip_ws_split s) as (w & Es & Hw). exists w.
  assert (K : exists v, skip_ws s = v ++ r /\ SkimText d j v);
    [|destruct K as (v & Ev & Hv); exists v; split; [now rewrite <- Ev|auto]].
  clear w Es Hw. destruct (skip_ws s) as [|b r0]; [discriminate|].
  destruct (Byte.eqb b "n") eqn:E1.
  { apply eqb_true in E1. subst b. destruct (parse_ident (ascii "ull") r0) eqn:P; [|discriminate].
    injection H as <- <-. apply parse_ident_some in P as ->. exists (ascii "null"). split; [reflexivity|constructor]. }
  destruct (Byte.eqb b "t") eqn:E2.
  { apply eqb_true in E2. subst b. destruct (parse_ident (ascii "rue") r0) eqn:P; [|discriminate].
    injection H as <- <-. apply parse_ident_some in P as ->. exists (ascii "true"). split; [reflexivity|constructor]. }
  destruct (Byte.eqb b "f") eqn:E3.
  { apply eqb_true in E3. subst b. destruct (parse_ident (ascii "alse") r0) eqn:P; [|discriminate].
    injection H as <- <-. apply parse_ident_some in P as ->. exists (ascii "false"). split; [reflexivity|constructor]. }
  destruct (Byte.eqb b "-") eqn:E4.
  { apply eqb_true in E4. subst b. apply number_sound in H as (t & -> & Ht). exists (sign_of false ++ t).
    split; [reflexivity|]. now apply skim_number. }
  destruct (is_digit b) eqn:E5.
  { apply number_sound in H as (t & E & Ht). exists t. split; [exact E|]. now apply skim_number. }
  destruct (Byte.eqb b """") eqn:E6.
  { apply eqb_true in E6. subst b. destruct (lenient_str r0) as [[o r1]|] eqn:P; [|discriminate].
    apply key_sound in P as (u & Hu & ->). exists (""""%byte :: u).
    destruct o as [t|]; injection H as <- <-; (split; [reflexivity|]); [now apply skim_string|now apply skim_unpaired]. }
  destruct (Byte.eqb b "[") eqn:E7.
  { apply eqb_true in E7. subst b. rewrite zero_le in H.
    destruct (lenient_elements f (d - 1) true r0) as [[l r1]|] eqn:P; [|discriminate]. injection H as <- <-.
    change (if d <=? 1 then JFloat else JArr l) with (shown d (JArr l)).
    apply HE in P. destruct P as [(-> & w & -> & Hw)|(N & ts & -> & Hl)].
    - exists (ascii "[" ++ w ++ ascii "]"). split; [change (ascii "[") with ["["%byte]; change (ascii "]") with ["]"%byte]; cbn [app]; now rewrite <- app_assoc|].
      now apply skim_empty_array.
    - exists (ascii "[" ++ comma_list ts ++ ascii "]"). split; [change (ascii "[") with ["["%byte]; change (ascii "]") with ["]"%byte]; cbn [app]; now rewrite <- app_assoc|].
      now apply skim_array. }
  destruct (Byte.eqb b "{") eqn:E8; [|discriminate].
  apply eqb_true in E8. subst b. rewrite zero_le in H.
  destruct (lenient_members f (d - 1) true r0) as [[o r1]|] eqn:P; [|discriminate].
  apply HM in P. destruct P as [(-> & w & -> & Hw)|(l & ts & -> & N & -> & Hl)].
  - injection H as <- <-. exists (ascii "{" ++ w ++ ascii "}"). split; [change (ascii "{") with ["{"%byte]; change (ascii "}") with ["}"%byte]; cbn [app]; now rewrite <- app_assoc|].
    now apply (skim_empty_object d).
  - exists (ascii "{" ++ comma_list ts ++ ascii "}"). pose proof (skim_object d l ts N Hl) as K.
    destruct (all_keys l) as [m|]; injection H as <- <-;
      (split; [change (ascii "{") with ["{"%byte]; change (ascii "}") with ["}"%byte]; cbn [app]; now rewrite <- app_assoc|exact K]).
Qed.

Lemma exact_elements_step : forall f, VExact f -> EExact f -> EExact (S f).
Proof.
  intros f HV HE d s l r.
  assert (element : forall s0 l, match lenient_value f d s0 with
      | Some (j, r') => match lenient_elements f d false r' with Some (l, r'') => Some (j :: l, r'') | None => None end
      | None => None end = Some (l, r) ->
    exists j l' w v w2 ts, l = j :: l' /\ s0 = (w ++ v ++ w2) ++ comma_tail ts ++ "]"%byte :: r /\
      json_space w /\ json_space w2 /\ SkimText d j v /\ Forall2 (fun j => Padded (SkimText d j)) l' ts).
  { intros s0 l0 H. destruct (lenient_value f d s0) as [[j r']|] eqn:P; [|discriminate].
    destruct (lenient_elements f d false r') as [[l' r'']|] eqn:Q; [|discriminate]. injection H as <- <-.
    apply HV in P as (w & v & -> & Hw & Hv).
    apply HE in Q as (w2 & ts & -> & Hw2 & Hl).
    exists j, l', w, v, w2, ts. split; [reflexivity|]. split; [now rewrite <- !app_assoc|]. repeat split; auto. }
  destruct (skip_ws_split s) as (w & Es & Hw). cbn [lenient_elements]. cbv zeta.
  destruct (skip_ws s) as [|b r0]; [split; discriminate|]. destruct (Byte.eqb b "]") eqn:E1.
  { apply eqb_true in E1. subst b. split; intros H; injection H as <- <-.
    - exists w, []. cbn [comma_tail app]. repeat split; auto.
    - left. split; [reflexivity|]. eauto. }
  split; intros H.
  - destruct (Byte.eqb b ",") eqn:E2; [|discriminate]. apply eqb_true in E2. subst b.
    destruct (skip_ws_split r0) as (w' & Er & Hw').
    destruct (skip_ws r0) as [|c r1]; [discriminate|]. destruct (Byte.eqb c "]"); [discriminate|].
    apply element in H as (j & l' & w1 & v & w2 & ts & -> & Ec & H1 & H2 & Hv & Hl).
    exists w, ((w' ++ w1 ++ v ++ w2) :: ts). split; [|split; [exact Hw|]].
    + unfold comma_tail. rewrite comma_cons. rewrite Es, Er, Ec. cbn [app]. now rewrite <- !app_assoc.
    + constructor; [|exact Hl]. exists (w' ++ w1), v, w2. rewrite <- !app_assoc. split; [now apply space_app|]. auto.
  - right. apply element in H as (j & l' & w1 & v & w2 & ts & -> & Ec & H1 & H2 & Hv & Hl).
    split; [discriminate|]. exists ((w ++ w1 ++ v ++ w2) :: ts). split.
    + rewrite comma_cons. rewrite Es, Ec. now rewrite <- !app_assoc.
    + constructor; [|exact Hl]. exists (w ++ w1), v, w2. rewrite <- !app_assoc. split; [now apply space_app|]. auto.
Qed.

Lemma exact_members_step : forall f, VExact f -> MExact f -> MExact (S f).
Proof.
  intros f HV HM d s o r.
  set (member := fun r : bytes =>
      match r with
      | b :: r =>
        if Byte.eqb b """" then
          match lenient_str r with
          | None => None
          | Some (k, r1) =>
            match skip_ws r1 with
            | [] => None
            | c :: r2 =>
              if Byte.eqb c ":" then
                match lenient_value f d r2 with
                | Some (j, r') =>
                  match lenient_members f d false r' with
                  | Some (l, r'') =>
                    Some (match k, l with Some k, Some l => Some ((k, j) :: l) | _, _ => None end, r'')
                  | None => None
                  end
                | None => None
                end
              else None
            end
          end
        else None
      | [] => None
      end).
  assert (M : forall s0 o, member s0 = Some (o, r) ->
    exists kv l k wk w v w2 ts, o = all_keys (kv :: l) /\
      s0 = k ++ wk ++ ascii ":" ++ (w ++ v ++ w2) ++ comma_tail ts ++ "}"%byte :: r /\
      KeyText (fst kv) k /\ json_space wk /\ json_space w /\ json_space w2 /\ SkimText d (snd kv) v /\ Forall2 (SkimMember d) l ts).
  { intros s0 o0 H. unfold member in H. destruct s0 as [|b s0]; [discriminate|].
    destruct (Byte.eqb b """") eqn:Eq; [|discriminate]. apply eqb_true in Eq. subst b.
    destruct (lenient_str s0) as [[k r1]|] eqn:Ps; [|discriminate]. apply key_sound in Ps as (u & Hu & ->).
    destruct (skip_ws_split r1) as (wk & Er & Hwk).
    destruct (skip_ws r1) as [|c r2]; [discriminate|]. destruct (Byte.eqb c ":") eqn:Ec; [|discriminate].
    apply eqb_true in Ec. subst c.
    destruct (lenient_value f d r2) as [[j r']|] eqn:P; [|discriminate].
    destruct (lenient_members f d false r') as [[o' r'']|] eqn:Q; [|discriminate]. injection H as <- <-.
    apply HV in P as (w & v & -> & Hw & Hv).
    apply HM in Q as (l & w2 & ts & -> & -> & Hw2 & Hl).
    exists (k, j), l, (""""%byte :: u), wk, w, v, w2, ts. split; [reflexivity|].
    split; [rewrite Er; change (ascii ":") with [":"%byte]; cbn [app]; now rewrite <- !app_assoc|].
    repeat (split; [assumption|]). exact Hl. }
  destruct (skip_ws_split s) as (w & Es & Hw). cbn [lenient_members]. cbv zeta. fold member.
  destruct (skip_ws s) as [|b r0]; [split; discriminate|]. destruct (Byte.eqb b "}") eqn:E1.
  { apply eqb_true in E1. subst b. split; intros H; injection H as <- <-.
    - exists [], w, []. cbn [comma_tail app]. repeat split; auto.
    - left. split; [reflexivity|]. eauto. }
  split; intros H.
  - destruct (Byte.eqb b ",") eqn:E2; [|discriminate]. apply eqb_true in E2. subst b.
    destruct (skip_ws_split r0) as (w' & Er & Hw').
    apply M in H as (kv & l & k & wk & w1 & v & w2 & ts & -> & Ec & Hk & Hwk & H1 & H2 & Hv & Hl).
    exists (kv :: l), w, ((w' ++ k ++ wk ++ ascii ":" ++ w1 ++ v ++ w2) :: ts). split; [reflexivity|]. split; [|split; [exact Hw|]].
    + unfold comma_tail. rewrite comma_cons. rewrite Es, Er, Ec. cbn [app]. now rewrite <- !app_assoc.
    + constructor; [|exact Hl]. exists (w' ++ k ++ wk), (w1 ++ v ++ w2). split; [exists w', k, wk; auto|].
      split; [exists w1, v, w2; auto|]. now rewrite <- !app_assoc.
  - right. change (member (b :: r0) = Some (o, r)) in H.
    apply M in H as (kv & l & k & wk & w1 & v & w2 & ts & -> & Ec & Hk & Hwk & H1 & H2 & Hv & Hl).
    exists (kv :: l), ((w ++ k ++ wk ++ ascii ":" ++ w1 ++ v ++ w2) :: ts). split; [reflexivity|]. split; [discriminate|]. split.
    + rewrite comma_cons. rewrite Es, Ec. now rewrite <- !app_assoc.
    + constructor; [|exact Hl]. exists (w ++ k ++ wk), (w1 ++ v ++ w2). split; [exists w, k, wk; auto|].
      split; [exists w1, v, w2; auto|]. now rewrite <- !app_assoc.
Qed.

Lemma exact_sound : forall f, VExact f /\ EExact f /\ MExact f.
Proof.
  intros f. induction f as [|f (HV & HE & HM)].
  - repeat split; intros; discriminate.
  - split; [now apply exact_value_step|]. split; [now apply exact_elements_step|now apply exact_members_step].
Qed.

(** ** Completeness *)

Lemma skim_head : forall d j v, SkimText d j v -> exists b r, v = b :: r /\ is_ws b = false /\ b <> "]"%byte.
Proof.
  intros d j v H. destruct H as [d|d|d|d j t H|d s t (ps & _ & _ & ->)|d t ((ps & _ & ->) & _)|d w H|d l ts N H|d w H|d l ts N H];
    try (eexists _, _; split; [reflexivity|split; [reflexivity|discriminate]]).
  exact (value_head j t (text_number j t H)).
Qed.

Lemma skip_to_skim : forall d j w v s, json_space w -> SkimText d j v -> skip_ws (w ++ v ++ s) = v ++ s.
Proof.
  intros d j w v s Hw Hv. rewrite skip_ws_app by exact Hw. destruct (skim_head d j v Hv) as (b & r & -> & Hb & _).
  cbn [app]. now rewrite (skip_ws_head b) by exact Hb.
Qed.

Definition ReadAs (d : N) (j : json) (v : bytes) : Prop := SkimText d j v /\
  forall fuel w s, json_space w -> (2 * length v <= fuel)%nat -> follows s -> lenient_value fuel d (w ++ v ++ s) = Some (j, s).

Lemma elements_exact : forall d l ts, Forall2 (fun j => Padded (ReadAs d j)) l ts ->
  forall fuel w s, json_space w -> (2 * length (comma_tail ts) + 1 <= fuel)%nat ->
  lenient_elements fuel d false (w ++ comma_tail ts ++ "]"%byte :: s) = Some (l, s).
Proof.
  intros d l ts H. induction H as [|j t l ts P H IH]; intros fuel w s Hw L.
  - destruct fuel as [|f]; [cbn in L; lia|]. cbn [lenient_elements comma_tail app]. cbv zeta.
    rewrite skip_ws_app by exact Hw. reflexivity.
  - destruct P as (w1 & v & w2 & Hw1 & Hw2 & (Hv & Cj) & ->).
    unfold comma_tail in L |- *. rewrite comma_cons in L |- *. rewrite <- !app_assoc in *.
    cbn [length] in L. rewrite !app_length in L.
    destruct fuel as [|f]; [lia|]. cbn [lenient_elements]. cbv zeta.
    rewrite skip_ws_app by exact Hw. cbn [app].
    rewrite (skip_ws_head ","%byte) by reflexivity. change (Byte.eqb "," "]") with false. change (Byte.eqb "," ",") with true.
    cbn match. rewrite <- !app_assoc. rewrite (skip_to_skim d j) by assumption.
    destruct (skim_head d j v Hv) as (b & r & Ev & Hb & Nb).
    assert (E : v ++ w2 ++ comma_tail ts ++ "]"%byte :: s = b :: r ++ w2 ++ comma_tail ts ++ "]"%byte :: s) by now rewrite Ev.
    rewrite E. cbn match. rewrite (eqb_neq _ _ Nb). rewrite <- E.
    pose proof (Cj f [] (w2 ++ comma_tail ts ++ "]"%byte :: s) space_nil) as K. cbn [app] in K. rewrite K.
    + now rewrite IH by (assumption || lia).
    + lia.
    + apply follows_tail; [exact Hw2|]. cbn; tauto.
Qed.

Lemma array_exact : forall d l ts, Forall2 (fun j => Padded (ReadAs d j)) l ts -> l <> [] ->
  forall fuel s, (2 * length (comma_list ts) + 2 <= fuel)%nat ->
  lenient_elements fuel d true (comma_list ts ++ "]"%byte :: s) = Some (l, s).
Proof.
  intros d l ts H N fuel s L. destruct H as [|j t l ts P H]; [congruence|].
  destruct P as (w1 & v & w2 & Hw1 & Hw2 & (Hv & Cj) & ->).
  rewrite comma_cons in L |- *. rewrite <- !app_assoc in *. rewrite !app_length in L.
  destruct fuel as [|f]; [lia|]. cbn [lenient_elements]. cbv zeta.
  rewrite (skip_to_skim d j) by assumption.
  destruct (skim_head d j v Hv) as (b & r & Ev & Hb & Nb).
  assert (E : v ++ w2 ++ comma_tail ts ++ "]"%byte :: s = b :: r ++ w2 ++ comma_tail ts ++ "]"%byte :: s) by now rewrite Ev.
  rewrite E. cbn match. rewrite (eqb_neq _ _ Nb). rewrite <- E.
  pose proof (Cj f [] (w2 ++ comma_tail ts ++ "]"%byte :: s) space_nil) as K. cbn [app] in K. rewrite K.
  - now rewrite (elements_exact d l ts H) by (assumption || lia).
  - lia.
  - apply follows_tail; [exact Hw2|]. cbn; tauto.
Qed.

Definition ReadMemberAs (d : N) (kj : option bytes * json) (t : bytes) : Prop := exists k v,
  Padded (KeyText (fst kj)) k /\ Padded (ReadAs d (snd kj)) v /\ t = k ++ ascii ":" ++ v.

Lemma members_exact : forall d l ts, Forall2 (ReadMemberAs d) l ts ->
  forall fuel w s, json_space w -> (2 * length (comma_tail ts) + 1 <= fuel)%nat ->
  lenient_members fuel d false (w ++ comma_tail ts ++ "}"%byte :: s) = Some (all_keys l, s).
Proof.
  intros d l ts H. induction H as [|kv t l ts P H IH]; intros fuel w s Hw L.
  - destruct fuel as [|f]; [cbn in L; lia|]. cbn [lenient_members comma_tail app]. cbv zeta.
    rewrite skip_ws_app by exact Hw. reflexivity.
  - destruct P as (k & v0 & (wk & kt & wk' & Hwk & Hwk' & Hk & ->) & (w1 & v & w2 & Hw1 & Hw2 & (Hv & Cj) & ->) & ->).
    unfold comma_tail in L |- *. rewrite comma_cons in L |- *. rewrite <- !app_assoc in *.
    cbn [length] in L. rewrite !app_length in L.
    destruct fuel as [|f]; [lia|]. cbn [lenient_members]. cbv zeta.
    rewrite skip_ws_app by exact Hw. cbn [app].
    rewrite (skip_ws_head ","%byte) by reflexivity. change (Byte.eqb "," "}") with false. change (Byte.eqb "," ",") with true.
    cbn match. rewrite <- !app_assoc. rewrite skip_ws_app by exact Hwk.
    destruct (key_complete _ _ (wk' ++ ":"%byte :: w1 ++ v ++ w2 ++ comma_tail ts ++ "}"%byte :: s) Hk) as (u & Ek & Pk).
    subst kt. cbn [app]. rewrite (skip_ws_head """"%byte) by reflexivity. cbn match.
    change (Byte.eqb """" """") with true. cbn match. cbn [app] in Pk. rewrite <- ?app_assoc. change (ascii ":") with [":"%byte]. cbn [app].
    rewrite <- ?app_assoc. rewrite Pk. rewrite skip_ws_app by exact Hwk'.
    rewrite (skip_ws_head ":"%byte) by reflexivity. change (Byte.eqb ":" ":") with true. cbn match.
    rewrite (Cj f w1).
    + rewrite IH by (assumption || lia). now destruct kv.
    + exact Hw1.
    + lia.
    + apply follows_tail; [exact Hw2|]. cbn; tauto.
Qed.

Lemma object_exact : forall d l ts, Forall2 (ReadMemberAs d) l ts -> l <> [] ->
  forall fuel s, (2 * length (comma_list ts) + 2 <= fuel)%nat ->
  lenient_members fuel d true (comma_list ts ++ "}"%byte :: s) = Some (all_keys l, s).
Proof.
  intros d l ts H N fuel s L. destruct H as [|kv t l ts P H]; [congruence|].
  destruct P as (k & v0 & (wk & kt & wk' & Hwk & Hwk' & Hk & ->) & (w1 & v & w2 & Hw1 & Hw2 & (Hv & Cj) & ->) & ->).
  rewrite comma_cons in L |- *. rewrite <- !app_assoc in *. rewrite !app_length in L.
  destruct fuel as [|f]; [lia|]. cbn [lenient_members]. cbv zeta.
  rewrite skip_ws_app by exact Hwk.
  destruct (key_complete _ _ (wk' ++ ":"%byte :: w1 ++ v ++ w2 ++ comma_tail ts ++ "}"%byte :: s) Hk) as (u & Ek & Pk).
  subst kt. cbn [app]. rewrite (skip_ws_head """"%byte) by reflexivity. cbn match.
  change (Byte.eqb """" """") with true. change (Byte.eqb """" "}") with false. cbn match.
  cbn [app] in Pk. rewrite <- ?app_assoc. change (ascii ":") with [":"%byte]. cbn [app].
  rewrite <- ?app_assoc. rewrite Pk. rewrite skip_ws_app by exact Hwk'.
  rewrite (skip_ws_head ":"%byte) by reflexivity. change (Byte.eqb ":" ":") with true. cbn match.
  rewrite (Cj f w1).
  - rewrite (members_exact d l ts H) by (assumption || lia). now destruct kv.
  - exact Hw1.
  - lia.
  - apply follows_tail; [exact Hw2|]. cbn; tauto.
Qed.

Lemma skim_scalar_step : forall f d' d j w v s, json_space w -> SkimText d' j v ->
  lenient_value (S f) d (w ++ v ++ s) = lenient_value (S f) d (v ++ s).
Proof.
  intros f d' d j w v s Hw Hv. cbn [lenient_value]. rewrite (skip_to_skim d' j) by assumption.
  rewrite <- (app_nil_l (v ++ s)) at 2. rewrite (skip_to_skim d' j [] v s space_nil Hv). reflexivity.
Qed.

Lemma forall2_weaken : forall A B (P Q : A -> B -> Prop) l m, Forall2 P l m -> (forall x y, In y m -> P x y -> Q x y) -> Forall2 Q l m.
Proof.
  intros A B P Q l m H. induction H as [|x y l m Hx H IH]; intros K; constructor.
  - apply K; [now left|exact Hx].
  - apply IH. intros x' y' I. apply K. now right.
Qed.

Lemma skim_reads : forall n v, (length v <= n)%nat -> forall d j, SkimText d j v -> ReadAs d j v.
Proof.
  induction n as [|n IH]; intros v L d j H.
  { destruct (skim_head d j v H) as (b & r & -> & _). cbn in L. lia. }
  split; [exact H|]. intros fuel w s Hw LF F. destruct fuel as [|f].
  { destruct (skim_head d j v H) as (b & r & -> & _). cbn in LF. lia. }
  rewrite (skim_scalar_step f d d j) by assumption.
  destruct H as [d|d|d|d j t H|d x t H|d t H|d w' H|d l ts N H|d w' H|d l ts N H].
  - reflexivity.
  - reflexivity.
  - reflexivity.
  - rewrite (number_skip j t f d s H F). now rewrite (number_cut j t d H).
  - destruct (key_complete (Some x) t s H) as (u & -> & P). cbn [app lenient_value].
    rewrite (skip_ws_head """"%byte) by reflexivity.
    change (match lenient_str (u ++ s) with Some (Some t, r') => Some (JStr t, r') | Some (None, r') => Some (JFloat, r') | None => None end
      = Some (JStr x, s)).
    now rewrite P.
  - destruct (key_complete None t s H) as (u & -> & P). cbn [app lenient_value].
    rewrite (skip_ws_head """"%byte) by reflexivity.
    change (match lenient_str (u ++ s) with Some (Some t, r') => Some (JStr t, r') | Some (None, r') => Some (JFloat, r') | None => None end
      = Some (JFloat, s)).
    now rewrite P.
  - change (ascii "[" ++ w' ++ ascii "]") with ("["%byte :: w' ++ ["]"%byte]) in LF |- *.
    cbn [app lenient_value]. rewrite (skip_ws_head "["%byte) by reflexivity. rewrite zero_le.
    cbn. rewrite <- app_assoc. destruct f as [|f]; [cbn [length] in LF; lia|].
    cbn [lenient_elements]. cbv zeta. now rewrite skip_ws_app by exact H.
  - change (ascii "[" ++ comma_list ts ++ ascii "]") with ("["%byte :: comma_list ts ++ ["]"%byte]) in L, LF |- *.
    cbn [length] in L, LF. rewrite app_length in L, LF. cbn [length] in L, LF.
    cbn [app lenient_value]. rewrite (skip_ws_head "["%byte) by reflexivity. rewrite zero_le.
    cbn. rewrite <- app_assoc. cbn [app].
    rewrite (array_exact (d - 1) l ts); [reflexivity| |exact N|lia].
    apply (forall2_weaken _ _ _ _ _ _ H). intros j t I (w1 & v & w2 & H1 & H2 & Hv & E).
    exists w1, v, w2. repeat (split; [assumption|]). split; [|exact E]. apply IH; [|exact Hv].
    apply comma_list_in in I. rewrite E, !app_length in I. lia.
  - change (ascii "{" ++ w' ++ ascii "}") with ("{"%byte :: w' ++ ["}"%byte]) in LF |- *.
    cbn [app lenient_value]. rewrite (skip_ws_head "{"%byte) by reflexivity. rewrite zero_le.
    cbn. rewrite <- app_assoc. destruct f as [|f]; [cbn [length] in LF; lia|].
    cbn [lenient_members]. cbv zeta. now rewrite skip_ws_app by exact H.
  - change (ascii "{" ++ comma_list ts ++ ascii "}") with ("{"%byte :: comma_list ts ++ ["}"%byte]) in L, LF |- *.
    cbn [length] in L, LF. rewrite app_length in L, LF. cbn [length] in L, LF.
    cbn [app lenient_value]. rewrite (skip_ws_head "{"%byte) by reflexivity. rewrite zero_le.
    cbn. rewrite <- app_assoc. cbn [app].
    rewrite (object_exact (d - 1) l ts); [destruct (all_keys l); reflexivity| |exact N|lia].
    apply (forall2_weaken _ _ _ _ _ _ H). intros kj t I (k & v0 & Hk & (w1 & v & w2 & H1 & H2 & Hv & E) & Et).
    exists k, v0. split; [exact Hk|]. split; [|exact Et]. exists w1, v, w2. repeat (split; [assumption|]). split; [|exact E].
    apply IH; [|exact Hv].
    apply comma_list_in in I. rewrite Et, E, !app_length in I. lia.
Qed.

Theorem skim_document_spec : forall t j, lenient_document t = Some j <-> SkimDocument j t.
Proof.
  intros t j. unfold lenient_document, text_depth_limit. split.
  - intros H. destruct (lenient_value (2 * length t) 128 t) as [[j' r]|] eqn:P; [|discriminate].
    apply (proj1 (exact_sound _)) in P as (w & v & -> & Hw & Hv).
    destruct (skip_ws_split r) as (w2 & Er & Hw2). destruct (skip_ws r) as [|? ?]; [|discriminate].
    injection H as ->. rewrite app_nil_r in Er. subst r. exists w, v, w2. auto.
  - intros (w & v & w2 & Hw & Hw2 & Hv & ->).
    rewrite (proj2 (skim_reads _ v (le_n _) 128 j Hv) (2 * length (w ++ v ++ w2))%nat w w2 Hw).
    + now rewrite (skip_ws_space w2 Hw2).
    + rewrite !app_length. lia.
    + now apply follows_space.
Qed.

Theorem skipping_exact : forall A (c : codec A) j t, SkimDocument j t -> from_str_skipping c t = c_de c j.
Proof. intros A c j t H. unfold from_str_skipping. apply skim_document_spec in H. now rewrite H. Qed.

Theorem skipping_error : forall A (c : codec A) t, (forall j, ~ SkimDocument j t) -> from_str_skipping c t = JErr.
Proof.
  intros A c t H. unfold from_str_skipping. destruct (lenient_document t) as [j|] eqn:E; [|reflexivity].
  apply skim_document_spec in E. now apply H in E.
Qed.

Theorem skim_unique : forall t j j', SkimDocument j t -> SkimDocument j' t -> j = j'.
Proof. intros t j j' H H'. apply skim_document_spec in H, H'. rewrite H in H'. now injection H'. Qed.

Theorem skim_cut : forall j t, DocumentText j t -> SkimDocument (cut 128 j) t.
Proof.
  intros j t (w1 & v & w2 & H1 & H2 & Hv & ->). apply skim_document_spec. unfold lenient_document, text_depth_limit.
  rewrite (value_skip j v _ 128 w1 w2 Hv H1).
  - now rewrite (skip_ws_space w2 H2).
  - rewrite !app_length. lia.
  - now apply follows_space.
Qed.

(** Examples *)
Lemma skim_examples :
  SkimDocument (JObj [(ascii "a", JFloat); (ascii "b", JUint (uwrap 64 1))]) (ascii "{""a"":""\ud800"",""b"":1}") /\
  SkimDocument (JArr [JFloat; JNull]) (ascii "[{""\udc00"":1}, null]") /\
  (forall j, ~ SkimDocument j (ascii "[1,]")).
Proof.
  split; [apply skim_document_spec; vm_compute; reflexivity|]. split; [apply skim_document_spec; vm_compute; reflexivity|].
  intros j H. apply skim_document_spec in H. vm_compute in H. discriminate.
Qed.
