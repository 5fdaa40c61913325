(** Proofs: what can be skipped is the JSON grammar with any well-formed escapes. *)

From Verif Require Import Base Io SpecText SpecUtf8 Model_currency Model_text Model_json Model_jsontypes SpecJson
  Model_jsontext SpecJsonText JsonTextLex JsonTextProofs JsonTextMore Model_skip SpecSkip SkipProofs.
Local Open Scope N_scope.

(** ** Strings *)

Lemma char_rough : forall c t, CharText c t -> exists ps, Forall RoughChar ps /\ t = concat ps.
Proof.
  intros c t H. destruct H as [b L Q B|c e He|n t Ht S|n hi lo t u N E1 E2 Ht Hu].
  - exists [[b]]. split; [|reflexivity]. constructor; [now apply rough_plain|constructor].
  - exists [["\"%byte; e]]. split; [|reflexivity]. constructor; [exact (rough_short c e He)|constructor].
  - exists [t]. split; [|cbn; now rewrite app_nil_r]. constructor; [exact (rough_escape n t Ht)|constructor].
  - exists [t; u]. split; [|cbn; now rewrite app_nil_r].
    constructor; [exact (rough_escape hi t Ht)|]. constructor; [exact (rough_escape lo u Hu)|constructor].
Qed.

Lemma string_rough : forall s t, StringText s t -> RoughString t.
Proof.
  intros s t (ps & H & _ & ->).
  assert (K : exists qs, Forall RoughChar qs /\ concat (map snd ps) = concat qs).
  { induction H as [|p ps Hp H (qs & F & E)]; [exists []; split; [constructor|reflexivity]|].
    apply char_rough in Hp as (q & Fq & Eq). exists (q ++ qs). split; [now apply Forall_app|].
    cbn [map concat]. now rewrite concat_app, <- Eq, E. }
  destruct K as (qs & F & ->). exists qs. auto.
Qed.

Lemma lenient_string : forall s o r, lenient_str s = Some (o, r) -> exists u, RoughString (""""%byte :: u) /\ s = u ++ r.
Proof.
  intros s o r H. unfold lenient_str in H. destruct (parse_str s) as [[t r1]|] eqn:P.
  - injection H as <- <-. apply string_sound in P as (u & Hu & ->). exists u. split; [exact (string_rough t _ Hu)|reflexivity].
  - destruct (skip_str s) as [r1|] eqn:K; [|discriminate]. injection H as <- <-. now apply skip_strings.
Qed.

Lemma lenient_rough : forall t r, RoughString t -> exists u o, t = """"%byte :: u /\ lenient_str (u ++ r) = Some (o, r).
Proof.
  intros t r H. destruct t as [|b u]; [destruct H as (ps & _ & E); discriminate|].
  assert (b = """"%byte) as -> by (destruct H as (ps & _ & E); now injection E).
  exists u. assert (S : skip_str (u ++ r) = Some r) by (apply skip_strings; eauto).
  unfold lenient_str. destruct (parse_str (u ++ r)) as [[t r1]|] eqn:P.
  - exists (Some t). split; [reflexivity|]. apply string_sound in P as (u' & Hu & E).
    assert (S' : skip_str (u ++ r) = Some r1).
    { apply skip_strings. exists u'. split; [exact (string_rough t _ Hu)|exact E]. }
    rewrite S in S'. now injection S' as ->.
  - rewrite S. exists None. auto.
Qed.

(** ** Whatever is read is in the grammar. *)

Definition RoughMember (t : bytes) : Prop := exists k v, Padded RoughString k /\ Padded RoughText v /\ t = k ++ ascii ":" ++ v.

Definition VRough (f : nat) : Prop := forall d s j r, lenient_value f d s = Some (j, r) ->
  exists w v, s = w ++ v ++ r /\ json_space w /\ RoughText v.

Definition ERough (f : nat) : Prop := forall d s l r,
  (lenient_elements f d false s = Some (l, r) ->
   exists w ts, s = w ++ comma_tail ts ++ "]"%byte :: r /\ json_space w /\ Forall (Padded RoughText) ts) /\
  (lenient_elements f d true s = Some (l, r) ->
   (exists w, s = w ++ "]"%byte :: r /\ json_space w) \/
   (exists ts, ts <> [] /\ s = comma_list ts ++ "]"%byte :: r /\ Forall (Padded RoughText) ts)).

Definition MRough (f : nat) : Prop := forall d s l r,
  (lenient_members f d false s = Some (l, r) ->
   exists w ts, s = w ++ comma_tail ts ++ "}"%byte :: r /\ json_space w /\ Forall RoughMember ts) /\
  (lenient_members f d true s = Some (l, r) ->
   (exists w, s = w ++ "}"%byte :: r /\ json_space w) \/
   (exists ts, ts <> [] /\ s = comma_list ts ++ "}"%byte :: r /\ Forall RoughMember ts)).

Lemma rough_value_step : forall f, ERough f -> MRough f -> VRough (S f).
Proof.
  intros f HE HM d s j r H. cbn [lenient_value] in H.
  destruct (skip_ws_split s) as (w & Es & Hw). exists w.
  assert (K : exists v, skip_ws s = v ++ r /\ RoughText v);
    [|destruct K as (v & Ev & Hv); exists v; split; [now rewrite <- Ev|auto]].
  clear w Es Hw. destruct (skip_ws s) as [|b r0]; [discriminate|].
  destruct (Byte.eqb b "n") eqn:E1.
  { apply eqb_true in E1. subst b. destruct (parse_ident (ascii "ull") r0) eqn:P; [|discriminate].
    injection H as <- <-. apply parse_ident_some in P as ->. exists (ascii "null"). split; [reflexivity|constructor]. }
  destruct (Byte.eqb b "t") eqn:E2.
  { apply eqb_true in E2. subst b. destruct (parse_ident (ascii "rue") r0) eqn:P; [|discriminate].
    injection H as <- <-. apply parse_ident_some in P as ->. exists (ascii "true"). split; [reflexivity|constructor]. }
  destruct (Byte.eqb b "f") eqn:E3.
  { apply eqb_true in E3. subst b. destruct (parse_ident (ascii "alse") r0) eqn:P; [|discriminate].
    injection H as <- <-. apply parse_ident_some in P as ->. exists (ascii "false"). split; [reflexivity|constructor]. }
  destruct (Byte.eqb b "-") eqn:E4.
  { apply eqb_true in E4. subst b. apply number_sound in H as (t & -> & Ht). exists (sign_of false ++ t).
    split; [reflexivity|]. exact (rough_number _ _ Ht). }
  destruct (is_digit b) eqn:E5.
  { apply number_sound in H as (t & E & Ht). exists t. split; [exact E|]. exact (rough_number _ _ Ht). }
  destruct (Byte.eqb b """") eqn:E6.
  { apply eqb_true in E6. subst b. destruct (lenient_str r0) as [[o r1]|] eqn:P; [|discriminate].
    assert (r1 = r) as -> by (destruct o; injection H; auto).
    apply lenient_string in P as (u & Hu & ->). exists (""""%byte :: u). split; [reflexivity|].
    now apply rough_string. }
  destruct (Byte.eqb b "[") eqn:E7.
  { apply eqb_true in E7. subst b.
    destruct (lenient_elements f (d - 1) true r0) as [[l r1]|] eqn:P; [|discriminate]. injection H as _ <-.
    apply HE in P. destruct P as [(w & -> & Hw)|(ts & N & -> & Hl)].
    - exists (ascii "[" ++ w ++ ascii "]"). split; [change (ascii "[") with ["["%byte]; change (ascii "]") with ["]"%byte]; cbn [app]; now rewrite <- app_assoc|].
      now constructor.
    - exists (ascii "[" ++ comma_list ts ++ ascii "]"). split; [change (ascii "[") with ["["%byte]; change (ascii "]") with ["]"%byte]; cbn [app]; now rewrite <- app_assoc|].
      now constructor. }
  destruct (Byte.eqb b "{") eqn:E8; [|discriminate].
  apply eqb_true in E8. subst b.
  destruct (lenient_members f (d - 1) true r0) as [[l r1]|] eqn:P; [|discriminate].
  assert (r1 = r) as -> by (destruct l; injection H; auto).
  apply HM in P. destruct P as [(w & -> & Hw)|(ts & N & -> & Hl)].
  - exists (ascii "{" ++ w ++ ascii "}"). split; [change (ascii "{") with ["{"%byte]; change (ascii "}") with ["}"%byte]; cbn [app]; now rewrite <- app_assoc|].
    now constructor.
  - exists (ascii "{" ++ comma_list ts ++ ascii "}"). split; [change (ascii "{") with ["{"%byte]; change (ascii "}") with ["}"%byte]; cbn [app]; now rewrite <- app_assoc|].
    now constructor.
Qed.

Lemma rough_elements_step : forall f, VRough f -> ERough f -> ERough (S f).
Proof.
  intros f HV HE d s l r.
  assert (element : forall s0 l, match lenient_value f d s0 with
      | Some (j, r') => match lenient_elements f d false r' with Some (l, r'') => Some (j :: l, r'') | None => None end
      | None => None end = Some (l, r) ->
    exists w v w2 ts, s0 = (w ++ v ++ w2) ++ comma_tail ts ++ "]"%byte :: r /\
      json_space w /\ json_space w2 /\ RoughText v /\ Forall (Padded RoughText) ts).
  { intros s0 l0 H. destruct (lenient_value f d s0) as [[j r']|] eqn:P; [|discriminate].
    destruct (lenient_elements f d false r') as [[l' r'']|] eqn:Q; [|discriminate]. injection H as <- <-.
    apply HV in P as (w & v & -> & Hw & Hv).
    apply HE in Q as (w2 & ts & -> & Hw2 & Hl).
    exists w, v, w2, ts. split; [now rewrite <- !app_assoc|]. repeat split; auto. }
  destruct (skip_ws_split s) as (w & Es & Hw). cbn [lenient_elements]. cbv zeta.
  destruct (skip_ws s) as [|b r0]; [split; discriminate|]. destruct (Byte.eqb b "]") eqn:E1.
  { apply eqb_true in E1. subst b. split; intros H; injection H as <- <-.
    - exists w, []. cbn [comma_tail app]. repeat split; auto.
    - left. eauto. }
  split; intros H.
  - destruct (Byte.eqb b ",") eqn:E2; [|discriminate]. apply eqb_true in E2. subst b.
    destruct (skip_ws_split r0) as (w' & Er & Hw').
    destruct (skip_ws r0) as [|c r1]; [discriminate|]. destruct (Byte.eqb c "]"); [discriminate|].
    apply element in H as (w1 & v & w2 & ts & Ec & H1 & H2 & Hv & Hl).
    exists w, ((w' ++ w1 ++ v ++ w2) :: ts). split; [|split; [exact Hw|]].
    + unfold comma_tail. rewrite comma_cons. rewrite Es, Er, Ec. cbn [app]. now rewrite <- !app_assoc.
    + constructor; [|exact Hl]. exists (w' ++ w1), v, w2. rewrite <- !app_assoc. split; [now apply space_app|]. auto.
  - right. apply element in H as (w1 & v & w2 & ts & Ec & H1 & H2 & Hv & Hl).
    exists ((w ++ w1 ++ v ++ w2) :: ts). split; [discriminate|]. split.
    + rewrite comma_cons. rewrite Es, Ec. now rewrite <- !app_assoc.
    + constructor; [|exact Hl]. exists (w ++ w1), v, w2. rewrite <- !app_assoc. split; [now apply space_app|]. auto.
Qed.

Lemma rough_members_step : forall f, VRough f -> MRough f -> MRough (S f).
Proof.
  intros f HV HM d s l r.
  set (member := fun r : bytes =>
      match r with
      | b :: r =>
        if Byte.eqb b """" then
          match lenient_str r with
          | None => None
          | Some (k, r1) =>
            match skip_ws r1 with
            | [] => None
            | c :: r2 =>
              if Byte.eqb c ":" then
                match lenient_value f d r2 with
                | Some (j, r') =>
                  match lenient_members f d false r' with
                  | Some (l, r'') =>
                    Some (match k, l with Some k, Some l => Some ((k, j) :: l) | _, _ => None end, r'')
                  | None => None
                  end
                | None => None
                end
              else None
            end
          end
        else None
      | [] => None
      end).
  assert (M : forall s0 l, member s0 = Some (l, r) ->
    exists k wk w v w2 ts,
      s0 = k ++ wk ++ ascii ":" ++ (w ++ v ++ w2) ++ comma_tail ts ++ "}"%byte :: r /\
      RoughString k /\ json_space wk /\ json_space w /\ json_space w2 /\ RoughText v /\ Forall RoughMember ts).
  { intros s0 l0 H. unfold member in H. destruct s0 as [|b s0]; [discriminate|].
    destruct (Byte.eqb b """") eqn:Eq; [|discriminate]. apply eqb_true in Eq. subst b.
    destruct (lenient_str s0) as [[k r1]|] eqn:Ps; [|discriminate]. apply lenient_string in Ps as (u & Hu & ->).
    destruct (skip_ws_split r1) as (wk & Er & Hwk).
    destruct (skip_ws r1) as [|c r2]; [discriminate|]. destruct (Byte.eqb c ":") eqn:Ec; [|discriminate].
    apply eqb_true in Ec. subst c.
    destruct (lenient_value f d r2) as [[j r']|] eqn:P; [|discriminate].
    destruct (lenient_members f d false r') as [[l' r'']|] eqn:Q; [|discriminate]. injection H as <- <-.
    apply HV in P as (w & v & -> & Hw & Hv).
    apply HM in Q as (w2 & ts & -> & Hw2 & Hl).
    exists (""""%byte :: u), wk, w, v, w2, ts.
    split; [rewrite Er; change (ascii ":") with [":"%byte]; cbn [app]; now rewrite <- !app_assoc|].
    repeat (split; [assumption|]). exact Hl. }
  destruct (skip_ws_split s) as (w & Es & Hw). cbn [lenient_members]. cbv zeta. fold member.
  destruct (skip_ws s) as [|b r0]; [split; discriminate|]. destruct (Byte.eqb b "}") eqn:E1.
  { apply eqb_true in E1. subst b. split; intros H; injection H as <- <-.
    - exists w, []. cbn [comma_tail app]. repeat split; auto.
    - left. eauto. }
  split; intros H.
  - destruct (Byte.eqb b ",") eqn:E2; [|discriminate]. apply eqb_true in E2. subst b.
    destruct (skip_ws_split r0) as (w' & Er & Hw').
    apply M in H as (k & wk & w1 & v & w2 & ts & Ec & Hk & Hwk & H1 & H2 & Hv & Hl).
    exists w, ((w' ++ k ++ wk ++ ascii ":" ++ w1 ++ v ++ w2) :: ts). split; [|split; [exact Hw|]].
    + unfold comma_tail. rewrite comma_cons. rewrite Es, Er, Ec. cbn [app]. now rewrite <- !app_assoc.
    + constructor; [|exact Hl]. exists (w' ++ k ++ wk), (w1 ++ v ++ w2). split; [exists w', k, wk; auto|].
      split; [exists w1, v, w2; auto|]. now rewrite <- !app_assoc.
  - right. change (member (b :: r0) = Some (l, r)) in H.
    apply M in H as (k & wk & w1 & v & w2 & ts & Ec & Hk & Hwk & H1 & H2 & Hv & Hl).
    exists ((w ++ k ++ wk ++ ascii ":" ++ w1 ++ v ++ w2) :: ts). split; [discriminate|]. split.
    + rewrite comma_cons. rewrite Es, Ec. now rewrite <- !app_assoc.
    + constructor; [|exact Hl]. exists (w ++ k ++ wk), (w1 ++ v ++ w2). split; [exists w, k, wk; auto|].
      split; [exists w1, v, w2; auto|]. now rewrite <- !app_assoc.
Qed.

Lemma lenient_sound : forall f, VRough f /\ ERough f /\ MRough f.
Proof.
  intros f. induction f as [|f (HV & HE & HM)].
  - repeat split; intros; discriminate.
  - split; [now apply rough_value_step|]. split; [now apply rough_elements_step|now apply rough_members_step].
Qed.

(** ** Whatever is in the grammar is read. *)

Lemma rough_head : forall v, RoughText v -> exists b r, v = b :: r /\ is_ws b = false /\ b <> "]"%byte.
Proof.
  intros v H. destruct H as [| | |j t H|t (ps & _ & ->)|w H|ts N H|w H|ts N H];
    try (eexists _, _; split; [reflexivity|split; [reflexivity|discriminate]]).
  exact (value_head j t (text_number j t H)).
Qed.

Lemma skip_to_rough : forall w v s, json_space w -> RoughText v -> skip_ws (w ++ v ++ s) = v ++ s.
Proof.
  intros w v s Hw Hv. rewrite skip_ws_app by exact Hw. destruct (rough_head v Hv) as (b & r & -> & Hb & _).
  cbn [app]. now rewrite (skip_ws_head b) by exact Hb.
Qed.

Definition Reads (v : bytes) : Prop := forall fuel d w s, json_space w -> (2 * length v <= fuel)%nat -> follows s ->
  exists j, lenient_value fuel d (w ++ v ++ s) = Some (j, s).

Lemma elements_rough : forall d ts, Forall (Padded (fun v => RoughText v /\ Reads v)) ts ->
  forall fuel w s, json_space w -> (2 * length (comma_tail ts) + 1 <= fuel)%nat ->
  exists l, lenient_elements fuel d false (w ++ comma_tail ts ++ "]"%byte :: s) = Some (l, s).
Proof.
  intros d ts H. induction H as [|t ts P H IH]; intros fuel w s Hw L.
  - destruct fuel as [|f]; [cbn in L; lia|]. exists []. cbn [lenient_elements comma_tail app]. cbv zeta.
    rewrite skip_ws_app by exact Hw. reflexivity.
  - destruct P as (w1 & v & w2 & Hw1 & Hw2 & (Hv & Cj) & ->).
    unfold comma_tail in L |- *. rewrite comma_cons in L |- *. rewrite <- !app_assoc in *.
    cbn [length] in L. rewrite !app_length in L.
    destruct fuel as [|f]; [lia|]. cbn [lenient_elements]. cbv zeta.
    rewrite skip_ws_app by exact Hw. cbn [app].
    rewrite (skip_ws_head ","%byte) by reflexivity. change (Byte.eqb "," "]") with false. change (Byte.eqb "," ",") with true.
    cbn match. rewrite <- !app_assoc. rewrite skip_to_rough by assumption.
    destruct (rough_head v Hv) as (b & r & Ev & Hb & Nb).
    assert (E : v ++ w2 ++ comma_tail ts ++ "]"%byte :: s = b :: r ++ w2 ++ comma_tail ts ++ "]"%byte :: s) by now rewrite Ev.
    rewrite E. cbn match. rewrite (eqb_neq _ _ Nb). rewrite <- E.
    destruct (Cj f d [] (w2 ++ comma_tail ts ++ "]"%byte :: s) space_nil) as (j & K).
    + lia.
    + apply follows_tail; [exact Hw2|]. cbn; tauto.
    + cbn [app] in K. rewrite K. destruct (IH f w2 s Hw2) as (l & ->); [lia|]. eauto.
Qed.

Lemma array_rough : forall d ts, Forall (Padded (fun v => RoughText v /\ Reads v)) ts -> ts <> [] ->
  forall fuel s, (2 * length (comma_list ts) + 2 <= fuel)%nat ->
  exists l, lenient_elements fuel d true (comma_list ts ++ "]"%byte :: s) = Some (l, s).
Proof.
  intros d ts H N fuel s L. destruct H as [|t ts P H]; [congruence|].
  destruct P as (w1 & v & w2 & Hw1 & Hw2 & (Hv & Cj) & ->).
  rewrite comma_cons in L |- *. rewrite <- !app_assoc in *. rewrite !app_length in L.
  destruct fuel as [|f]; [lia|]. cbn [lenient_elements]. cbv zeta.
  rewrite skip_to_rough by assumption.
  destruct (rough_head v Hv) as (b & r & Ev & Hb & Nb).
  assert (E : v ++ w2 ++ comma_tail ts ++ "]"%byte :: s = b :: r ++ w2 ++ comma_tail ts ++ "]"%byte :: s) by now rewrite Ev.
  rewrite E. cbn match. rewrite (eqb_neq _ _ Nb). rewrite <- E.
  destruct (Cj f d [] (w2 ++ comma_tail ts ++ "]"%byte :: s) space_nil) as (j & K).
  - lia.
  - apply follows_tail; [exact Hw2|]. cbn; tauto.
  - cbn [app] in K. rewrite K. destruct (elements_rough d ts H f w2 s Hw2) as (l & ->); [lia|]. eauto.
Qed.

Definition ReadMember (t : bytes) : Prop := exists k v,
  Padded RoughString k /\ Padded (fun v => RoughText v /\ Reads v) v /\ t = k ++ ascii ":" ++ v.

Lemma members_rough : forall d ts, Forall ReadMember ts ->
  forall fuel w s, json_space w -> (2 * length (comma_tail ts) + 1 <= fuel)%nat ->
  exists l, lenient_members fuel d false (w ++ comma_tail ts ++ "}"%byte :: s) = Some (l, s).
Proof.
  intros d ts H. induction H as [|t ts P H IH]; intros fuel w s Hw L.
  - destruct fuel as [|f]; [cbn in L; lia|]. exists (Some []). cbn [lenient_members comma_tail app]. cbv zeta.
    rewrite skip_ws_app by exact Hw. reflexivity.
  - destruct P as (k & v0 & (wk & kt & wk' & Hwk & Hwk' & Hk & ->) & (w1 & v & w2 & Hw1 & Hw2 & (Hv & Cj) & ->) & ->).
    unfold comma_tail in L |- *. rewrite comma_cons in L |- *. rewrite <- !app_assoc in *.
    cbn [length] in L. rewrite !app_length in L.
    destruct fuel as [|f]; [lia|]. cbn [lenient_members]. cbv zeta.
    rewrite skip_ws_app by exact Hw. cbn [app].
    rewrite (skip_ws_head ","%byte) by reflexivity. change (Byte.eqb "," "}") with false. change (Byte.eqb "," ",") with true.
    cbn match. rewrite <- !app_assoc. rewrite skip_ws_app by exact Hwk.
    destruct (lenient_rough _ (wk' ++ ":"%byte :: w1 ++ v ++ w2 ++ comma_tail ts ++ "}"%byte :: s) Hk) as (u & o & Ek & Pk).
    subst kt. cbn [app]. rewrite (skip_ws_head """"%byte) by reflexivity. cbn match.
    change (Byte.eqb """" """") with true. cbn match. cbn [app] in Pk. rewrite <- ?app_assoc. change (ascii ":") with [":"%byte]. cbn [app].
    rewrite <- ?app_assoc. rewrite Pk. rewrite skip_ws_app by exact Hwk'.
    rewrite (skip_ws_head ":"%byte) by reflexivity. change (Byte.eqb ":" ":") with true. cbn match.
    destruct (Cj f d w1 (w2 ++ comma_tail ts ++ "}"%byte :: s) Hw1) as (j & K).
    + lia.
    + apply follows_tail; [exact Hw2|]. cbn; tauto.
    + rewrite K. destruct (IH f w2 s Hw2) as (l & ->); [lia|]. eauto.
Qed.

Lemma object_rough : forall d ts, Forall ReadMember ts -> ts <> [] ->
  forall fuel s, (2 * length (comma_list ts) + 2 <= fuel)%nat ->
  exists l, lenient_members fuel d true (comma_list ts ++ "}"%byte :: s) = Some (l, s).
Proof.
  intros d ts H N fuel s L. destruct H as [|t ts P H]; [congruence|].
  destruct P as (k & v0 & (wk & kt & wk' & Hwk & Hwk' & Hk & ->) & (w1 & v & w2 & Hw1 & Hw2 & (Hv & Cj) & ->) & ->).
  rewrite comma_cons in L |- *. rewrite <- !app_assoc in *. rewrite !app_length in L.
  destruct fuel as [|f]; [lia|]. cbn [lenient_members]. cbv zeta.
  rewrite skip_ws_app by exact Hwk.
  destruct (lenient_rough _ (wk' ++ ":"%byte :: w1 ++ v ++ w2 ++ comma_tail ts ++ "}"%byte :: s) Hk) as (u & o & Ek & Pk).
  subst kt. cbn [app]. rewrite (skip_ws_head """"%byte) by reflexivity. cbn match.
  change (Byte.eqb """" """") with true. change (Byte.eqb """" "}") with false. cbn match.
  cbn [app] in Pk. rewrite <- ?app_assoc. change (ascii ":") with [":"%byte]. cbn [app].
  rewrite <- ?app_assoc. rewrite Pk. rewrite skip_ws_app by exact Hwk'.
  rewrite (skip_ws_head ":"%byte) by reflexivity. change (Byte.eqb ":" ":") with true. cbn match.
  destruct (Cj f d w1 (w2 ++ comma_tail ts ++ "}"%byte :: s) Hw1) as (j & K).
  - lia.
  - apply follows_tail; [exact Hw2|]. cbn; tauto.
  - rewrite K. destruct (members_rough d ts H f w2 s Hw2) as (l & ->); [lia|]. eauto.
Qed.

Lemma comma_list_in : forall ts t, In t ts -> (length t <= length (comma_list ts))%nat.
Proof.
  induction ts as [|x ts IH]; intros t H; [destruct H|]. rewrite comma_cons, app_length.
  destruct H as [->|H]; [lia|]. apply IH in H. destruct ts as [|y ts]; [cbn in *; lia|].
  unfold comma_tail. cbn [length]. rewrite comma_cons in H. rewrite comma_cons. cbn [app length] in *. lia.
Qed.

Lemma rough_scalar_step : forall f d w v s, json_space w -> RoughText v ->
  lenient_value (S f) d (w ++ v ++ s) = lenient_value (S f) d (v ++ s).
Proof.
  intros f d w v s Hw Hv. cbn [lenient_value]. rewrite skip_to_rough by assumption.
  rewrite <- (app_nil_l (v ++ s)) at 2. rewrite (skip_to_rough [] v s space_nil Hv). reflexivity.
Qed.

Lemma rough_reads : forall n v, (length v <= n)%nat -> RoughText v -> Reads v.
Proof.
  induction n as [|n IH]; intros v L H.
  { destruct (rough_head v H) as (b & r & -> & _). cbn in L. lia. }
  intros fuel d w s Hw LF F. destruct fuel as [|f].
  { destruct (rough_head v H) as (b & r & -> & _). cbn in LF. lia. }
  rewrite rough_scalar_step by assumption. destruct H as [| | |j t H|t H|w' H|ts N H|w' H|ts N H].
  - now exists JNull.
  - now exists (JBool true).
  - now exists (JBool false).
  - eexists. exact (number_skip j t f d s H F).
  - destruct (lenient_rough t s H) as (u & o & -> & P). cbn [app lenient_value].
    rewrite (skip_ws_head """"%byte) by reflexivity.
    change (exists j, match lenient_str (u ++ s) with Some (Some t, r') => Some (JStr t, r') | Some (None, r') => Some (JFloat, r') | None => None end
      = Some (j, s)).
    rewrite P. destruct o; eauto.
  - change (ascii "[" ++ w' ++ ascii "]") with ("["%byte :: w' ++ ["]"%byte]) in LF |- *.
    cbn [app lenient_value]. rewrite (skip_ws_head "["%byte) by reflexivity.
    cbn. rewrite <- app_assoc. destruct f as [|f]; [cbn [length] in LF; lia|].
    cbn [lenient_elements]. cbv zeta. rewrite skip_ws_app by exact H. cbn. eauto.
  - change (ascii "[" ++ comma_list ts ++ ascii "]") with ("["%byte :: comma_list ts ++ ["]"%byte]) in L, LF |- *.
    cbn [length] in L, LF. rewrite app_length in L, LF. cbn [length] in L, LF.
    cbn [app lenient_value]. rewrite (skip_ws_head "["%byte) by reflexivity.
    cbn. rewrite <- app_assoc. cbn [app].
    destruct (array_rough (d - 1) ts) with (fuel := f) (s := s) as (l & ->); [|exact N|lia|eauto].
    apply Forall_forall. intros t I. pose proof (proj1 (Forall_forall _ _) H t I) as (w1 & v & w2 & H1 & H2 & Hv & E).
    exists w1, v, w2. repeat (split; [assumption|]). split; [|exact E]. split; [exact Hv|]. apply IH; [|exact Hv].
    apply comma_list_in in I. rewrite E, !app_length in I. lia.
  - change (ascii "{" ++ w' ++ ascii "}") with ("{"%byte :: w' ++ ["}"%byte]) in LF |- *.
    cbn [app lenient_value]. rewrite (skip_ws_head "{"%byte) by reflexivity.
    cbn. rewrite <- app_assoc. destruct f as [|f]; [cbn [length] in LF; lia|].
    cbn [lenient_members]. cbv zeta. rewrite skip_ws_app by exact H. cbn. eauto.
  - change (ascii "{" ++ comma_list ts ++ ascii "}") with ("{"%byte :: comma_list ts ++ ["}"%byte]) in L, LF |- *.
    cbn [length] in L, LF. rewrite app_length in L, LF. cbn [length] in L, LF.
    cbn [app lenient_value]. rewrite (skip_ws_head "{"%byte) by reflexivity.
    cbn. rewrite <- app_assoc. cbn [app].
    destruct (object_rough (d - 1) ts) with (fuel := f) (s := s) as (l & ->); [|exact N|lia|destruct l; eauto].
    apply Forall_forall. intros t I. pose proof (proj1 (Forall_forall _ _) H t I) as (k & v0 & Hk & (w1 & v & w2 & H1 & H2 & Hv & E) & Et).
    exists k, v0. split; [exact Hk|]. split; [|exact Et]. exists w1, v, w2. repeat (split; [assumption|]). split; [|exact E].
    split; [exact Hv|]. apply IH; [|exact Hv].
    apply comma_list_in in I. rewrite Et, E, !app_length in I. lia.
Qed.

Theorem lenient_document_spec : forall t, (exists j, lenient_document t = Some j) <-> RoughDocument t.
Proof.
  intros t. unfold lenient_document. split.
  - intros (j & H). destruct (lenient_value (2 * length t) text_depth_limit t) as [[j' r]|] eqn:P; [|discriminate].
    apply (proj1 (lenient_sound _)) in P as (w & v & -> & Hw & Hv).
    destruct (skip_ws_split r) as (w2 & Er & Hw2). destruct (skip_ws r) as [|? ?]; [|discriminate].
    rewrite app_nil_r in Er. subst r. exists w, v, w2. auto.
  - intros (w & v & w2 & Hw & Hw2 & Hv & ->).
    destruct (rough_reads _ v (le_n _) Hv (2 * length (w ++ v ++ w2))%nat text_depth_limit w w2 Hw) as (j & ->).
    + rewrite !app_length. lia.
    + now apply follows_space.
    + rewrite (skip_ws_space w2 Hw2). eauto.
Qed.

Theorem skipping_rejects : forall A (c : codec A) t, ~ RoughDocument t -> from_str_skipping c t = JErr.
Proof.
  intros A c t H. unfold from_str_skipping. destruct (lenient_document t) as [j|] eqn:E; [|reflexivity].
  exfalso. apply H. apply lenient_document_spec. eauto.
Qed.

Theorem skipping_anything : forall t, from_str_skipping j_ignored t = JOk tt <-> RoughDocument t.
Proof.
  intros t. rewrite <- lenient_document_spec. unfold from_str_skipping. destruct (lenient_document t) as [j|]; cbn.
  - split; [eauto|reflexivity].
  - split; [discriminate|]. intros (j & H). discriminate.
Qed.
