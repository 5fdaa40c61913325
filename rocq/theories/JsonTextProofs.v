(** Proofs: the reader of JSON texts accepts exactly the texts of the grammar. *)

From Verif Require Import Base SpecText SpecUtf8 Model_currency Model_text Model_json Model_jsontypes SpecJson JsonProofs
  Model_jsontext SpecJsonText JsonTextLex.
Local Open Scope N_scope.

(** ** Every text of the grammar is read *)

Lemma string_text_head : forall s t, StringText s t -> exists r, t = """"%byte :: r.
Proof. intros s t (ps & _ & _ & ->). eauto. Qed.

Lemma parse_string_text : forall s t r, StringText s t -> exists u, t = """"%byte :: u /\ parse_str (u ++ r) = Some (s, r).
Proof.
  intros s t r (ps & H & -> & ->). eexists. split; [reflexivity|]. rewrite <- app_assoc.
  now apply parse_str_complete.
Qed.

Lemma digit_plain : forall b, digit b -> is_ws b = false /\ b <> "]"%byte /\
  Byte.eqb b "n" = false /\ Byte.eqb b "t" = false /\ Byte.eqb b "f" = false /\ Byte.eqb b "-" = false.
Proof.
  intros b H. assert (N : forall c, is_digit c = false -> b <> c).
  { intros c Hc ->. apply is_digit_iff in H. congruence. }
  unfold is_ws. rewrite !eqb_neq by (apply N; reflexivity). repeat split. now apply N.
Qed.

Lemma value_head : forall j v, ValueText j v -> exists b r, v = b :: r /\ is_ws b = false /\ b <> "]"%byte.
Proof.
  intros j v H. destruct H as [| | |j t H|s t H|w H|l ts N H|w H|l ts N H];
    try (eexists _, _; split; [reflexivity|split; [reflexivity|discriminate]]).
  - destruct (num_head j t [] H I) as (pos & u & -> & (b & r & -> & Hb) & _).
    destruct pos; cbn [sign_of app].
    + exists b, r. split; [reflexivity|]. pose proof (digit_plain b Hb). tauto.
    + eexists _, _. split; [reflexivity|split; [reflexivity|discriminate]].
  - apply string_text_head in H as (r & ->). eexists _, _. split; [reflexivity|split; [reflexivity|discriminate]].
Qed.

Lemma skip_to_value : forall w j v s, json_space w -> ValueText j v -> skip_ws (w ++ v ++ s) = v ++ s.
Proof.
  intros w j v s Hw Hv. rewrite skip_ws_app by exact Hw.
  destruct (value_head j v Hv) as (b & r & -> & Hb & _). now apply skip_ws_head.
Qed.

Lemma follows_space : forall w, json_space w -> follows w.
Proof.
  intros [|b w] H; [exact I|]. inversion H as [|? ? Hb Hw]; subst.
  destruct Hb as [-> | [-> | [-> | ->]]]; (split; [reflexivity|split; [discriminate|reflexivity]]).
Qed.

Lemma follows_punct : forall w c s, json_space w -> In c [","%byte; "]"%byte; "}"%byte] -> follows (w ++ c :: s).
Proof.
  intros [|b w] c s H Hc.
  - cbn [app]. destruct Hc as [<- | [<- | [<- | []]]]; (split; [reflexivity|split; [discriminate|reflexivity]]).
  - apply follows_space in H. exact H.
Qed.

(** the texts of the elements after the first, with their commas *)
Definition comma_tail (ts : list bytes) : bytes := match ts with [] => [] | _ => ","%byte :: comma_list ts end.

Lemma comma_cons : forall t ts, comma_list (t :: ts) = t ++ comma_tail ts.
Proof. intros t [|u ts]; cbn [comma_list comma_tail]; [now rewrite app_nil_r|reflexivity]. Qed.

Lemma follows_tail : forall w ts c s, json_space w -> In c [","%byte; "]"%byte; "}"%byte] ->
  follows (w ++ comma_tail ts ++ c :: s).
Proof.
  intros w [|t ts] c s Hw Hc; cbn [comma_tail app]; apply follows_punct; auto. now left.
Qed.

Definition Complete (j : json) : Prop := forall v fuel d w s, ValueText j v -> json_space w -> json_depth j < d ->
  (2 * length v <= fuel)%nat -> follows s -> parse_value fuel d (w ++ v ++ s) = Some (j, s).

Lemma complete_here : forall j v fuel d s, Complete j -> ValueText j v -> json_depth j < d ->
  (2 * length v <= fuel)%nat -> follows s -> parse_value fuel d (v ++ s) = Some (j, s).
Proof. intros j v fuel d s C Hv D L F. exact (C v fuel d [] s Hv space_nil D L F). Qed.

Lemma elements_tail : forall d l ts, Forall2 (fun j => Padded (ValueText j)) l ts -> Forall Complete l ->
  Forall (fun j => json_depth j < d) l -> forall fuel w s, json_space w -> (2 * length (comma_tail ts) + 1 <= fuel)%nat ->
  parse_elements fuel d false (w ++ comma_tail ts ++ "]"%byte :: s) = Some (l, s).
Proof.
  intros d l ts H. induction H as [|j t l ts P H IH]; intros C D fuel w s Hw L.
  - destruct fuel as [|f]; [cbn in L; lia|]. cbn [parse_elements comma_tail app]. cbv zeta.
    rewrite skip_ws_app by exact Hw. reflexivity.
  - inversion C as [|? ? Cj Cl]; subst. inversion D as [|? ? Dj Dl]; subst.
    destruct P as (w1 & v & w2 & Hw1 & Hw2 & Hv & ->).
    unfold comma_tail in L |- *. rewrite comma_cons in L |- *. rewrite <- !app_assoc in *.
    cbn [length] in L. rewrite !app_length in L.
    destruct fuel as [|f]; [lia|]. cbn [parse_elements]. cbv zeta.
    rewrite skip_ws_app by exact Hw. cbn [app].
    rewrite (skip_ws_head ","%byte) by reflexivity. change (Byte.eqb "," "]") with false. change (Byte.eqb "," ",") with true.
    cbn match. rewrite <- !app_assoc. rewrite (skip_to_value _ j) by assumption.
    destruct (value_head j v Hv) as (b & r & Ev & Hb & Nb).
    assert (E : v ++ w2 ++ comma_tail ts ++ "]"%byte :: s = b :: r ++ w2 ++ comma_tail ts ++ "]"%byte :: s) by now rewrite Ev.
    rewrite E. cbn match. rewrite (eqb_neq _ _ Nb). rewrite <- E.
    rewrite (complete_here j v f d _ Cj Hv Dj).
    + rewrite IH by (assumption || lia). reflexivity.
    + lia.
    + apply follows_tail; [exact Hw2|]. cbn; tauto.
Qed.

Lemma elements_complete : forall d l ts, Forall2 (fun j => Padded (ValueText j)) l ts -> Forall Complete l ->
  Forall (fun j => json_depth j < d) l -> l <> [] -> forall fuel s, (2 * length (comma_list ts) + 2 <= fuel)%nat ->
  parse_elements fuel d true (comma_list ts ++ "]"%byte :: s) = Some (l, s).
Proof.
  intros d l ts H C D N fuel s L. destruct H as [|j t l ts P H]; [congruence|].
  inversion C as [|? ? Cj Cl]; subst. inversion D as [|? ? Dj Dl]; subst.
  destruct P as (w1 & v & w2 & Hw1 & Hw2 & Hv & ->).
  rewrite comma_cons in L |- *. rewrite <- !app_assoc in *. rewrite !app_length in L.
  destruct fuel as [|f]; [lia|]. cbn [parse_elements]. cbv zeta.
  rewrite (skip_to_value _ j) by assumption.
  destruct (value_head j v Hv) as (b & r & Ev & Hb & Nb).
  assert (E : v ++ w2 ++ comma_tail ts ++ "]"%byte :: s = b :: r ++ w2 ++ comma_tail ts ++ "]"%byte :: s) by now rewrite Ev.
  rewrite E. cbn match. rewrite (eqb_neq _ _ Nb). rewrite <- E.
  rewrite (complete_here j v f d _ Cj Hv Dj).
  - rewrite (elements_tail d l ts) by (assumption || lia). reflexivity.
  - lia.
  - apply follows_tail; [exact Hw2|]. cbn; tauto.
Qed.

Definition MemberText (kv : bytes * json) (t : bytes) : Prop := exists k v,
  Padded (StringText (fst kv)) k /\ Padded (ValueText (snd kv)) v /\ t = k ++ ascii ":" ++ v.

Lemma members_tail : forall d l ts, Forall2 MemberText l ts -> Forall (fun kv => Complete (snd kv)) l ->
  Forall (fun kv => json_depth (snd kv) < d) l -> forall fuel w s, json_space w -> (2 * length (comma_tail ts) + 1 <= fuel)%nat ->
  parse_members fuel d false (w ++ comma_tail ts ++ "}"%byte :: s) = Some (l, s).
Proof.
  intros d l ts H. induction H as [|kv t l ts P H IH]; intros C D fuel w s Hw L.
  - destruct fuel as [|f]; [cbn in L; lia|]. cbn [parse_members comma_tail app]. cbv zeta.
    rewrite skip_ws_app by exact Hw. reflexivity.
  - inversion C as [|? ? Cj Cl]; subst. inversion D as [|? ? Dj Dl]; subst.
    destruct P as (k & v0 & (wk & kt & wk' & Hwk & Hwk' & Hk & ->) & (w1 & v & w2 & Hw1 & Hw2 & Hv & ->) & ->).
    unfold comma_tail in L |- *. rewrite comma_cons in L |- *. rewrite <- !app_assoc in *.
    cbn [length] in L. rewrite !app_length in L.
    destruct fuel as [|f]; [lia|]. cbn [parse_members]. cbv zeta.
    rewrite skip_ws_app by exact Hw. cbn [app].
    rewrite (skip_ws_head ","%byte) by reflexivity. change (Byte.eqb "," "}") with false. change (Byte.eqb "," ",") with true.
    cbn match. rewrite <- !app_assoc. rewrite skip_ws_app by exact Hwk.
    destruct (parse_string_text _ _ (wk' ++ ":"%byte :: w1 ++ v ++ w2 ++ comma_tail ts ++ "}"%byte :: s) Hk) as (u & Ek & Pk).
    subst kt. cbn [app]. rewrite (skip_ws_head """"%byte) by reflexivity. cbn match.
    change (Byte.eqb """" """") with true. cbn match. cbn [app] in Pk. rewrite <- ?app_assoc. change (ascii ":") with [":"%byte]. cbn [app].
    rewrite <- ?app_assoc. rewrite Pk. rewrite skip_ws_app by exact Hwk'.
    rewrite (skip_ws_head ":"%byte) by reflexivity. change (Byte.eqb ":" ":") with true. cbn match.
    rewrite (Cj v f d w1).
    + rewrite IH by (assumption || lia). now destruct kv.
    + exact Hv.
    + exact Hw1.
    + exact Dj.
    + lia.
    + apply follows_tail; [exact Hw2|]. cbn; tauto.
Qed.

Lemma members_complete : forall d l ts, Forall2 MemberText l ts -> Forall (fun kv => Complete (snd kv)) l ->
  Forall (fun kv => json_depth (snd kv) < d) l -> l <> [] -> forall fuel s, (2 * length (comma_list ts) + 2 <= fuel)%nat ->
  parse_members fuel d true (comma_list ts ++ "}"%byte :: s) = Some (l, s).
Proof.
  intros d l ts H C D N fuel s L. destruct H as [|kv t l ts P H]; [congruence|].
  inversion C as [|? ? Cj Cl]; subst. inversion D as [|? ? Dj Dl]; subst.
  destruct P as (k & v0 & (wk & kt & wk' & Hwk & Hwk' & Hk & ->) & (w1 & v & w2 & Hw1 & Hw2 & Hv & ->) & ->).
  rewrite comma_cons in L |- *. rewrite <- !app_assoc in *. rewrite !app_length in L.
  destruct fuel as [|f]; [lia|]. cbn [parse_members]. cbv zeta.
  rewrite skip_ws_app by exact Hwk.
  destruct (parse_string_text _ _ (wk' ++ ":"%byte :: w1 ++ v ++ w2 ++ comma_tail ts ++ "}"%byte :: s) Hk) as (u & Ek & Pk).
  subst kt. cbn [app]. rewrite (skip_ws_head """"%byte) by reflexivity. cbn match.
  change (Byte.eqb """" """") with true. change (Byte.eqb """" "}") with false. cbn match.
  cbn [app] in Pk. rewrite <- ?app_assoc. change (ascii ":") with [":"%byte]. cbn [app].
  rewrite <- ?app_assoc. rewrite Pk. rewrite skip_ws_app by exact Hwk'.
  rewrite (skip_ws_head ":"%byte) by reflexivity. change (Byte.eqb ":" ":") with true. cbn match.
  rewrite (Cj v f d w1).
  - rewrite (members_tail d l ts) by (assumption || lia). now destruct kv.
  - exact Hv.
  - exact Hw1.
  - exact Dj.
  - lia.
  - apply follows_tail; [exact Hw2|]. cbn; tauto.
Qed.

Lemma depth_arr : forall l d, json_depth (JArr l) < d ->
  Forall (fun j => json_depth j < d - 1) l /\ (d - 1 =? 0) = false.
Proof.
  intros l d H. cbn [json_depth] in H. split; [|destruct (N.eqb_spec (d - 1) 0); [lia|reflexivity]].
  assert (M : fold_right (fun x m => N.max (json_depth x) m) 0 l < d - 1) by lia. clear H.
  induction l as [|j l IH]; constructor; cbn [fold_right] in M; [lia|]. apply IH. lia.
Qed.

Lemma depth_obj : forall l d, json_depth (JObj l) < d ->
  Forall (fun kv => json_depth (snd kv) < d - 1) l /\ (d - 1 =? 0) = false.
Proof.
  intros l d H. cbn [json_depth] in H. split; [|destruct (N.eqb_spec (d - 1) 0); [lia|reflexivity]].
  assert (M : fold_right (fun kv m => N.max (json_depth (snd kv)) m) 0 l < d - 1) by lia. clear H.
  induction l as [|j l IH]; constructor; cbn [fold_right] in M; [lia|]. apply IH. lia.
Qed.

Lemma parse_scalar_step : forall f d w v s, json_space w -> (exists j, ValueText j v) ->
  parse_value (S f) d (w ++ v ++ s) = parse_value (S f) d (v ++ s).
Proof.
  intros f d w v s Hw (j & Hv). cbn [parse_value]. rewrite (skip_to_value w j) by assumption.
  rewrite <- (app_nil_l (v ++ s)) at 2. rewrite (skip_to_value [] j v s space_nil Hv). reflexivity.
Qed.

Lemma number_complete : forall j, (forall l, j <> JArr l) -> (forall l, j <> JObj l) ->
  forall t f d s, NumText j t -> follows s -> parse_value (S f) d (t ++ s) = Some (j, s).
Proof.
  intros j _ _ t f d s H F. destruct (num_head j t s H F) as (pos & u & -> & (b & r & -> & Hb) & P).
  destruct pos; cbn [sign_of app] in *.
  - destruct (digit_plain b Hb) as (W & _ & E1 & E2 & E3 & E4). cbn [parse_value].
    rewrite (skip_ws_head b) by exact W. rewrite E1, E2, E3, E4, (proj2 (is_digit_iff b) Hb). exact P.
  - change (ascii "-" ++ b :: r) with ("-"%byte :: b :: r). cbn [app parse_value].
    rewrite (skip_ws_head "-"%byte) by reflexivity. exact P.
Qed.

Lemma value_complete : forall j, Complete j.
Proof.
  intros j. induction j as [|b0|n0|z0| |s0|l IH|l IH] using json_rect'; intros v fuel d w s Hv Hw D L F;
    (destruct fuel as [|f];
     [exfalso; destruct (value_head _ _ Hv) as (hb & hr & -> & _); cbn in L; lia|]);
    rewrite parse_scalar_step by eauto;
    inversion Hv as [| | |j' t H|s' t H|w' H|l' ts N H|w' H|l' ts N H]; subst;
    try (now apply number_complete); try reflexivity; try (inversion H; fail).
  - destruct (parse_string_text _ _ s H) as (u & -> & P). cbn [app parse_value].
    rewrite (skip_ws_head """"%byte) by reflexivity.
    change (match parse_str (u ++ s) with Some (t, r') => Some (JStr t, r') | None => None end = Some (JStr s0, s)).
    now rewrite P.
  - apply depth_arr in D as [_ D]. change (ascii "[" ++ w' ++ ascii "]") with ("["%byte :: w' ++ ["]"%byte]) in L |- *.
    cbn [app parse_value]. rewrite (skip_ws_head "["%byte) by reflexivity.
    change (Byte.eqb "[" "[") with true. change (is_digit "[") with false. cbn match.
    cbn. rewrite D. rewrite <- app_assoc. destruct f as [|f]; [cbn [length] in L; lia|].
    cbn [parse_elements]. cbv zeta. now rewrite skip_ws_app by exact H.
  - apply depth_arr in D as [Dl D]. change (ascii "[" ++ comma_list ts ++ ascii "]") with ("["%byte :: comma_list ts ++ ["]"%byte]) in L |- *.
    cbn [length] in L. rewrite app_length in L. cbn [length] in L.
    cbn [app parse_value]. rewrite (skip_ws_head "["%byte) by reflexivity.
    cbn. rewrite D. rewrite <- app_assoc. cbn [app].
    rewrite (elements_complete (d - 1) l ts) by (assumption || lia). reflexivity.
  - apply depth_obj in D as [_ D]. change (ascii "{" ++ w' ++ ascii "}") with ("{"%byte :: w' ++ ["}"%byte]) in L |- *.
    cbn [app parse_value]. rewrite (skip_ws_head "{"%byte) by reflexivity.
    cbn. rewrite D. rewrite <- app_assoc. destruct f as [|f]; [cbn [length] in L; lia|].
    cbn [parse_members]. cbv zeta. now rewrite skip_ws_app by exact H.
  - apply depth_obj in D as [Dl D]. change (ascii "{" ++ comma_list ts ++ ascii "}") with ("{"%byte :: comma_list ts ++ ["}"%byte]) in L |- *.
    cbn [length] in L. rewrite app_length in L. cbn [length] in L.
    cbn [app parse_value]. rewrite (skip_ws_head "{"%byte) by reflexivity.
    cbn. rewrite D. rewrite <- app_assoc. cbn [app].
    rewrite (members_complete (d - 1) l ts) by (assumption || lia). reflexivity.
Qed.

(** ** Only texts of the grammar are read *)

Lemma parse_ident_some : forall w s r, parse_ident w s = Some r -> s = w ++ r.
Proof.
  intros w. induction w as [|c w IH]; intros s r H; cbn [parse_ident] in H.
  - now injection H as ->.
  - destruct s as [|b s]; [discriminate|]. destruct (Byte.eqb b c) eqn:E; [|discriminate].
    apply eqb_true in E. subst c. cbn [app]. f_equal. now apply IH.
Qed.

Definition shallow (d : N) (j : json) : Prop := json_depth j < d.

Lemma depth_arr_lt : forall l d, 0 < d - 1 -> Forall (shallow (d - 1)) l -> shallow d (JArr l).
Proof.
  intros l d P H. unfold shallow. cbn [json_depth].
  assert (M : fold_right (fun x m => N.max (json_depth x) m) 0 l < d - 1); [|lia].
  induction H as [|j l Hj H IH]; cbn [fold_right]; [exact P|]. unfold shallow in Hj. lia.
Qed.

Lemma depth_obj_lt : forall l d, 0 < d - 1 -> Forall (fun kv => shallow (d - 1) (snd kv)) l -> shallow d (JObj l).
Proof.
  intros l d P H. unfold shallow. cbn [json_depth].
  assert (M : fold_right (fun kv m => N.max (json_depth (snd kv)) m) 0 l < d - 1); [|lia].
  induction H as [|j l Hj H IH]; cbn [fold_right]; [exact P|]. unfold shallow in Hj. lia.
Qed.

Definition VSound (f : nat) : Prop := forall d s j r, 0 < d -> parse_value f d s = Some (j, r) ->
  exists w v, s = w ++ v ++ r /\ json_space w /\ ValueText j v /\ shallow d j.

Definition ESound (f : nat) : Prop := forall d s l r, 0 < d ->
  (parse_elements f d false s = Some (l, r) ->
   exists w ts, s = w ++ comma_tail ts ++ "]"%byte :: r /\ json_space w /\
     Forall2 (fun j => Padded (ValueText j)) l ts /\ Forall (shallow d) l) /\
  (parse_elements f d true s = Some (l, r) ->
   (l = [] /\ exists w, s = w ++ "]"%byte :: r /\ json_space w) \/
   (l <> [] /\ exists ts, s = comma_list ts ++ "]"%byte :: r /\
     Forall2 (fun j => Padded (ValueText j)) l ts /\ Forall (shallow d) l)).

Definition MSound (f : nat) : Prop := forall d s l r, 0 < d ->
  (parse_members f d false s = Some (l, r) ->
   exists w ts, s = w ++ comma_tail ts ++ "}"%byte :: r /\ json_space w /\
     Forall2 MemberText l ts /\ Forall (fun kv => shallow d (snd kv)) l) /\
  (parse_members f d true s = Some (l, r) ->
   (l = [] /\ exists w, s = w ++ "}"%byte :: r /\ json_space w) \/
   (l <> [] /\ exists ts, s = comma_list ts ++ "}"%byte :: r /\
     Forall2 MemberText l ts /\ Forall (fun kv => shallow d (snd kv)) l)).

Lemma string_sound : forall s t r, parse_str s = Some (t, r) ->
  exists u, StringText t (""""%byte :: u) /\ s = u ++ r.
Proof.
  intros s t r H. apply (parse_str_sound (length s)) in H as (ps & Hp & -> & ->); [|lia].
  exists (concat (map snd ps) ++ [""""%byte]). split; [exists ps; repeat split; auto|]. now rewrite <- app_assoc.
Qed.

Lemma value_step : forall f, ESound f -> MSound f -> VSound (S f).
Proof.
  intros f HE HM d s j r Hd H. cbn [parse_value] in H.
  destruct (skip_ws_split s) as (w & Es & Hw). exists w.
  assert (K : exists v, skip_ws s = v ++ r /\ ValueText j v /\ shallow d j);
    [|destruct K as (v & Ev & Hv & Hs); exists v; split; [now rewrite <- Ev|auto]].
  clear w Es Hw. destruct (skip_ws s) as [|b r0]; [discriminate|].
  destruct (Byte.eqb b "n") eqn:E1.
  { apply eqb_true in E1. subst b. destruct (parse_ident (ascii "ull") r0) eqn:P; [|discriminate].
    injection H as <- <-. apply parse_ident_some in P as ->. exists (ascii "null"). split; [reflexivity|].
    split; [constructor|exact Hd]. }
  destruct (Byte.eqb b "t") eqn:E2.
  { apply eqb_true in E2. subst b. destruct (parse_ident (ascii "rue") r0) eqn:P; [|discriminate].
    injection H as <- <-. apply parse_ident_some in P as ->. exists (ascii "true"). split; [reflexivity|].
    split; [constructor|exact Hd]. }
  destruct (Byte.eqb b "f") eqn:E3.
  { apply eqb_true in E3. subst b. destruct (parse_ident (ascii "alse") r0) eqn:P; [|discriminate].
    injection H as <- <-. apply parse_ident_some in P as ->. exists (ascii "false"). split; [reflexivity|].
    split; [constructor|exact Hd]. }
  assert (num_shallow : forall t, NumText j t -> shallow d j) by (intros t []; exact Hd).
  destruct (Byte.eqb b "-") eqn:E4.
  { apply eqb_true in E4. subst b. apply number_sound in H as (t & -> & Ht). exists (sign_of false ++ t).
    split; [reflexivity|]. split; [now constructor|eauto]. }
  destruct (is_digit b) eqn:E5.
  { apply number_sound in H as (t & E & Ht). exists t. split; [exact E|]. split; [now constructor|eauto]. }
  destruct (Byte.eqb b """") eqn:E6.
  { apply eqb_true in E6. subst b. destruct (parse_str r0) as [[t r1]|] eqn:P; [|discriminate].
    injection H as <- <-. apply string_sound in P as (u & Hu & ->). exists (""""%byte :: u). split; [reflexivity|].
    split; [now constructor|exact Hd]. }
  destruct (Byte.eqb b "[") eqn:E7.
  { apply eqb_true in E7. subst b. destruct (N.eqb_spec (d - 1) 0); [discriminate|].
    destruct (parse_elements f (d - 1) true r0) as [[l r1]|] eqn:P; [|discriminate]. injection H as <- <-.
    apply HE in P; [|lia]. destruct P as [(-> & w & -> & Hw)|(N & ts & -> & Hl & Hs)].
    - exists (ascii "[" ++ w ++ ascii "]"). split; [cbn [app ascii]; change (ascii "[") with ["["%byte]; change (ascii "]") with ["]"%byte]; cbn [app]; now rewrite <- app_assoc|].
      split; [now constructor|]. apply depth_arr_lt; [lia|constructor].
    - exists (ascii "[" ++ comma_list ts ++ ascii "]"). split; [change (ascii "[") with ["["%byte]; change (ascii "]") with ["]"%byte]; cbn [app]; now rewrite <- app_assoc|].
      split; [now constructor|]. apply depth_arr_lt; [lia|exact Hs]. }
  destruct (Byte.eqb b "{") eqn:E8; [|discriminate].
  apply eqb_true in E8. subst b. destruct (N.eqb_spec (d - 1) 0); [discriminate|].
  destruct (parse_members f (d - 1) true r0) as [[l r1]|] eqn:P; [|discriminate]. injection H as <- <-.
  apply HM in P; [|lia]. destruct P as [(-> & w & -> & Hw)|(N & ts & -> & Hl & Hs)].
  - exists (ascii "{" ++ w ++ ascii "}"). split; [change (ascii "{") with ["{"%byte]; change (ascii "}") with ["}"%byte]; cbn [app]; now rewrite <- app_assoc|].
    split; [now constructor|]. apply depth_obj_lt; [lia|constructor].
  - exists (ascii "{" ++ comma_list ts ++ ascii "}"). split; [change (ascii "{") with ["{"%byte]; change (ascii "}") with ["}"%byte]; cbn [app]; now rewrite <- app_assoc|].
    split; [now constructor|]. apply depth_obj_lt; [lia|exact Hs].
Qed.

Lemma elements_step : forall f, VSound f -> ESound f -> ESound (S f).
Proof.
  intros f HV HE d s l r Hd.
  assert (element : forall s0 l, match parse_value f d s0 with
      | Some (j, r') => match parse_elements f d false r' with Some (l, r'') => Some (j :: l, r'') | None => None end
      | None => None end = Some (l, r) ->
    exists j l' w v w2 ts, l = j :: l' /\ s0 = (w ++ v ++ w2) ++ comma_tail ts ++ "]"%byte :: r /\
      json_space w /\ json_space w2 /\ ValueText j v /\ Forall2 (fun j => Padded (ValueText j)) l' ts /\ Forall (shallow d) (j :: l')).
  { intros s0 l0 H. destruct (parse_value f d s0) as [[j r']|] eqn:P; [|discriminate].
    destruct (parse_elements f d false r') as [[l' r'']|] eqn:Q; [|discriminate]. injection H as <- <-.
    apply HV in P as (w & v & -> & Hw & Hv & Hs); [|exact Hd].
    apply HE in Q as (w2 & ts & -> & Hw2 & Hl & Hls); [|exact Hd].
    exists j, l', w, v, w2, ts. split; [reflexivity|]. split; [now rewrite <- !app_assoc|]. repeat split; auto. }
  destruct (skip_ws_split s) as (w & Es & Hw). cbn [parse_elements]. cbv zeta.
  destruct (skip_ws s) as [|b r0]; [split; discriminate|]. destruct (Byte.eqb b "]") eqn:E1.
  { apply eqb_true in E1. subst b. split; intros H; injection H as <- <-.
    - exists w, []. cbn [comma_tail app]. repeat split; auto.
    - left. split; [reflexivity|]. eauto. }
  split; intros H.
  - destruct (Byte.eqb b ",") eqn:E2; [|discriminate]. apply eqb_true in E2. subst b.
    destruct (skip_ws_split r0) as (w' & Er & Hw').
    destruct (skip_ws r0) as [|c r1]; [discriminate|]. destruct (Byte.eqb c "]"); [discriminate|].
    apply element in H as (j & l' & w1 & v & w2 & ts & -> & Ec & H1 & H2 & Hv & Hl & Hs).
    exists w, ((w' ++ w1 ++ v ++ w2) :: ts). split; [|split; [exact Hw|split; [|exact Hs]]].
    + unfold comma_tail. rewrite comma_cons. rewrite Es, Er, Ec. cbn [app]. now rewrite <- !app_assoc.
    + constructor; [|exact Hl]. exists (w' ++ w1), v, w2. rewrite <- !app_assoc. split; [now apply space_app|]. auto.
  - right. apply element in H as (j & l' & w1 & v & w2 & ts & -> & Ec & H1 & H2 & Hv & Hl & Hs).
    split; [discriminate|]. exists ((w ++ w1 ++ v ++ w2) :: ts). split; [|split; [|exact Hs]].
    + rewrite comma_cons. rewrite Es, Ec. now rewrite <- !app_assoc.
    + constructor; [|exact Hl]. exists (w ++ w1), v, w2. rewrite <- !app_assoc. split; [now apply space_app|]. auto.
Qed.

Lemma members_step : forall f, VSound f -> MSound f -> MSound (S f).
Proof.
  intros f HV HM d s l r Hd.
  set (member := fun r : bytes =>
      match r with
      | b :: r =>
        if Byte.eqb b """" then
          match parse_str r with
          | None => None
          | Some (k, r1) =>
            match skip_ws r1 with
            | [] => None
            | c :: r2 =>
              if Byte.eqb c ":" then
                match parse_value f d r2 with
                | Some (j, r') =>
                  match parse_members f d false r' with
                  | Some (l, r'') => Some ((k, j) :: l, r'')
                  | None => None
                  end
                | None => None
                end
              else None
            end
          end
        else None
      | [] => None
      end).
  assert (M : forall s0 l, member s0 = Some (l, r) ->
    exists kv l' k wk w v w2 ts, l = kv :: l' /\
      s0 = k ++ wk ++ ascii ":" ++ (w ++ v ++ w2) ++ comma_tail ts ++ "}"%byte :: r /\
      StringText (fst kv) k /\ json_space wk /\ json_space w /\ json_space w2 /\ ValueText (snd kv) v /\
      Forall2 MemberText l' ts /\ Forall (fun kv => shallow d (snd kv)) (kv :: l')).
  { intros s0 l0 H. unfold member in H. destruct s0 as [|b s0]; [discriminate|].
    destruct (Byte.eqb b """") eqn:Eq; [|discriminate]. apply eqb_true in Eq. subst b.
    destruct (parse_str s0) as [[k r1]|] eqn:Ps; [|discriminate]. apply string_sound in Ps as (u & Hu & ->).
    destruct (skip_ws_split r1) as (wk & Er & Hwk).
    destruct (skip_ws r1) as [|c r2]; [discriminate|]. destruct (Byte.eqb c ":") eqn:Ec; [|discriminate].
    apply eqb_true in Ec. subst c.
    destruct (parse_value f d r2) as [[j r']|] eqn:P; [|discriminate].
    destruct (parse_members f d false r') as [[l' r'']|] eqn:Q; [|discriminate]. injection H as <- <-.
    apply HV in P as (w & v & -> & Hw & Hv & Hs); [|exact Hd].
    apply HM in Q as (w2 & ts & -> & Hw2 & Hl & Hls); [|exact Hd].
    exists (k, j), l', (""""%byte :: u), wk, w, v, w2, ts. split; [reflexivity|].
    split; [rewrite Er; change (ascii ":") with [":"%byte]; cbn [app]; now rewrite <- !app_assoc|].
    repeat split; auto. }
  destruct (skip_ws_split s) as (w & Es & Hw). cbn [parse_members]. cbv zeta. fold member.
  destruct (skip_ws s) as [|b r0]; [split; discriminate|]. destruct (Byte.eqb b "}") eqn:E1.
  { apply eqb_true in E1. subst b. split; intros H; injection H as <- <-.
    - exists w, []. cbn [comma_tail app]. repeat split; auto.
    - left. split; [reflexivity|]. eauto. }
  split; intros H.
  - destruct (Byte.eqb b ",") eqn:E2; [|discriminate]. apply eqb_true in E2. subst b.
    destruct (skip_ws_split r0) as (w' & Er & Hw').
    apply M in H as (kv & l' & k & wk & w1 & v & w2 & ts & -> & Ec & Hk & Hwk & H1 & H2 & Hv & Hl & Hs).
    exists w, ((w' ++ k ++ wk ++ ascii ":" ++ w1 ++ v ++ w2) :: ts). split; [|split; [exact Hw|split; [|exact Hs]]].
    + unfold comma_tail. rewrite comma_cons. rewrite Es, Er, Ec. cbn [app]. now rewrite <- !app_assoc.
    + constructor; [|exact Hl]. exists (w' ++ k ++ wk), (w1 ++ v ++ w2). split; [exists w', k, wk; auto|].
      split; [exists w1, v, w2; auto|]. now rewrite <- !app_assoc.
  - right. change (member (b :: r0) = Some (l, r)) in H.
    apply M in H as (kv & l' & k & wk & w1 & v & w2 & ts & -> & Ec & Hk & Hwk & H1 & H2 & Hv & Hl & Hs).
    split; [discriminate|]. exists ((w ++ k ++ wk ++ ascii ":" ++ w1 ++ v ++ w2) :: ts). split; [|split; [|exact Hs]].
    + rewrite comma_cons. rewrite Es, Ec. now rewrite <- !app_assoc.
    + constructor; [|exact Hl]. exists (w ++ k ++ wk), (w1 ++ v ++ w2). split; [exists w, k, wk; auto|].
      split; [exists w1, v, w2; auto|]. now rewrite <- !app_assoc.
Qed.

Lemma parse_sound : forall f, VSound f /\ ESound f /\ MSound f.
Proof.
  intros f. induction f as [|f (HV & HE & HM)].
  - repeat split; intros; discriminate.
  - split; [now apply value_step|]. split; [now apply elements_step|now apply members_step].
Qed.

(** ** Documents *)

Theorem parse_document_spec : forall t j,
  parse_document t = Some j <-> DocumentText j t /\ json_depth j < text_depth_limit.
Proof.
  intros t j. unfold parse_document. split.
  - intros H. destruct (parse_value (2 * length t) text_depth_limit t) as [[j' r]|] eqn:P; [|discriminate].
    apply (proj1 (parse_sound _)) in P as (w & v & -> & Hw & Hv & Hs); [|reflexivity].
    destruct (skip_ws_split r) as (w2 & Er & Hw2). destruct (skip_ws r) as [|? ?]; [|discriminate].
    injection H as ->. rewrite app_nil_r in Er. subst r. split; [|exact Hs]. exists w, v, w2. auto.
  - intros [(w & v & w2 & Hw & Hw2 & Hv & ->) D].
    rewrite (value_complete j v _ text_depth_limit w w2 Hv Hw D).
    + now rewrite skip_ws_space.
    + rewrite !app_length. lia.
    + now apply follows_space.
Qed.

(** A text stands for one document only, whatever its nesting. *)
Theorem document_unique : forall t j j', DocumentText j t -> DocumentText j' t -> j = j'.
Proof.
  intros t j j' (w & v & w2 & Hw & Hw2 & Hv & ->) (y & u & y2 & Hy & Hy2 & Hu & E).
  set (d := 1 + json_depth j + json_depth j').
  assert (A : parse_value (2 * length (w ++ v ++ w2)) d (w ++ v ++ w2) = Some (j, w2)).
  { apply value_complete; auto; [unfold d; lia|rewrite !app_length; lia|now apply follows_space]. }
  assert (B : parse_value (2 * length (w ++ v ++ w2)) d (w ++ v ++ w2) = Some (j', y2)).
  { rewrite E. apply value_complete; auto; [unfold d; lia|rewrite !app_length; lia|now apply follows_space]. }
  congruence.
Qed.
