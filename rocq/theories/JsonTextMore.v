(** Proofs: the functions a user calls. *)

From Verif Require Import Base Io SpecText SpecUtf8 SpecWire SpecPolicy Model_encoding Model_common Model_v1 Model_policy Model_v2 Model_consensus
  Model_currency CurrencyProofs Model_text TextProofs Model_json Model_jsontypes
  SpecJson BasicProofs DocTime JsonProofs JsonLeafProofs JsonMore Model_jsontext SpecJsonText JsonTextLex JsonTextProofs JsonTextPrint JsonTextUtf8
  JsonTextLib.
Local Open Scope N_scope.
Local Open Scope jres_scope.

Lemma plain_is : forall (L L' : json -> Prop) (S S' : bytes -> Prop), (forall j, L j -> L' j) -> (forall s, S s -> S' s) ->
  forall j, Everywhere L S j -> Everywhere L' S' j.
Proof.
  intros L L' S S' HL HS j. induction j as [|b0|n0|z0| |s0|l IH|l IH] using json_rect'; intros H; inversion H; subst;
    try (constructor; auto; fail); constructor; rewrite Forall_forall in *; intros x I.
  - exact (IH x I (H1 x I)).
  - destruct (H1 x I) as [K V]. split; [exact (HS _ K)|exact (IH x I V)].
Qed.

Lemma plain_signed : forall j, PlainDoc j -> SignedDoc j.
Proof. apply plain_is; [|auto]. intros [| | |z| | | |] H; try exact I. destruct H. Qed.
Lemma plain_utf8 : forall j, PlainDoc j -> Utf8Doc j.
Proof. apply plain_is; auto. Qed.

(** ** Reading *)

Theorem from_str_reads : forall A (c : codec A) j t, DocumentText j t -> json_depth j < 128 -> from_str c t = c_de c j.
Proof.
  intros A c j t H D. unfold from_str. rewrite (proj2 (parse_document_spec t j)); [reflexivity|]. split; [exact H|exact D].
Qed.

Theorem from_str_rejects : forall A (c : codec A) t, (forall j, DocumentText j t -> 128 <= json_depth j) -> from_str c t = JErr.
Proof.
  intros A c t H. unfold from_str. destruct (parse_document t) as [j|] eqn:E; [|reflexivity].
  apply parse_document_spec in E as [E D]. apply H in E. unfold text_depth_limit in D. lia.
Qed.

Theorem from_str_same : forall A (c : codec A) j t t', DocumentText j t -> DocumentText j t' -> from_str c t = from_str c t'.
Proof.
  intros A c j t t' H H'. destruct (N.lt_ge_cases (json_depth j) 128) as [L|L].
  - now rewrite (from_str_reads A c j t H L), (from_str_reads A c j t' H' L).
  - rewrite !from_str_rejects; [reflexivity| |]; intros k K.
    + now rewrite <- (document_unique t' j k H' K).
    + now rewrite <- (document_unique t j k H K).
Qed.

(** ** Writing *)

Lemma checked : forall s t, checked_text s = JOk t -> t = s /\ N.of_nat (length s) <= isize_max.
Proof.
  intros s t H. unfold checked_text in H. destruct (N.leb_spec (N.of_nat (length s)) isize_max); [|discriminate].
  split; [congruence|assumption].
Qed.

Theorem written_text : forall A (c : codec A) a t, LibraryJson c -> to_string c a = JOk t \/ to_string_pretty c a = JOk t ->
  exists j, c_ser c a = JOk j /\ PlainDoc j /\ DocumentText j t /\ Utf8 t.
Proof.
  intros A c a t Lc [H|H]; apply jbind_ok in H as (j & Ej & H); apply checked in H as [-> _]; exists j; split; try exact Ej;
    pose proof (library_plain A c Lc a j Ej) as P; (split; [exact P|]);
    destruct (print_document j (plain_signed j P)) as [D1 D2]; (split; [assumption|]).
  - apply print_utf8, plain_utf8, P.
  - apply print_pretty_utf8, plain_utf8, P.
Qed.

Theorem written_total : forall A (c : codec A) a j, LibraryJson c -> c_ser c a = JOk j -> exists t u,
  DocumentText j t /\ DocumentText j u /\
  to_string c a = (if N.of_nat (length t) <=? isize_max then JOk t else JPanic CapacityOverflow) /\
  to_string_pretty c a = (if N.of_nat (length u) <=? isize_max then JOk u else JPanic CapacityOverflow).
Proof.
  intros A c a j Lc E. pose proof (library_plain A c Lc a j E) as P.
  destruct (print_document j (plain_signed j P)) as [D1 D2].
  exists (print j), (print_pretty j). split; [exact D1|]. split; [exact D2|].
  unfold to_string, to_string_pretty. rewrite E. split; reflexivity.
Qed.

Theorem text_roundtrip : forall A (c : codec A) d a, SurvivesJson c d a -> d < 128 ->
  exists j, c_ser c a = JOk j /\
    forall j' t, Reordered j j' -> DocumentText j' t -> from_str c t = JOk a.
Proof.
  intros A c d a (j & E & _ & D & R & _) L. exists j. split; [exact E|]. intros j' t Rj T.
  rewrite (from_str_reads A c j' t T); [now apply R|]. apply depth_reordered in Rj. lia.
Qed.

Theorem own_text : forall A (c : codec A) d a t, LibraryJson c -> SurvivesJson c d a -> d < 128 ->
  to_string c a = JOk t \/ to_string_pretty c a = JOk t -> from_str c t = JOk a.
Proof.
  intros A c d a t Lc S L W. destruct (text_roundtrip A c d a S L) as (j & E & R).
  destruct (written_text A c a t Lc W) as (j' & E' & _ & T & _). rewrite E in E'. injection E' as <-.
  apply (R j t); [constructor|exact T].
Qed.

Theorem deep_text : forall stack x t, json_policy x -> (44 <= depth x)%nat ->
  to_string (j_policy stack) x = JOk t \/ to_string_pretty (j_policy stack) x = JOk t -> from_str (j_policy stack) t = JErr.
Proof.
  intros stack x t H L W. apply written_text in W as (j & E & _ & T & _); [|constructor].
  apply from_str_rejects. intros k K. rewrite <- (document_unique t j k T K).
  cbn [j_policy c_ser] in E. pose proof (doc_depth x j H E). lia.
Qed.

(** ** The shortest text *)

Lemma int_text_length : forall n t, IntText n t -> (length (dec_text n) <= length t)%nat.
Proof.
  intros n t ([Tn Td] & Tv & _). destruct (dec_text_spec n) as ([Dn Dd] & Dv & NZ & Z).
  destruct (N.eq_dec n 0) as [->|N0].
  - rewrite (Z eq_refl). destruct t; [congruence|cbn [length]; lia].
  - pose proof (dec_value_lt t Td) as Ht. rewrite Tv in Ht.
    destruct (dec_text n) as [|c r] eqn:E; [congruence|].
    pose proof (head_value c r Dd (NZ N0 c r eq_refl)) as Hd. rewrite Dv in Hd.
    cbn [length]. apply Nat.le_succ_l. assert (Hlt : 10 ^ N.of_nat (length r) < 10 ^ N.of_nat (length t)) by lia.
    apply N.pow_lt_mono_r_iff in Hlt; lia.
Qed.

Lemma escape_length : forall b, (length (escape_byte b) <= 6)%nat.
Proof.
  intros b. unfold escape_byte. repeat match goal with |- context [if ?t then _ else _] => destruct t end; cbn [length]; lia.
Qed.

Lemma char_length : forall n, scalar n -> n < 0x10000 -> (length (flat_map escape_byte (utf8_char n)) <= 6)%nat.
Proof.
  intros n S L. destruct (char_cases n S) as [(b & -> & _)|(b & r & E & H)].
  - cbn [flat_map]. rewrite app_nil_r. apply escape_length.
  - assert (Q : flat_map escape_byte (utf8_char n) = utf8_char n).
    { rewrite E. clear E. induction H as [|h hs Hh H IH]; [reflexivity|]. cbn [flat_map]. rewrite escape_high by exact Hh.
      cbn [app]. now rewrite IH. }
    rewrite Q. unfold utf8_char. repeat match goal with |- context [if ?t then _ else _] => destruct t end; cbn [length]; lia.
Qed.

Lemma pair_length : forall n, 0x10000 <= n < 0x110000 -> (length (flat_map escape_byte (utf8_char n)) <= 12)%nat.
Proof.
  intros n B. assert (S : scalar n) by (right; lia). destruct (char_cases n S) as [(b & -> & _)|(b & r & E & H)].
  - cbn [flat_map]. rewrite app_nil_r. pose proof (escape_length b). lia.
  - assert (Q : flat_map escape_byte (utf8_char n) = utf8_char n).
    { rewrite E. clear E. induction H as [|h hs Hh H IH]; [reflexivity|]. cbn [flat_map]. rewrite escape_high by exact Hh.
      cbn [app]. now rewrite IH. }
    rewrite Q. unfold utf8_char. repeat match goal with |- context [if ?t then _ else _] => destruct t end; cbn [length]; lia.
Qed.

Lemma hex_escape_bound : forall n t, HexEscape n t -> n < 0x10000 /\ length t = 6%nat.
Proof.
  intros n t (a & b & c & d & va & vb & vc & vd & -> & Ha & Hb & Hc & Hd & ->). split; [|reflexivity].
  assert (B : forall c v, hex_digit c v -> (v < 16)%nat).
  { intros c' v [H|H]; assert (nth_error hex_digits_lower v <> None \/ nth_error hex_digits_upper v <> None) by
      (left + right; rewrite H; discriminate);
    destruct (Nat.lt_ge_cases v 16) as [L|L]; auto;
    (destruct H0 as [H0|H0]; exfalso; apply H0; apply nth_error_None; exact L). }
  apply B in Ha, Hb, Hc, Hd. lia.
Qed.

Lemma piece_length : forall c t, CharText c t -> (length (flat_map escape_byte c) <= length t)%nat.
Proof.
  intros c t H. destruct H as [b L N1 N2|c e I|n t E S|n hi lo t u B Eh El Ht Hu].
  - cbn [flat_map length]. rewrite app_nil_r. unfold escape_byte. rewrite !eqb_neq; auto;
      try (intros ->; vm_compute in L; now apply L).
    destruct (N.ltb_spec (b2n b) 32); [lia|cbn [length]; lia].
  - cbn [In short_escapes] in I.
    repeat (destruct I as [I|I]; [injection I as <- <-; vm_compute; lia|]). destruct I.
  - apply hex_escape_bound in E as [L ->]. now apply char_length.
  - apply hex_escape_bound in Ht as [_ Lt], Hu as [_ Lu]. rewrite app_length, Lt, Lu. now apply pair_length.
Qed.

Lemma string_length : forall s t, StringText s t -> (length (print_string s) <= length t)%nat.
Proof.
  intros s t (ps & P & -> & ->). unfold print_string. cbn [length]. rewrite !app_length. cbn [length].
  assert (G : (length (flat_map escape_byte (concat (map fst ps))) <= length (concat (map snd ps)))%nat); [|lia].
  induction P as [|[c t] ps C P IH]; [cbn; lia|]. cbn [map concat fst snd] in *. rewrite flat_map_app, !app_length.
  apply piece_length in C. lia.
Qed.

Lemma padded_length : forall (P : bytes -> Prop) n t, (forall v, P v -> (n <= length v)%nat) -> Padded P t -> (n <= length t)%nat.
Proof. intros P n t H (w1 & v & w2 & _ & _ & Hv & ->). rewrite !app_length. apply H in Hv. lia. Qed.

Lemma comma_length : forall l l', Forall2 (fun x y : bytes => (length x <= length y)%nat) l l' ->
  (length (comma_list l) <= length (comma_list l'))%nat.
Proof.
  intros l l' H. induction H as [|x y l l' Hx H IH]; [cbn; lia|]. rewrite !comma_cons, !app_length.
  destruct H as [|x2 y2 l l' Hx2 H]; [cbn; lia|]. unfold comma_tail. cbn [length]. lia.
Qed.

Theorem print_shortest : forall j t, PlainDoc j -> ValueText j t -> (length (print j) <= length t)%nat.
Proof.
  intros j. induction j as [|b0|n0|z0| |s0|l IH|l IH] using json_rect'; intros t H V;
    try (inversion H as [| | |? K|K| | | ]; destruct K; fail).
  - inversion V as [| | |? ? K| | | | | ]; subst; [cbn; lia|inversion K].
  - inversion V as [| | |? ? K| | | | | ]; subst; try (cbn; lia). inversion K.
  - inversion V as [| | |? ? K| | | | | ]; subst. inversion K; subst. cbn [print print_scalar]. now apply int_text_length.
  - inversion V as [| | |? ? K|? ? K| | | | ]; subst; [inversion K|]. cbn [print print_scalar]. now apply string_length.
  - inversion H as [| | | | | |? F|]; subst.
    change (print (JArr l)) with (ascii "[" ++ join_with (ascii ",") (map print l) ++ ascii "]").
    rewrite join_comma. inversion V as [| | |? ? K| |w Hw|l' ts Nl F2| | ]; subst; [inversion K|cbn; rewrite app_length; cbn; lia|].
    rewrite !app_length. apply Nat.add_le_mono_l, Nat.add_le_mono_r, comma_length. clear V H Nl.
    induction F2 as [|x t l ts Px F2 IHF]; cbn [map]; constructor; inversion IH; subst; inversion F; subst.
    + eapply padded_length; [|exact Px]. intros v Hv.
      match goal with K : forall t, PlainDoc x -> _ |- _ => apply K; assumption end.
    + now apply IHF.
  - inversion H as [| | | | | | |? F]; subst.
    change (print (JObj l)) with (ascii "{" ++
      join_with (ascii ",") (map (fun kv => print_string (fst kv) ++ ascii ":" ++ print (snd kv)) l) ++ ascii "}").
    rewrite join_comma. inversion V as [| | |? ? K| | | |w Hw|l' ts Nl F2]; subst; [inversion K|cbn; rewrite app_length; cbn; lia|].
    rewrite !app_length. apply Nat.add_le_mono_l, Nat.add_le_mono_r, comma_length. clear V H Nl.
    induction F2 as [|x t l ts Px F2 IHF]; cbn [map]; constructor; inversion IH; subst; inversion F; subst.
    + destruct Px as (k & v & Pk & Pv & ->). rewrite !app_length. apply Nat.add_le_mono; [|apply Nat.add_le_mono_l].
      * eapply padded_length; [|exact Pk]. apply string_length.
      * eapply padded_length; [|exact Pv]. intros u Hu.
        match goal with K : forall t, PlainDoc (snd x) -> _, Q : _ /\ _ |- _ => apply K; [apply Q|exact Hu] end.
    + now apply IHF.
Qed.

Theorem to_string_shortest : forall A (c : codec A) a j t t', LibraryJson c -> c_ser c a = JOk j -> to_string c a = JOk t ->
  DocumentText j t' -> (length t <= length t')%nat.
Proof.
  intros A c a j t t' Lc E W T. unfold to_string in W. rewrite E in W. cbn [jbind] in W. apply checked in W as [-> _].
  eapply padded_length; [|exact T]. intros v. apply print_shortest. now apply (library_plain A c Lc a j).
Qed.
