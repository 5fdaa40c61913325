(** What was read from JSON, written again or sent. *)

From Coq Require Import Lia.
From Verif Require Import Base Io SpecUtf8 SpecText SpecWire SpecRound SpecFate SpecSend Model_encoding Model_currency Model_common Model_v1 Model_policy
  Model_v2 Model_consensus Model_text Model_json Model_jsontypes SpecJson SpecCodecs Model_jsontext SpecJsonText JsonTextUtf8 JsonTextProofs JsonTextMore TextProofs TextMore BasicProofs PolicyProofs JsonProofs StackProofs AcceptProofs AcceptMore TableProofs WireProofs Samples FateProofs NestProofs SpecAccept.
Local Open Scope N_scope.

(** ** What is inside of a document *)

Definition inside (j : json) (w : wanted) : Prop :=
  let '(_, (f, absent)) := w in (exists v, f v /\ 1 + json_depth v <= json_depth j) \/ absent.

Lemma finds_inside : forall l w, finds l w -> inside (JObj l) w.
Proof.
  intros l [k [f absent]] [(l1 & v & l2 & -> & _ & F)|[_ H]]; [left|right; exact H].
  exists v. split; [exact F|]. apply in_obj_depth with (ascii k), in_elt.
Qed.
Lemma lists_inside : forall ws l0 l, incl l l0 -> lists ws l -> Forall (inside (JArr l0)) ws.
Proof.
  induction ws as [|[k [f absent]] ws IH]; intros l0 l I H; [constructor|].
  destruct l as [|v l]; cbn [lists] in H; destruct H as [H1 H2]; constructor.
  - right. exact H1.
  - exact (IH l0 [] I H2).
  - left. exists v. split; [exact H1|]. apply in_arr_depth, I. now left.
  - apply (IH l0 l); [|exact H2]. intros x Hx. apply I. now right.
Qed.
Lemma reader_inside : forall A (c : codec A) ws a j, StructReader c ws -> c_de c j = JOk a -> Forall (inside j) (ws a).
Proof.
  intros A c ws a j R H. apply R in H. destruct H as [(l & -> & H)|(l & -> & H)].
  - eapply Forall_impl; [|exact H]. intros w. apply finds_inside.
  - apply (lists_inside _ l l); [intros x Hx; exact Hx|exact H].
Qed.

Lemma vec_inside : forall A sz (c : codec A) (v : vec sz A) j, c_de (j_vec sz c) j = JOk v ->
  forall a, In a (vlist v) -> exists w, c_de c w = JOk a /\ 1 + json_depth w <= json_depth j.
Proof.
  intros A sz c v j H a I. apply vec_iff in H. destruct H as (js & -> & F).
  assert (G : exists w, In w js /\ reads c a w).
  { induction F as [|x y l m R F IH]; [destruct I|]. destruct I as [<-|I]; [exists y; split; [now left|exact R]|].
    destruct (IH I) as (w & W & K). exists w. split; [now right|exact K]. }
  destruct G as (w & W & K). exists w. split; [exact K|]. now apply in_arr_depth.
Qed.
Lemma list_inside : forall A (c : codec A) (v : list A) j, c_de (j_list c) j = JOk v ->
  forall a, In a v -> exists w, c_de c w = JOk a /\ 1 + json_depth w <= json_depth j.
Proof.
  intros A c v j H a I. apply list_iff in H. destruct H as (js & -> & F).
  assert (G : exists w, In w js /\ reads c a w).
  { induction F as [|x y l m R F IH]; [destruct I|]. destruct I as [<-|I]; [exists y; split; [now left|exact R]|].
    destruct (IH I) as (w & W & K). exists w. split; [now right|exact K]. }
  destruct G as (w & W & K). exists w. split; [exact K|]. now apply in_arr_depth.
Qed.
Lemma may_inside : forall A sz (c : codec A) k (v : vec sz A) j, inside j (may_list k (reads (j_vec sz c)) v) ->
  forall a, In a (vlist v) -> exists w, c_de c w = JOk a /\ 2 + json_depth w <= json_depth j.
Proof.
  intros A sz c k v j [(w & R & D)|E] a I; [|rewrite E in I; destruct I].
  destruct (vec_inside _ _ _ _ _ R a I) as (u & U & V). exists u. split; [exact U|]. lia.
Qed.
Lemma must_inside : forall A (c : codec A) k (a : A) j, inside j (must k (reads c a)) ->
  exists w, c_de c w = JOk a /\ 1 + json_depth w <= json_depth j.
Proof. intros A c k a j [(w & R & D)|[]]. eauto. Qed.

Ltac pick H n := match n with
  | O => let T := fresh "P" in pose proof (Forall_inv H) as T
  | S ?m => let T := fresh "H" in pose proof (Forall_inv_tail H) as T; pick T m
  end.

(** ** Keys *)

Definition colonless (k : unlock_key) : Prop := ~ In ":"%byte (aval (uk_algorithm k)).

Lemma firstn_pad : forall (s : bytes), aval (specifier_from s) = firstn 16 s ++ repeat x00 (16 - length s).
Proof.
  intros s. unfold specifier_from. assert (E : (16 - length (firstn 16 s) = 16 - length s)%nat) by (rewrite firstn_length; lia).
  rewrite E. apply arr_of_aval. rewrite app_length, firstn_length, repeat_length. lia.
Qed.

Lemma key_read : forall s k, c_de j_unlock_key (JStr s) = JOk k -> KeyText s k.
Proof.
  intros s k H. apply unlock_key_iff in H. destruct H as (s' & E & H). injection E as ->.
  unfold parse_unlock_key in H. pose proof (split_once_inv ":" (vlist (sbytes s'))) as Hs.
  destruct (split_once ":" (vlist (sbytes s'))) as [[name h]|]; [|discriminate]. destruct Hs as [-> N].
  destruct (hex_decode h) as [key|] eqn:D; [|discriminate]. destruct (vec_of 1 key) as [v|] eqn:V; [|discriminate].
  apply vec_of_some in V. injection H as <-. exists name, h. cbn [uk_algorithm uk_key]. split; [reflexivity|split; [|split]].
  - intros I. rewrite Forall_forall in N. exact (N _ I eq_refl).
  - subst key. now apply hex_decode_iff in D.
  - apply firstn_pad.
Qed.

Lemma zeros_ascii : forall n, ascii_only (repeat x00 n).
Proof. intros n. apply Forall_forall. intros b I. apply repeat_spec in I. subst b. reflexivity. Qed.

Lemma text_colonless : forall s k, KeyText s k -> colonless k.
Proof.
  intros s k (name & h & _ & C & _ & E) I. rewrite E in I. apply in_app_or in I. destruct I as [I|I].
  - apply C. rewrite <- (firstn_skipn 16 name). apply in_or_app. now left.
  - apply repeat_spec in I. discriminate.
Qed.

Lemma printable_cut : forall k t n, aval (uk_algorithm k) = t ++ repeat x00 n -> (printable k <-> Utf8 t).
Proof.
  intros k t n E. split.
  - intros (u & m & F & _ & U). rewrite E in F. apply (utf8_take t (repeat x00 n)); [apply zeros_ascii|]. rewrite F.
    apply JsonTextUtf8.utf8_app; [exact U|]. apply utf8_of_ascii, zeros_ascii.
  - intros U. destruct (trim_zeros_spec t) as [m M]. exists (trim_zeros t), (m + n)%nat. split; [|split].
    + rewrite E, M at 1. rewrite <- app_assoc, <- repeat_app. reflexivity.
    + apply trim_zeros_no_trailing.
    + apply (utf8_take _ (repeat x00 m)); [apply zeros_ascii|]. now rewrite <- M.
Qed.

Lemma key_names : forall s k, c_de j_unlock_key (JStr s) = JOk k -> exists name h, s = name ++ ":"%byte :: h /\
  ~ In ":"%byte name /\ HexText h (vlist (uk_key k)) /\ aval (uk_algorithm k) = firstn 16 name ++ repeat x00 (16 - length name) /\
  (printable k <-> Utf8 (firstn 16 name)) /\ ((length name <= 16)%nat -> named k).
Proof.
  intros s k H. pose proof (key_read s k H) as K. pose proof (text_colonless s k K) as C.
  apply unlock_key_iff in H. destruct H as (s' & E & _). injection E as ->.
  destruct K as (name & h & S & N & X & A). exists name, h. split; [exact S|]. split; [exact N|]. split; [exact X|]. split; [exact A|].
  split; [exact (printable_cut k _ _ A)|]. intros L. split; [|exact C].
  apply (printable_cut k _ _ A). rewrite firstn_all2 by assumption.
    apply (utf8_split name ":" h); [reflexivity|]. rewrite <- S; apply utf8_spec. apply sbytes_ok.
Qed.

Lemma key_colonless : forall j k, c_de j_unlock_key j = JOk k -> colonless k.
Proof.
  intros j k H. pose proof H as H'. apply unlock_key_iff in H'. destruct H' as (s & -> & _). exact (text_colonless _ _ (key_read _ _ H)).
Qed.

Lemma conditions_colonless : forall j u, c_de j_unlock_conditions j = JOk u -> Forall colonless (vlist (uc_public_keys u)).
Proof.
  intros j u H. pose proof (reader_inside _ _ _ _ _ read_unlock_conditions H) as F. pick F 1%nat.
  destruct (must_inside _ _ _ _ _ P) as (w & W & _). apply Forall_forall. intros k I.
  destruct (vec_inside _ _ _ _ _ W k I) as (v & V & _). exact (key_colonless v k V).
Qed.

(** ** Transactions *)

Lemma forall_flat_map : forall A B (f : A -> list B) (P : B -> Prop) l, (forall a, In a l -> Forall P (f a)) -> Forall P (flat_map f l).
Proof.
  intros A B f P l H. apply Forall_forall. intros b I. apply in_flat_map in I. destruct I as (a & Ha & Hb).
  specialize (H a Ha). rewrite Forall_forall in H. exact (H b Hb).
Qed.

Lemma v1_colonless : forall p j t, c_de (j_v1_transaction p) j = JOk t -> Forall colonless (v1_keys t).
Proof.
  intros p j t H. pose proof (reader_inside _ _ _ _ _ (read_v1_transaction p) H) as F. unfold v1_keys.
  rewrite !Forall_app. split; [|split]; apply forall_flat_map; intros a I.
  - pick F 0%nat. destruct (may_inside _ _ _ _ _ _ P a I) as (w & W & _).
    pose proof (reader_inside _ _ _ _ _ read_v1_siacoin_input W) as G. pick G 1%nat. destruct (must_inside _ _ _ _ _ P0) as (u & U & _).
    exact (conditions_colonless _ _ U).
  - pick F 3%nat. destruct (may_inside _ _ _ _ _ _ P a I) as (w & W & _).
    pose proof (reader_inside _ _ _ _ _ (read_v1_file_contract_revision p) W) as G. pick G 1%nat. destruct (must_inside _ _ _ _ _ P0) as (u & U & _).
    exact (conditions_colonless _ _ U).
  - pick F 5%nat. destruct (may_inside _ _ _ _ _ _ P a I) as (w & W & _).
    pose proof (reader_inside _ _ _ _ _ read_v1_siafund_input W) as G. pick G 1%nat. destruct (must_inside _ _ _ _ _ P0) as (u & U & _).
    exact (conditions_colonless _ _ U).
Qed.

Definition was_read (stack : nat) (d : N) (x : policy) : Prop :=
  whole_times x /\ (depth x <= stack)%nat /\ 3 * N.of_nat (depth x) <= d + 2 /\ Forall colonless (policy_keys x).

Lemma max_depth : forall n of, Forall (fun q => depth q <= n)%nat of -> (fold_right (fun q acc => Nat.max (depth q) acc) O of <= n)%nat.
Proof. intros n of F. induction F as [|q of Q F IH]; cbn [fold_right]; lia. Qed.

Lemma policy_read : forall stack j x, c_de (j_policy stack) j = JOk x -> was_read stack (json_depth j) x.
Proof.
  induction stack as [|stack IH]; intros j x H.
  { cbn [j_policy c_de de_policy] in H. destruct j; discriminate. }
  apply (read_policy stack) in H. destruct H as (l & t & v & -> & _ & _ & V & H). cbv zeta in H.
  assert (DV : 1 + json_depth (value_of v) <= json_depth (JObj l)).
  { destruct V as (l1 & l2 & -> & _). pose proof (value_of_depth v).
    pose proof (in_obj_depth (l1 ++ (ascii "policy", v) :: l2) (ascii "policy") v (in_elt _ _ _)). lia. }
  destruct x as [h|tm|k|h|n of|a|u]; unfold was_read; cbn [whole_times depth policy_keys].
  - repeat split; [lia|lia|constructor].
  - destruct H as (_ & E & _). repeat split; [exact E|lia|lia|constructor].
  - repeat split; [lia|lia|constructor].
  - repeat split; [lia|lia|constructor].
  - destruct H as [_ H]. assert (G : Forall (inside (value_of v)) [must "n" (reads j_u8 n); must "of" (reads (j_list (j_policy stack)) of)]).
    { destruct H as [(m & -> & H)|(m & -> & H)]; [eapply Forall_impl; [|exact H]; intros w; apply finds_inside|].
      apply (lists_inside _ m m); [intros y Hy; exact Hy|exact H]. }
    pick G 1%nat. destruct (must_inside _ _ _ _ _ P) as (w & W & D).
    assert (A : Forall (was_read stack (json_depth (JObj l) - 3)) of).
    { apply Forall_forall. intros q I. destruct (list_inside _ _ _ _ W q I) as (u & U & E).
      destruct (IH _ _ U) as (R1 & R2 & R3 & R4). repeat split; auto. lia. }
    repeat split.
    + apply whole_forall. eapply Forall_impl; [|exact A]. now intros q (Q & _).
    + apply le_n_S, max_depth. eapply Forall_impl; [|exact A]. now intros q (_ & Q & _).
    + assert (M : exists m, (fold_right (fun q acc => Nat.max (depth q) acc) O of <= m)%nat /\ 3 * N.of_nat m <= json_depth (JObj l) - 1).
      { exists (N.to_nat ((json_depth (JObj l) - 1) / 3)). split.
        - apply max_depth. eapply Forall_impl; [|exact A]. intros q (_ & _ & Q & _).
          assert (L : N.of_nat (depth q) <= (json_depth (JObj l) - 1) / 3) by (apply N.div_le_lower_bound; lia). lia.
        - rewrite N2Nat.id. apply N.mul_div_le. discriminate. }
      destruct M as (m & M1 & M2). lia.
    + apply forall_flat_map. intros q I. rewrite Forall_forall in A. destruct (A q I) as (_ & _ & _ & Q). exact Q.
  - repeat split; [lia|lia|constructor].
  - destruct H as [_ H]. repeat split; [lia|lia|]. exact (conditions_colonless _ _ H).
Qed.

Lemma v2_read : forall p stack j t, c_de (j_v2_transaction p stack) j = JOk t ->
  Forall (was_read stack (json_depth j - 4)) (v2_policies t).
Proof.
  intros p stack j t H. pose proof (reader_inside _ _ _ _ _ (read_v2_transaction p stack) H) as F. unfold v2_policies.
  rewrite Forall_app, !Forall_map. split; apply Forall_forall; intros a I.
  - pick F 0%nat. destruct (may_inside _ _ _ _ _ _ P a I) as (w & W & D).
    pose proof (reader_inside _ _ _ _ _ (read_v2_siacoin_input p stack) W) as G. pick G 1%nat. destruct (must_inside _ _ _ _ _ P0) as (u & U & D1).
    pose proof (reader_inside _ _ _ _ _ (read_satisfied_policy stack) U) as K. pick K 0%nat. destruct (must_inside _ _ _ _ _ P1) as (x & X & D2).
    destruct (policy_read _ _ _ X) as (R1 & R2 & R3 & R4). repeat split; auto. lia.
  - pick F 2%nat. destruct (may_inside _ _ _ _ _ _ P a I) as (w & W & D).
    pose proof (reader_inside _ _ _ _ _ (read_v2_siafund_input p stack) W) as G. pick G 2%nat. destruct (must_inside _ _ _ _ _ P0) as (u & U & D1).
    pose proof (reader_inside _ _ _ _ _ (read_satisfied_policy stack) U) as K. pick K 0%nat. destruct (must_inside _ _ _ _ _ P1) as (x & X & D2).
    destruct (policy_read _ _ _ X) as (R1 & R2 & R3 & R4). repeat split; auto. lia.
Qed.

(** ** Written again *)

Lemma from_str_inv : forall A (c : codec A) t a, from_str c t = JOk a -> exists j, DocumentText j t /\ json_depth j < 128 /\ c_de c j = JOk a.
Proof.
  intros A c t a H. unfold from_str in H. destruct (parse_document t) as [j|] eqn:E; [|discriminate].
  apply parse_document_spec in E. exists j. destruct E as [E1 E2]. repeat split; auto.
Qed.

Lemma fate_reread : forall A (c : codec A) d K a, Forall colonless K -> FateByKeys c d K a -> RereadByKeys c d K a.
Proof.
  intros A c d K a C (F1 & _ & F3). split; [|exact F3]. intros P. apply F1. rewrite Forall_forall in C, P |- *.
  intros k I. split; [exact (P k I)|exact (C k I)].
Qed.

Lemma v1_reread : forall p t x, from_str (j_v1_transaction p) t = JOk x -> v1_fits x -> RereadByKeys (j_v1_transaction p) 5 (v1_keys x) x.
Proof.
  intros p t x H F. apply from_str_inv in H. destruct H as (j & _ & _ & H). apply fate_reread; [exact (v1_colonless _ _ _ H)|now apply v1_fate].
Qed.

Lemma v2_from_text : forall p stack t x, from_str (j_v2_transaction p stack) t = JOk x -> Forall (was_read stack 123) (v2_policies x).
Proof.
  intros p stack t x H. apply from_str_inv in H. destruct H as (j & _ & D & H). apply v2_read in H.
  eapply Forall_impl; [|exact H]. intros q (Q1 & Q2 & Q3 & Q4). repeat split; auto. lia.
Qed.

Lemma v2_depths : forall p stack t x, from_str (j_v2_transaction p stack) t = JOk x -> Forall (fun q => depth q <= Nat.min stack 41)%nat (v2_policies x).
Proof.
  intros p stack t x H. eapply Forall_impl; [|exact (v2_from_text _ _ _ _ H)]. intros q (_ & Q2 & Q3 & _). lia.
Qed.

Lemma policy_depths : forall stack t x, from_str (j_policy stack) t = JOk x -> (depth x <= Nat.min stack 43)%nat.
Proof.
  intros stack t x H. apply from_str_inv in H. destruct H as (j & _ & D & H). destruct (policy_read _ _ _ H) as (_ & Q2 & Q3 & _). lia.
Qed.

Lemma v2_reread : forall p stack t x n, from_str (j_v2_transaction p stack) t = JOk x -> v2_fits x ->
  (n <= stack)%nat -> Forall (fun q => depth q <= n)%nat (v2_policies x) ->
  RereadByKeys (j_v2_transaction p stack) (7 + 3 * N.of_nat n) (v2_keys x) x.
Proof.
  intros p stack t x n H F L D. pose proof (v2_from_text _ _ _ _ H) as R. apply fate_reread.
  - apply forall_flat_map. intros q I. rewrite Forall_forall in R. destruct (R q I) as (_ & _ & _ & Q). exact Q.
  - apply v2_fate; auto. eapply Forall_impl; [|exact R]. now intros q (Q & _).
Qed.

Lemma policy_reread : forall stack t x n, from_str (j_policy stack) t = JOk x -> Forall (fun k => fits (uk_key k)) (policy_keys x) ->
  (depth x <= n <= stack)%nat -> RereadByKeys (j_policy stack) (3 * N.of_nat n) (policy_keys x) x.
Proof.
  intros stack t x n H F D. apply from_str_inv in H. destruct H as (j & _ & _ & H). destruct (policy_read _ _ _ H) as (Q1 & _ & _ & Q4).
  apply fate_reread; [exact Q4|]. now apply policy_fate.
Qed.

(** ** Sent *)

Lemma whole_narrow : forall x, whole_times x -> (encodable x <-> Narrow x).
Proof.
  intros x. induction x as [| | | |n of IH| |] using policy_ind'; intros W; cbn [encodable whole_times] in *;
    try (split; [intros _; constructor; discriminate|intros _; auto; exact I]).
  apply whole_forall in W. split.
  - intros [L E]. constructor; [lia|]. clear L. induction IH as [|q of Q IH IHl]; [constructor|].
    inversion W; subst. cbn [fold_right] in E. destruct E as [E1 E2]. constructor; [now apply Q|now apply IHl].
  - intros N. inversion N as [n' of' L F|q D]; subst; [|exfalso; exact (D _ _ eq_refl)]. split; [lia|]. clear N L.
    induction IH as [|q of Q IH IHl]; [exact I|]. inversion W; subst. inversion F; subst. cbn [fold_right].
    split; [now apply Q|now apply IHl].
Qed.

Lemma v2_sent : forall p stack stack' t x, from_str (j_v2_transaction p stack) t = JOk x -> (Nat.min stack 41 <= stack')%nat ->
  (Arrives encode_v2_transaction (decode_v2_transaction stack') x <-> Forall Narrow (v2_policies x)).
Proof.
  intros p stack stack' t x H L. pose proof (v2_depths _ _ _ _ H) as D. pose proof (v2_from_text _ _ _ _ H) as R.
  assert (E : v2_transaction_encodable stack' x <-> Forall Narrow (v2_policies x)).
  { unfold v2_transaction_encodable, v2_policies in *. rewrite Forall_app, !Forall_map in *. destruct D as [D1 D2], R as [R1 R2].
    unfold VecAll. rewrite Forall_forall in D1, D2, R1, R2. rewrite !Forall_forall. split; (intros [A B]; split; intros i I).
    - destruct (R1 i I) as (W & _). apply (whole_narrow _ W). now destruct (A i I).
    - destruct (R2 i I) as (W & _). apply (whole_narrow _ W). now destruct (B i I).
    - destruct (R1 i I) as (W & _). specialize (D1 i I). split; [|lia]. apply (whole_narrow _ W). exact (A i I).
    - destruct (R2 i I) as (W & _). specialize (D2 i I). split; [|lia]. apply (whole_narrow _ W). exact (B i I). }
  rewrite <- E. split.
  - intros A. destruct (wire_reencode stack' _ _ _ _ (or_introl (V2_v2_transaction stack')) _ _ _ (A [])) as [Q _]. exact Q.
  - intros Q rest. exact (v2_wire_roundtrip stack' _ _ _ _ (V2Wire_codec _ _ _ _ _ (V2_v2_transaction stack')) x rest Q).
Qed.

Lemma v1_sent : forall p t x, from_str (j_v1_transaction p) t = JOk x -> Arrives encode_v1_transaction decode_v1_transaction x.
Proof. intros p t x _ rest. apply v1_transaction_roundtrip. Qed.

(** ** The texts *)

Lemma written_depth : forall A (c : codec A) t a t', LibraryJson c -> from_str c t = JOk a -> wrote c a t' ->
  exists j, c_ser c a = JOk j /\ DocumentText j t' /\ json_depth j < 128.
Proof.
  intros A c t a t' L H W. apply from_str_inv in H. destruct H as (j & _ & D & H).
  destruct (written_text A c a t' L W) as (j' & S & _ & T & _). exists j'. split; [exact S|]. split; [exact T|].
  pose proof (library_tame A c L j a j' H S). lia.
Qed.

Lemma survives_any_order : forall A (c : codec A) d a j, SurvivesJson c d a -> c_ser c a = JOk j -> c_de c j = JOk a.
Proof. intros A c d a j (j' & S & _ & _ & R) E. rewrite E in S. injection S as ->. apply R. constructor. Qed.

Lemma text_again : forall A (c : codec A) d K t a, LibraryJson c -> from_str c t = JOk a -> RereadByKeys c d K a -> TextRereadByKeys c K a.
Proof.
  intros A c d K t a L H [R1 R2]. split.
  - intros P t' W. destruct (written_depth A c t a t' L H W) as (j & S & T & D). rewrite (from_str_reads A c j t' T D).
    exact (survives_any_order A c d a j (R1 P) S).
  - intros P. destruct (R2 P) as [q Q]. exists q. exact (panic_text A c a q Q).
Qed.

Lemma v1_text : forall p t x, from_str (j_v1_transaction p) t = JOk x -> v1_fits x -> TextRereadByKeys (j_v1_transaction p) (v1_keys x) x.
Proof. intros p t x H F. exact (text_again _ _ _ _ _ _ (lib_v1_transaction p) H (v1_reread p t x H F)). Qed.

Lemma v2_text : forall p stack t x, from_str (j_v2_transaction p stack) t = JOk x -> v2_fits x ->
  TextRereadByKeys (j_v2_transaction p stack) (v2_keys x) x.
Proof.
  intros p stack t x H F. eapply text_again; [exact (lib_v2_transaction p stack)|exact H|].
  apply (v2_reread p stack t x stack H F (le_n _)). eapply Forall_impl; [|exact (v2_depths p stack t x H)]. intros q Q. cbv beta in Q. lia.
Qed.

Lemma policy_text : forall stack t x, from_str (j_policy stack) t = JOk x -> Forall (fun k => fits (uk_key k)) (policy_keys x) ->
  TextRereadByKeys (j_policy stack) (policy_keys x) x.
Proof.
  intros stack t x H F. eapply text_again; [exact (lib_policy stack)|exact H|].
  apply (policy_reread stack t x stack H F). pose proof (policy_depths stack t x H). lia.
Qed.

(** ** Blocks *)

Lemma block_sent : forall b, Arrives encode_block decode_block b <-> whole_seconds (bl_timestamp b).
Proof.
  intros b. split.
  - intros A. destruct (wire_reencode 0 _ _ _ _ (or_intror V1_block) _ _ _ (A [])) as [Q _]. exact Q.
  - intros Q rest. exact (v1_wire_roundtrip _ _ _ _ V1_block b rest Q).
Qed.

Lemma block_colonless : forall p j b, c_de (j_block p) j = JOk b -> Forall colonless (block_keys b).
Proof.
  intros p j b H. pose proof (reader_inside _ _ _ _ _ (read_block p) H) as F. pick F 4%nat.
  destruct (must_inside _ _ _ _ _ P) as (w & W & _). apply forall_flat_map. intros t I.
  destruct (vec_inside _ _ _ _ _ W t I) as (v & V & _). exact (v1_colonless p v t V).
Qed.

Lemma block_text : forall p t b, from_str (j_block p) t = JOk b -> json_time (bl_timestamp b) -> VecAll v1_fits (bl_transactions b) ->
  TextRereadByKeys (j_block p) (block_keys b) b.
Proof.
  intros p t b H T F. eapply text_again; [exact (lib_block p)|exact H|]. apply fate_reread; [|now apply block_fate].
  apply from_str_inv in H. destruct H as (j & _ & _ & H). exact (block_colonless _ _ _ H).
Qed.

(** ** Documents that are read but not written or sent *)

Definition zeros64 : string := "0000000000000000000000000000000000000000000000000000000000000000".

(** the name of the algorithm is [n] letters and a letter of two bytes *)
Definition long_name (n : nat) : bytes := repeat "a"%byte n ++ [xc3; xa9].
Definition quoted (s : bytes) : bytes := ascii """" ++ s ++ ascii """".

Definition conditions_document (name : bytes) : bytes :=
  ascii "{""timelock"":0,""publicKeys"":[" ++ quoted (name ++ ascii ":00") ++ ascii "],""signaturesRequired"":1}".
Definition v1_document (name : bytes) : bytes :=
  ascii "{""siacoinInputs"":[{""parentID"":" ++ quoted (ascii zeros64) ++ ascii ",""unlockConditions"":" ++
  conditions_document name ++ ascii "}]}".
Definition v2_document (policy : bytes) : bytes :=
  ascii "{""siacoinInputs"":[{""parent"":{""stateElement"":{""leafIndex"":5,""merkleProof"":[]},""id"":" ++ quoted (ascii zeros64) ++
  ascii ",""siacoinOutput"":{""value"":""1"",""address"":" ++
  quoted (ascii "080900000000000000000000000000000000000000000000000000000000000065e0ef9c106e") ++
  ascii "},""maturityHeight"":144},""satisfiedPolicy"":{""policy"":" ++ policy ++ ascii "}}],""minerFee"":""0""}".
Definition uc_document (name : bytes) : bytes := ascii "{""type"":""uc"",""policy"":" ++ conditions_document name ++ ascii "}".
Fixpoint above_list (n : nat) : bytes :=
  match n with
  | O => []
  | S O => ascii "{""type"":""above"",""policy"":1}"
  | S m => ascii "{""type"":""above"",""policy"":1}," ++ above_list m
  end.
Definition wide_document (n : nat) : bytes := ascii "{""type"":""thresh"",""policy"":{""n"":1,""of"":[" ++ above_list n ++ ascii "]}}".
Definition block_document : bytes :=
  ascii "{""parentID"":" ++ quoted (ascii zeros64) ++
  ascii ",""nonce"":1,""timestamp"":""2023-11-14T22:13:20.5Z"",""minerPayouts"":[],""transactions"":[]}".

Definition read_then {A} (c : codec A) (t : bytes) (f : A -> bool) : bool :=
  match from_str c t with JOk a => f a | _ => false end.
Lemma read_then_ok : forall A (c : codec A) t f, read_then c t f = true -> exists a, from_str c t = JOk a /\ f a = true.
Proof. intros A c t f H. unfold read_then in H. destruct (from_str c t) as [a| |]; try discriminate. eauto. Qed.

Definition no_document {A} (c : codec A) (a : A) : bool := match c_ser c a with JOk _ => false | _ => true end.
Lemma no_document_ok : forall A (c : codec A) a j, no_document c a = true -> c_ser c a <> JOk j.
Proof. intros A c a j H E. unfold no_document in H. rewrite E in H. discriminate. Qed.

Lemma v1_written_refuted : ~ (forall p t x, from_str (j_v1_transaction p) t = JOk x -> exists j, c_ser (j_v1_transaction p) x = JOk j).
Proof.
  intros H. assert (E : read_then (j_v1_transaction Release) (v1_document (long_name 15)) (no_document (j_v1_transaction Release)) = true)
    by (vm_compute; reflexivity).
  apply read_then_ok in E. destruct E as (x & E & N). destruct (H _ _ _ E) as [j S]. exact (no_document_ok _ _ _ j N S).
Qed.
Lemma v2_written_refuted : forall stack, (1 <= stack)%nat ->
  ~ (forall p t x, from_str (j_v2_transaction p stack) t = JOk x -> exists j, c_ser (j_v2_transaction p stack) x = JOk j).
Proof.
  intros [|stack] L H; [lia|].
  assert (E : read_then (j_v2_transaction Release (S stack)) (v2_document (uc_document (long_name 15))) (no_document (j_v2_transaction Release (S stack))) = true)
    by (vm_compute; reflexivity).
  apply read_then_ok in E. destruct E as (x & E & N). destruct (H _ _ _ E) as [j Q]. exact (no_document_ok _ _ _ j N Q).
Qed.

Definition wide (x : policy) : bool := match x with PThreshold _ of => Nat.ltb 255 (length of) | _ => false end.
Lemma wide_not : forall x, wide x = true -> ~ Narrow x.
Proof.
  intros x W N. inversion N as [n of L F|q D]; subst; cbn [wide] in W.
  - apply Nat.ltb_lt in W. lia.
  - destruct x; try discriminate W. exact (D _ _ eq_refl).
Qed.

Lemma v2_sent_refuted : forall stack, (2 <= stack)%nat ->
  ~ (forall p t x, from_str (j_v2_transaction p stack) t = JOk x -> Arrives encode_v2_transaction (decode_v2_transaction stack) x).
Proof.
  intros [|[|stack]] L H; [lia|lia|].
  assert (E : read_then (j_v2_transaction Release (S (S stack))) (v2_document (wide_document 256)) (fun x => existsb wide (v2_policies x)) = true)
    by (vm_compute; reflexivity).
  apply read_then_ok in E. destruct E as (x & E & N). specialize (H _ _ _ E).
  apply (v2_sent Release (S (S stack)) (S (S stack)) _ _ E) in H; [|lia].
  apply existsb_exists in N. destruct N as (q & I & W). rewrite Forall_forall in H. exact (wide_not q W (H q I)).
Qed.

Lemma block_sent_refuted : ~ (forall p t b, from_str (j_block p) t = JOk b -> Arrives encode_block decode_block b).
Proof.
  intros H. assert (E : read_then (j_block Release) block_document (fun b => negb (odt_nanos (bl_timestamp b) =? 0)) = true)
    by (vm_compute; reflexivity).
  apply read_then_ok in E. destruct E as (b & E & N). specialize (H _ _ _ E). apply block_sent in H.
  unfold whole_seconds in H. rewrite H in N. discriminate.
Qed.

Lemma again_examples : exists t x, from_str (j_v2_transaction Debug 40) t = JOk x /\ v2_fits x /\ Forall printable (v2_keys x) /\
  v2_keys x <> [] /\ Forall Narrow (v2_policies x).
Proof.
  exists (match to_string (j_v2_transaction Debug 40) (peer_v2 (ascii "ed25519")) with JOk t => t | _ => [] end), (peer_v2 (ascii "ed25519")).
  split; [|split; [|split; [|split]]].
  - assert (E : exists t, to_string (j_v2_transaction Debug 40) (peer_v2 (ascii "ed25519")) = JOk t) by (eexists; vm_compute; reflexivity).
    destruct E as [t E]. rewrite E. destruct (peer_v2_fits (ascii "ed25519")) as [F1 F2].
    assert (G : FateByKeys (j_v2_transaction Debug 40) (7 + 3 * N.of_nat 2) (v2_keys (peer_v2 (ascii "ed25519"))) (peer_v2 (ascii "ed25519"))).
    { apply v2_fate; [lia|repeat constructor|repeat constructor|apply peer_v2_fits]. }
    apply text_fate in G; [|constructor|reflexivity]. destruct G as (G & _). apply G; [|now left].
    rewrite peer_v2_keys. repeat constructor; apply good_peer.
  - apply peer_v2_fits.
  - rewrite peer_v2_keys. repeat constructor. apply good_peer.
  - rewrite peer_v2_keys. discriminate.
  - constructor; [|constructor]. constructor; [cbn; lia|]. repeat constructor; discriminate.
Qed.

Lemma v1_examples : exists t x, from_str (j_v1_transaction Debug) t = JOk x /\ v1_fits x /\ ~ Forall printable (v1_keys x).
Proof.
  assert (E : read_then (j_v1_transaction Debug) (v1_document (long_name 15)) (fun x =>
    forallb (fun k => Nat.eqb (length (vlist (uk_key k))) 1) (v1_keys x) && forallb (fun k => negb (utf8_valid (trim_zeros (aval (uk_algorithm k))))) (v1_keys x)
    && Nat.eqb (length (v1_keys x)) 1 && Nat.eqb (length (vlist (v1t_arbitrary_data x))) 0 && Nat.eqb (length (vlist (v1t_signatures x))) 0) = true)
    by (vm_compute; reflexivity).
  apply read_then_ok in E. destruct E as (x & E & N). exists (v1_document (long_name 15)), x. split; [exact E|]. clear E.
  apply andb_prop in N. destruct N as [N N5]. apply andb_prop in N. destruct N as [N N4]. apply andb_prop in N. destruct N as [N N3].
  apply andb_prop in N. destruct N as [N1 N2]. apply Nat.eqb_eq in N3, N4, N5. apply length_zero_iff_nil in N4, N5.
  rewrite forallb_forall in N1, N2. split.
  - split; [|split; unfold VecAll].
    + apply Forall_forall. intros k I. apply N1, Nat.eqb_eq in I. unfold fits. rewrite I. cbn. lia.
    + rewrite N4. constructor.
    + rewrite N5. constructor.
  - destruct (v1_keys x) as [|k l]; [discriminate|]. intros F. apply Forall_inv in F. apply printable_iff in F.
    specialize (N2 k (or_introl eq_refl)). rewrite F in N2. discriminate.
Qed.

Lemma key_examples : exists k k', c_de j_unlock_key (JStr (ascii "ed25519:00ff")) = JOk k /\
  c_de j_unlock_key (JStr (long_name 15 ++ ascii ":00")) = JOk k' /\ ~ printable k'.
Proof.
  destruct (c_de j_unlock_key (JStr (ascii "ed25519:00ff"))) as [k| |] eqn:E; [|exfalso; vm_compute in E; discriminate|exfalso; vm_compute in E; discriminate].
  destruct (c_de j_unlock_key (JStr (long_name 15 ++ ascii ":00"))) as [k'| |] eqn:E';
    [|exfalso; vm_compute in E'; discriminate|exfalso; vm_compute in E'; discriminate].
  exists k, k'. repeat split. intros P. destruct (key_names _ _ E') as (name & h & S & N & _ & _ & K & _).
  assert (G : name = long_name 15).
  { change (long_name 15 ++ ascii ":00") with (long_name 15 ++ ":"%byte :: ascii "00") in S.
    assert (X : forall s : bytes, ~ In ":"%byte s -> Forall (fun b => b <> ":"%byte) s)
      by (intros s H; apply Forall_forall; intros b I ->; exact (H I)).
    assert (Y : split_once ":" (long_name 15 ++ ":"%byte :: ascii "00") = split_once ":" (name ++ ":"%byte :: h)) by now rewrite S.
    rewrite !split_once_some in Y; [congruence|now apply X|]. repeat constructor; discriminate. }
  subst name. apply K in P. apply utf8_spec in P. vm_compute in P. discriminate.
Qed.

Lemma block_examples : exists t b, from_str (j_block Debug) t = JOk b /\ json_time (bl_timestamp b) /\
  VecAll v1_fits (bl_transactions b) /\ ~ whole_seconds (bl_timestamp b).
Proof.
  assert (E : read_then (j_block Debug) block_document (fun b =>
    (0 <=? odt_secs (bl_timestamp b))%Z && Nat.eqb (length (vlist (bl_transactions b))) 0 && negb (odt_nanos (bl_timestamp b) =? 0)) = true)
    by (vm_compute; reflexivity).
  apply read_then_ok in E. destruct E as (b & E & N). exists block_document, b. split; [exact E|]. clear E.
  apply andb_prop in N. destruct N as [N N3]. apply andb_prop in N. destruct N as [N1 N2].
  apply Z.leb_le in N1. apply Nat.eqb_eq, length_zero_iff_nil in N2. split; [|split].
  - unfold json_time. lia.
  - unfold VecAll. rewrite N2. constructor.
  - unfold whole_seconds. intros W. rewrite W in N3. discriminate.
Qed.
