(** Which index out of range a partial signature hash reports. *)

From Verif Require Import Base Io Model_encoding Model_common Model_v1 Model_consensus Model_ids SpecCover Samples.
Local Open Scope N_scope.

Lemma cover_cases : forall A msg (enc : A -> bytes) items idx,
  ((exists b, cover msg enc items idx = inl b) /\ forall i, In i idx -> uval i < N.of_nat (length items)) \/
  (cover msg enc items idx = inr (ECustom msg) /\ exists i, In i idx /\ N.of_nat (length items) <= uval i).
Proof.
  intros A msg enc items idx. induction idx as [|i idx IH].
  - left. split; [now exists []|]. intros i [].
  - cbn [cover]. destruct (N.leb_spec (N.of_nat (length items)) (uval i)) as [H|H].
    + right. split; [reflexivity|]. exists i. split; [now left|exact H].
    + destruct (nth_error items (N.to_nat (uval i))) as [x|] eqn:E.
      * destruct IH as [[[b ->] IH]|[-> (j & J & K)]].
        -- left. split; [eexists; reflexivity|]. intros j [<-|J]; [exact H|now apply IH].
        -- right. split; [reflexivity|]. exists j. split; [now right|exact K].
      * apply nth_error_None in E. lia.
Qed.

(** [r] reports the first kind of [l] that is out of range, if any. *)
Definition reports (r : bytes + error) (l : list (string * (nat * list usize))) : Prop :=
  (exists b, r = inl b /\ forall m, ~ FirstOutside l m) \/ (exists m, r = inr (ECustom m) /\ FirstOutside l m).

Lemma reports_one : forall A msg (enc : A -> bytes) items idx,
  reports (cover msg enc items idx) [(msg, (length items, idx))].
Proof.
  intros A msg enc items idx. destruct (cover_cases A msg enc items idx) as [[[b ->] H]|[-> (i & I & J)]].
  - left. exists b. split; [reflexivity|]. intros m F. inversion F as [? ? ? i ? I J|? ? ? ? ? ? F']; subst; [|inversion F'].
    specialize (H i I). lia.
  - right. exists msg. split; [reflexivity|]. now apply outside_here with i.
Qed.

Lemma reports_cons : forall A msg (enc : A -> bytes) items idx r l, reports r l ->
  reports (cat_result (cover msg enc items idx) r) ((msg, (length items, idx)) :: l).
Proof.
  intros A msg enc items idx r l R. destruct (cover_cases A msg enc items idx) as [[[b ->] H]|[-> (i & I & J)]].
  - destruct R as [(c & -> & N)|(m & -> & F)]; cbn [cat_result].
    + left. exists (b ++ c). split; [reflexivity|]. intros m F.
      inversion F as [? ? ? i ? I J|? ? ? ? ? ? F']; subst; [specialize (H i I); lia|exact (N m F')].
    + right. exists m. split; [reflexivity|]. now apply outside_later.
  - right. exists msg. split; [reflexivity|]. now apply outside_here with i.
Qed.

Lemma outside_unique : forall l m m', FirstOutside l m -> FirstOutside l m' -> m = m'.
Proof.
  intros l m m' H. induction H as [m n idx i r I J|m n idx r k A H IH]; intros G; inversion G as [? ? ? i' ? I' J'|? ? ? ? ? A' G']; subst.
  - reflexivity.
  - specialize (A' i I). lia.
  - specialize (A i' I'). lia.
  - now apply IH.
Qed.

Lemma partial_sig_reports : forall t cs c, reports (partial_sig_preimage t cs c) (covered_kinds t c).
Proof. intros t cs c. unfold partial_sig_preimage, covered_kinds. do 9 apply reports_cons. apply reports_one. Qed.

Lemma partial_sig_which : forall t cs c e,
  partial_sig_hash t cs c = inr e <-> exists m, FirstOutside (covered_kinds t c) m /\ e = ECustom m.
Proof.
  intros t cs c e. unfold partial_sig_hash.
  destruct (partial_sig_reports t cs c) as [(b & -> & N)|(m & -> & F)]; split.
  - discriminate.
  - intros (m & F & _). destruct (N m F).
  - intros [= <-]. now exists m.
  - intros (m' & F' & ->). now rewrite (outside_unique _ m m' F F').
Qed.
