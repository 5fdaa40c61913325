(** Uniqueness of dates and times, and examples for P_doc.v. *)

From Verif Require Import Base Io SpecText SpecFormat Model_encoding Model_common Model_currency Model_v1 Model_policy Model_v2
  Model_consensus Model_text Model_json Model_jsontypes SpecJson SpecDoc SpecAccept Samples CurrencyProofs TimeProofs DocTime DocProofs
  AcceptProofs AcceptMore.
Local Open Scope N_scope.

Lemma doc_examples :
  c_ser (j_siacoin_output Release) (MkSco (uwrap 128 1500) zero_hash) = JOk (JObj
    [(ascii "value", JStr (ascii "1500"));
     (ascii "address", JStr (ascii
        "000000000000000000000000000000000000000000000000000000000000000089eb0d6a8a69"))]) /\
  c_ser j_odt s_time = JOk (JStr (ascii "2023-11-14T22:13:20Z")) /\
  Rfc3339 s_time (ascii "2023-11-14T22:13:20Z").
Proof.
  split; [vm_compute; reflexivity|]. split; [vm_compute; reflexivity|]. apply rfc3339_form. vm_compute. reflexivity.
Qed.

Lemma read_examples :
  c_de j_chain_index (JObj [(ascii "id", JStr (hash_text zero_hash)); (ascii "extra", JNull);
                            (ascii "height", JUint (uwrap 64 7))]) = JOk (MkChainIndex (uwrap 64 7) (arr_of 32 (repeat x00 32))) /\
  c_de j_chain_index (JObj [(ascii "height", JUint (uwrap 64 7)); (ascii "id", JStr (hash_text zero_hash));
                            (ascii "height", JUint (uwrap 64 7))]) = JErr /\
  c_de (j_policy 5) (JObj [(ascii "policy", JUint (uwrap 64 7)); (ascii "type", JStr (ascii "above"))])
    = JOk (PAbove (uwrap 64 7)) /\
  c_de (j_policy 5) (JObj [(ascii "policy", JUint (uwrap 64 7)); (ascii "type", JStr (ascii "above"));
                           (ascii "extra", JNull)]) = JErr.
Proof.
  split; [|split; [|split]]; vm_compute; reflexivity.
Qed.

(** ** Dates and times *)

Lemma months_before : forall y m m', (1 <= m)%Z -> (m < m')%Z -> (m' <= 12)%Z ->
  (days_before_month y m + month_days y m <= days_before_month y m')%Z.
Proof.
  intros y m m' H1 H2 H3. unfold days_before_month, month_days. generalize (leap_year y). intros b.
  assert (C : forallb (fun b => forallb (fun m => forallb (fun m' => ((m' <=? m) ||
      (nth (Z.to_nat (m - 1)) [0; 31; 59; 90; 120; 151; 181; 212; 243; 273; 304; 334] 0 +
       (if (2 <? m) && b then 1 else 0) +
       (if m =? 2 then if b then 29 else 28 else if (m =? 4) || (m =? 6) || (m =? 9) || (m =? 11) then 30 else 31) <=?
       nth (Z.to_nat (m' - 1)) [0; 31; 59; 90; 120; 151; 181; 212; 243; 273; 304; 334] 0 +
       (if (2 <? m') && b then 1 else 0)))%Z)
    [1; 2; 3; 4; 5; 6; 7; 8; 9; 10; 11; 12]%Z) [1; 2; 3; 4; 5; 6; 7; 8; 9; 10; 11; 12]%Z) [true; false] = true) by (vm_compute; reflexivity).
  rewrite forallb_forall in C. specialize (C b ltac:(destruct b; cbn; auto)).
  assert (I : forall k, (1 <= k <= 12)%Z -> In k [1; 2; 3; 4; 5; 6; 7; 8; 9; 10; 11; 12]%Z).
  { intros k K. cbn [In]. lia. }
  rewrite forallb_forall in C. specialize (C m (I m ltac:(lia))). rewrite forallb_forall in C.
  specialize (C m' (I m' ltac:(lia))). apply orb_true_iff in C. rewrite !Z.leb_le in C. destruct C as [C|C]; [lia|exact C].
Qed.

Lemma one_date : forall y m d y' m' d', ValidDate y m d -> ValidDate y' m' d' ->
  days_of_date y m d = days_of_date y' m' d' -> y = y' /\ m = m' /\ d = d'.
Proof.
  intros y m d y' m' d' V V' E. unfold days_of_date in E.
  pose proof (day_of_year _ _ _ V) as R. pose proof (day_of_year _ _ _ V') as R'.
  pose proof (year_length y) as L. pose proof (year_length y') as L'.
  assert (y = y').
  { destruct (Z.lt_trichotomy y y') as [H|[H|H]]; [|exact H|].
    - pose proof (year_monotone (y + 1) y' ltac:(lia)). lia.
    - pose proof (year_monotone (y' + 1) y ltac:(lia)). lia. }
  subst y'. split; [reflexivity|]. destruct V as [Vm Vd], V' as [Vm' Vd'].
  assert (m = m').
  { destruct (Z.lt_trichotomy m m') as [H|[H|H]]; [|exact H|].
    - pose proof (months_before y m m' ltac:(lia) H ltac:(lia)). lia.
    - pose proof (months_before y m' m ltac:(lia) H ltac:(lia)). lia. }
  subst m'. split; [reflexivity|lia].
Qed.

Lemma one_day : forall y m d k y' m' d' k', Day y m d k -> Day y' m' d' k' ->
  (k = k' <-> y = y' /\ m = m' /\ d = d').
Proof.
  intros y m d k y' m' d' k' H H'. apply day_unique in H. apply day_unique in H'.
  destruct H as [V ->], H' as [V' ->]. split; [now apply one_date|]. intros (-> & -> & ->). reflexivity.
Qed.

Lemma app_split : forall (a b c d : bytes), length a = length b -> a ++ c = b ++ d -> a = b /\ c = d.
Proof.
  intros a. induction a as [|x a IH]; intros [|y b] c d L E; cbn in *; try discriminate; auto.
  injection E as -> E. injection L as L. destruct (IH b c d L E) as [-> ->]. auto.
Qed.

Lemma one_fraction : forall n n' s, Fraction n s -> Fraction n' s -> n = n'.
Proof.
  intros n n' s [[-> ->]|(f & -> & H)] [[-> E]|(f' & E & H')]; try discriminate; auto.
  injection E as <-. destruct H as (_ & _ & H & _), H' as (_ & _ & H' & _). congruence.
Qed.

Lemma one_time : forall t t' s, Rfc3339 t s -> Rfc3339 t' s -> t = t'.
Proof.
  intros t t' s (y & m & d & k & h & mi & sec & sy & sm & sd & sh & smi & ss & sf & D & _ & _ & _ & T &
    (Ly & _ & Vy) & (Lm & _ & Vm) & (Ld & _ & Vd) & (Lh & _ & Vh) & (Lmi & _ & Vmi) & (Ls & _ & Vs) & F & E)
    (y' & m' & d' & k' & h' & mi' & sec' & sy' & sm' & sd' & sh' & smi' & ss' & sf' & D' & _ & _ & _ & T' &
    (Ly' & _ & Vy') & (Lm' & _ & Vm') & (Ld' & _ & Vd') & (Lh' & _ & Vh') & (Lmi' & _ & Vmi') & (Ls' & _ & Vs') & F' & E').
  rewrite E in E'. clear E.
  apply app_split in E'; [|congruence]. destruct E' as [<- E]. apply app_split in E; [|reflexivity]. destruct E as [_ E].
  apply app_split in E; [|congruence]. destruct E as [<- E]. apply app_split in E; [|reflexivity]. destruct E as [_ E].
  apply app_split in E; [|congruence]. destruct E as [<- E]. apply app_split in E; [|reflexivity]. destruct E as [_ E].
  apply app_split in E; [|congruence]. destruct E as [<- E]. apply app_split in E; [|reflexivity]. destruct E as [_ E].
  apply app_split in E; [|congruence]. destruct E as [<- E]. apply app_split in E; [|reflexivity]. destruct E as [_ E].
  apply app_split in E; [|congruence]. destruct E as [<- E]. apply app_inv_tail in E. subst sf'.
  apply odt_eq; [|exact (one_fraction _ _ _ F F')].
  assert (K : k = k').
  { apply (one_day _ _ _ _ _ _ _ _ D D'). repeat split; congruence. }
  rewrite T, T'. subst. congruence.
Qed.

Lemma text_readers :
  (forall j s, c_de j_string j = JOk s <-> j = JStr (vlist (sbytes s))) /\
  (forall j h, c_de j_hash j = JOk h <->
     exists s : rstring, j = JStr (vlist (sbytes s)) /\ parse_hash (vlist (sbytes s)) = inl h) /\
  (forall j h, c_de j_address j = JOk h <->
     exists s : rstring, j = JStr (vlist (sbytes s)) /\ parse_address (vlist (sbytes s)) = inl h) /\
  (forall j h, c_de j_signature j = JOk h <->
     exists s : rstring, j = JStr (vlist (sbytes s)) /\ parse_signature (vlist (sbytes s)) = inl h) /\
  (forall j h, c_de j_public_key j = JOk h <->
     exists s : rstring, j = JStr (vlist (sbytes s)) /\ parse_public_key (vlist (sbytes s)) = Some h) /\
  (forall j h, c_de j_work j = JOk h <->
     exists s : rstring, j = JStr (vlist (sbytes s)) /\ parse_work (vlist (sbytes s)) = Some h) /\
  (forall j h, c_de j_unlock_key j = JOk h <->
     exists s : rstring, j = JStr (vlist (sbytes s)) /\ parse_unlock_key s = inl h) /\
  (forall p j c, c_de (j_currency p) j = JOk c <->
     (exists s : rstring, j = JStr (vlist (sbytes s)) /\ parse_currency p (vlist (sbytes s)) = Val (inl c)) \/
     (exists n, j = JUint n /\ uval c = uval n)).
Proof.
  exact (conj string_iff (conj hash_iff (conj address_iff (conj signature_iff (conj public_key_iff
    (conj work_iff (conj unlock_key_iff currency_iff))))))).
Qed.
