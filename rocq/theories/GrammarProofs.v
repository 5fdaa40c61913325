(** Lemmas for C63: the decoders accept exactly the grammar of SpecGrammar.v. *)

From Verif Require Import Base Io IoProofs Spec SpecWire SpecLayout SpecCodecs SpecGrammar Codec Model_encoding EncodingProofs
  Model_common CommonProofs Model_v1 Model_policy Model_v2 V2TxnProofs Model_consensus WireProofs TableProofs ConsensusProofs LayoutProofs LayoutTxn.
Local Open Scope N_scope.

Definition Reads {A} (d : dec A) (W : wire A) : Prop :=
  forall bs a rest, run d bs = ROk a rest <-> exists w, W a w /\ bs = w ++ rest.

Lemma reads_iff : forall A (d : dec A) (W W' : wire A), Reads d W -> (forall a w, W a w <-> W' a w) -> Reads d W'.
Proof.
  intros A d W W' H E bs a rest. rewrite (H bs a rest). split; intros (w & X & Y); exists w; split; auto; now apply E.
Qed.

(** ** Sequences of parts *)

Definition ReadsC {B} (d : dec B) (K : B -> Prop) (F : B -> list (bytes -> Prop)) : Prop :=
  forall bs b rest, run d bs = ROk b rest <-> K b /\ exists w, Seq (F b) w /\ bs = w ++ rest.

Lemma readsc_ret : forall B (b0 : B) (K : B -> Prop), (forall b, K b <-> b = b0) -> ReadsC (DRet b0) K (fun _ => []).
Proof.
  intros B b0 K H bs b rest. cbn [run]. split.
  - intros E. injection E as <- <-. split; [now apply H|]. exists []. split; [constructor|reflexivity].
  - intros (Hk & w & Hw & ->). apply H in Hk. subst b. inversion Hw. reflexivity.
Qed.

Lemma readsc_bind : forall A B (f : B -> A) (m : dec A) (g : A -> dec B) (W : wire A) K F,
  Reads m W -> (forall a, ReadsC (g a) (fun b => K b /\ f b = a) F) -> ReadsC (dbind m g) K (fun b => W (f b) :: F b).
Proof.
  intros A B f m g W K F Hm Hg bs b rest. split.
  - intros E. apply run_bind_ok in E as (a & r & E1 & E2). apply Hm in E1 as (u & Hu & ->).
    apply Hg in E2 as ((Hk & <-) & v & Hv & ->). split; [exact Hk|]. exists (u ++ v). split; [now constructor|apply app_assoc].
  - intros (Hk & w & Hw & ->). inversion Hw as [|P l u v Hu Hv]; subst. rewrite run_bind.
    rewrite (proj2 (Hm ((u ++ v) ++ rest) (f b) (v ++ rest))) by (exists u; split; [exact Hu|now rewrite app_assoc]).
    apply Hg. split; [now split|]. exists v. now split.
Qed.

(** A part whose value is dropped. *)
Lemma readsc_drop : forall A B (m : dec A) (g : dec B) (W : wire A) K F,
  Reads m W -> ReadsC g K F -> ReadsC (dbind m (fun _ => g)) K (fun b => (fun w => exists a, W a w) :: F b).
Proof.
  intros A B m g W K F Hm Hg bs b rest. split.
  - intros E. apply run_bind_ok in E as (a & r & E1 & E2). apply Hm in E1 as (u & Hu & ->).
    apply Hg in E2 as (Hk & v & Hv & ->). split; [exact Hk|]. exists (u ++ v). split; [constructor; [now exists a|exact Hv]|apply app_assoc].
  - intros (Hk & w & Hw & ->). inversion Hw as [|P l u v Hu0 Hv]; subst; destruct Hu0 as (a & Hu). rewrite run_bind.
    rewrite (proj2 (Hm ((u ++ v) ++ rest) a (v ++ rest))) by (exists u; split; [exact Hu|now rewrite app_assoc]).
    apply Hg. split; [exact Hk|]. exists v. now split.
Qed.

Lemma reads_seq : forall A (d : dec A) F, ReadsC d (fun _ => True) F -> Reads d (fun a => Seq (F a)).
Proof. intros A d F H bs a rest. rewrite (H bs a rest). tauto. Qed.

(** ** Strict parts *)

Lemma reads_v1 : forall stack A P e d f, V1Codec A P e d -> StrictCodec stack A e d -> V1Layout A e f ->
  Reads d (fun a w => P a /\ w = f a).
Proof.
  intros stack A P e d f C S L bs a rest. split.
  - intros E. exists (f a). split; [split; [|reflexivity]|].
    + apply (wire_reencode stack A P e d (or_intror C) bs a rest E).
    + apply (layout_accepted stack A e d f S (or_intror L) bs a rest E).
  - intros (w & (Ha & ->) & ->). apply (layout_read stack A P e d f (or_intror (conj C L)) a rest Ha).
Qed.

Lemma reads_v2 : forall stack A P e d f, V2Codec stack A P e d -> StrictCodec stack A e d -> V2Layout A e f ->
  Reads d (fun a w => P a /\ w = f a).
Proof.
  intros stack A P e d f C S L bs a rest. split.
  - intros E. exists (f a). split; [split; [|reflexivity]|].
    + apply (wire_reencode stack A P e d (or_introl C) bs a rest E).
    + apply (layout_accepted stack A e d f S (or_introl L) bs a rest E).
  - intros (w & (Ha & ->) & ->).
    apply (layout_read stack A P e d f (or_introl (conj (V2Wire_codec stack A P e d C) L)) a rest Ha).
Qed.

Lemma reads_any : forall A (P : A -> Prop) (d : dec A) (f : A -> bytes), (forall a, P a) -> Reads d (fun a w => P a /\ w = f a) -> Reads d (fun a => eq (f a)).
Proof. intros A P d f Hp H. eapply reads_iff; [exact H|]. intros a w. split; [intros [_ ->]; reflexivity|intros <-; auto]. Qed.

Lemma r_u64 : Reads decode_u64 (fun v => eq (word v)).
Proof. eapply reads_any; [|eapply (reads_v1 0); [apply V1_u64|apply S_u64|apply L1_u64]]. intros; exact I. Qed.
Lemma r_usize : Reads decode_usize (fun v => eq (word v)).
Proof. exact r_u64. Qed.
Lemma r_hash : Reads decode_hash (fun v => eq (aval v)).
Proof. eapply reads_any; [|eapply (reads_v1 0); [apply V1_hash|apply S_hash|apply L1_hash]]. intros; exact I. Qed.
Lemma r_uc : Reads decode_unlock_conditions (fun v => eq (lay_unlock_conditions v)).
Proof. eapply reads_any; [|eapply (reads_v1 0); [apply V1_unlock_conditions|apply S_unlock_conditions|apply L1_unlock_conditions]]. intros; exact I. Qed.

(** ** Vectors and options *)

Lemma loop_reads : forall A (d : dec A) W, Reads d W -> forall n acc bs l rest,
  run (dloop_nat n (fun acc => dbind d (fun x => DRet (x :: acc))) acc) bs = ROk l rest <->
  exists xs w, l = rev xs ++ acc /\ length xs = n /\ Seq (map W xs) w /\ bs = w ++ rest.
Proof.
  intros A d W H. induction n as [|n IH]; intros acc bs l rest; cbn [dloop_nat].
  - split.
    + intros E. apply run_ret_ok in E as [<- <-]. exists [], []. repeat split; constructor.
    + intros (xs & w & -> & L & S & ->). destruct xs; [|discriminate]. inversion S. reflexivity.
  - split.
    + intros E. apply run_bind_ok in E as (acc' & r & E1 & E2). apply run_bind_ok in E1 as (x & r1 & E3 & E4).
      apply run_ret_ok in E4 as [<- <-]. apply H in E3 as (u & Hu & ->). apply IH in E2 as (xs & w & -> & <- & S & ->).
      exists (x :: xs), (u ++ w). cbn [rev map length]. rewrite <- !app_assoc. repeat split. now constructor.
    + intros (xs & w & -> & L & S & ->). destruct xs as [|x xs]; [discriminate|]. injection L as L.
      inversion S as [|P l' u v Hu Hv]; subst. rewrite run_bind, run_bind.
      rewrite (proj2 (H ((u ++ v) ++ rest) x (v ++ rest))) by (exists u; split; [exact Hu|now rewrite app_assoc]).
      cbn [run]. apply IH. exists xs, v. cbn [rev]. rewrite <- app_assoc. now repeat split.
Qed.

Lemma reads_vec : forall sz A (d : dec A) W, Reads d W -> Reads (decode_vec sz d) (Many W).
Proof.
  intros sz A d W H bs v rest. unfold decode_vec. split.
  - intros E. apply run_bind_ok in E as (len & r & E1 & E2). apply r_usize in E1 as (h & <- & ->).
    destruct (isize_max <? uval len * sz); [discriminate|]. rewrite run_alloc in E2.
    apply run_bind_ok in E2 as (l & r' & E2 & E3). rewrite dloop_run in E2.
    apply (loop_reads A d W H) in E2 as (xs & w & -> & L & S & ->).
    rewrite app_nil_r, rev_involutive in E3. destruct (vec_of sz xs) as [v'|] eqn:Ev; [|discriminate].
    apply run_ret_ok in E3 as [<- <-]. apply vec_of_some in Ev. subst xs.
    exists (word len ++ w). split; [|apply app_assoc]. exists w. split; [exact S|]. unfold word. now rewrite L, N2Nat.id.
  - intros (w & (u & S & ->) & ->). destruct (vec_bounds sz A v) as [Hb1 Hb2]. rewrite run_bind, <- app_assoc.
    set (len := uwrap 64 (N.of_nat (length (vlist v)))).
    assert (Hlen : uval len = N.of_nat (length (vlist v))).
    { apply uwrap_small. rewrite isize_max_val in Hb2. change (2 ^ 64) with 18446744073709551616. lia. }
    rewrite (proj2 (r_usize _ len (u ++ rest))) by (exists (word len); split; [reflexivity|]; unfold word; now rewrite Hlen).
    rewrite Hlen. destruct (N.ltb_spec isize_max (N.of_nat (length (vlist v)) * sz)); [lia|].
    rewrite run_alloc, run_bind, dloop_run, Nat2N.id.
    rewrite (proj2 (loop_reads A d W H (length (vlist v)) [] (u ++ rest) (rev (vlist v)) rest)).
    + rewrite rev_involutive, vec_of_vlist. reflexivity.
    + exists (vlist v), u. rewrite app_nil_r. now repeat split.
Qed.

Lemma reads_option : forall A (d : dec A) W, Reads d W -> Reads (decode_option d) (Maybe W).
Proof.
  intros A d W H bs o rest. unfold decode_option, decode_bool, decode_u8. rewrite !run_bind. cbn [run dbind].
  destruct bs as [|b bs]; cbn [splitn].
  { split; [discriminate|]. intros (w & Hw & E). destruct w; [|discriminate]. destruct o; cbn [Maybe] in Hw; [|discriminate].
    destruct Hw as (u & _ & Hw). discriminate. }
  cbn [hd]. destruct b; cbn [run].
  1: { split.
    - intros E. injection E as <- <-. exists [x00]. split; reflexivity.
    - intros (w & Hw & E). destruct o as [a|]; cbn [Maybe] in Hw; [destruct Hw as (u & _ & ->); discriminate|].
      subst w. injection E as ->. reflexivity. }
  1: { rewrite run_bind. split.
    - intros E. destruct (run d bs) as [a r| |] eqn:Er; try discriminate. cbn [run] in E. injection E as <- <-.
      apply H in Er as (u & Hu & ->). exists (x01 :: u). split; [now exists u|reflexivity].
    - intros (w & Hw & E). destruct o as [a|]; cbn [Maybe] in Hw; [destruct Hw as (u & Hu & ->)|subst w; discriminate].
      injection E as ->. rewrite (proj2 (H (u ++ rest) a rest)) by (exists u; now split). reflexivity. }
  all: split; [discriminate|]; intros (w & Hw & E); destruct o as [a|]; cbn [Maybe] in Hw;
    [destruct Hw as (u & _ & ->); discriminate|subst w; discriminate].
Qed.

(** ** Narrow integers *)

Lemma reads_read : forall A n e (k : bytes -> A) (W : wire A), (forall a w, W a w <-> length w = n /\ k w = a) ->
  Reads (DRead n e (fun bs => DRet (k bs))) W.
Proof.
  intros A n e k W H bs a rest. cbn [run]. split.
  - intros E. destruct (splitn n bs) as [[x r]|] eqn:Es; [|discriminate]. apply splitn_some in Es as [-> L].
    injection E as <- <-. exists x. split; [now apply H|reflexivity].
  - intros (w & Hw & ->). apply H in Hw as [L <-]. rewrite splitn_app by exact L. reflexivity.
Qed.

Lemma reads_narrow : forall w, Reads (decode_uint w) Narrow.
Proof.
  intros w. apply reads_read. intros a b. unfold Narrow. rewrite le_value_spec. split; intros [L E]; split; auto.
  - apply uint_eq. rewrite E. reflexivity.
  - now rewrite <- E.
Qed.

Lemma swrap_mod : forall w z, (swrap_Z w z mod 2 ^ Z.of_N w = z mod 2 ^ Z.of_N w)%Z.
Proof.
  intros w z. unfold swrap_Z. assert (0 < 2 ^ Z.of_N w)%Z by (apply Z.pow_pos_nonneg; lia).
  destruct (_ <? _)%Z.
  - apply Z.mod_mod. lia.
  - replace (z mod 2 ^ Z.of_N w - 2 ^ Z.of_N w)%Z with (z mod 2 ^ Z.of_N w + (-1) * 2 ^ Z.of_N w)%Z by lia.
    rewrite Z.mod_add by lia. apply Z.mod_mod. lia.
Qed.

Lemma reads_narrow_signed : forall w (hw : w <> 0), Reads (decode_sint w hw) NarrowSigned.
Proof.
  intros w hw. apply reads_read. intros a b. unfold NarrowSigned. rewrite le_value_spec. split; intros [L E]; split; auto.
  - apply sint_eq. change (sval (swrap w hw (Z.of_N (from_le b)))) with (swrap_Z w (Z.of_N (from_le b))).
    rewrite <- (swrap_Z_id w (sval a) hw (sint_range w a)). unfold swrap_Z. now rewrite E.
  - rewrite <- E. apply swrap_mod.
Qed.

(** ** v1 amounts *)

Lemma from_be_zeros : forall k u, from_be (repeat x00 k ++ u) = from_be u.
Proof.
  intros k u. rewrite <- !be_value_spec. unfold be_value. rewrite fold_left_app. f_equal.
  induction k as [|k IH]; [reflexivity|]. cbn [repeat fold_left]. exact IH.
Qed.

Lemma r_old : Reads decode_v1_currency OldCurrency.
Proof.
  intros bs c rest. unfold decode_v1_currency, OldCurrency, OldAmount. split.
  - intros E. apply run_bind_ok in E as (len & r & E1 & E2). apply r_usize in E1 as (h & <- & ->).
    destruct (N.ltb_spec 16 (uval len)) as [|L]; [discriminate|]. cbv zeta in E2. cbn [run] in E2.
    destruct (splitn (N.to_nat (uval len)) r) as [[x r']|] eqn:Es; [|discriminate].
    apply splitn_some in Es as [-> Lx]. injection E2 as <- <-.
    exists (word len ++ x). split; [|apply app_assoc]. exists x. repeat split.
    + lia.
    + rewrite from_be_zeros, be_value_spec. symmetry. apply uwrap_small.
      eapply N.lt_le_trans; [apply from_be_lt|]. rewrite Lx, N2Nat.id. change (2 ^ 128) with (256 ^ 16).
      apply N.pow_le_mono_r; [discriminate|exact L].
    + unfold word. now rewrite Lx, N2Nat.id.
  - intros (w & (u & L & V & ->) & ->). rewrite run_bind, <- app_assoc.
    set (len := uwrap 64 (N.of_nat (length u))).
    assert (Hlen : uval len = N.of_nat (length u)) by (apply uwrap_small; change (2 ^ 64) with 18446744073709551616; lia).
    rewrite (proj2 (r_usize _ len (u ++ rest))) by (exists (word len); split; [reflexivity|]; unfold word; now rewrite Hlen).
    rewrite Hlen. destruct (N.ltb_spec 16 (N.of_nat (length u))); [lia|]. cbv zeta. cbn [run]. rewrite Nat2N.id.
    rewrite splitn_app by reflexivity. rewrite from_be_zeros, <- be_value_spec, V. now rewrite uwrap_id.
Qed.

Ltac part f lem := eapply (readsc_bind _ _ f _ _ _ _ _ lem); intros ?.
Ltac parts_done := apply readsc_ret; intros []; cbn; split; [intuition (subst; reflexivity)|intros E; injection E; intros; subst; tauto].
Ltac chain := eapply reads_iff; [apply reads_seq|].

Lemma r_old_sco : Reads decode_v1_siacoin_output OldSiacoinOutput.
Proof.
  chain; [unfold decode_v1_siacoin_output; part sco_value r_old; part sco_address r_hash; parts_done|].
  intros a w. reflexivity.
Qed.

Lemma readsc_conv : forall A B C (f : B -> A) (inj : A -> C) (m : dec C) conv e (g : A -> dec B) (W : wire C) K F,
  (forall c a, conv c = Some a <-> c = inj a) -> Reads m W -> (forall a, ReadsC (g a) (fun b => K b /\ f b = a) F) ->
  ReadsC (dbind m (fun c => dbind (dret_opt e (conv c)) g)) K (fun b => W (inj (f b)) :: F b).
Proof.
  intros A B C f inj m conv e g W K F Hc Hm Hg bs b rest. split.
  - intros E. apply run_bind_ok in E as (c & r & E1 & E2). apply Hm in E1 as (u & Hu & ->).
    apply run_bind_ok in E2 as (a & r' & E2 & E3). destruct (conv c) as [a'|] eqn:Ec; [|discriminate].
    apply run_ret_ok in E2 as [<- <-]. apply Hc in Ec. subst c.
    apply Hg in E3 as ((Hk & <-) & v & Hv & ->). split; [exact Hk|]. exists (u ++ v). split; [now constructor|apply app_assoc].
  - intros (Hk & w & Hw & ->). inversion Hw as [|P l u v Hu Hv]; subst. rewrite run_bind.
    rewrite (proj2 (Hm ((u ++ v) ++ rest) (inj (f b)) (v ++ rest))) by (exists u; split; [exact Hu|now rewrite app_assoc]).
    rewrite (proj2 (Hc _ _) eq_refl). cbn [dret_opt dbind]. apply Hg. split; [now split|]. exists v. now split.
Qed.

Lemma try_into_iff : forall c v, currency_try_into_u64 c = Some v <-> c = uwrap 128 (uval v).
Proof.
  intros c v. split; [|intros ->; apply try_into_u64]. unfold currency_try_into_u64.
  destruct (N.ltb_spec (uval c) (2 ^ 64)); [|discriminate]. intros E. injection E as <-.
  apply uint_eq. rewrite u64_as_u128. symmetry. now apply uwrap_small.
Qed.

Lemma seq_iff : forall (P Q : bytes -> Prop) l l', (forall w, P w <-> Q w) -> (forall w, Seq l w <-> Seq l' w) ->
  forall w, Seq (P :: l) w <-> Seq (Q :: l') w.
Proof.
  intros P Q l l' H1 H2 w. split; intros H; inversion H; subst; constructor; try apply H1; try apply H2; assumption.
Qed.

Lemma r_old_sfo : Reads decode_v1_siafund_output OldSiafundOutput.
Proof.
  chain; [unfold decode_v1_siafund_output; eapply (readsc_conv _ _ _ sfo_value _ _ _ _ _ _ _ _ try_into_iff r_old); intros ?;
    part sfo_address r_hash; eapply (readsc_drop _ _ _ _ _ _ _ r_old); parts_done|].
  intros a w. unfold OldSiafundOutput. cbv beta. apply seq_iff; [intros u; unfold OldCurrency; now rewrite u64_as_u128|].
  apply seq_iff; [reflexivity|]. apply seq_iff; [|reflexivity]. intros u. unfold AnyOldAmount, OldCurrency, OldAmount. split.
  - intros (c & v & H). exists (uval c). now exists v.
  - intros (n & v & H1 & H2 & H3). exists (uwrap 128 n), v. repeat split; try assumption. rewrite H2. symmetry. apply uwrap_small.
    rewrite <- H2, be_value_spec. eapply N.lt_le_trans; [apply from_be_lt|]. change (2 ^ 128) with (256 ^ 16).
    apply N.pow_le_mono_r; [discriminate|lia].
Qed.

Lemma r_old_contract : Reads decode_v1_file_contract OldContract.
Proof.
  chain; [unfold decode_v1_file_contract; part v1fc_file_size r_u64; part v1fc_file_merkle_root r_hash;
    part v1fc_window_start r_u64; part v1fc_window_end r_u64; part v1fc_payout r_old;
    part v1fc_valid_proof_outputs (reads_vec 48 _ _ _ r_old_sco); part v1fc_missed_proof_outputs (reads_vec 48 _ _ _ r_old_sco);
    part v1fc_unlock_hash r_hash; part v1fc_revision_number r_u64; parts_done|].
  intros a w. reflexivity.
Qed.

Lemma r_old_revision : Reads decode_v1_file_contract_revision OldRevision.
Proof.
  chain; [unfold decode_v1_file_contract_revision; part v1fcr_parent_id r_hash; part v1fcr_unlock_conditions r_uc;
    part v1fcr_revision_number r_u64; part v1fcr_file_size r_u64; part v1fcr_file_merkle_root r_hash;
    part v1fcr_window_start r_u64; part v1fcr_window_end r_u64;
    part v1fcr_valid_proof_outputs (reads_vec 48 _ _ _ r_old_sco); part v1fcr_missed_proof_outputs (reads_vec 48 _ _ _ r_old_sco);
    part v1fcr_unlock_hash r_hash; parts_done|].
  intros a w. reflexivity.
Qed.

Lemma vecall_any : forall sz A (v : vec sz A), VecAll Any v.
Proof. intros. unfold VecAll. apply Forall_forall. intros; exact I. Qed.

Lemma r_sci : Reads (decode_vec 72 decode_v1_siacoin_input) (fun v => eq (many lay_v1_siacoin_input (vlist v))).
Proof.
  eapply reads_any; [|eapply (reads_v1 0); [apply V1_vec; [lia|apply V1_v1_siacoin_input]|apply S_vec; [lia|apply S_v1_siacoin_input]
    |apply L1_vec, L1_siacoin_input]]. apply vecall_any.
Qed.
Lemma r_proof : Reads (decode_vec 120 decode_v1_storage_proof) (fun v => eq (many lay_v1_storage_proof (vlist v))).
Proof.
  eapply reads_any; [|eapply (reads_v1 0); [apply V1_vec; [lia|apply V1_v1_storage_proof]|apply S_vec; [lia|apply S_v1_storage_proof]
    |apply L1_vec, L1_storage_proof]]. apply vecall_any.
Qed.
Lemma r_sfi : Reads (decode_vec 104 decode_v1_siafund_input) (fun v => eq (many lay_v1_siafund_input (vlist v))).
Proof.
  eapply reads_any; [|eapply (reads_v1 0); [apply V1_vec; [lia|apply V1_v1_siafund_input]|apply S_vec; [lia|apply S_v1_siafund_input]
    |apply L1_vec, L1_siafund_input]]. apply vecall_any.
Qed.
Lemma r_blobs : Reads (decode_vec 24 (decode_vec 1 decode_u8)) (fun v => eq (many blob (vlist v))).
Proof.
  eapply reads_any; [|eapply (reads_v1 0); [apply V1_vec; [lia|apply V1_vec; [lia|apply V1_u8]]|apply S_vec; [lia|apply S_vec; [lia|apply S_u8]]
    |apply L1_vec, L1_vec, L1_u8]]. intros v. unfold VecAll at 1. apply Forall_forall. intros; apply vecall_any.
Qed.
Lemma r_sigs : Reads (decode_vec 320 decode_transaction_signature) (fun v => eq (many lay_transaction_signature (vlist v))).
Proof.
  eapply reads_any; [|eapply (reads_v1 0); [apply V1_vec; [lia|apply V1_transaction_signature]|apply S_vec; [lia|apply S_transaction_signature]
    |apply L1_vec, L1_transaction_signature]]. apply vecall_any.
Qed.

Lemma r_old_transaction : Reads decode_v1_transaction OldTransaction.
Proof.
  chain; [unfold decode_v1_transaction; part v1t_siacoin_inputs r_sci; part v1t_siacoin_outputs (reads_vec 48 _ _ _ r_old_sco);
    part v1t_file_contracts (reads_vec 160 _ _ _ r_old_contract); part v1t_file_contract_revisions (reads_vec 216 _ _ _ r_old_revision);
    part v1t_storage_proofs r_proof; part v1t_siafund_inputs r_sfi; part v1t_siafund_outputs (reads_vec 40 _ _ _ r_old_sfo);
    part v1t_miner_fees (reads_vec 16 _ _ _ r_old); part v1t_arbitrary_data r_blobs; part v1t_signatures r_sigs; parts_done|].
  intros a w. reflexivity.
Qed.

Lemma r_odt : Reads decode_odt (fun t w => whole_seconds t /\ w = timestamp t).
Proof. eapply (reads_v2 0); [apply V2_timestamp|apply S_timestamp|apply L2_timestamp]. Qed.

Lemma seq_cons_iff : forall P l w, Seq (P :: l) w <-> exists u v, P u /\ Seq l v /\ w = u ++ v.
Proof.
  intros P l w. split.
  - intros H. inversion H; subst. eauto.
  - intros (u & v & H1 & H2 & ->). now constructor.
Qed.

Lemma seq_under : forall Q P l l' w, (forall u, Seq l u <-> Q /\ Seq l' u) -> (Seq (P :: l) w <-> Q /\ Seq (P :: l') w).
Proof.
  intros Q P l l' w H. rewrite !seq_cons_iff. split.
  - intros (u & v & H1 & H2 & H3). apply H in H2 as [H2 H4]. split; [exact H2|]. exists u, v. now split.
  - intros (HQ & u & v & H1 & H2 & H3). exists u, v. repeat split; try assumption. now apply H.
Qed.

Lemma r_old_block : Reads decode_block OldBlock.
Proof.
  chain; [unfold decode_block; part bl_parent_id r_hash; part bl_nonce r_u64; part bl_timestamp r_odt;
    part bl_miner_payouts (reads_vec 48 _ _ _ r_old_sco); part bl_transactions (reads_vec 240 _ _ _ r_old_transaction); parts_done|].
  intros a w. unfold OldBlock. cbv beta. apply seq_under. intros u. apply seq_under. intros u'.
  rewrite !seq_cons_iff. split.
  - intros (x & y & (H1 & ->) & H2 & ->). split; [exact H1|]. now exists (timestamp (bl_timestamp a)), y.
  - intros (H1 & x & y & <- & H2 & ->). now exists (timestamp (bl_timestamp a)), y.
Qed.

(** ** v2 transactions *)

Definition Sect {A} (m i : N) (W : wire A) (dflt : A) : wire A := fun a w =>
  if N.testbit m i then W a w else a = dflt /\ w = [].

Lemma reads_when : forall A m i mask (dflt : A) d W, mask = 2 ^ i -> Reads d W -> Reads (decode_when m mask dflt d) (Sect m i W dflt).
Proof.
  intros A m i mask dflt d W -> H bs a rest. unfold decode_when, Sect. rewrite land_pow2. destruct (N.testbit m i); cbn [negb].
  - apply H.
  - cbn [run]. split.
    + intros E. injection E as <- <-. now exists [].
    + now intros (w & (-> & ->) & ->).
Qed.

Lemma section_step : forall A (a dflt : A) (W : wire A) m i o blank (Q K : Prop) l L,
  (forall w, W a w <-> Q /\ o = Some w) -> (a = dflt <-> blank = true) -> (a = dflt -> Q) ->
  (forall w, Seq L w <-> K /\ Sections m (i + 1) l w) ->
  forall w, Seq (Sect m i W dflt a :: L) w <-> (Q /\ K) /\ Sections m i ((o, blank) :: l) w.
Proof.
  intros A a dflt W m i o blank Q K l L Hw Hb Hq HL w. rewrite seq_cons_iff. unfold Sect. split.
  - intros (u & v & H1 & H2 & ->). apply HL in H2 as [H2 H3]. destruct (N.testbit m i) eqn:E.
    + apply Hw in H1 as [H1 ->]. repeat split; try assumption. now apply sections_set.
    + destruct H1 as [H1 ->]. repeat split; auto. rewrite (proj1 Hb H1). now apply sections_clear.
  - intros ((HQ & HK) & H). inversion H; subst.
    + exists b, u. match goal with E : N.testbit m i = _ |- _ => rewrite E end. repeat split; [now apply Hw|now apply HL].
    + exists [], w. match goal with E : N.testbit m i = _ |- _ => rewrite E end. repeat split; [now apply Hb|now apply HL].
Qed.

Definition Rows {sz A} (P : A -> Prop) (f : A -> bytes) : wire (vec sz A) := fun v w => VecAll P v /\ w = many f (vlist v).

Lemma listed_step : forall sz A (P : A -> Prop) f (v : vec sz A) m i (K : Prop) l L,
  (forall w, Seq L w <-> K /\ Sections m (i + 1) l w) ->
  forall w, Seq (Sect m i (Rows P f) vec_nil v :: L) w <-> (VecAll P v /\ K) /\ Sections m i (listed f v :: l) w.
Proof.
  intros sz A P f v m i K l L H w. unfold listed. apply section_step; [| | |exact H].
  - intros u. unfold Rows. split; intros [E1 E2]; split; auto; [now rewrite E2|now injection E2].
  - split; [intros ->; reflexivity|]. intros E. apply vec_eq. cbn. destruct (vlist v); [reflexivity|discriminate].
  - intros ->. constructor.
Qed.

Ltac wpart f i mask lem := eapply (readsc_bind _ _ f _ _ _ _ _ (reads_when _ _ i mask _ _ _ eq_refl lem)); intros ?.

Lemma num_len : forall k v, length (num k v) = k.
Proof. intros k v. unfold num. now rewrite map_length, seq_length. Qed.
Lemma num_value : forall m : u64, le_value (num 8 (uval m)) = uval m.
Proof. intros m. rewrite le_value_spec, <- le_bytes_num, from_le_le_bytes. apply N.mod_small. exact (uint_lt 64 m). Qed.
Lemma num_of_value : forall m, length m = 8%nat -> m = num 8 (le_value m).
Proof. intros m L. rewrite le_value_spec, <- le_bytes_num, <- L. symmetry. apply le_bytes_from_le. Qed.

Section Txn.
Variable stack : nat.

Lemma t_sci : Reads (decode_vec 224 (decode_v2_siacoin_input stack)) (Rows (v2_siacoin_input_encodable stack) lay_v2_siacoin_input).
Proof. eapply (reads_v2 stack); [apply V2_vec; [lia|apply V2_v2_siacoin_input]|apply S_vec; [lia|apply S_v2_siacoin_input]|apply L2_vec, L2_siacoin_input]. Qed.
Lemma t_sco : Reads (decode_vec 48 decode_siacoin_output) (Rows Any lay_siacoin_output).
Proof. eapply (reads_v2 stack); [apply V2_vec; [lia|apply V2_siacoin_output]|apply S_vec; [lia|apply S_siacoin_output]|apply L2_vec, L2_siacoin_output]. Qed.
Lemma t_sfi : Reads (decode_vec 256 (decode_v2_siafund_input stack)) (Rows (v2_siafund_input_encodable stack) lay_v2_siafund_input).
Proof. eapply (reads_v2 stack); [apply V2_vec; [lia|apply V2_v2_siafund_input]|apply S_vec; [lia|apply S_v2_siafund_input]|apply L2_vec, L2_siafund_input]. Qed.
Lemma t_sfo : Reads (decode_vec 40 decode_siafund_output) (Rows Any lay_siafund_output).
Proof. eapply (reads_v2 stack); [apply V2_vec; [lia|apply V2_siafund_output]|apply S_vec; [lia|apply S_siafund_output]|apply L2_vec, L2_siafund_output]. Qed.
Lemma t_fc : Reads (decode_vec 400 decode_v2_file_contract) (Rows Any lay_contract).
Proof. eapply (reads_v2 stack); [apply V2_vec; [lia|apply V2_v2_file_contract]|apply S_vec; [lia|apply S_v2_file_contract]|apply L2_vec, L2_contract]. Qed.
Lemma t_fcr : Reads (decode_vec 864 decode_v2_file_contract_revision) (Rows Any lay_v2_file_contract_revision).
Proof. eapply (reads_v2 stack); [apply V2_vec; [lia|apply V2_v2_file_contract_revision]|apply S_vec; [lia|apply S_v2_file_contract_revision]|apply L2_vec, L2_revision]. Qed.
Lemma t_res : Reads (decode_vec 1440 decode_file_contract_resolution) (Rows Any lay_resolution).
Proof. eapply (reads_v2 stack); [apply V2_vec; [lia|apply V2_file_contract_resolution]|apply S_vec; [lia|apply S_file_contract_resolution]|apply L2_vec, L2_resolution]. Qed.
Lemma t_att : Reads (decode_vec 144 decode_attestation) (Rows Any lay_attestation).
Proof. eapply (reads_v2 stack); [apply V2_vec; [lia|apply V2_attestation]|apply S_vec; [lia|apply S_attestation]|apply L2_vec, L2_attestation]. Qed.
Lemma t_arb : Reads (decode_vec 1 decode_u8) (Rows Any one).
Proof. eapply (reads_v2 stack); [apply V2_vec; [lia|apply V2_u8]|apply S_vec; [lia|apply S_u8]|apply L2_vec, L2_u8]. Qed.
Lemma t_addr : Reads (dbind decode_hash (fun addr => DRet (Some addr))) (fun o w => option_map aval o = Some w).
Proof.
  intros bs o rest. split.
  - intros E. apply run_bind_ok in E as (a & r & E1 & E2). apply run_ret_ok in E2 as [<- <-].
    apply r_hash in E1 as (w & <- & ->). now exists (aval a).
  - intros (w & Hw & ->). destruct o as [a|]; [|discriminate]. injection Hw as <-. rewrite run_bind.
    rewrite (proj2 (r_hash (aval a ++ rest) a rest)) by (now exists (aval a)). reflexivity.
Qed.
Lemma t_fee : Reads decode_currency (fun c => eq (amount c)).
Proof. eapply reads_any; [|eapply (reads_v2 0); [apply V2_currency|apply S_currency|apply L2_currency]]. intros; exact I. Qed.

Lemma reads_new_transaction : Reads (decode_v2_transaction stack) (NewTransaction stack).
Proof.
  assert (Body : forall m : u64,
    let fields := uval m in
    exists d, (forall bs, run (decode_v2_transaction stack) (x02 :: num 8 fields ++ bs) = run d bs) /\
      Reads d (fun t w => v2_transaction_encodable stack t /\ Sections fields 0 (announced t) w)).
  { intros m fields. eexists. split.
    - intros bs. unfold decode_v2_transaction. unfold decode_u8 at 1. rewrite run_bind. cbn [run splitn hd]. cbv beta iota.
      rewrite run_bind. rewrite (proj2 (r_u64 _ m bs)) by (now exists (word m)). cbv beta zeta. fold fields. reflexivity.
    - chain; [wpart v2t_siacoin_inputs 0 1 t_sci;
        wpart v2t_siacoin_outputs 1 2 t_sco;
        wpart v2t_siafund_inputs 2 4 t_sfi;
        wpart v2t_siafund_outputs 3 8 t_sfo;
        wpart v2t_file_contracts 4 16 t_fc;
        wpart v2t_file_contract_revisions 5 32 t_fcr;
        wpart v2t_file_contract_resolutions 6 64 t_res;
        wpart v2t_attestations 7 128 t_att;
        wpart v2t_arbitrary_data 8 256 t_arb;
        wpart v2t_new_foundation_address 9 512 t_addr;
        wpart v2t_miner_fee 10 1024 t_fee; parts_done|].
      intros t w. cbv beta. etransitivity; [do 9 eapply listed_step|].
      + eapply (section_step _ (v2t_new_foundation_address t) None _ fields 9 (option_map aval (v2t_new_foundation_address t))
          (match v2t_new_foundation_address t with None => true | _ => false end) True).
        * intros u. tauto.
        * destruct (v2t_new_foundation_address t); split; congruence.
        * tauto.
        * apply (section_step _ (v2t_miner_fee t) (uwrap 128 0) _ fields 10 (Some (amount (v2t_miner_fee t)))
            (uval (v2t_miner_fee t) =? 0) True True []).
          -- intros u. split; [intros <-; auto|]. intros [_ E]. now injection E.
          -- split; [intros ->; reflexivity|]. intros E. apply N.eqb_eq in E. apply uint_eq. rewrite E. reflexivity.
          -- tauto.
          -- intros u. split; [intros E; inversion E; split; [exact I|constructor]|]. intros [_ E]. inversion E. constructor.
      + unfold announced, v2_transaction_encodable. assert (forall sz A (v : vec sz A), VecAll Any v) by apply vecall_any. intuition. }
  intros bs t rest. split.
  - intros E. assert (E' := E). unfold decode_v2_transaction in E'. apply run_bind_ok in E' as (v & r & E1 & E2).
    assert (Hv : bs = v :: r).
    { unfold decode_u8 in E1. cbn [run] in E1. destruct bs as [|b bs]; cbn [splitn] in E1; [discriminate|]. injection E1 as <- <-. reflexivity. }
    subst bs. destruct v; try discriminate. apply run_bind_ok in E2 as (m & r1 & E2 & _). apply r_u64 in E2 as (h & <- & ->).
    destruct (Body m) as (d & H1 & H2). unfold word in E. rewrite H1 in E. apply H2 in E as (w & (Hp & Hw) & ->).
    exists (x02 :: num 8 (uval m) ++ w). split; [|cbn [app]; now rewrite <- app_assoc]. split; [exact Hp|].
    exists (num 8 (uval m)), w. split; [apply num_len|]. split; [rewrite num_value; exact Hw|reflexivity].
  - intros (w & (Hp & m & u & L & Hs & ->) & ->). destruct (Body (uwrap 64 (le_value m))) as (d & H1 & H2).
    assert (Hm : uval (uwrap 64 (le_value m)) = le_value m).
    { apply uwrap_small. rewrite le_value_spec. eapply N.lt_le_trans; [apply from_le_lt|]. rewrite L. discriminate. }
    rewrite Hm in H1, H2. cbn [app]. rewrite <- app_assoc. rewrite (num_of_value m L) at 1. rewrite H1. apply H2. exists u. split; [split; assumption|reflexivity].
Qed.
End Txn.

(** ** Chain states *)

Lemma r_ci : Reads decode_chain_index (fun v => eq (lay_chain_index v)).
Proof. eapply reads_any; [|eapply (reads_v2 0); [apply V2_chain_index|apply S_chain_index|apply L2_chain_index]]. intros; exact I. Qed.
Lemma r_work : Reads decode_work (fun v => eq (lay_work v)).
Proof. eapply reads_any; [|eapply (reads_v2 0); [apply V2_work|apply S_work|apply L2_work]]. intros; exact I. Qed.
Lemma r_duration : Reads decode_duration (fun v w => duration_encodable v /\ w = nanos v).
Proof. eapply (reads_v2 0); [apply V2_duration|apply S_duration|apply L2_duration]. Qed.
Lemma r_accumulator : Reads decode_element_accumulator (fun v w => ea_normal v /\ w = lay_accumulator v).
Proof. eapply (reads_v2 0); [apply V2_element_accumulator|apply S_element_accumulator|apply L2_accumulator]. Qed.

Lemma count_iff : forall p c n, timestamps_count p c = Val n <->
  (p = Debug -> uval (ci_height c) + 1 < 2 ^ 64) /\ n = N.to_nat (N.min 11 ((uval (ci_height c) + 1) mod 2 ^ 64)).
Proof.
  intros p c n. unfold timestamps_count, ci_child_height, u_add. change (uval (uwrap 64 1)) with 1.
  assert (M : forall x, (if uval (uwrap 64 x) <? 11 then N.to_nat (uval (uwrap 64 x)) else 11%nat) = N.to_nat (N.min 11 (x mod 2 ^ 64))).
  { intros x. change (uval (uwrap 64 x)) with (x mod 2 ^ 64). destruct (N.ltb_spec (x mod 2 ^ 64) 11); [|rewrite N.min_l by lia; reflexivity].
    rewrite N.min_r by lia. reflexivity. }
  destruct p.
  - destruct (N.ltb_spec (uval (ci_height c) + 1) (2 ^ 64)) as [L|L]; cbn [obind].
    + rewrite M. split; [intros E; injection E as <-; auto|]. intros [_ ->]. reflexivity.
    + split; [discriminate|]. intros [H _]. specialize (H eq_refl). lia.
  - cbn [obind]. rewrite M. split; [intros E; injection E as <-; split; [discriminate|reflexivity]|]. intros [_ ->]. reflexivity.
Qed.

Lemma lay_stamps : forall l, wbytes (concat (map encode_odt l)) = concat (map timestamp l).
Proof.
  induction l as [|t l IH]; [reflexivity|]. cbn [map concat]. rewrite wbytes_app_p by apply prop_odt. rewrite IH.
  f_equal. exact (lays_bytes _ _ (lays_odt t)).
Qed.

Definition state_tail (idx : chain_index) (ts : farr 11 odt) : dec state :=
  dbind decode_hash (fun depth => dbind decode_hash (fun child_target => dbind decode_currency (fun siafund_pool =>
  dbind decode_duration (fun oak_time => dbind decode_hash (fun oak_target => dbind decode_hash (fun primary =>
  dbind decode_hash (fun failsafe => dbind decode_work (fun total => dbind decode_work (fun difficulty =>
  dbind decode_work (fun oak => dbind decode_element_accumulator (fun elements => dbind decode_u64 (fun attestations =>
  DRet (MkState idx ts depth child_target siafund_pool oak_time oak_target primary failsafe total difficulty oak elements attestations))))))))))))).

Lemma seq_eq : forall b l w (r : bytes), (forall u, Seq l u <-> u = r) -> (Seq (eq b :: l) w <-> w = b ++ r).
Proof.
  intros b l w r H. rewrite seq_cons_iff. split.
  - intros (u & v & <- & H2 & ->). apply H in H2. now subst.
  - intros ->. exists b, r. repeat split. now apply H.
Qed.

Lemma seq_guard : forall (Q : Prop) b P l w, (forall u, P u <-> Q /\ u = b) -> (Seq (P :: l) w <-> Q /\ Seq (eq b :: l) w).
Proof.
  intros Q b P l w H. rewrite !seq_cons_iff. split.
  - intros (u & v & H1 & H2 & ->). apply H in H1 as [H1 ->]. split; [exact H1|]. now exists b, v.
  - intros (HQ & u & v & <- & H2 & ->). exists b, v. repeat split; [now apply H|exact H2].
Qed.

Definition tail_parts (s : state) : list bytes :=
  [aval (st_depth s); aval (st_child_target s); amount (st_siafund_pool s);
   nanos (st_oak_time s); aval (st_oak_target s);
   aval (st_foundation_primary_address s); aval (st_foundation_failsafe_address s);
   lay_work (st_total_work s); lay_work (st_difficulty s); lay_work (st_oak_work s);
   lay_accumulator (st_elements s); word (st_attestations s)].

Lemma seq_parts : forall l w, Seq (map (@eq bytes) l) w <-> w = concat l.
Proof.
  induction l as [|b l IH]; intros w; cbn [map concat].
  - split; [intros E; now inversion E|intros ->; constructor].
  - apply seq_eq. exact IH.
Qed.

Lemma reads_tail : forall idx ts bs s rest, run (state_tail idx ts) bs = ROk s rest <->
  (st_index s = idx /\ st_prev_timestamps s = ts) /\ duration_encodable (st_oak_time s) /\ ea_normal (st_elements s) /\
  bs = concat (tail_parts s) ++ rest.
Proof.
  intros idx ts.
  assert (C : ReadsC (state_tail idx ts) (fun s => st_index s = idx /\ st_prev_timestamps s = ts)
    (fun s => eq (aval (st_depth s)) :: eq (aval (st_child_target s)) :: eq (amount (st_siafund_pool s)) ::
      (fun w => duration_encodable (st_oak_time s) /\ w = nanos (st_oak_time s)) ::
      eq (aval (st_oak_target s)) :: eq (aval (st_foundation_primary_address s)) ::
      eq (aval (st_foundation_failsafe_address s)) :: eq (lay_work (st_total_work s)) :: eq (lay_work (st_difficulty s)) ::
      eq (lay_work (st_oak_work s)) ::
      (fun w => ea_normal (st_elements s) /\ w = lay_accumulator (st_elements s)) :: [eq (word (st_attestations s))])).
  { unfold state_tail.
    apply (readsc_bind _ _ st_depth _ _ (fun v => eq (aval v)) _ _ r_hash); intros ?.
    apply (readsc_bind _ _ st_child_target _ _ (fun v => eq (aval v)) _ _ r_hash); intros ?.
    apply (readsc_bind _ _ st_siafund_pool _ _ (fun v => eq (amount v)) _ _ t_fee); intros ?.
    apply (readsc_bind _ _ st_oak_time _ _ (fun v w => duration_encodable v /\ w = nanos v) _ _ r_duration); intros ?.
    apply (readsc_bind _ _ st_oak_target _ _ (fun v => eq (aval v)) _ _ r_hash); intros ?.
    apply (readsc_bind _ _ st_foundation_primary_address _ _ (fun v => eq (aval v)) _ _ r_hash); intros ?.
    apply (readsc_bind _ _ st_foundation_failsafe_address _ _ (fun v => eq (aval v)) _ _ r_hash); intros ?.
    apply (readsc_bind _ _ st_total_work _ _ (fun v => eq (lay_work v)) _ _ r_work); intros ?.
    apply (readsc_bind _ _ st_difficulty _ _ (fun v => eq (lay_work v)) _ _ r_work); intros ?.
    apply (readsc_bind _ _ st_oak_work _ _ (fun v => eq (lay_work v)) _ _ r_work); intros ?.
    apply (readsc_bind _ _ st_elements _ _ (fun v w => ea_normal v /\ w = lay_accumulator v) _ _ r_accumulator); intros ?.
    apply (readsc_bind _ _ st_attestations _ _ (fun v => eq (word v)) _ _ r_u64); intros ?.
    parts_done. }
  intros bs s rest. rewrite (C bs s rest).
  assert (D : forall w, Seq (eq (aval (st_depth s)) :: eq (aval (st_child_target s)) :: eq (amount (st_siafund_pool s)) ::
      (fun w => duration_encodable (st_oak_time s) /\ w = nanos (st_oak_time s)) ::
      eq (aval (st_oak_target s)) :: eq (aval (st_foundation_primary_address s)) ::
      eq (aval (st_foundation_failsafe_address s)) :: eq (lay_work (st_total_work s)) :: eq (lay_work (st_difficulty s)) ::
      eq (lay_work (st_oak_work s)) ::
      (fun w => ea_normal (st_elements s) /\ w = lay_accumulator (st_elements s)) :: [eq (word (st_attestations s))]) w <->
    duration_encodable (st_oak_time s) /\ ea_normal (st_elements s) /\ w = concat (tail_parts s)).
  { intros w. rewrite <- (seq_parts (tail_parts s) w). unfold tail_parts. cbn [map].
    rewrite <- and_assoc.
    apply seq_under; intros ?. apply seq_under; intros ?. apply seq_under; intros ?.
    rewrite (seq_guard (duration_encodable (st_oak_time s)) (nanos (st_oak_time s))) by reflexivity.
    rewrite and_assoc. apply and_iff_compat_l.
    do 7 (apply seq_under; intros ?).
    apply seq_guard. reflexivity. }
  split.
  - intros (Hk & w & Hw & ->). apply D in Hw as (H1 & H2 & ->). auto.
  - intros (Hk & H1 & H2 & ->). split; [exact Hk|]. exists (concat (tail_parts s)). split; [|reflexivity]. apply D. auto.
Qed.

Lemma reads_state : forall p, Reads (decode_state p) (SavedState p).
Proof.
  intros p bs s rest. unfold SavedState. cbv zeta. set (n := N.to_nat _). assert (Hn : (n <= 11)%nat) by (subst n; lia). split.
  - intros E. unfold decode_state in E. apply run_bind_ok in E as (idx & r & E1 & E). apply r_ci in E1 as (h & <- & ->).
    destruct (timestamps_count p idx) as [c|q] eqn:Ec; [|discriminate]. apply count_iff in Ec as [Hp Hc].
    apply run_bind_ok in E as (ts & r1 & E1 & E). destruct (farr_of 11 ts) as [pt|] eqn:Ef; [|discriminate].
    apply (reads_tail idx pt) in E as ((<- & <-) & H1 & H2 & ->). fold n in Hc. subst c.
    apply decode_timestamps_inv in E1 as (-> & HL & Hw & Hz); [|exact Hn]. apply farr_of_some in Ef. subst ts.
    eexists. split; [|rewrite lay_stamps, !app_assoc; reflexivity]. repeat split; try assumption; try apply H1; try apply H2.
    cbn [concat]. unfold tail_parts. cbn [concat]. now rewrite <- app_assoc.
  - intros (w & (Hp & Hw & Hz & H1 & H2 & ->) & ->). unfold decode_state. rewrite run_bind. cbn [concat].
    rewrite <- app_assoc. rewrite (proj2 (r_ci _ (st_index s) _)) by (eexists; split; reflexivity).
    rewrite (proj2 (count_iff p (st_index s) n)) by (split; [exact Hp|reflexivity]).
    rewrite run_bind, <- app_assoc, <- lay_stamps, rt_timestamps by first [apply farr_len|assumption].
    rewrite farr_of_flist. apply (reads_tail (st_index s) (st_prev_timestamps s)). repeat split; try apply H1; try apply H2.
Qed.

(** ** The table *)

Lemma grammar_exact : forall stack A d W, Grammar stack A d W -> forall bs (a : A) rest,
  run d bs = ROk a rest <-> exists w, W a w /\ bs = w ++ rest.
Proof.
  intros stack A d W H. change (Reads d W). induction H.
  - now apply (reads_v2 stack A P e).
  - now apply (reads_v1 stack A P e).
  - now apply reads_vec.
  - now apply reads_option.
  - apply reads_narrow.
  - apply reads_narrow.
  - apply reads_narrow_signed.
  - apply reads_narrow_signed.
  - apply r_old.
  - apply r_old_sco.
  - apply r_old_sfo.
  - apply r_old_contract.
  - apply r_old_revision.
  - apply r_old_transaction.
  - apply r_old_block.
  - apply reads_new_transaction.
  - apply reads_state.
Qed.

Ltac by_strict2 := match goal with |- exists W, Grammar ?k ?A ?d W =>
  let C := fresh in let S := fresh in
  eassert (C : V2Codec k A _ _ d) by constructor; eassert (S : StrictCodec k A _ d) by constructor;
  destruct (v2_covered _ _ _ _ _ C) as [f Hf]; eexists; exact (G_v2_strict k _ _ _ _ _ C S Hf) end.
Ltac by_strict1 k := match goal with |- exists W, Grammar _ ?A ?d W =>
  let C := fresh in let S := fresh in
  eassert (C : V1Codec A _ _ d) by constructor; eassert (S : StrictCodec k A _ d) by constructor;
  destruct (v1_covered _ _ _ _ C) as [f Hf]; eexists; exact (G_v1_strict k _ _ _ _ _ C S Hf) end.

Lemma grammar_v2 : forall stack A P e d, V2Codec stack A P e d -> exists W, Grammar stack A d W.
Proof.
  intros stack A P e d H. induction H;
    try solve [eexists; constructor | by_strict2 | destruct IHV2Codec as [W HW]; eexists; constructor; exact HW].
Qed.

Lemma grammar_v1 : forall stack A P e d, V1Codec A P e d -> exists W, Grammar stack A d W.
Proof.
  intros stack A P e d H. induction H;
    try solve [eexists; constructor | by_strict1 stack | destruct IHV1Codec as [W HW]; eexists; constructor; exact HW].
Qed.

Lemma grammar_written : forall stack A P e d W, V2Codec stack A P e d \/ V1Codec A P e d -> Grammar stack A d W ->
  forall a : A, P a -> W a (wbytes (e a)).
Proof.
  intros stack A P e d W C G a Ha.
  assert (R : run d (wbytes (e a) ++ []) = ROk a []).
  { destruct C as [C|C]; [apply (v2_wire_roundtrip stack A P e d (V2Wire_codec _ _ _ _ _ C) a [] Ha)|apply (v1_wire_roundtrip A P e d C a [] Ha)]. }
  apply (grammar_exact stack A d W G) in R as (w & Hw & E). rewrite !app_nil_r in E. now rewrite E.
Qed.

Lemma grammar_unique : forall stack A d W, Grammar stack A d W -> forall (a b : A) w x, W a w -> W b (w ++ x) -> a = b /\ x = [].
Proof.
  intros stack A d W G a b w x Ha Hb. pose proof (proj2 (grammar_exact stack A d W G (w ++ x) a x) (ex_intro _ w (conj Ha eq_refl))) as E1.
  pose proof (proj2 (grammar_exact stack A d W G (w ++ x) b []) (ex_intro _ (w ++ x) (conj Hb (eq_sym (app_nil_r _))))) as E2.
  rewrite E1 in E2. injection E2 as -> ->. now split.
Qed.
